(** * The candidate tree: pruning always ends well *)
From Coq Require Import ZArith List Bool Lia Permutation.
From Verif Require Import Lib TreeModel TreeSpec TreeProofs TreeProofs2 TreeProofs3 TreeProofs4 TreeProofs5 TreeProofs6.
Import ListNotations.
Local Open Scope Z_scope.

Section Prune2.
  Context (U : knot -> Prop) (HU : honest U).

  Lemma cover_keep t t' t2 L2 y z : cover t t' y z -> keep t' t2 L2 -> heads t' t2 L2 -> In z L2 -> cover t t2 y z.
  Proof.
    intros (c & cz & C & Cz & Hh & S) K H Hz. destruct (H z cz Hz Cz) as (cz' & Cz' & E & _).
    exists c, cz'. split; [exact C|]. split; [exact Cz'|]. split; [lia|]. intros h k Hk Sk.
    apply (K z cz h k Hz Cz); [lia|]. now apply S.
  Qed.
  Lemma cover_trans t t' t2 y z w : cover t t' y z -> cover t' t2 z w -> cover t t2 y w.
  Proof.
    intros (c & cz & C & Cz & Hh & S) (d & cw & D & Dw & Hh' & S'). rewrite Cz in D. injection D as <-.
    exists c, cw. split; [exact C|]. split; [exact Dw|]. split; [lia|]. intros h k Hk Sk. apply S'; [lia|]. now apply S.
  Qed.

  Lemma prune_ok : forall n t L rk m x fuel, inv U t L rk None None m -> t_main t = m -> In x L -> up t n x -> (n < fuel)%nat ->
    exists t' L' det', prune fuel t x = Some t' /\ pruned U t t' L L' rk det' m x.
  Proof.
    induction n as [|n IH]; intros t L rk m x fuel I Em Hx Hup Hf; (destruct fuel as [|fuel]; [lia|]).
    - inversion Hup as [y b B Er|]; subst. exists t, L, None.
      split; [exact (prune_main U t L rk _ x b fuel I Hx B Er)|].
      constructor; try reflexivity; try assumption; try (intros; contradiction).
      + apply incl_refl.
      + apply keep_refl.
      + apply heads_refl.
      + intro y. split; [intro Y; split; [exact Y|]; now apply (v_list _ _ _ _ _ _ _ I)|tauto].
      + now left.
      + now apply (c_disk t x b).
      + auto.
      + intros y c c' q Hy C C' Eq. rewrite C in C'. injection C' as <-. split; [auto|]. intros ->. now left.
    - inversion Hup as [|n0 y b0 r B0 Er0 Hup']; subst n0 y.
      pose proof (rootn U t L rk _ _ m I x b0 r Hx B0 Er0) as At0. pose proof (a_in _ _ _ _ _ _ _ _ At0) as Hr0.
      pose proof (a_rank _ _ _ _ _ _ _ _ At0) as Rk0. pose proof (a_not _ _ _ _ _ _ _ _ At0) as Nxm.
      destruct (IH t L rk m r fuel I Em Hr0 Hup' ltac:(lia)) as (t1 & L1 & det1 & E1 & P1).
      cbn [prune]. rewrite B0. cbn [bind]. rewrite Er0, E1. cbn [bind].
      (* what the parent's pruning leaves *)
      assert (S1 : exists L2, inv U t1 L2 rk None None m /\ In x L2 /\ incl L2 L1 /\
        (forall y, In y (t_list t1) <-> In y (t_list t) /\ In y L2) /\
        (forall y, In y L -> ~ In y L2 -> (rk y < rk x)%nat /\ exists z, In z L2 /\ cover t t1 y z) /\
        (r = m \/ True)).
      { destruct P1 as [Pi Pin Pincl Pk Ph _ _ _ Pl Pd Pc Pg _ Pr]. 
        assert (Hx1 : In x L1).
        { destruct (in_dec Z.eq_dec x L1) as [|Nx]; [assumption|]. destruct (Pg x Hx Nx). lia. }
        destruct Pd as [->|(-> & Nrm & Nch & (z0 & Hz0 & Nz0 & Cz0))].
        - exists L1. split; [exact Pi|]. split; [exact Hx1|]. split; [apply incl_refl|].
          split; [intro y; rewrite Pl; split; [tauto|intros [A B]; split; [exact A|split; [exact B|discriminate]]]|].
          split; [|now right]. intros y Hy Ny. destruct (Pg y Hy Ny) as (A & z & Hz & _ & C). split; [lia|]. eauto.
        - exists (sdel r L1). split; [apply (inv_forget U t1 L1 rk m r Pi Nrm Nch)|].
          split; [apply sdel_In; split; [exact Hx1|intros ->; lia]|].
          split; [intros y Hy; apply sdel_In in Hy; apply Hy|].
          split. { intro y. rewrite Pl, sdel_In. split; [intros (A & B & C); split; [exact A|split; [exact B|congruence]]|intros (A & B & C); split; [exact A|split; [exact B|congruence]]]. }
          split; [|now right]. intros y Hy Ny. destruct (Z.eq_dec y r) as [->|Nyr].
          + split; [lia|]. exists z0. split; [apply sdel_In; now split|exact Cz0].
          + assert (Ny1 : ~ In y L1) by (intro X; apply Ny; apply sdel_In; now split).
            destruct (Pg y Hy Ny1) as (A & z & Hz & Dz & C). split; [lia|]. exists z. split; [apply sdel_In; split; [exact Hz|congruence]|exact C]. }
      destruct S1 as (L2 & I1 & Hx2 & Inc2 & Hl2 & Hg2 & _).
      assert (IncL : incl L2 L) by (intros y Hy; apply (p_incl _ _ _ _ _ _ _ _ _ P1), Inc2, Hy).
      destruct (v_get _ _ _ _ _ _ _ I1 x Hx2) as [b1 B1].
      destruct (p_roots _ _ _ _ _ _ _ _ _ P1 x b0 b1 r (Inc2 x Hx2) B0 B1 Er0) as [_ Hroot]. specialize (Hroot eq_refl).
      pose proof (v_root _ _ _ _ _ _ _ I1 x b1 Hx2 B1) as R1.
      destruct (b_root b1) as [|r1] eqn:Er1; [destruct R1 as (X & _); congruence|].
      pose proof (a_in _ _ _ _ _ _ _ _ R1) as Hr1. pose proof (a_rank _ _ _ _ _ _ _ _ R1) as Rk1.
      assert (Cl1 : clean t1 r1).
      { destruct Hroot as [Hroot|(br1 & Br1 & Hroot)].
        - injection Hroot as ->. apply (p_clean _ _ _ _ _ _ _ _ _ P1).
        - pose proof (p_clean _ _ _ _ _ _ _ _ _ P1) as C. inversion C as [z d D E|z d q D E C' ND]; subst z; rewrite Br1 in D; injection D as <-; congruence. }
      assert (Roots1 : forall y c c' q, In y L2 -> bget t y = Some c -> bget t1 y = Some c' -> b_root c = Node q -> (rk x <= rk q)%nat -> b_root c' = b_root c).
      { intros y c c' q Hy C C' Eq Rq. destruct (p_roots _ _ _ _ _ _ _ _ _ P1 y c c' q (Inc2 y Hy) C C' Eq) as [Q _]. apply Q. lia. }
      destruct (v_get _ _ _ _ _ _ _ I1 r1 Hr1) as [c1 C1].
      pose proof (inv_ex U t1 L2 rk None m x b1 I1 B1) as I1x.
      rewrite B1. cbn [bind]. rewrite Er1.
      destruct (drop_loop U HU x r1 (b_tail b1) L2 rk m _ t1 b1 false I1x Hx2 B1 Er1 eq_refl)
        as (t2 & b2 & rem & E2 & I2 & K2 & B2 & Er2 & Hd2 & Hx2' & Kd2 & Tl2 & O2 & Fl2 & Fm2 & Fn2 & Fd2 & Nd2 & Hh2 & Rm).
      rewrite E2. cbn [bind].
      assert (Hds2 : heads t1 t2 L2).
      { intros y c Hy C. destruct (Z.eq_dec y x) as [->|N]; [rewrite B1 in C; injection C as <-; exists b2; now repeat split|].
        exists c. rewrite O2 by exact N. now repeat split. }
      destruct rem; cbn [negb].
      2:{ (* nothing shared *)
        destruct Rm as [Rm|[_ ->]]; [discriminate|]. exists t1, L2, None. split; [reflexivity|].
        constructor; try assumption; try apply P1.
        - exact (keep_sub _ _ _ _ (p_keep _ _ _ _ _ _ _ _ _ P1) Inc2).
        - intros y c Hy. exact (p_heads _ _ _ _ _ _ _ _ _ P1 y c (Inc2 y Hy)).
        - intro y. rewrite Hl2. split; [intros [A B]; split; [exact A|split; [exact B|discriminate]]|tauto].
        - now left.
        - rewrite B1 in B2. injection B2 as <-. now apply (c_node t1 x b1 r1).
        - intros y Hy Ny. destruct (Hg2 y Hy Ny) as (A & z & Hz & C). split; [exact A|]. exists z. split; [exact Hz|]. split; [discriminate|exact C].
        - intros y c c' q Hy C C' Eq. split; [intro Q; apply (Roots1 y c c' q Hy C C' Eq); lia|].
          intros ->. left. rewrite <- Eq. apply (Roots1 y c c' x Hy C C' Eq). lia. }
      rewrite B2. cbn [bind]. rewrite Er2.
      assert (ND2 : NoDup (b_kids b2)) by (apply (v_wf _ _ _ _ _ _ _ I2 x b2 Hx2 B2)).
      assert (Nr1x : r1 <> x) by (intros ->; lia).
      destruct (kids_loop U HU x r1 (b_tail b1) None m L2 rk (b_kids b2) t2 b2 I2 Hx2 B2 Er2)
        as (t3 & b3 & E3 & F3 & RC3 & I3x & K3 & B3 & Er3 & Sub3 & Tl3 & RO3).
      { intros Nm d D. rewrite O2 in D by exact Nr1x. apply (a_eff _ _ _ _ _ _ _ _ R1 Nm d D). }
      { exact ND2. } { auto. }
      rewrite E3. cbn [bind]. rewrite B3. cbn [bind].
      assert (SC3 : same_core b2 b3).
      { destruct (recore_get t2 t3 x b2 RC3 B2) as (b3' & B3' & SC). rewrite B3 in B3'. now injection B3' as <-. }
      pose proof SC3 as (SC3a & SC3b & SC3c & SC3d & SC3e).
      assert (Kid3 : forall v bv, In v L2 -> bget t3 v = Some bv -> b_root bv = Node x -> b_tail b3 < b_tail bv).
      { intros v bv Hv Bv Rv. assert (Kv : In v (b_kids b3)).
        { apply (v_kids _ _ _ _ _ _ _ I3x x b3 v Hx2 B3). split; [exact Hv|]. split; [eauto|discriminate]. }
        exact (Tl3 v bv (Sub3 v Kv) Kv Bv). }
      assert (I3 : inv U t3 L2 rk None None m) by (apply (inv_unex U t3 L2 rk x (b_tail b1) None m b3 I3x Hx2 B3); intros _; exact Kid3).
      assert (K13 : keep t1 t3 L2) by (exact (keep_trans t1 t2 t3 L2 L2 K2 K3 (heads_grow _ _ _ Hds2) (incl_refl L2))).
      assert (Hd13 : heads t1 t3 L2) by (exact (heads_trans t1 t2 t3 L2 L2 Hds2 (recore_heads t2 t3 L2 RC3) (incl_refl L2))).
      destruct F3 as (F3l & F3m & F3n & F3h & F3d).
      assert (Frz : forall tf, (forall y c, y <> x -> bget t3 y = Some c -> exists c', bget tf y = Some c' /\ same_core c c' /\ b_root c' = b_root c) ->
        forall y c, In y L2 -> (rk y <= rk r1)%nat -> bget t1 y = Some c -> exists c', bget tf y = Some c' /\ same_core c c' /\ b_root c' = b_root c).
      { intros tf Hf3 y c Hy Ry C. assert (Nyx : y <> x) by (intros ->; lia).
        assert (C2 : bget t2 y = Some c) by (rewrite O2; assumption).
        destruct (recore_get t2 t3 y c RC3 C2) as (c3 & C3 & SC). destruct (Hf3 y c3 Nyx C3) as (c4 & C4 & SC4 & R4).
        exists c4. split; [exact C4|]. split; [exact (same_core_trans _ _ _ SC SC4)|]. rewrite R4.
        destruct (RO3 y c c3 C2 C3) as [Q|[Q _]]; [exact Q|].
        pose proof (a_rank _ _ _ _ _ _ _ _ (rootn U t1 L2 rk _ _ m I1 y c x Hy C Q)). lia. }
      assert (Base : forall tf, t_disk tf = t_disk t1 -> base tf = base t1) by (intros tf E; unfold base; now rewrite E).
      assert (D13 : t_disk t3 = t_disk t1) by congruence.
      assert (Nd3 : ~ dup t3 b3 r1).
      { intros (k & c & C & F & Hh & S). apply Nd2. rewrite SC3a, SC3d in F. rewrite SC3d in Hh, S.
        destruct (recore_back t2 t3 r1 c RC3 C) as (c2 & C2 & (_ & Q & _)).
        exists k, c2. split; [exact C2|]. split; [exact F|]. split; [lia|].
        pose proof (tail_le U t2 L2 rk _ _ m I2 x b2 Hx2 B2).
        apply (keep_sees U t2 t3 L2 rk _ _ m r1 c2 _ k I2 K3 Hr1 C2); [lia|exact S]. }
      assert (Gone : forall tf det, keep t1 tf L2 -> heads t1 tf L2 -> (forall z, det = Some z -> z = x) ->
                (det = None \/ exists z, In z L2 /\ z <> x /\ cover t tf x z) ->
                forall y, In y L -> ~ In y L2 -> (rk y < rk x)%nat /\ exists z, In z L2 /\ det <> Some z /\ cover t tf y z).
      { intros tf det Kf Hf' Hdet Hc y Hy Ny. destruct (Hg2 y Hy Ny) as (A & z & Hz & C). split; [exact A|].
        assert (Cz : cover t tf y z) by exact (cover_keep t t1 tf L2 y z C Kf Hf' Hz).
        destruct Hc as [->|(w & Hw & Nw & Cw)]; [exists z; split; [exact Hz|split; [discriminate|exact Cz]]|].
        destruct (Z.eq_dec z x) as [->|Nz].
        - exists w. split; [exact Hw|]. split; [intro X; apply Hdet in X; congruence|].
          (* y is below x, x is below w *)
          destruct C as (cy & cx & Cy & Cx & Hyx & Syx). destruct Cw as (b0' & cw & B0' & Bw & Hxw & Sxw). rewrite B0 in B0'. injection B0' as <-.
          destruct (p_heads _ _ _ _ _ _ _ _ _ P1 x b0 (Inc2 x Hx2) B0) as (b1' & B1' & Eh & _). rewrite Cx in B1'. injection B1' as <-.
          exists cy, cw. split; [exact Cy|]. split; [exact Bw|]. split; [lia|]. intros h k Hh S.
          destruct (Z_lt_le_dec h (base t)) as [Lt|Ge].
          + exfalso. clear -I Hy Cy S Lt. assert (X : forall y, In y L -> forall rf, rf = Node y -> forall k, sees t rf h k -> False).
            { intros z Hz. apply (rank_ind L rk (fun z => forall rf, rf = Node z -> forall k, sees t rf h k -> False)); [|exact Hz].
              intros w Hw IHw rf -> k0 S0. destruct (v_get _ _ _ _ _ _ _ I w Hw) as [cw Cw].
              pose proof (tail_le U t L rk _ _ m I w cw Hw Cw) as T.
              apply (sees_root U t L rk _ _ m I w cw h k0 Hw Cw) in S0; [|lia]. destruct (b_root cw) as [|q] eqn:Eq.
              - rewrite sees_disk in S0. apply (disk_dom t (v_disk _ _ _ _ _ _ _ I)) in S0. lia.
              - pose proof (rootn U t L rk _ _ m I w cw q Hw Cw Eq) as A.
                exact (IHw q (a_in _ _ _ _ _ _ _ _ A) (a_rank _ _ _ _ _ _ _ _ A) (Node q) eq_refl k0 S0). }
            exact (X y Hy (Node y) eq_refl k S).
          + apply Sxw; [lia|]. destruct (sees_all U t L rk _ _ m I x Hx b0 h B0 ltac:(lia)) as (k' & S' & _).
            rewrite (sees_fun _ _ _ _ _ (Syx h k Hh S) (p_keep _ _ _ _ _ _ _ _ _ P1 x b0 h k' (Inc2 x Hx2) B0 ltac:(lia) S')). exact S'.
        - exists z. split; [exact Hz|]. split; [intro X; apply Hdet in X; congruence|exact Cz]. }
      pose proof (p_disk _ _ _ _ _ _ _ _ _ P1) as Pd. pose proof (p_main _ _ _ _ _ _ _ _ _ P1) as Pm. pose proof (p_next _ _ _ _ _ _ _ _ _ P1) as Pn.
      assert (Em3 : t_main t3 = m) by congruence. rewrite Em3. destruct (Z.eqb_spec x m) as [|_]; [congruence|]. cbn [negb andb].
      assert (K03 : keep t t3 L2).
      { apply (keep_trans t t1 t3 L2 L2 (keep_sub _ _ _ _ (p_keep _ _ _ _ _ _ _ _ _ P1) Inc2) K13); [|apply incl_refl].
        intros y c Hy C. destruct (p_heads _ _ _ _ _ _ _ _ _ P1 y c (Inc2 y Hy) C) as (c' & C' & E & _). exists c'. split; [exact C'|lia]. }
      assert (Hd03 : heads t t3 L2).
      { apply (heads_trans t t1 t3 L2 L2); [|exact Hd13|apply incl_refl].
        intros y c Hy C. exact (p_heads _ _ _ _ _ _ _ _ _ P1 y c (Inc2 y Hy) C). }
      assert (Hs3 : forall h, In h (t_hashes t3) -> In h (t_hashes t)).
      { intros h Hin. rewrite F3h in Hin. apply Hh2 in Hin. exact (p_hash _ _ _ _ _ _ _ _ _ P1 h Hin). }
      assert (Roots3 : forall y c c' q, In y L2 -> bget t y = Some c -> bget t3 y = Some c' -> b_root c = Node q ->
        ((rk x < rk q)%nat -> b_root c' = b_root c) /\ (q = x -> b_root c' = Node x \/ b_root c' = b_root b3)).
      { intros y c c' q Hy C C' Eq. destruct (recore_back t2 t3 y c' RC3 C') as (c2 & C2 & _).
        assert (C1' : exists d, bget t1 y = Some d /\ b_root d = b_root c2).
        { destruct (Z.eq_dec y x) as [->|N]; [exists b1; split; [exact B1|]; rewrite B2 in C2; injection C2 as <-; congruence|].
          exists c2. split; [now rewrite <- O2|reflexivity]. }
        destruct C1' as (d & D & Ed). split.
        - intro Rq. pose proof (Roots1 y c d q Hy C D Eq ltac:(lia)) as Q. destruct (RO3 y c2 c' C2 C') as [X|[X _]]; [congruence|].
          assert (q = x) by congruence. subst q. lia.
        - intros ->. pose proof (Roots1 y c d x Hy C D Eq (le_n _)) as Q. destruct (RO3 y c2 c' C2 C') as [X|[X1 X2]]; [left; congruence|].
          right. congruence. }
      destruct (Z.eqb_spec (size b3) 0) as [Sz|Sz].
      2:{ exists t3, L2, None. split; [reflexivity|]. constructor; try assumption; try congruence.
        - intro y. rewrite F3l, Fl2, Hl2. split; [intros [A B]; split; [exact A|split; [exact B|discriminate]]|tauto].
        - now left.
        - apply (c_node t3 x b3 r1 B3 Er3); [|exact Nd3].
          apply (clean_frozen U t1 t3 L2 rk None None None None m I1 I3 K13 (Base t3 D13) r1 Cl1 Hr1).
          apply (Frz t3). intros y c _ C. exists c. split; [exact C|]. split; [apply same_core_refl|reflexivity].
        - apply (Gone t3 None K13 Hd13); [discriminate|now left].
        - intros y c c' q Hy C C' Eq. destruct (Roots3 y c c' q Hy C C' Eq) as [Q1 Q2]. split; [exact Q1|].
          intro Q. destruct (Q2 Q) as [X|X]; [now left|right; eauto]. }
      (* nothing left: taken out of the list *)
      assert (W3 : wfb b3) by exact (wf_of U t3 L2 rk _ _ m I3 x b3 Hx2 B3).
      assert (Kn : b_kids b3 = []).
      { destruct (b_kids b3) as [|v ks] eqn:Ek; [reflexivity|]. exfalso.
        assert (Hv : In v (b_kids b3)) by (rewrite Ek; now left).
        destruct (proj1 (v_kids _ _ _ _ _ _ _ I3 x b3 v Hx2 B3) Hv) as (Hv2 & (bv & Bv & Rv) & _).
        pose proof (Kid3 v bv Hv2 Bv Rv). pose proof (a_le _ _ _ _ _ _ _ _ (rootn U t3 L2 rk _ _ m I3 v bv x Hv2 Bv Rv) b3 B3).
        unfold size in Sz. lia. }
      destruct (v_get _ _ _ _ _ _ _ I3 r1 Hr1) as [c3 C3].
      unfold remove_branch. rewrite Em3. destruct (Z.eqb_spec x m) as [|_]; [congruence|]. rewrite B3. cbn [bind]. rewrite Er3, Kn.
      change (zlen (@nil Z) =? 0) with true. cbv iota. unfold remove_child. rewrite C3. cbn [bind].
      rewrite Sz. change (Z.to_nat 0) with 0%nat. cbn [destroy].
      destruct (inv_detach U t3 L2 rk m x b3 r1 c3 I3 Hx2 Nxm B3 Er3 C3) as (RC4 & I4 & K4 & RO4 & O4).
      cbn [set_list bput set_heap t_list t_heap t_main t_next t_hashes t_disk] in RC4, I4, K4, RO4, O4 |- *.
      match type of I4 with inv U ?tt _ _ _ _ _ => set (t4 := tt) in * end.
      assert (B4 : bget t4 x = Some b3) by (rewrite O4 by congruence; exact B3).
      rewrite B4. cbn [bind]. rewrite Sz. cbn [Z.eqb negb]. rewrite (wfb_size b3 W3), Sz. cbn [Z.eqb negb bind].
      assert (K14 : keep t1 t4 L2) by exact (keep_trans t1 t3 t4 L2 L2 K13 K4 (heads_grow _ _ _ Hd13) (incl_refl L2)).
      assert (Hd34 : heads t3 t4 L2) by exact (recore_heads t3 t4 L2 RC4).
      assert (Hd14 : heads t1 t4 L2) by exact (heads_trans t1 t3 t4 L2 L2 Hd13 Hd34 (incl_refl L2)).
      assert (Cv : cover t t4 x r1).
      { destruct (recore_get t3 t4 r1 c3 RC4 C3) as (c4 & C4 & (_ & Q & _)).
        destruct (Hd03 x b0 Hx2 B0) as (b3' & B3' & Eh & _). rewrite B3 in B3'. injection B3' as <-.
        pose proof (a_le _ _ _ _ _ _ _ _ (rootn U t3 L2 rk _ _ m I3 x b3 r1 Hx2 B3 Er3) c3 C3) as Hle. unfold size in Sz.
        exists b0, c4. split; [exact B0|]. split; [exact C4|]. split; [lia|]. intros h k Hh S.
        apply (K4 r1 c3 h k Hr1 C3); [lia|]. apply (child_sees U t3 L2 rk _ _ m I3 x b3 r1 h k Hx2 B3 Er3); [lia|].
        exact (K03 x b0 h k Hx2 B0 Hh S). }
      exists t4, L2, (Some x). split; [reflexivity|]. constructor; try assumption.
      + exact (keep_trans t t3 t4 L2 L2 K03 K4 (heads_grow _ _ _ Hd03) (incl_refl L2)).
      + exact (heads_trans t t3 t4 L2 L2 Hd03 Hd34 (incl_refl L2)).
      + change (t_disk t3 = t_disk t). congruence.
      + change (t_main t3 = t_main t). congruence.
      + change (t_next t3 = t_next t). congruence.
      + intro y. change (In y (sdel x (t_list t3)) <-> In y (t_list t) /\ In y L2 /\ Some x <> Some y). rewrite sdel_In, F3l, Fl2, Hl2. split; [intros ((A & B) & C); split; [exact A|split; [exact B|congruence]]|].
        intros (A & B & C). split; [now split|congruence].
      + right. split; [reflexivity|]. split; [exact Nxm|]. split.
        * intros y c Hy C Q. destruct (recore_back t3 t4 y c RC4 C) as (d & D & _). pose proof (RO4 y d c D C) as E.
          assert (Kv : In y (b_kids b3)) by (apply (v_kids _ _ _ _ _ _ _ I3 x b3 y Hx2 B3); split; [exact Hy|split; [exists d; split; [exact D|congruence]|discriminate]]).
          rewrite Kn in Kv. contradiction.
        * exists r1. split; [exact Hr1|]. split; [exact Nr1x|exact Cv].
      + apply (c_node t4 x b3 r1 B4 Er3).
        * apply (clean_frozen U t1 t4 L2 rk None None None (Some x) m I1 I4 K14 (Base t4 D13) r1 Cl1 Hr1).
          apply (Frz t4). intros y c _ C. destruct (recore_get t3 t4 y c RC4 C) as (c' & C' & SC). exists c'. split; [exact C'|]. split; [exact SC|exact (RO4 y c c' C C')].
        * intros (k & c & C & F & _). apply (w_dom b3 W3) in F. unfold size in Sz. lia.
      + apply (Gone t4 (Some x) K14 Hd14); [intros z E; now injection E|]. right. exists r1. split; [exact Hr1|]. split; [exact Nr1x|exact Cv].
      + intros y c c' q Hy C C' Eq. destruct (recore_back t3 t4 y c' RC4 C') as (d & D & _). pose proof (RO4 y d c' D C') as E.
        destruct (Roots3 y c d q Hy C D Eq) as [Q1 Q2]. split; [intro Q; rewrite E; now apply Q1|].
        intro Q. destruct (Q2 Q) as [X|X]; [left; congruence|right; exists b3; split; [exact B4|congruence]].
  Qed.
End Prune2.
