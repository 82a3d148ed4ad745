(** * The candidate tree: the ledger moves *)
From Coq Require Import ZArith List Bool Lia Permutation.
From Verif Require Import Lib TreeModel TreeSpec TreeProofs TreeProofs2 TreeProofs3 TreeProofs4 TreeProofs5 TreeProofs6 TreeProofs7 TreeProofs8 TreeProofs9 TreeProofs10.
Import ListNotations.
Local Open Scope Z_scope.

Section Moves.
  Context (U : knot -> Prop) (HU : honest U).

  Lemma sdel_sadd n l : ~ In n l -> sdel n (sadd n l) = l.
  Proof.
    intro H. unfold sadd. cbn [sdel filter]. rewrite Z.eqb_refl. cbn [negb].
    assert (E : forall l', ~ In n l' -> sdel n l' = l').
    { intros l'. induction l' as [|a r IH]; intro N; [reflexivity|]. cbn [sdel filter]. destruct (Z.eqb_spec a n) as [->|]; [exfalso; apply N; now left|].
      cbn [negb]. f_equal. apply IH. intro X. apply N. now right. }
    fold (sdel n l). rewrite (E l H). now apply E.
  Qed.
  Lemma mget_nil {A} (l : list (Z * A)) : (forall h, mget h l = None) -> l = [].
  Proof. destruct l as [|[h v] r]; [reflexivity|]. intro H. specialize (H h). cbn [mget] in H. rewrite Z.eqb_refl in H. discriminate. Qed.

  Section Advance.
    Context (t : tree) (L : list Z) (rk : Z -> nat) (m : Z) (b : br) (k : knot).
    Context (I : inv U t L rk None None m) (B : bget t m = Some b) (Em : t_main t = m) (Uk : U k) (Pk : k_prev k = k_hash (disk_head t)).
    Let t0 := set_disk t (t_disk t ++ [k]).

    Lemma adv_fork : local_contains b (k_height k) (k_hash k) = false -> b_headX b =? k_prev k = false ->
      exists t' rk', root_head_add t0 k = Some t' /\ inv U t' (t_next t + 1 :: L) rk' None None (t_next t + 1) /\ keep t t' L /\ heads t t' L /\
        t_main t' = t_next t + 1 /\ t_disk t' = t_disk t ++ [k] /\ t_list t' = sadd (t_next t + 1) (t_list t) /\ t_hashes t' = t_hashes t /\ ~ In (t_next t + 1) L /\
        exists bn, bget t' (t_next t + 1) = Some bn /\ b_head bn = k_height k /\ size bn = 0.
    Proof.
      intros Hc Hh. set (n := t_next t + 1). destruct (main_root U t L rk _ _ m b I B) as (Er & Ht & Hx). pose proof (adv_height U HU t L rk m k I Uk Pk) as Hk.
      pose proof (v_main _ _ _ _ _ _ _ I) as Hm. pose proof (wf_of U t L rk _ _ m I m b Hm B) as W. pose proof (tail_le U t L rk _ _ m I m b Hm B) as Tl.
      pose proof (v_wf _ _ _ _ _ _ _ I m b Hm B) as (_ & _ & Tb & NDk).
      assert (Nn : bget t n = None) by (destruct (bget t n) as [c|] eqn:E; [apply (v_next _ _ _ _ _ _ _ I) in E; lia|reflexivity]).
      assert (NL : ~ In n L) by (intro X; destruct (v_get _ _ _ _ _ _ _ I n X); congruence).
      assert (Nmn : m <> n) by (intros ->; contradiction).
      assert (Nk : ~ In n (b_kids b)) by (intro X; apply (v_kids _ _ _ _ _ _ _ I m b n Hm B) in X; tauto).
      unfold root_head_add. change (t_main t0) with (t_main t). rewrite Em. change (bget t0 m) with (bget t m). rewrite B. cbn [bind].
      rewrite Hx, Pk, Z.eqb_refl. cbn [negb]. rewrite Pk in Hh. rewrite Hh, Hc.
      (* the fork *)
      replace (k_height k - 1) with (top t) by lia. unfold fork.
      assert (Bt : mget (top t) (b_blocks b) = None) by (destruct (mget (top t) (b_blocks b)) eqn:F; [apply (w_dom b W) in F; lia|reflexivity]).
      destruct (adv_disk U HU t L rk m k I Uk Pk t0 eq_refl) as (D1 & D2 & D3 & D4 & D5 & D6).
      assert (Dt : disk_get t0 (top t) = Some (disk_head t)) by (apply D6; apply disk_top; apply I).
      assert (Gk : get_knot t0 (Node m) (top t) true = Some (disk_head t)).
      { unfold get_knot. rewrite (local_node t0 m b (top t) B), Bt. unfold knot_and_branch. change (bget t0 m) with (bget t m). rewrite B. cbn [bind].
        replace (top t >? b_head b) with false by (symmetry; rewrite Z.gtb_ltb; apply Z.ltb_ge; lia). rewrite Bt, Er. cbn [climb fuel_of local]. rewrite Dt. reflexivity. }
      rewrite Gk. cbn [bind]. change (t_next t0 + 1) with n. fold (top t).
      set (bn := new_br (top t) (k_hash (disk_head t)) (Node m)). set (t1 := set_next (bput t0 n bn) n).
      assert (B1 : bget t1 m = Some b) by (change (bget (bput t0 n bn) m = Some b); rewrite bget_other by exact Nmn; exact B).
      unfold add_child at 1. rewrite B1. cbn [bind].
      set (bm1 := set_kids b (sadd n (b_kids b))). set (t2 := set_list (bput t1 m bm1) _).
      assert (B2n : bget t2 n = Some bn) by (change (bget (bput t1 m bm1) n = Some bn); rewrite bget_other by congruence; change (bget (bput t0 n bn) n = Some bn); apply bget_same).
      assert (B2m : bget t2 m = Some bm1) by (change (bget (bput t1 m bm1) m = Some bm1); apply bget_same).
      assert (B2o : forall y, y <> m -> y <> n -> bget t2 y = bget t y).
      { intros y N1 N2. change (bget (bput t1 m bm1) y = bget t y). rewrite bget_other by exact N1. change (bget (bput t0 n bn) y = bget t y). now rewrite bget_other by exact N2. }
      rewrite B2n. cbn [bind]. unfold add_head. cbn [bn new_br b_headX]. rewrite Pk, Z.eqb_refl. cbn [bind b_blocks b_tail b_tailX b_root b_kids].
      unfold remove_tail. cbn [b_tailX b_head]. rewrite Pk, Z.eqb_refl. cbn [negb]. rewrite (Z.gtb_ltb (k_height k)), Z.ltb_irrefl. cbn [bind b_blocks b_headX b_root b_kids].
      cbn [mset mdel]. rewrite Z.eqb_refl. unfold update_root_simple at 1, remove_child. change (mdel (k_height k) (mdel (k_height k) (b_blocks bn))) with (@nil (Z * knot)). change (b_root bn) with (Node m). change (b_kids bn) with (@nil Z).
      set (bn2 := mkbr [] (k_height k) (k_hash k) (k_height k) (k_hash k) (Node m) []). set (t2' := bput t2 n bn2).
      assert (B3 : bget t2' m = Some bm1) by (unfold t2'; rewrite bget_other by exact Nmn; exact B2m).
      rewrite B3. cbn [bind bm1 set_kids b_blocks b_head b_headX b_tail b_tailX b_root b_kids].
      rewrite (sdel_sadd n _ Nk). rewrite bget_other by congruence. unfold t2' at 1. rewrite bget_same. cbn [bind].
      set (bm3 := set_kids bm1 (b_kids b)).
      set (t3 := bput (bput t2' m bm3) n (set_root bn2 Disk)).
      assert (Eb : bm3 = b) by (unfold bm3; destruct b; reflexivity).
      assert (B3m : bget t3 m = Some b) by (unfold t3; rewrite bget_other by exact Nmn; rewrite bget_same; now rewrite Eb).
      assert (B3n : bget t3 n = Some (set_root bn2 Disk)) by (unfold t3; apply bget_same).
      assert (B3o : forall y, y <> m -> y <> n -> bget t3 y = bget t y).
      { intros y N1 N2. unfold t3, t2'. rewrite !bget_other by assumption. now apply B2o. }
      rewrite B3m. cbn [bind]. unfold update_root. rewrite B3m. cbn [bind]. unfold add_child.
      rewrite bget_other by congruence. rewrite B3n. cbn [bind set_root bn2 b_blocks b_head b_headX b_tail b_tailX b_root b_kids set_kids].
      set (bm := set_root b (Node n)).
      set (bN := set_kids (set_root bn2 Disk) (sadd m [])).
      set (t5 := bput (bput t3 m bm) n bN).
      assert (G5n : bget t5 n = Some bN) by apply bget_same.
      assert (G5m : bget t5 m = Some bm) by (unfold t5; rewrite bget_other by exact Nmn; apply bget_same).
      assert (G5o : forall y, y <> m -> y <> n -> bget t5 y = bget t y) by (intros y N1 N2; unfold t5; rewrite !bget_other by assumption; now apply B3o).
      rewrite G5m. cbn [bind]. change (b_kids bm) with (b_kids b).
      assert (Disk5 : forall h, disk_get t5 h = disk_get t0 h) by reflexivity.
      assert (SS : forall rf h a, sees t rf h a -> sees t5 rf h a).
      { intros rf h a S. induction S as [rf h a E|y c h a E C S IH].
        - constructor. destruct rf as [|y]; [cbn [local] in *; rewrite Disk5; now apply D6|]. cbn [local] in *. destruct (bget t y) as [c|] eqn:C; [|discriminate]. cbn [bind] in E.
          destruct (Z.eq_dec y m) as [->|N1]; [rewrite G5m; rewrite B in C; injection C as <-; exact E|]. rewrite (G5o y N1) by congruence. now rewrite C.
        - destruct (Z.eq_dec y m) as [->|N1].
          + rewrite B in C. injection C as <-. apply (s_up t5 m bm); [rewrite (local_node t5 m bm h G5m); now rewrite (local_node t m b h B) in E|exact G5m|].
            cbn [bm set_root b_root]. rewrite Er in IH. apply (s_up t5 n bN); [now rewrite (local_node t5 n bN h G5n)|exact G5n|exact IH].
          + assert (C5 : bget t5 y = Some c) by (rewrite (G5o y N1); congruence). apply (s_up t5 y c); [rewrite (local_node t5 y c h C5); now rewrite (local_node t y c h C) in E|exact C5|exact IH]. }
      assert (K5 : keep t t5 L) by (intros y c h a _ _ _ S; now apply SS).
      assert (Hd5 : heads t t5 L).
      { intros y c Hy C. destruct (Z.eq_dec y m) as [->|N1]; [rewrite B in C; injection C as <-; exists bm; now split|]. exists c. rewrite (G5o y N1) by congruence. now split. }
      set (rk' := fun y => if y =? n then O else S (rk y)).
      assert (Rn : rk' n = O) by (unfold rk'; now rewrite Z.eqb_refl).
      assert (Ro : forall y, y <> n -> rk' y = S (rk y)) by (intros y N; unfold rk'; now destruct (Z.eqb_spec y n)).
      assert (Core : forall y c', y <> n -> bget t5 y = Some c' -> exists c, bget t y = Some c /\ same_core c c' /\ b_kids c' = b_kids c /\ (y <> m -> b_root c' = b_root c)).
      { intros y c' N C'. destruct (Z.eq_dec y m) as [->|N1]; [rewrite G5m in C'; injection C' as <-; exists b; repeat split; congruence|].
        rewrite (G5o y N1 N) in C'. exists c'. split; [exact C'|]. split; [apply same_core_refl|now split]. }
      assert (I5 : inv U t5 (n :: L) rk' (Some (m, base t - 1)) None n).
      { constructor.
        - exact D1.
        - exact D2.
        - constructor; [exact NL|apply I].
        - now left.
        - intros y Hy. change (In y (sadd n (t_list t))) in Hy. apply sadd_In in Hy. split; [|discriminate]. destruct Hy as [->|Hy]; [now left|right; now apply (v_list _ _ _ _ _ _ _ I)].
        - intros y [<-|Hy]; [eauto|]. destruct (v_get _ _ _ _ _ _ _ I y Hy) as [c C]. destruct (Hd5 y c Hy C) as (c' & C' & _). eauto.
        - intros y c' [<-|Hy] C'.
          + rewrite G5n in C'. injection C' as <-. split; [|split; [intros h a F; discriminate|split; [change (base t5) with (base t0); rewrite D3; cbn [bN bn2 set_kids set_root b_tail]; lia|]]].
            * constructor; cbn [bN bn2 set_kids set_root b_tail b_head b_blocks b_tailX b_headX mget]; try discriminate; try lia; try reflexivity. constructor.
            * cbn. repeat constructor. intros [].
          + assert (Ny : y <> n) by (intros ->; contradiction). destruct (Core y c' Ny C') as (c & C & SC & Kc & _). destruct (v_wf _ _ _ _ _ _ _ I y c Hy C) as (Wc & V & T & ND).
            split; [exact (wfb_core c c' SC Wc)|]. destruct SC as (S1 & _ & _ & S4 & _). split; [rewrite S1; exact V|]. split; [change (base t5) with (base t0); rewrite D3, S4; exact T|]. now rewrite Kc.
        - change (t_next t5) with n. intros y c' C'. destruct (Z.eq_dec y n) as [->|N]; [lia|]. destruct (Core y c' N C') as (c & C & _). apply (v_next _ _ _ _ _ _ _ I) in C. lia.
        - intros y c' [<-|Hy] C'.
          + rewrite G5n in C'. injection C' as <-. cbn [bN bn2 set_kids set_root b_root b_tail b_tailX]. split; [reflexivity|]. change (top t5) with (top t0). change (disk_head t5) with (disk_head t0). rewrite D5, D4. now split.
          + assert (Ny : y <> n) by (intros ->; contradiction). destruct (Z.eq_dec y m) as [->|N1].
            * rewrite G5m in C'. injection C' as <-. cbn [bm set_root b_root]. constructor; cbn [bm set_root b_tail b_tailX].
              -- now left. -- rewrite Rn, (Ro m Nmn). lia. -- exact Nmn.
              -- intros c C. rewrite G5n in C. injection C as <-. cbn [bN bn2 set_kids set_root b_head]. lia.
              -- exists (disk_head t). rewrite Ht. split; [|now rewrite Hx]. apply (s_up t5 n bN); [now rewrite (local_node t5 n bN _ G5n)|exact G5n|]. cbn [bN bn2 set_kids set_root b_root]. apply sees_disk. exact Dt.
              -- congruence.
            * destruct (Core y c' Ny C') as (c & C & SC & _ & R). specialize (R N1). pose proof SC as (_ & _ & _ & S4 & S5).
              pose proof (v_root _ _ _ _ _ _ _ I y c Hy C) as Q. rewrite R. destruct (b_root c) as [|q] eqn:Eq; [exfalso; destruct Q; congruence|].
              pose proof (a_in _ _ _ _ _ _ _ _ Q) as Hq. assert (Nq : q <> n) by (intros ->; contradiction).
              destruct (v_get _ _ _ _ _ _ _ I q Hq) as [cq Cq]. destruct (Hd5 q cq Hq Cq) as (cq' & Cq' & Hq1 & _).
              pose proof (a_le _ _ _ _ _ _ _ _ Q cq Cq) as Lq. destruct (a_see _ _ _ _ _ _ _ _ Q) as (a & Sa & Xa).
              constructor.
              -- now right. -- rewrite (Ro q Nq), (Ro y Ny). pose proof (a_rank _ _ _ _ _ _ _ _ Q). lia. -- congruence.
              -- intros d D. rewrite Cq' in D. injection D as <-. lia.
              -- exists a. rewrite S4, S5. split; [now apply SS|exact Xa].
              -- intros _ d D. rewrite Cq' in D. injection D as <-. unfold eff. destruct (Z.eqb_spec m q) as [<-|N2].
                 ++ destruct (v_wf _ _ _ _ _ _ _ I y c Hy C) as (_ & _ & T & _). split; [lia|].
                    exists (b_tail c), a, c', cq'. split; [exact C'|]. split; [exact Cq'|]. split; [lia|].
                    pose proof (tail_le U t L rk _ _ m I y c Hy C). destruct SC as (_ & S2 & _). split; [lia|]. split; [lia|]. split; [|now apply SS].
                    apply SS. apply (child_sees U t L rk _ _ m I y c m _ _ Hy C Eq (Z.le_refl _)). exact Sa.
                 ++ destruct (a_eff _ _ _ _ _ _ _ _ Q ltac:(congruence) cq Cq) as [E1 E2]. cbn [eff] in E1, E2.
                    destruct (Core q cq' Nq Cq') as (cq2 & Cq2 & (_ & _ & _ & Tq & _) & _). rewrite Cq in Cq2. injection Cq2 as <-. rewrite Tq, S4. split; [exact E1|].
                    destruct E2 as (h & a' & dx & d & P1 & P2 & P3 & P4 & P5 & P6 & P7). rewrite C in P1. injection P1 as <-. rewrite Cq in P2. injection P2 as <-.
                    exists h, a', c', cq'. destruct SC as (_ & S2 & _). split; [exact C'|]. split; [exact Cq'|]. split; [exact P3|]. split; [lia|]. split; [lia|]. split; now apply SS.
        - assert (RootC : forall z q, In z (n :: L) -> (exists cz, bget t5 z = Some cz /\ b_root cz = Node q) <-> (z = m /\ q = n) \/ (In z L /\ z <> m /\ exists cz, bget t z = Some cz /\ b_root cz = Node q)).
          { intros z q Hz. destruct (Z.eq_dec z n) as [->|Z1].
            - split; [intros (cz & A & E); rewrite G5n in A; injection A as <-; discriminate|]. intros [[X _]|[X _]]; [congruence|contradiction].
            - destruct Hz as [|Hz]; [congruence|]. destruct (Z.eq_dec z m) as [->|Z2].
              + split; [intros (cz & A & E); rewrite G5m in A; injection A as <-; cbn in E; left; split; congruence|].
                intros [[_ ->]|(_ & X & _)]; [|congruence]. exists bm. now split.
              + rewrite (G5o z Z2 Z1). split; [intro X; right; now repeat split|]. intros [[X _]|(_ & _ & X)]; [congruence|exact X]. }
          intros y c' z Hy C'. split.
          + intro Hz. destruct (Z.eq_dec y n) as [->|Ny].
            * rewrite G5n in C'. injection C' as <-. cbn in Hz. destruct Hz as [<-|[]]. split; [now right|]. split; [exists bm; now split|discriminate].
            * destruct Hy as [|Hy]; [congruence|]. destruct (Core y c' Ny C') as (c & C & _ & Kc & _). rewrite Kc in Hz. apply (v_kids _ _ _ _ _ _ _ I y c z Hy C) in Hz.
              destruct Hz as (A1 & (cz & A2 & A2') & A3). split; [now right|]. split; [|exact A3]. apply RootC; [now right|]. right. split; [exact A1|]. split; [|eauto].
              intros ->. rewrite B in A2. injection A2 as <-. congruence.
          + intros (A1 & A2 & A3). apply (RootC z y A1) in A2. destruct (Z.eq_dec y n) as [->|Ny].
            * rewrite G5n in C'. injection C' as <-. cbn. destruct A2 as [[-> _]|(Hz & _ & cz & E1 & E2)]; [now left|].
              exfalso. apply NL. exact (a_in _ _ _ _ _ _ _ _ (rootn U t L rk _ _ m I z cz n Hz E1 E2)).
            * destruct Hy as [|Hy]; [congruence|]. destruct (Core y c' Ny C') as (c & C & _ & Kc & _). rewrite Kc. destruct A2 as [[_ X]|(Hz & _ & X)]; [congruence|].
              apply (v_kids _ _ _ _ _ _ _ I y c z Hy C). now split. }
      destruct (kids_loop U HU m n (base t - 1) None n (n :: L) rk' (b_kids b) t5 bm I5) as (t6 & b6 & E6 & F6 & R6 & I6 & K6 & B6 & Rt6 & Kd6 & Ls6 & _).
      { now right. } { exact G5m. } { reflexivity. } { congruence. } { exact NDk. } { auto. }
      rewrite (move_is_prune t5 m (b_root b) n _ t6 E6). cbn [bind].
      assert (I7 : inv U t6 (n :: L) rk' None None n).
      { apply (inv_unex U t6 (n :: L) rk' m (base t - 1) None n b6 I6 ltac:(now right) B6). intros _ v bv Hv Bv Rv.
        assert (Kv : In v (b_kids b6)) by (apply (v_kids _ _ _ _ _ _ _ I6 m b6 v ltac:(now right) B6); split; [exact Hv|split; [eauto|discriminate]]).
        exact (Ls6 v bv (Kd6 v Kv) Kv Bv). }
      pose proof F6 as (F1 & F2 & F3 & F4 & F5).
      eexists. exists rk'. split; [reflexivity|]. split; [now apply (inv_ext U t6)|].
      assert (Ki : keep t t6 L) by (apply (keep_trans t t5 t6 L (n :: L) K5 K6); [now apply heads_grow|intros y Hy; now right]).
      split; [intros y c h a Hy C H S; apply (sees_heap t6); [reflexivity|reflexivity|]; exact (Ki y c h a Hy C H S)|].
      split. { intros y c Hy C. destruct (Hd5 y c Hy C) as (c5 & C5 & A1 & A2). destruct (recore_heads t5 t6 (n :: L) R6 y c5 ltac:(now right) C5) as (c6 & C6 & A3 & A4). exists c6. split; [exact C6|]. split; congruence. }
      split; [reflexivity|]. split; [exact F5|]. split; [exact F1|]. split; [exact F4|]. split; [exact NL|].
      destruct (recore_get t5 t6 n bN R6 G5n) as (bN' & BN' & (_ & H2 & _ & H4 & _)). exists bN'. split; [exact BN'|]. unfold size. rewrite H2, H4. cbn. split; [reflexivity|lia].
    Qed.

    Lemma advance_ok : exists t' L' rk', root_head_add t0 k = Some t' /\ inv U t' L' rk' None None (t_main t') /\ keep t t' L /\ grow t t' L /\ incl L L' /\
        t_disk t' = t_disk t ++ [k] /\ incl (t_list t) (t_list t') /\ (forall x, In x (t_list t') -> In x (t_list t) \/ x = t_main t') /\
        (forall y c, In y L -> bget t y = Some c -> exists c', bget t' y = Some c' /\ (b_head c' = b_head c \/ (y = m /\ t_main t' = m /\ b_head c = top t /\ b_head c' = k_height k))) /\
        ((b_head b = b_tail b /\ t_main t' = m /\ exists b', bget t' m = Some b' /\ b_head b' = k_height k) \/
         (mget (b_tail b + 1) (b_blocks b) = Some k /\ t_main t' = m /\ exists b', bget t' m = Some b' /\ b_head b' = b_head b) \/
         (b_tail b < b_head b /\ mget (b_tail b + 1) (b_blocks b) <> Some k /\ ~ In (t_main t') L /\ exists bn, bget t' (t_main t') = Some bn /\ b_head bn = k_height k)).
    Proof.
      destruct (main_root U t L rk _ _ m b I B) as (Er & Ht & Hx). pose proof (adv_height U HU t L rk m k I Uk Pk) as Hk.
      pose proof (v_main _ _ _ _ _ _ _ I) as Hm. pose proof (wf_of U t L rk _ _ m I m b Hm B) as W. pose proof (tail_le U t L rk _ _ m I m b Hm B) as Tl.
      destruct (b_headX b =? k_prev k) eqn:Hh.
      - (* the main branch is empty *)
        assert (E0 : b_head b = b_tail b).
        { apply Z.eqb_eq in Hh. pose proof (v_disk _ _ _ _ _ _ _ I) as Dk.
          destruct (sees_all U t L rk _ _ m I m Hm b (b_head b) B) as (a & Sa & Ha & Ua). { pose proof (v_wf _ _ _ _ _ _ _ I m b Hm B) as (_ & _ & Tb & _). lia. }
          pose proof (sees_head U t L rk _ _ m I m b a Hm B Sa) as Xa.
          assert (Ud : U (disk_head t)). { pose proof (v_diskU _ _ _ _ _ _ _ I) as F. rewrite Forall_forall in F. apply F, disk_head_in, Dk. }
          assert (E : a = disk_head t) by (apply (proj1 HU); congruence). unfold top in Ht. congruence. }
        set (b2 := mkbr [] (k_height k) (k_hash k) (k_height k) (k_hash k) (b_root b) (b_kids b)).
        assert (Q : b_blocks b = []) by (apply mget_nil; intro h; destruct (mget h (b_blocks b)) eqn:F; [apply (w_dom b W) in F; lia|reflexivity]).
        assert (E : root_head_add t0 k = Some (bput t0 m b2)).
        { unfold root_head_add. change (t_main t0) with (t_main t). rewrite Em. change (bget t0 m) with (bget t m). rewrite B. cbn [bind].
          rewrite Hx, Pk, Z.eqb_refl. cbn [negb]. rewrite Pk in Hh. rewrite Hh. unfold add_head. rewrite Pk, Hh. cbn [bind]. unfold remove_tail. cbn [b_tailX b_head b_blocks b_root b_kids b_headX].
          rewrite Hx, Pk, Z.eqb_refl. cbn [negb]. rewrite (Z.gtb_ltb (k_height k)), Z.ltb_irrefl. cbn [bind]. rewrite Q. cbn [mset mdel]. now rewrite Z.eqb_refl. }
        destruct (adv_empty U HU t L rk m b k I B Uk Pk E0 (bput t0 m b2)) as [I' K']; try reflexivity; [apply bget_same|intros y N; now rewrite bget_other by exact N|].
        exists (bput t0 m b2), L, rk. split; [exact E|]. change (t_main (bput t0 m b2)) with (t_main t). rewrite Em. split; [exact I'|]. split; [exact K'|].
        split. { apply (grow_put t _ L m b b2 B (bget_same _ _ _)); [intros y N; now rewrite bget_other by exact N|]. cbn [b2 b_head]. lia. }
        split; [apply incl_refl|]. split; [reflexivity|]. split; [apply incl_refl|]. split; [intros x Hx'; now left|].
        split; [|left; split; [exact E0|]; split; [reflexivity|]; exists b2; split; [apply bget_same|reflexivity]].
        intros y c Hy C. destruct (Z.eq_dec y m) as [->|N]; [exists b2; split; [apply bget_same|]; right; rewrite B in C; injection C as <-; cbn [b2 b_head]; repeat split; lia|].
        exists c. rewrite bget_other by exact N. split; [exact C|now left].
      - destruct (local_contains b (k_height k) (k_hash k)) eqn:Hc.
        + assert (Hm' : mget (b_tail b + 1) (b_blocks b) = Some k).
          { unfold local_contains in Hc. destruct ((k_height k >? b_tail b) && (k_height k <=? b_head b)); [|discriminate].
            replace (k_height k) with (b_tail b + 1) in Hc by lia. destruct (mget (b_tail b + 1) (b_blocks b)) as [a|] eqn:F; [|discriminate]. apply Z.eqb_eq in Hc.
            f_equal. apply (proj1 HU); try assumption. pose proof (v_wf _ _ _ _ _ _ _ I m b Hm B) as (_ & V & _). exact (V _ _ F). }
          destruct (w_dom b W _ _ Hm') as [Rg Hk']. 
          assert (Er' : remove_tail b k = Some (mkbr (mdel (k_height k) (b_blocks b)) (b_head b) (b_headX b) (k_height k) (k_hash k) (b_root b) (b_kids b))).
          { unfold remove_tail. rewrite Hx, Pk, Z.eqb_refl. cbn [negb]. replace (k_height k >? b_head b) with false by (symmetry; rewrite Z.gtb_ltb; apply Z.ltb_ge; lia). reflexivity. }
          set (b' := mkbr (mdel (k_height k) (b_blocks b)) (b_head b) (b_headX b) (k_height k) (k_hash k) (b_root b) (b_kids b)) in *.
          assert (E : root_head_add t0 k = Some (knot_remove (bput t0 m b') k)).
          { unfold root_head_add. change (t_main t0) with (t_main t). rewrite Em. change (bget t0 m) with (bget t m). rewrite B. cbn [bind].
            rewrite Hx, Pk, Z.eqb_refl. cbn [negb]. rewrite Pk in Hh. rewrite Hh, Hc. unfold tree_remove_tail, br_remove_tail. change (bget t0 m) with (bget t m). rewrite B. cbn [bind]. rewrite Er'. reflexivity. }
          destruct (adv_contained U HU t L rk m b k I B Uk Pk b' Hm' Er' (knot_remove (bput t0 m b') k)) as [I' K']; try reflexivity; [change (bget (bput t0 m b') m = Some b'); apply bget_same|intros y N; change (bget (bput t0 m b') y = bget t y); now rewrite bget_other by exact N|].
          eexists. exists L, rk. split; [exact E|]. change (t_main (knot_remove (bput t0 m b') k)) with (t_main t). rewrite Em. split; [exact I'|]. split; [exact K'|].
          split. { apply (grow_put t _ L m b b' B); [change (bget (bput t0 m b') m = Some b'); apply bget_same|intros y N; change (bget (bput t0 m b') y = bget t y); now rewrite bget_other by exact N|]. cbn [b' b_head]. lia. }
          split; [apply incl_refl|]. split; [reflexivity|]. split; [apply incl_refl|]. split; [intros x Hx'; now left|].
          split; [|right; left; split; [exact Hm'|]; split; [reflexivity|]; exists b'; split; [change (bget (bput t0 m b') m = Some b'); apply bget_same|reflexivity]].
          intros y c Hy C. destruct (Z.eq_dec y m) as [->|N]; [exists b'; split; [change (bget (bput t0 m b') m = Some b'); apply bget_same|]; left; rewrite B in C; injection C as <-; reflexivity|].
          exists c. split; [change (bget (bput t0 m b') y = Some c); rewrite bget_other by exact N; exact C|now left].
        + destruct (adv_fork Hc Hh) as (t' & rk' & E & I' & K' & Hd & Em' & Ed & El & Eh & NL & bn & Bn & Hbn & _).
          exists t', (t_next t + 1 :: L), rk'. split; [exact E|]. rewrite Em'. split; [exact I'|]. split; [exact K'|]. split; [now apply heads_grow|].
          split; [intros y Hy; now right|]. split; [exact Ed|]. rewrite El. split; [intros y Hy; apply sadd_In; now right|]. split; [intros x Hx'; apply sadd_In in Hx'; tauto|].
          split; [intros y c Hy C; destruct (Hd y c Hy C) as (c' & C' & Q & _); exists c'; split; [exact C'|now left]|]. right; right.
          split; [|split; [|split; [exact NL|exists bn; now split]]].
          * destruct (Z.eq_dec (b_head b) (b_tail b)) as [X|]; [exfalso|lia]. apply Z.eqb_neq in Hh. apply Hh. rewrite Pk.
            symmetry. apply (sees_head U t L rk _ _ m I m b (disk_head t) Hm B). rewrite X, Ht. rewrite X in Tl.
            apply (sees_root U t L rk _ _ m I m b _ _ Hm B); [lia|]. rewrite Er, sees_disk. apply disk_top. apply I.
          * intro X. unfold local_contains in Hc. destruct (w_dom b W _ _ X) as [Rg Q]. rewrite Q in Hc. rewrite X, Z.eqb_refl in Hc.
            rewrite Z.gtb_ltb in Hc. destruct (Z.ltb_spec (b_tail b) (b_tail b + 1)); [|lia]. destruct (Z.leb_spec (b_tail b + 1) (b_head b)); [|lia]. discriminate.
    Qed.
  End Advance.

  (** ** The ledger gives blocks back *)
  Lemma rollback_ok L rk m : forall l t d0, inv U t L rk None None m -> t_main t = m -> t_disk t = d0 ++ l -> d0 <> [] ->
    exists t', add_tails (set_disk t d0) m (rev l) = Some t' /\ inv U t' L rk None None m /\ keep t t' L /\ heads t t' L /\
      t_main t' = t_main t /\ t_disk t' = d0 /\ t_list t' = t_list t /\ base t' = base t.
  Proof.
    induction l as [|w l IH] using rev_ind; intros t d0 I Em Ed Nd.
    - rewrite app_nil_r in Ed. cbn [rev add_tails]. assert (E : set_disk t d0 = t) by (rewrite <- Ed; now destruct t). rewrite E. exists t.
      split; [reflexivity|]. split; [exact I|]. split; [apply keep_refl|]. split; [apply heads_refl|]. repeat split; try assumption.
    - rewrite app_assoc in Ed. destruct (v_get _ _ _ _ _ _ _ I m (v_main _ _ _ _ _ _ _ I)) as [b B].
      assert (N : d0 ++ l <> []) by (intro X; apply app_eq_nil in X; tauto).
      destruct (rollback_move U t L rk m b (d0 ++ l) w I B Ed N) as (b' & E & H1 & H2 & I' & K & Eb).
      set (t1 := set_hashes (bput (set_disk t (d0 ++ l)) m b') (sadd (k_hash w) (t_hashes t))).
      assert (I1 : inv U t1 L rk None None m) by now apply inv_fields.
      destruct (IH t1 d0 I1 Em eq_refl Nd) as (t' & E' & I2 & K2 & Hd2 & Em2 & Ed2 & El2 & Eb2).
      rewrite rev_unit. cbn [add_tails]. unfold tree_add_tail. change (bget (set_disk t d0) m) with (bget t m). rewrite B. cbn [bind]. rewrite E. cbn [bind].
      change (set_hashes (bput (set_disk t d0) m b') (sadd (k_hash w) (t_hashes (set_disk t d0)))) with (set_disk t1 d0).
      exists t'. split; [exact E'|]. split; [exact I2|].
      assert (Hd1 : heads t t1 L).
      { intros y c Hy C. destruct (Z.eq_dec y m) as [->|N1]; [exists b'; rewrite B in C; injection C as <-; split; [change (bget (bput (set_disk t (d0++l)) m b') m = Some b'); apply bget_same|now split]|].
        exists c. split; [change (bget (bput (set_disk t (d0++l)) m b') y = Some c); rewrite bget_other by exact N1; exact C|now split]. }
      assert (K1 : keep t t1 L) by (apply (keep_trans t _ t1 L L K (keep_fields _ _ _)); [exact (heads_grow _ _ _ Hd1)|apply incl_refl]).
      split; [apply (keep_trans t t1 t' L L K1 K2); [now apply heads_grow|apply incl_refl]|].
      split; [exact (heads_trans _ _ _ _ _ Hd1 Hd2 (incl_refl L))|]. split; [exact Em2|]. split; [exact Ed2|]. split; [exact El2|]. rewrite Eb2. exact Eb.
  Qed.
End Moves.
