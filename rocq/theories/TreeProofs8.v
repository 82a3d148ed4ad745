(** * The candidate tree: exchanging a branch with its parent *)
From Coq Require Import ZArith List Bool Lia Permutation.
From Verif Require Import Lib TreeModel TreeSpec TreeProofs TreeProofs2 TreeProofs3 TreeProofs4 TreeProofs5 TreeProofs6 TreeProofs7.
Import ListNotations.
Local Open Scope Z_scope.

(** Up to the branch on the ledger [m], the last branch starts at or above the ledger's head *)
Inductive gp (t : tree) (m : Z) : Z -> Prop :=
| g_last x b : bget t x = Some b -> b_root b = Node m -> top t <= b_tail b -> gp t m x
| g_up x b r : bget t x = Some b -> b_root b = Node r -> gp t m r -> gp t m x.

Lemma upd_simple_disk t v x bv bx : v <> x -> bget t v = Some bv -> bget t x = Some bx ->
  exists t', update_root_simple t v (Node x) Disk = Some t' /\ fields t t' /\
    bget t' v = Some (set_root bv Disk) /\ bget t' x = Some (set_kids bx (sdel v (b_kids bx))) /\
    (forall y, y <> v -> y <> x -> bget t' y = bget t y).
Proof.
  intros N1 Ev Ex. unfold update_root_simple, remove_child. rewrite Ex. cbn [bind].
  rewrite bget_other by exact N1. rewrite Ev. cbn [bind].
  eexists. split; [reflexivity|]. split; [repeat split|]. split; [apply bget_same|].
  split. { rewrite bget_other by congruence. apply bget_same. }
  intros y Y1 Y2. now rewrite !bget_other by congruence.
Qed.

Section Exchange.
  Context (U : knot -> Prop) (HU : honest U).

  (** ** Copying the parent's blocks *)
  Lemma copy_ok L rk det m x r : forall n t t1 b c,
    inv U t L rk None det m -> In x L -> bget t x = Some b -> b_root b = Node r -> bget t r = Some c ->
    n = Z.to_nat (b_tail b - b_tail c) -> b_tail c <= b_tail b -> bget t1 x = Some b -> bget t1 r = Some c ->
    exists t2 t3 b', copy_tail n t1 x r (b_tail b) = Some t3 /\
      inv U t2 L rk None det m /\ keep t t2 L /\ fields t t2 /\ bget t2 x = Some b' /\ (forall y, y <> x -> bget t2 y = bget t y) /\
      fields t1 t3 /\ bget t3 x = Some b' /\ (forall y, y <> x -> bget t3 y = bget t1 y) /\
      b_root b' = Node r /\ b_head b' = b_head b /\ b_headX b' = b_headX b /\ b_kids b' = b_kids b /\ b_tail b' = b_tail c.
  Proof.
    induction n as [|n IH]; intros t t1 b c I Hx B Er C Hn Hle B1 C1.
    - exists t, t1, b. cbn [copy_tail]. split; [reflexivity|]. split; [exact I|]. split; [apply keep_refl|]. split; [apply fields_refl|].
      split; [exact B|]. split; [reflexivity|]. split; [apply fields_refl|]. split; [exact B1|]. split; [reflexivity|].
      do 4 (split; [first [exact Er|reflexivity]|]). lia.
    - pose proof (rootn U t L rk _ _ m I x b r Hx B Er) as At. pose proof (a_in _ _ _ _ _ _ _ _ At) as Hr.
      pose proof (a_le _ _ _ _ _ _ _ _ At c C) as Hh. pose proof (wf_of U t L rk _ _ m I r c Hr C) as Wr.
      pose proof (tail_le U t L rk _ _ m I r c Hr C) as Tr.
      assert (Nrx : r <> x) by (intros ->; pose proof (a_rank _ _ _ _ _ _ _ _ At); lia).
      destruct (w_full c Wr (b_tail b)) as [w Hw]; [lia|].
      cbn [copy_tail]. rewrite C1. cbn [bind]. rewrite Hw, B1. cbn [bind].
      destruct (tail_move U t L rk det m x b r w I Hx B Er) as (b1 & E1 & R1 & H1 & X1 & K1 & T1 & _ & I1 & Kp1).
      { apply (sees_own U t L rk _ _ m I r c _ _ Hr C); [lia|exact Hw]. }
      { lia. } { intros _ d D. rewrite C in D. injection D as <-. lia. }
      rewrite E1. cbn [bind].
      destruct (IH (bput t x b1) (bput t1 x b1) b1 c I1 Hx (bget_same _ _ _) R1) as (t2 & t3 & b' & E & I2 & K2 & F2 & B2 & O2 & F3 & B3 & O3 & R' & H' & X' & Kd' & T').
      { rewrite bget_other by exact Nrx. exact C. } { lia. } { lia. } { apply bget_same. } { rewrite bget_other by exact Nrx. exact C1. }
      rewrite T1 in E. exists t2, t3, b'. split; [exact E|]. split; [exact I2|].
      assert (G : grow t (bput t x b1) L) by (apply (grow_put t _ L x b b1 B (bget_same _ _ _)); [intros y N; now apply bget_other|lia]).
      split; [exact (keep_trans t _ t2 L L Kp1 K2 G (incl_refl L))|]. split; [exact F2|]. split; [exact B2|].
      split; [intros y N; rewrite O2 by exact N; now apply bget_other|]. split; [exact F3|]. split; [exact B3|].
      split; [intros y N; rewrite O3 by exact N; now apply bget_other|].
      split; [exact R'|]. repeat split; congruence.
  Qed.

  (** ** Swapping parent and child *)
  Definition swap_rank (rk : Z -> nat) (x r : Z) (y : Z) : nat := if y =? x then (2 * rk r)%nat else (2 * rk y + 1)%nat.
  Lemma swap_inv t t5 L rk det m x b r c :
    inv U t L rk None det m -> In x L -> bget t x = Some b -> b_root b = Node r -> bget t r = Some c -> b_tail b = b_tail c ->
    (det = None \/ det = Some x) ->
    fields t t5 ->
    bget t5 x = Some (set_kids (set_root b (b_root c)) (sadd r (b_kids b))) ->
    bget t5 r = Some (set_kids (set_root c (Node x)) (sdel x (b_kids c))) ->
    (forall y, y <> x -> y <> r -> b_root c <> Node y -> bget t5 y = bget t y) ->
    (forall rr d, b_root c = Node rr -> bget t rr = Some d -> exists d', bget t5 rr = Some d' /\ same_core d d' /\ b_root d' = b_root d /\ NoDup (b_kids d') /\
       (forall z, In z (b_kids d') <-> z = x \/ (In z (b_kids d) /\ z <> r))) ->
    let m' := match b_root c with Disk => x | Node _ => m end in
    let lo := match b_root c with Disk => base t - 1 | Node _ => b_tail c end in
    recore t t5 /\ inv U t5 L (swap_rank rk x r) (Some (r, lo)) None m' /\ keep t t5 L /\
    (forall y d d', y <> x -> y <> r -> bget t y = Some d -> bget t5 y = Some d' -> b_root d' = b_root d).
  Proof.
    intros I Hx B Er C Et Hdet F Gx Gr Go Grr m' lo. pose proof F as (F1 & F2 & F3 & F4 & F5).
    pose proof (rootn U t L rk _ _ m I x b r Hx B Er) as At. pose proof (a_in _ _ _ _ _ _ _ _ At) as Hr.
    pose proof (a_rank _ _ _ _ _ _ _ _ At) as Rk. pose proof (a_not _ _ _ _ _ _ _ _ At) as Nxm.
    pose proof (a_le _ _ _ _ _ _ _ _ At c C) as Hle.
    assert (Nxr : x <> r) by (intros ->; lia).
    pose proof (v_root _ _ _ _ _ _ _ I r c Hr C) as Rr.
    assert (Nrr : forall rr, b_root c = Node rr -> rr <> x /\ rr <> r /\ r <> m).
    { intros rr E. rewrite E in Rr. pose proof (a_rank _ _ _ _ _ _ _ _ Rr). pose proof (a_not _ _ _ _ _ _ _ _ Rr).
      repeat split; [intros ->; lia|intros ->; lia|assumption]. }
    assert (Oth : forall y d, y <> x -> y <> r -> bget t y = Some d -> exists d', bget t5 y = Some d' /\ same_core d d' /\ b_root d' = b_root d).
    { intros y d N1 N2 D. destruct (b_root c) as [|rr] eqn:Erc.
      - exists d. rewrite Go by (try assumption; discriminate). split; [exact D|]. split; [apply same_core_refl|reflexivity].
      - destruct (Z.eq_dec y rr) as [->|N3].
        + destruct (Grr rr d eq_refl D) as (d' & D' & SC & R & _). eauto.
        + exists d. rewrite Go by (try assumption; congruence). split; [exact D|]. split; [apply same_core_refl|reflexivity]. }
    assert (RC : recore t t5).
    { split; [exact F5|]. split; [exact F3|]. intro y.
      destruct (Z.eq_dec y x) as [->|N1]; [rewrite B, Gx; repeat split|]. destruct (Z.eq_dec y r) as [->|N2]; [rewrite C, Gr; repeat split|].
      destruct (bget t y) as [d|] eqn:D.
      - destruct (Oth y d N1 N2 D) as (d' & D' & SC & _). now rewrite D'.
      - destruct (b_root c) as [|rr] eqn:Erc.
        + rewrite Go by (try assumption; discriminate). now rewrite D.
        + assert (y <> rr). { intros ->. destruct (v_get _ _ _ _ _ _ _ I rr (a_in _ _ _ _ _ _ _ _ Rr)). congruence. }
          rewrite Go by (try assumption; congruence). now rewrite D. }
    assert (RO : forall y d d', y <> x -> y <> r -> bget t y = Some d -> bget t5 y = Some d' -> b_root d' = b_root d).
    { intros y d d' N1 N2 D D'. destruct (Oth y d N1 N2 D) as (d2 & D2 & _ & R). congruence. }
    set (rk' := swap_rank rk x r).
    assert (Rx : rk' x = (2 * rk r)%nat) by (unfold rk', swap_rank; now rewrite Z.eqb_refl).
    assert (Ro : forall y, y <> x -> rk' y = (2 * rk y + 1)%nat) by (intros y N; unfold rk', swap_rank; now destruct (Z.eqb_spec y x)).
    assert (Ro2 : forall y q, y <> x -> y <> r -> In y L -> (rk q < rk y)%nat -> (q = x -> (rk r < rk y)%nat) -> (rk' q < rk' y)%nat).
    { intros y q N1 N2 _ Hq Hqx. rewrite (Ro y N1). destruct (Z.eq_dec q x) as [->|Nq]; [rewrite Rx; specialize (Hqx eq_refl); lia|rewrite (Ro q Nq); lia]. }
    assert (Dn : forall h k, h <= b_tail c -> (sees t (Node x) h k <-> sees t (b_root c) h k)).
    { intros h k Hh. rewrite (child_sees U t L rk _ _ m I x b r h k Hx B Er) by lia. apply (sees_root U t L rk _ _ m I r c h k Hr C Hh). }
    assert (K : keep t t5 L).
    { apply (keep_reroot U t t5 L rk None det m rk' I RC). intros y d d' h k Hy D D' Hh S.
      destruct (Z.eq_dec y x) as [->|N1].
      - rewrite B in D. injection D as <-. rewrite Gx in D'. injection D' as <-. cbn [set_kids set_root b_root]. rewrite Er in S.
        apply (child_sees U t L rk _ _ m I x b r h k Hx B Er Hh) in S. apply Dn in S; [|lia].
        destruct (b_root c) as [|rr] eqn:Erc; [now rewrite sees_disk in S|].
        pose proof (a_in _ _ _ _ _ _ _ _ Rr) as Hrr. destruct (Nrr rr eq_refl) as (Q1 & Q2 & _).
        split; [exact Hrr|]. split; [rewrite Rx, (Ro rr Q1); pose proof (a_rank _ _ _ _ _ _ _ _ Rr); lia|].
        destruct (v_get _ _ _ _ _ _ _ I rr Hrr) as [e E]. exists e. split; [exact E|]. pose proof (a_le _ _ _ _ _ _ _ _ Rr e E). split; [lia|exact S].
      - destruct (Z.eq_dec y r) as [->|N2].
        + rewrite C in D. injection D as <-. rewrite Gr in D'. injection D' as <-. cbn [set_kids set_root b_root].
          split; [exact Hx|]. split; [rewrite Rx, (Ro r N1); lia|]. exists b. split; [exact B|].
          pose proof (tail_le U t L rk _ _ m I x b Hx B). split; [lia|]. now apply Dn.
        + rewrite (RO y d d' N1 N2 D D'). destruct (b_root d) as [|q] eqn:Eq; [now rewrite sees_disk in S|].
          pose proof (rootn U t L rk _ _ m I y d q Hy D Eq) as A. pose proof (a_in _ _ _ _ _ _ _ _ A) as Hq. pose proof (a_rank _ _ _ _ _ _ _ _ A) as Rq.
          split; [exact Hq|]. split; [apply Ro2; try assumption; intros ->; lia|]. destruct (v_get _ _ _ _ _ _ _ I q Hq) as [e E].
          exists e. split; [exact E|]. pose proof (a_le _ _ _ _ _ _ _ _ A e E). split; [lia|exact S]. }
    pose proof (recore_grow t t5 L RC) as G.
    assert (Tp : top t5 = top t) by (unfold top, disk_head; now rewrite F5).
    assert (Dh : disk_head t5 = disk_head t) by (unfold disk_head; now rewrite F5).
    destruct (a_see _ _ _ _ _ _ _ _ At) as (kx & Skx & Xkx).
    assert (TX : b_tailX b = b_tailX c).
    { rewrite <- Xkx. apply (sees_tail U t L rk _ _ m I r c kx Hr C). rewrite <- Et. exact Skx. }
    split; [exact RC|]. split; [|split; [exact K|exact RO]].
    apply (inv_make U t t5 L rk None det m rk' (Some (r, lo)) None m' I RC).
    - unfold m'. destruct (b_root c); [exact Hx|apply I].
    - intros y Hy. rewrite F1 in Hy. split; [now apply (v_list _ _ _ _ _ _ _ I)|discriminate].
    - intros y d' Hy D'. destruct (Z.eq_dec y x) as [->|N1].
      + rewrite Gx in D'. injection D' as <-. cbn [set_kids b_kids]. apply sadd_nodup. apply (v_wf _ _ _ _ _ _ _ I x b Hx B).
      + destruct (Z.eq_dec y r) as [->|N2].
        * rewrite Gr in D'. injection D' as <-. cbn [set_kids b_kids]. apply sdel_nodup. apply (v_wf _ _ _ _ _ _ _ I r c Hr C).
        * destruct (v_get _ _ _ _ _ _ _ I y Hy) as [d D]. destruct (b_root c) as [|rr] eqn:Erc.
          -- rewrite Go in D' by (try assumption; discriminate). apply (v_wf _ _ _ _ _ _ _ I y d' Hy D').
          -- destruct (Z.eq_dec y rr) as [->|N3].
             ++ destruct (Grr rr d eq_refl D) as (d2 & D2 & _ & _ & ND & _). rewrite D' in D2. now injection D2 as <-.
             ++ rewrite Go in D' by (try assumption; congruence). apply (v_wf _ _ _ _ _ _ _ I y d' Hy D').
    - intros y d' Hy D'. destruct (Z.eq_dec y x) as [->|N1].
      { rewrite Gx in D'. injection D' as <-. cbn [set_kids set_root b_root].
        destruct (b_root c) as [|rr] eqn:Erc.
        - destruct Rr as (-> & R2 & R3). split; [reflexivity|]. cbn [set_kids set_root b_tail b_tailX]. rewrite Tp, Dh. split; congruence.
        - pose proof (a_in _ _ _ _ _ _ _ _ Rr) as Hrr. destruct (Nrr rr eq_refl) as (Q1 & Q2 & Q3). destruct Rr as [A1 A2 A3 A4 (kr & Sr & Xr) A6].
          constructor; cbn [set_kids set_root b_tail b_tailX].
          + exact A1. + rewrite Rx, (Ro rr Q1). lia. + exact Nxm.
          + intros e E. destruct (recore_back t t5 rr e RC E) as (e0 & E0 & (_ & H0 & _)). specialize (A4 e0 E0). lia.
          + exists kr. split; [|congruence]. rewrite Et. destruct (v_get _ _ _ _ _ _ _ I rr Hrr) as [e0 E0]. apply (K rr e0 _ kr Hrr E0 (A4 e0 E0) Sr).
          + intros Nm e E. destruct (recore_back t t5 rr e RC E) as (e0 & E0 & (_ & _ & _ & T0 & _)). destruct (A6 Nm e0 E0) as [Z1 Z2].
            unfold eff in *. destruct (Z.eqb_spec r rr); [congruence|]. rewrite T0. split; [lia|].
            destruct (a_eff _ _ _ _ _ _ _ _ At Q3 c C) as [Z3 Z4]. unfold eff in Z3, Z4.
            pose proof (tail_le U t L rk _ _ m I rr e0 Hrr E0). pose proof (tail_le U t L rk _ _ m I r c Hr C).
            apply (share_keep t t5 L x rr (b_tail e0) _ Hx Hrr K G); [|lia].
            apply (share_trans U HU t L rk _ _ m I x r rr (b_tail c) (b_tail e0) Hx Hr Hrr); try lia; assumption. }
      destruct (Z.eq_dec y r) as [->|N2].
      { rewrite Gr in D'. injection D' as <-. cbn [set_kids set_root b_root].
        constructor; cbn [set_kids set_root b_tail b_tailX].
        - exact Hx. - rewrite Rx, (Ro r N1). lia.
        - unfold m'. destruct (b_root c) as [|rr] eqn:Erc; [congruence|]. now destruct (Nrr rr eq_refl).
        - intros e E. rewrite Gx in E. injection E as <-. cbn [set_kids set_root b_head]. pose proof (tail_le U t L rk _ _ m I x b Hx B). lia.
        - exists kx. split; [|congruence]. rewrite <- Et. pose proof (tail_le U t L rk _ _ m I x b Hx B).
          apply (K x b (b_tail b) kx Hx B ltac:(lia)). apply (child_sees U t L rk _ _ m I x b r _ _ Hx B Er); [lia|exact Skx].
        - intros Nm e E. rewrite Gx in E. injection E as <-. unfold eff. destruct (Z.eqb_spec r x); [congruence|]. cbn [set_kids set_root b_tail].
          split; [lia|]. unfold m' in Nm. destruct (b_root c) as [|rr] eqn:Erc; [congruence|]. destruct (Nrr rr eq_refl) as (_ & _ & Q3).
          destruct (a_eff _ _ _ _ _ _ _ _ At Q3 c C) as [_ Z4]. unfold eff in Z4. rewrite Et.
          assert (Sy : share t r x (b_tail c)) by (destruct Z4 as (h & k & bx & b2 & P1 & P2 & P3 & P4 & P5 & P6 & P7); exists h, k, b2, bx; repeat split; assumption).
          exact (share_keep t t5 L r x _ _ Hr Hx K G Sy (Z.le_refl _)). }
      destruct (recore_back t t5 y d' RC D') as (d & D & SC). pose proof SC as (_ & _ & _ & S4 & S5).
      rewrite (RO y d d' N1 N2 D D'). pose proof (v_root _ _ _ _ _ _ _ I y d Hy D) as Q. destruct (b_root d) as [|q] eqn:Eq.
      + destruct Q as (-> & Q2 & Q3). unfold m'. destruct (b_root c) as [|rr] eqn:Erc; [destruct Rr as (X & _); congruence|].
        rewrite Tp, Dh. split; [reflexivity|]. split; congruence.
      + pose proof (a_in _ _ _ _ _ _ _ _ Q) as Hq. pose proof (a_rank _ _ _ _ _ _ _ _ Q) as Rq. pose proof (a_not _ _ _ _ _ _ _ _ Q) as Nym.
        destruct (v_get _ _ _ _ _ _ _ I q Hq) as [e E]. destruct (recore_get t t5 q e RC E) as (e' & E' & (_ & Eh & _ & Etl & _)).
        destruct Q as [A1 A2 A3 A4 (kq & Sq & Xq) A6]. pose proof (A4 e E) as Hqe. constructor.
        * exact A1.
        * apply Ro2; try assumption. intros ->. lia.
        * unfold m'. destruct (b_root c); [exact N1|exact Nym].
        * intros e2 E2. rewrite E' in E2. injection E2 as <-. lia.
        * exists kq. split; [|congruence]. rewrite S4. exact (K q e _ kq Hq E Hqe Sq).
        * intros Nm e2 E2. rewrite E' in E2. injection E2 as <-. rewrite S4. unfold eff. destruct (Z.eqb_spec r q) as [<-|Nq].
          -- rewrite C in E. injection E as <-. unfold lo. destruct (b_root c) as [|rr] eqn:Erc.
             ++ pose proof (tail_le U t L rk _ _ m I y d Hy D) as Ty. pose proof (tail_le U t L rk _ _ m I r c Hr C) as Tr. split; [lia|].
                destruct (sees_all U t L rk _ _ m I y Hy d (base t) D ltac:(lia)) as (k0 & S0 & _).
                apply (share_keep t t5 L y r (base t - 1) _ Hy Hr K G); [|lia].
                apply (share_at t y r d c (base t) k0); try assumption; try lia.
                apply (child_sees U t L rk _ _ m I y d r _ _ Hy D Eq); [lia|exact S0].
             ++ destruct (Nrr rr eq_refl) as (_ & _ & Q3). destruct (A6 Q3 c C) as [Z1 Z2]. unfold eff in Z1, Z2. split; [exact Z1|].
                exact (share_keep t t5 L y r _ _ Hy Hr K G Z2 (Z.le_refl _)).
          -- assert (Qm : q <> m).
             { unfold m' in Nm. destruct (b_root c) as [|rr]; [|exact Nm]. destruct Rr as (-> & _). congruence. }
             destruct (A6 Qm e E) as [Z1 Z2]. unfold eff in Z1, Z2. rewrite Etl. split; [exact Z1|].
             exact (share_keep t t5 L y q _ _ Hy Hq K G Z2 (Z.le_refl _)).
    - assert (RootC : forall z q, (exists cz, bget t5 z = Some cz /\ b_root cz = Node q) <->
                (z = x /\ b_root c = Node q) \/ (z = r /\ q = x) \/ (z <> x /\ z <> r /\ exists cz, bget t z = Some cz /\ b_root cz = Node q)).
      { intros z q. destruct (Z.eq_dec z x) as [->|Z1].
        - split; [intros (cz & A & E); left; rewrite Gx in A; injection A as <-; cbn in E; now split|].
          intros [[_ E]|[[E _]|[E _]]]; [|congruence|congruence]. eexists. split; [exact Gx|exact E].
        - destruct (Z.eq_dec z r) as [->|Z2].
          + split; [intros (cz & A & E); right; left; rewrite Gr in A; injection A as <-; cbn in E; split; congruence|].
            intros [[E _]|[[_ ->]|[_ [E _]]]]; try congruence. eexists. split; [exact Gr|reflexivity].
          + split.
            * intros (cz & A & E). right. right. split; [exact Z1|]. split; [exact Z2|].
              destruct (recore_back t t5 z cz RC A) as (c0 & A0 & _). exists c0. split; [exact A0|]. rewrite <- E. symmetry. exact (RO z c0 cz Z1 Z2 A0 A).
            * intros [[E _]|[[E _]|[_ [_ (c0 & A0 & E)]]]]; try congruence. destruct (recore_get t t5 z c0 RC A0) as (c1 & A1 & _).
              exists c1. split; [exact A1|]. rewrite <- E. exact (RO z c0 c1 Z1 Z2 A0 A1). }
      assert (Dz : forall z, z <> x -> det <> Some z) by (intros z N; destruct Hdet as [->| ->]; congruence).
      assert (Vx : forall q, (exists cz, bget t x = Some cz /\ b_root cz = Node q) <-> q = r).
      { intro q. split; [intros (cz & A & E); rewrite B in A; injection A as <-; congruence|intros ->; eauto]. }
      assert (Vr : forall q, (exists cz, bget t r = Some cz /\ b_root cz = Node q) <-> b_root c = Node q).
      { intro q. split; [intros (cz & A & E); rewrite C in A; injection A as <-; congruence|intro; eauto]. }
      intros y d' z Hy D'. rewrite RootC. destruct (v_get _ _ _ _ _ _ _ I y Hy) as [d D].
      pose proof (v_kids _ _ _ _ _ _ _ I y d z Hy D) as Q.
      destruct (Z.eq_dec y x) as [->|N1].
      { rewrite Gx in D'. injection D' as <-. rewrite B in D. injection D as <-. cbn [set_kids b_kids]. rewrite sadd_In, Q. split.
        - intros [->|(A1 & A2 & A3)].
          + split; [exact Hr|]. split; [right; left; now split|discriminate].
          + split; [exact A1|]. split; [|discriminate]. destruct (Z.eq_dec z x) as [->|Z1]; [apply Vx in A2; congruence|].
            destruct (Z.eq_dec z r) as [->|Z2]; [right; left; now split|]. right. right. now repeat split.
        - intros (A1 & [[-> E]|[[-> _]|(Z1 & Z2 & A2)]] & _); [destruct (Nrr x E); congruence|now left|].
          right. split; [exact A1|]. split; [exact A2|now apply Dz]. }
      destruct (Z.eq_dec y r) as [->|N2].
      { rewrite Gr in D'. injection D' as <-. rewrite C in D. injection D as <-. cbn [set_kids b_kids]. rewrite sdel_In, Q. split.
        - intros ((A1 & A2 & A3) & Z1). split; [exact A1|]. split; [|discriminate].
          destruct (Z.eq_dec z r) as [->|Z2]; [apply Vr in A2; destruct (Nrr r A2) as (_ & X & _); congruence|]. right. right. now repeat split.
        - intros (A1 & [[-> E]|[[-> E]|(Z1 & Z2 & A2)]] & _); [destruct (Nrr r E) as (_ & X & _); congruence|congruence|].
          split; [|exact Z1]. split; [exact A1|]. split; [exact A2|now apply Dz]. }
      assert (Same : b_root c <> Node y -> (In z (b_kids d') <-> In z L /\
          (z = x /\ b_root c = Node y \/ z = r /\ y = x \/ z <> x /\ z <> r /\ (exists cz, bget t z = Some cz /\ b_root cz = Node y)) /\ None <> Some z)).
      { intro Ny. rewrite Go in D' by assumption. rewrite D in D'. injection D' as <-. rewrite Q. split.
        - intros (A1 & A2 & A3). split; [exact A1|]. split; [|discriminate]. right. right.
          split; [intros ->; apply Vx in A2; congruence|]. split; [intros ->; apply Vr in A2; congruence|exact A2].
        - intros (A1 & [[_ E]|[[_ E]|(Z1 & Z2 & A2)]] & _); [congruence|congruence|]. split; [exact A1|]. split; [exact A2|now apply Dz]. }
      destruct (b_root c) as [|rr] eqn:Erc; [apply Same; discriminate|].
      destruct (Z.eq_dec y rr) as [->|N3]; [|apply Same; congruence].
      destruct (Grr rr d eq_refl D) as (d2 & D2 & _ & _ & _ & Kd). rewrite D' in D2. injection D2 as <-. rewrite Kd, Q. split.
      + intros [->|((A1 & A2 & A3) & Zr)].
        * split; [exact Hx|]. split; [left; now split|discriminate].
        * split; [exact A1|]. split; [|discriminate]. destruct (Z.eq_dec z x) as [->|Z1]; [now left|]. right. right. now repeat split.
      + intros (A1 & [[-> E]|[[-> E]|(Z1 & Z2 & A2)]] & _); [now left|congruence|]. right. split; [|exact Z2]. split; [exact A1|]. split; [exact A2|now apply Dz].
  Qed.
End Exchange.
