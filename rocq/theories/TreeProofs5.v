(** * The candidate tree: changing parents *)
From Coq Require Import ZArith List Bool Lia Permutation.
From Verif Require Import Lib TreeModel TreeSpec TreeProofs TreeProofs2 TreeProofs3 TreeProofs4.
Import ListNotations.
Local Open Scope Z_scope.

(** The same branches with the same blocks; parents and children may differ *)
Definition recore (t t' : tree) : Prop :=
  t_disk t' = t_disk t /\ t_next t' = t_next t /\
  forall y, match bget t y, bget t' y with Some c, Some c' => same_core c c' | None, None => True | _, _ => False end.
Lemma recore_get t t' y c : recore t t' -> bget t y = Some c -> exists c', bget t' y = Some c' /\ same_core c c'.
Proof. intros (_ & _ & H) E. specialize (H y). rewrite E in H. destruct (bget t' y); [eauto|contradiction]. Qed.
Lemma recore_back t t' y c' : recore t t' -> bget t' y = Some c' -> exists c, bget t y = Some c /\ same_core c c'.
Proof. intros (_ & _ & H) E. specialize (H y). rewrite E in H. destruct (bget t y); [eauto|contradiction]. Qed.
Lemma recore_refl t : recore t t.
Proof. split; [reflexivity|]. split; [reflexivity|]. intro y. destruct (bget t y); [apply same_core_refl|exact Logic.I]. Qed.
Lemma same_core_trans a b c : same_core a b -> same_core b c -> same_core a c.
Proof. intros (A1 & A2 & A3 & A4 & A5) (B1 & B2 & B3 & B4 & B5). unfold same_core. repeat split; congruence. Qed.
Lemma recore_trans a b c : recore a b -> recore b c -> recore a c.
Proof.
  intros (A1 & A2 & A3) (B1 & B2 & B3). split; [congruence|]. split; [congruence|]. intro y. specialize (A3 y). specialize (B3 y).
  destruct (bget a y), (bget b y), (bget c y); try tauto. exact (same_core_trans _ _ _ A3 B3).
Qed.
Lemma recore_grow t t' L : recore t t' -> grow t t' L.
Proof.
  intros R x b _ E. destruct (recore_get t t' x b R E) as (c' & E' & (_ & H & _)). exists c'. split; [exact E'|lia].
Qed.
(** The fields other than the heap *)
Definition fields (t t' : tree) : Prop :=
  t_list t' = t_list t /\ t_main t' = t_main t /\ t_next t' = t_next t /\ t_hashes t' = t_hashes t /\ t_disk t' = t_disk t.
Lemma fields_refl t : fields t t. Proof. repeat split. Qed.
Lemma fields_trans a b c : fields a b -> fields b c -> fields a c.
Proof. intros (A1 & A2 & A3 & A4 & A5) (B1 & B2 & B3 & B4 & B5). unfold fields. repeat split; congruence. Qed.

Lemma upd_simple t v x r bv bx b : v <> x -> v <> r -> x <> r ->
  bget t v = Some bv -> bget t x = Some bx -> bget t r = Some b ->
  exists t', update_root_simple t v (Node x) (Node r) = Some t' /\ fields t t' /\
    bget t' v = Some (set_root bv (Node r)) /\ bget t' x = Some (set_kids bx (sdel v (b_kids bx))) /\
    bget t' r = Some (set_kids b (sadd v (b_kids b))) /\ (forall y, y <> v -> y <> x -> y <> r -> bget t' y = bget t y).
Proof.
  intros N1 N2 N3 Ev Ex Er. unfold update_root_simple, remove_child. rewrite Ex. cbn [bind].
  rewrite bget_other by exact N1. rewrite Ev. cbn [bind]. unfold add_child.
  rewrite bget_other by congruence. rewrite bget_other by congruence. rewrite Er. cbn [bind].
  eexists. split; [reflexivity|]. split; [repeat split|].
  split. { rewrite bget_other by congruence. apply bget_same. }
  split. { rewrite bget_other by congruence. rewrite bget_other by congruence. apply bget_same. }
  split; [apply bget_same|]. intros y Y1 Y2 Y3. now rewrite !bget_other by congruence.
Qed.

Section Roots.
  Context (U : knot -> Prop) (HU : honest U).

  Lemma inv_make t t' L rk ex det m rk' ex' det' m' :
    inv U t L rk ex det m -> recore t t' -> In m' L ->
    (forall y, In y (t_list t') -> In y L /\ det' <> Some y) ->
    (forall y c', In y L -> bget t' y = Some c' -> NoDup (b_kids c')) ->
    (forall y c', In y L -> bget t' y = Some c' ->
       match b_root c' with
       | Disk => y = m' /\ b_tail c' = top t' /\ b_tailX c' = k_hash (disk_head t')
       | Node r => attached t' L rk' ex' m' y c' r
       end) ->
    (forall y c' z, In y L -> bget t' y = Some c' ->
       (In z (b_kids c') <-> In z L /\ (exists cz, bget t' z = Some cz /\ b_root cz = Node y) /\ det' <> Some z)) ->
    inv U t' L rk' ex' det' m'.
  Proof.
    intros I R Hm Hl Hn Hr Hk. pose proof R as (Ed & En & _). destruct I as [I1 I2 I3 I4 I5 I6 I7 I8 I9 I10]. constructor; try assumption.
    - unfold disk_ok in *. now rewrite Ed.
    - now rewrite Ed.
    - intros y Hy. destruct (I6 y Hy) as [c C]. destruct (recore_get t t' y c R C) as (c' & C' & _). eauto.
    - intros y c' Hy C'. destruct (recore_back t t' y c' R C') as (c & C & S). destruct (I7 y c Hy C) as (W & V & T & _).
      split; [exact (wfb_core c c' S W)|]. destruct S as (S1 & S2 & S3 & S4 & S5).
      split; [rewrite S1; exact V|]. split; [unfold base in *; rewrite Ed, S4; exact T|]. exact (Hn y c' Hy C').
    - intros y c' C'. destruct (recore_back t t' y c' R C') as (c & C & _). rewrite En. exact (I8 y c C).
  Qed.

  (** Everyone sees the same if the new parents show below the tail what the old ones did *)
  Lemma keep_reroot t t' L rk ex det m (rk' : Z -> nat) :
    inv U t L rk ex det m -> recore t t' ->
    (forall y b b' h k, In y L -> bget t y = Some b -> bget t' y = Some b' -> h <= b_tail b -> sees t (b_root b) h k ->
       match b_root b' with
       | Disk => disk_get t h = Some k
       | Node q => In q L /\ (rk' q < rk' y)%nat /\ exists c, bget t q = Some c /\ h <= b_head c /\ sees t (Node q) h k
       end) ->
    keep t t' L.
  Proof.
    intros I R H x b h k Hx. revert b h k. revert x Hx.
    apply (rank_ind L rk' (fun x => forall b h k, bget t x = Some b -> h <= b_head b -> sees t (Node x) h k -> sees t' (Node x) h k)).
    intros x Hx IH b h k B Hh S. destruct (recore_get t t' x b R B) as (b' & B' & C).
    pose proof C as (C1 & C2 & C3 & C4 & C5). pose proof (wf_of U t L rk _ _ m I x b Hx B) as W.
    destruct (Z_le_gt_dec h (b_tail b)) as [LE|GT].
    - apply (sees_root U t L rk _ _ m I x b h k Hx B LE) in S. specialize (H x b b' h k Hx B B' LE S).
      apply (s_up t' x b'); [|exact B'|].
      + rewrite (local_node t' x b' h B'), C1. destruct (mget h (b_blocks b)) eqn:F; [|reflexivity]. apply (w_dom b W) in F. lia.
      + destruct (b_root b') as [|q].
        * rewrite sees_disk. unfold disk_get in *. destruct R as (Ed & _). now rewrite Ed.
        * destruct H as (Hq & Hrk & c & C0 & Hc & Sq). exact (IH q Hq Hrk c h k C0 Hc Sq).
    - apply (sees_own U t L rk _ _ m I x b h k Hx B) in S; [|lia]. constructor. now rewrite (local_node t' x b' h B'), C1.
  Qed.

  Lemma attached_rank t L rk rk' ex m m' x b r : attached t L rk ex m x b r -> (rk' r < rk' x)%nat -> x <> m' ->
    (r <> m' -> forall c, bget t r = Some c -> eff ex r c <= b_tail b /\ share t x r (eff ex r c)) -> attached t L rk' ex m' x b r.
  Proof. intros [A1 A2 A3 A4 A5 A6] H N E. constructor; assumption. Qed.

  (** ** Moving [v] from its parent [x] to [r] *)
  Lemma reparent t L rk ex det m v bv x bx r b :
    inv U t L rk ex det m -> In v L -> In r L -> bget t v = Some bv -> bget t x = Some bx -> bget t r = Some b ->
    b_root bv = Node x -> det <> Some v -> x <> r -> (rk r < rk v)%nat -> b_tail bv <= b_head b ->
    (forall h k, h <= b_tail bv -> sees t (Node x) h k -> sees t (Node r) h k) ->
    (r <> m -> eff ex r b <= b_tail bv /\ share t v r (eff ex r b)) ->
    exists t', update_root_simple t v (Node x) (Node r) = Some t' /\ fields t t' /\ recore t t' /\
      inv U t' L rk ex det m /\ keep t t' L /\
      (exists bv', bget t' v = Some bv' /\ b_root bv' = Node r) /\
      (exists bx', bget t' x = Some bx' /\ b_root bx' = b_root bx /\ b_kids bx' = sdel v (b_kids bx)) /\
      (forall y c c', y <> v -> bget t y = Some c -> bget t' y = Some c' -> b_root c' = b_root c).
  Proof.
    intros I Hv Hr Ev Ex Er Rv Dv Nxr Hrk Hle Hs He.
    pose proof (rootn U t L rk _ _ m I v bv x Hv Ev Rv) as At.
    pose proof (a_in _ _ _ _ _ _ _ _ At) as Hx. pose proof (a_rank _ _ _ _ _ _ _ _ At) as Rk.
    assert (N1 : v <> x) by (intros ->; lia). assert (N2 : v <> r) by (intros ->; lia).
    destruct (upd_simple t v x r bv bx b N1 N2 Nxr Ev Ex Er) as (t' & E & F & Gv & Gx & Gr & Go).
    exists t'. split; [exact E|]. split; [exact F|]. pose proof F as (F1 & F2 & F3 & F4 & F5).
    assert (RC : recore t t').
    { split; [exact F5|]. split; [exact F3|]. intro y.
      destruct (Z.eq_dec y v) as [->|Y1]; [rewrite Ev, Gv; repeat split|].
      destruct (Z.eq_dec y x) as [->|Y2]; [rewrite Ex, Gx; repeat split|].
      destruct (Z.eq_dec y r) as [->|Y3]; [rewrite Er, Gr; repeat split|].
      rewrite Go by assumption. destruct (bget t y); [apply same_core_refl|exact Logic.I]. }
    assert (RO : forall y c c', y <> v -> bget t y = Some c -> bget t' y = Some c' -> b_root c' = b_root c).
    { intros y c c' Y1 C C'. destruct (Z.eq_dec y x) as [->|Y2]; [rewrite Gx in C'; rewrite Ex in C; injection C' as <-; injection C as <-; reflexivity|].
      destruct (Z.eq_dec y r) as [->|Y3]; [rewrite Gr in C'; rewrite Er in C; injection C' as <-; injection C as <-; reflexivity|].
      rewrite Go in C' by assumption. congruence. }
    assert (K : keep t t' L).
    { apply (keep_reroot t t' L rk ex det m rk I RC). intros y c c' h k Hy C C' Hh S. destruct (Z.eq_dec y v) as [->|Y1].
      - rewrite Gv in C'. injection C' as <-. rewrite Ev in C. injection C as <-. cbn [set_root b_root]. rewrite Rv in S.
        split; [exact Hr|]. split; [exact Hrk|]. exists b. split; [exact Er|]. split; [lia|]. now apply Hs.
      - rewrite (RO y c c' Y1 C C'). destruct (b_root c) as [|q] eqn:Eq; [now rewrite sees_disk in S|].
        pose proof (rootn U t L rk _ _ m I y c q Hy C Eq) as A. pose proof (a_in _ _ _ _ _ _ _ _ A) as Hq.
        split; [exact Hq|]. split; [apply (a_rank _ _ _ _ _ _ _ _ A)|]. destruct (v_get _ _ _ _ _ _ _ I q Hq) as [d D].
        exists d. split; [exact D|]. pose proof (a_le _ _ _ _ _ _ _ _ A d D). split; [lia|exact S]. }
    pose proof (recore_grow t t' L RC) as G.
    assert (Eff : forall q d d', bget t q = Some d -> bget t' q = Some d' -> eff ex q d' = eff ex q d).
    { intros q d d' D D'. destruct (recore_get t t' q d RC D) as (d2 & D2 & (_ & _ & _ & S4 & _)). rewrite D' in D2. injection D2 as <-.
      unfold eff. destruct ex as [[? ?]|]; [destruct (_ =? _); [reflexivity|]|]; exact S4. }
    split; [exact RC|]. split.
    { apply (inv_make t t' L rk ex det m rk ex det m I RC).
      - apply I.
      - rewrite F1. apply (v_list _ _ _ _ _ _ _ I).
      - intros y c' Hy C'. destruct (recore_back t t' y c' RC C') as (c & C & _).
        pose proof (v_wf _ _ _ _ _ _ _ I y c Hy C) as (_ & _ & _ & ND).
        destruct (Z.eq_dec y v) as [->|Y1]; [rewrite Gv in C'; rewrite Ev in C; injection C' as <-; injection C as <-; exact ND|].
        destruct (Z.eq_dec y x) as [->|Y2]; [rewrite Gx in C'; rewrite Ex in C; injection C' as <-; injection C as <-; now apply sdel_nodup|].
        destruct (Z.eq_dec y r) as [->|Y3]; [rewrite Gr in C'; rewrite Er in C; injection C' as <-; injection C as <-; now apply sadd_nodup|].
        rewrite Go in C' by assumption. rewrite C in C'. now injection C' as <-.
      - intros y c' Hy C'. destruct (recore_back t t' y c' RC C') as (c & C & SC). pose proof SC as (_ & _ & _ & S4 & S5).
        destruct (Z.eq_dec y v) as [->|Y1].
        + rewrite Gv in C'. injection C' as <-. rewrite Ev in C. injection C as <-. cbn [set_root b_root].
          destruct At as [A1 A2 A3 A4 (k1 & Sk & Xk) A6]. constructor; try assumption.
          * intros d D. rewrite Gr in D. injection D as <-. exact Hle.
          * exists k1. split; [|exact Xk]. apply (K r b _ _ Hr Er Hle). apply Hs; [cbn; lia|exact Sk].
          * intros Nm d D. rewrite (Eff r b d Er D). destruct (He Nm) as [Q1 Q2]. split; [exact Q1|].
            exact (share_keep t t' L v r _ _ Hv Hr K G Q2 (Z.le_refl _)).
        + rewrite (RO y c c' Y1 C C'). pose proof (v_root _ _ _ _ _ _ _ I y c Hy C) as Q. destruct (b_root c) as [|q] eqn:Eq.
          * destruct Q as (Q1 & Q2 & Q3). unfold top, disk_head in *. rewrite F5. split; [exact Q1|]. split; congruence.
          * pose proof (a_in _ _ _ _ _ _ _ _ Q) as Hq.
            apply (attached_keep t t' L rk ex ex m y c c' q Q Hy K G S4 S5 (v_get _ _ _ _ _ _ _ I q Hq)).
            intros _ d d' D D'. rewrite (Eff q d d' D D'). lia.
      - assert (Root : forall z q, (exists cz, bget t' z = Some cz /\ b_root cz = Node q) <->
                  (z = v /\ q = r) \/ (z <> v /\ exists cz, bget t z = Some cz /\ b_root cz = Node q)).
        { intros z q. destruct (Z.eq_dec z v) as [->|Z1].
          - split; [intros (cz & C & Q); left; rewrite Gv in C; injection C as <-; cbn in Q; split; congruence|].
            intros [[_ ->]|[X _]]; [|congruence]. eexists. split; [exact Gv|reflexivity].
          - split.
            + intros (cz & C & Q). right. split; [exact Z1|]. destruct (recore_back t t' z cz RC C) as (c & C0 & _).
              exists c. split; [exact C0|]. now rewrite <- (RO z c cz Z1 C0 C).
            + intros [[X _]|[_ (c & C & Q)]]; [congruence|]. destruct (recore_get t t' z c RC C) as (c' & C' & _).
              exists c'. split; [exact C'|]. now rewrite (RO z c c' Z1 C C'). }
        intros y c' z Hy C'. rewrite Root. destruct (recore_back t t' y c' RC C') as (c & C & _).
        pose proof (v_kids _ _ _ _ _ _ _ I y c z Hy C) as Q.
        assert (Qv : y <> x -> ~ (exists cz, bget t v = Some cz /\ b_root cz = Node y)).
        { intros Ny (cz & A & B). rewrite Ev in A. injection A as <-. congruence. }
        assert (Nk : b_kids c' = if y =? x then sdel v (b_kids c) else if y =? r then sadd v (b_kids c) else b_kids c).
        { destruct (Z.eqb_spec y x) as [->|Y2]; [rewrite Gx in C'; rewrite Ex in C; injection C' as <-; injection C as <-; reflexivity|].
          destruct (Z.eqb_spec y r) as [->|Y3]; [rewrite Gr in C'; rewrite Er in C; injection C' as <-; injection C as <-; reflexivity|].
          destruct (Z.eq_dec y v) as [->|Y1]; [rewrite Gv in C'; rewrite Ev in C; injection C' as <-; injection C as <-; reflexivity|].
          rewrite Go in C' by assumption. congruence. }
        rewrite Nk. destruct (Z.eqb_spec y x) as [->|Y2].
        + rewrite sdel_In, Q. split.
          * intros ((A & B & D) & N). split; [exact A|]. split; [right; split; [congruence|exact B]|exact D].
          * intros (A & [[_ X]|[N B]] & D); [congruence|]. split; [|congruence]. tauto.
        + destruct (Z.eqb_spec y r) as [->|Y3].
          * rewrite sadd_In, Q. split.
            -- intros [->|(A & B & D)].
               ++ split; [exact Hv|]. split; [left; now split|]. exact Dv.
               ++ split; [exact A|]. split; [|exact D]. right. split; [|exact B]. intros ->. now apply (Qv Y2).
            -- intros (A & [[-> _]|[N B]] & D); [now left|]. right. tauto.
          * rewrite Q. split.
            -- intros (A & B & D). split; [exact A|]. split; [|exact D]. right. split; [|exact B]. intros ->. now apply (Qv Y2).
            -- intros (A & [[_ X]|[N B]] & D); [congruence|]. tauto. }
    split; [exact K|]. split; [eexists; split; [exact Gv|reflexivity]|].
    split; [eexists; split; [exact Gx|split; reflexivity]|exact RO].
  Qed.

  (** ** The loops over children *)
  Lemma move_is_prune t x old r ks t' : kids_after_prune t x (Node r) ks = Some t' -> move_kids t x old (Node r) ks = Some t'.
  Proof.
    revert t. induction ks as [|v ks IH]; intros t E; [exact E|]. cbn [kids_after_prune move_kids] in *.
    destruct (bget t v) as [bv|]; [|discriminate]. cbn [bind] in *. destruct (bget t x) as [bx|]; [|discriminate]. cbn [bind] in *.
    destruct (local_contains bx _ _); [now apply IH|].
    destruct (contains t (Node r) _ _ true) as [[|]|]; try discriminate. cbn [bind] in *.
    destruct (update_root_simple t v (Node x) (Node r)) as [t1|]; [|discriminate]. cbn [bind] in *. now apply IH.
  Qed.
  Lemma kids_loop x r lo det m L rk : forall ks t b,
    inv U t L rk (Some (x, lo)) det m -> In x L -> bget t x = Some b -> b_root b = Node r ->
    (r <> m -> forall c, bget t r = Some c -> b_tail c <= lo) ->
    NoDup ks -> (forall v, In v ks -> In v (b_kids b)) ->
    exists t' b', kids_after_prune t x (Node r) ks = Some t' /\ fields t t' /\ recore t t' /\
      inv U t' L rk (Some (x, lo)) det m /\ keep t t' L /\ bget t' x = Some b' /\ b_root b' = Node r /\
      (forall v, In v (b_kids b') -> In v (b_kids b)) /\
      (forall v bv, In v ks -> In v (b_kids b') -> bget t' v = Some bv -> b_tail b' < b_tail bv) /\
      (forall y c c', bget t y = Some c -> bget t' y = Some c' -> b_root c' = b_root c \/ (b_root c = Node x /\ b_root c' = Node r)).
  Proof.
    induction ks as [|v ks IH]; intros t b I Hx B Er Hlo ND Hks.
    - exists t, b. cbn [kids_after_prune]. split; [reflexivity|]. split; [apply fields_refl|]. split; [apply recore_refl|].
      split; [exact I|]. split; [intros ? ? ? ? _ _ _ X; exact X|]. split; [exact B|]. split; [exact Er|]. split; [auto|].
      split; [intros ? ? []|]. intros y c c' C C'. rewrite C in C'. injection C' as <-. now left.
    - cbn [kids_after_prune]. inversion ND as [|? ? Nv ND']; subst.
      pose proof (rootn U t L rk _ _ m I x b r Hx B Er) as At. pose proof (a_in _ _ _ _ _ _ _ _ At) as Hr.
      destruct (v_get _ _ _ _ _ _ _ I r Hr) as [c C]. pose proof (a_le _ _ _ _ _ _ _ _ At c C) as Hle.
      pose proof (a_rank _ _ _ _ _ _ _ _ At) as Rk. pose proof (a_not _ _ _ _ _ _ _ _ At) as Nm.
      assert (Nxr : x <> r) by (intros ->; lia).
      destruct (proj1 (v_kids _ _ _ _ _ _ _ I x b v Hx B) (Hks v (or_introl eq_refl))) as (Hv & (bv & Bv & Rv) & Dv).
      rewrite Bv. cbn [bind]. rewrite B. cbn [bind].
      pose proof (rootn U t L rk _ _ m I v bv x Hv Bv Rv) as Av. pose proof (a_rank _ _ _ _ _ _ _ _ Av) as Rkv.
      destruct (local_contains b (b_tail bv) (b_tailX bv)) eqn:LC.
      + destruct (IH t b I Hx B Er Hlo ND' (fun w H => Hks w (or_intror H))) as (t' & b' & E & F & RC & I' & K & B' & Er' & Sub & Tl & RO).
        exists t', b'. split; [exact E|]. do 7 (split; [assumption|]). split; [|exact RO].
        intros w bw [<-|Hw] Hk Bw; [|exact (Tl w bw Hw Hk Bw)].
        destruct (recore_get t t' v bv RC Bv) as (bv' & Bv' & (_ & _ & _ & S4 & _)). rewrite Bw in Bv'. injection Bv' as <-.
        destruct (recore_get t t' x b RC B) as (bx' & Bx' & (_ & _ & _ & S4' & _)). rewrite B' in Bx'. injection Bx' as <-.
        destruct (Z_le_gt_dec (b_tail bv) (b_tail b)) as [LE|]; [|lia]. rewrite local_contains_low in LC by exact LE. discriminate.
      + assert (LE : b_tail bv <= b_tail b).
        { destruct (Z_le_gt_dec (b_tail bv) (b_tail b)) as [|GT]; [assumption|]. exfalso.
          destruct (a_see _ _ _ _ _ _ _ _ Av) as (k1 & Sk & Xk). pose proof (a_le _ _ _ _ _ _ _ _ Av b B).
          rewrite <- Xk in LC. rewrite (local_contains_true U t L rk _ _ m I x b _ k1 Hx B) in LC; [discriminate|lia|exact Sk]. }
        destruct (a_see _ _ _ _ _ _ _ _ Av) as (k1 & Sk & Xk).
        assert (Sr : sees t (Node r) (b_tail bv) k1) by (apply (child_sees U t L rk _ _ m I x b r _ _ Hx B Er LE); exact Sk).
        rewrite (contains_sees U t L rk _ _ m I r c (b_tail bv) k1 (b_tailX bv) Hr C ltac:(lia) Sr Xk). cbn [bind].
        destruct (reparent t L rk (Some (x, lo)) det m v bv x b r c I Hv Hr Bv B C Rv Dv Nxr) as (t1 & E1 & F1 & RC1 & I1 & K1 & (bv1 & Bv1 & Rv1) & (b1 & B1 & R1 & Kd1) & RO1).
        * lia.
        * lia.
        * intros h k Hh S. apply (child_sees U t L rk _ _ m I x b r h k Hx B Er); [lia|exact S].
        * intro Nr. pose proof (a_eff _ _ _ _ _ _ _ _ Av Nm b B) as [Q1 Q2]. pose proof (a_eff _ _ _ _ _ _ _ _ At Nr c C) as [Q3 Q4].
          unfold eff in *. rewrite Z.eqb_refl in Q1, Q2. destruct (Z.eqb_spec x r); [congruence|].
          specialize (Hlo Nr c C). split; [lia|].
          pose proof (tail_le U t L rk _ _ m I r c Hr C).
          apply (share_trans U HU t L rk _ _ m I v x r lo (b_tail c) Hv Hx Hr); try lia; assumption.
        * rewrite E1. cbn [bind].
          assert (Hlo1 : r <> m -> forall d, bget t1 r = Some d -> b_tail d <= lo).
          { intros Nr d D. destruct (recore_get t t1 r c RC1 C) as (d' & D' & (_ & _ & _ & S4 & _)). rewrite D in D'. injection D' as <-. specialize (Hlo Nr c C). lia. }
          destruct (IH t1 b1 I1 Hx B1 ltac:(congruence) Hlo1 ND') as (t' & b' & E & F & RC & I' & K & B' & Er' & Sub & Tl & RO).
          { intros w Hw. rewrite Kd1, sdel_In. split; [apply Hks; now right|]. intros ->. contradiction. }
          exists t', b'. split; [exact E|]. split; [exact (fields_trans _ _ _ F1 F)|]. split; [exact (recore_trans _ _ _ RC1 RC)|].
          split; [exact I'|]. split; [exact (keep_trans t t1 t' L L K1 K (recore_grow t t1 L RC1) (incl_refl L))|].
          split; [exact B'|]. split; [exact Er'|].
          split; [intros w Hw; specialize (Sub w Hw); rewrite Kd1, sdel_In in Sub; tauto|].
          split.
          -- intros w bw [<-|Hw] Hk Bw; [|exact (Tl w bw Hw Hk Bw)].
             specialize (Sub v Hk). rewrite Kd1, sdel_In in Sub. tauto.
          -- intros y d d' D D'. destruct (recore_get t t1 y d RC1 D) as (d1 & D1 & _).
             destruct (RO y d1 d' D1 D') as [Q|[Q1 Q2]].
             ++ destruct (Z.eq_dec y v) as [->|Ny].
                ** right. rewrite Bv in D. injection D as <-. rewrite Bv1 in D1. injection D1 as <-. split; congruence.
                ** left. rewrite Q. exact (RO1 y d d1 Ny D D1).
             ++ destruct (Z.eq_dec y v) as [->|Ny]; [rewrite Bv1 in D1; injection D1 as <-; congruence|].
                right. split; [|exact Q2]. rewrite <- (RO1 y d d1 Ny D D1). exact Q1.
  Qed.

  (** ** Ending a pruning *)
  Lemma inv_unex t L rk x lo det m b : inv U t L rk (Some (x, lo)) det m -> In x L -> bget t x = Some b ->
    (x <> m -> forall v bv, In v L -> bget t v = Some bv -> b_root bv = Node x -> b_tail b < b_tail bv) ->
    inv U t L rk None det m.
  Proof.
    intros I Hx B H. constructor; try apply I. intros y c Hy C. pose proof (v_root _ _ _ _ _ _ _ I y c Hy C) as R.
    destruct (b_root c) as [|r] eqn:Er; [exact R|]. destruct R as [R1 R2 R3 R4 R5 R6]. constructor; try assumption.
    intros N d D. specialize (R6 N d D). unfold eff in *. destruct (Z.eqb_spec x r) as [->|]; [|exact R6].
    rewrite B in D. injection D as <-. specialize (H N y c Hy C Er). split; [lia|].
    destruct R5 as (k & Sk & Xk). pose proof (R4 b B).
    apply (share_at t y r c b (b_tail c) k); try assumption; try lia.
    - pose proof (tail_le U t L rk _ _ m I y c Hy C). lia.
    - apply (child_sees U t L rk _ _ m I y c r _ _ Hy C Er (Z.le_refl _)). exact Sk.
  Qed.
End Roots.
