(** * The candidate tree: adding blocks, forking, moving with the ledger *)
From Coq Require Import ZArith List Bool Lia Permutation.
From Verif Require Import Lib TreeModel TreeSpec TreeProofs TreeProofs2 TreeProofs3.
Import ListNotations.
Local Open Scope Z_scope.

Lemma wfb_add_tail b w b' : wfb b -> add_tail b w = Some b' -> k_height w = b_tail b -> wfb b'.
Proof.
  intros W E H. unfold add_tail in E. destruct (Z.eqb_spec (b_tailX b) (k_hash w)) as [X|]; [|discriminate]. injection E as <-.
  rewrite H. pose proof (w_le b W). constructor; cbn [b_tail b_head b_blocks b_tailX b_headX].
  - lia.
  - intros h k F. rewrite mget_mset in F. destruct (Z.eqb_spec h (b_tail b)) as [->|N].
    + injection F as <-. lia.
    + destruct (w_dom b W _ _ F). lia.
  - intros h R. rewrite mget_mset. destruct (Z.eqb_spec h (b_tail b)); [eauto|]. apply (w_full b W). lia.
  - intros k F. rewrite mget_mset in F. replace (b_tail b - 1 + 1) with (b_tail b) in F by lia. rewrite Z.eqb_refl in F. now injection F as <-.
  - intros h k k' F F'. rewrite mget_mset in F, F'. destruct (Z.eqb_spec h (b_tail b)) as [->|N].
    + injection F as <-. destruct (Z.eqb_spec (b_tail b + 1) (b_tail b)); [lia|]. rewrite <- X. exact (w_first b W _ F').
    + destruct (Z.eqb_spec (h + 1) (b_tail b)) as [E|N']; [|exact (w_link b W _ _ _ F F')].
      destruct (w_dom b W _ _ F). lia.
  - lia.
  - intros k F. rewrite mget_mset in F. destruct (Z.eqb_spec (b_head b) (b_tail b)) as [E|N].
    + injection F as <-. now rewrite (w_head0 b W E).
    + exact (w_head b W _ F).
  - apply mset_nodup, W.
Qed.
Lemma wfb_add_head b k b' : wfb b -> add_head b k = Some b' -> k_height k = b_head b + 1 -> wfb b'.
Proof.
  intros W E H. unfold add_head in E. destruct (Z.eqb_spec (b_headX b) (k_prev k)) as [X|]; [|discriminate]. injection E as <-.
  rewrite H. pose proof (w_le b W). constructor; cbn [b_tail b_head b_blocks b_tailX b_headX].
  - lia.
  - intros h k1 F. rewrite mget_mset in F. destruct (Z.eqb_spec h (b_head b + 1)) as [->|N].
    + injection F as <-. lia.
    + destruct (w_dom b W _ _ F). lia.
  - intros h R. rewrite mget_mset. destruct (Z.eqb_spec h (b_head b + 1)); [eauto|]. apply (w_full b W). lia.
  - intros k1 F. rewrite mget_mset in F. destruct (Z.eqb_spec (b_tail b + 1) (b_head b + 1)) as [E|N].
    + injection F as <-. rewrite <- X. apply (w_head0 b W). lia.
    + exact (w_first b W _ F).
  - intros h k1 k' F F'. rewrite mget_mset in F, F'. destruct (Z.eqb_spec h (b_head b + 1)) as [->|N].
    + destruct (Z.eqb_spec (b_head b + 1 + 1) (b_head b + 1)); [lia|]. destruct (w_dom b W _ _ F'). lia.
    + destruct (Z.eqb_spec (h + 1) (b_head b + 1)) as [E|N']; [|exact (w_link b W _ _ _ F F')].
      injection F' as <-. rewrite <- X. apply (w_head b W). now replace (b_head b) with h by lia.
  - lia.
  - intros k1 F. rewrite mget_mset, Z.eqb_refl in F. now injection F as <-.
  - apply mset_nodup, W.
Qed.
Lemma wfb_remove_tail b k b' : wfb b -> remove_tail b k = Some b' -> mget (b_tail b + 1) (b_blocks b) = Some k -> wfb b'.
Proof.
  intros W E Hk. destruct (w_dom b W _ _ Hk) as [R Hh]. unfold remove_tail in E.
  destruct (negb _); [discriminate|]. destruct (_ >? _); [discriminate|]. injection E as <-. rewrite Hh.
  constructor; cbn [b_tail b_head b_blocks b_tailX b_headX].
  - lia.
  - intros h k' F. rewrite mget_mdel in F. destruct (Z.eqb_spec h (b_tail b + 1)); [discriminate|].
    destruct (w_dom b W _ _ F). lia.
  - intros h H. rewrite mget_mdel. destruct (Z.eqb_spec h (b_tail b + 1)); [lia|]. apply (w_full b W). lia.
  - intros k' F. rewrite mget_mdel in F. destruct (_ =? _); [discriminate|].
    exact (w_link b W _ _ _ Hk F).
  - intros h k1 k2 F1 F2. rewrite mget_mdel in F1, F2. destruct (_ =? _) in F1; [discriminate|]. destruct (_ =? _) in F2; [discriminate|].
    exact (w_link b W _ _ _ F1 F2).
  - intro Q. assert (X : mget (b_head b) (b_blocks b) = Some k) by (rewrite Q; exact Hk). exact (w_head b W k X).
  - intros k' F. rewrite mget_mdel in F. destruct (_ =? _); [discriminate|]. exact (w_head b W _ F).
  - apply mdel_nodup. apply W.
Qed.
Lemma find_in_app {A} (f : A -> bool) l r a : find f l = Some a -> find f (l ++ r) = Some a.
Proof. induction l as [|x l IH]; cbn [find app]; [discriminate|]. destruct (f x); auto. Qed.
Lemma find_not_last {A} (f : A -> bool) l w a : f w = false -> find f (l ++ [w]) = Some a -> find f l = Some a.
Proof.
  intro Hw. induction l as [|x l IH]; cbn [find app]; [rewrite Hw; discriminate|]. destruct (f x); auto.
Qed.

Section Blocks.
  Context (U : knot -> Prop) (HU : honest U).

  Lemma main_root t L rk ex det m c : inv U t L rk ex det m -> bget t m = Some c ->
    b_root c = Disk /\ b_tail c = top t /\ b_tailX c = k_hash (disk_head t).
  Proof.
    intros I C. pose proof (v_root _ _ _ _ _ _ _ I m c (v_main _ _ _ _ _ _ _ I) C) as R.
    destruct (b_root c) as [|q]; [destruct R as (_ & R); now split|].
    exfalso. exact (a_not _ _ _ _ _ _ _ _ R eq_refl).
  Qed.
  Lemma grow_put t t' L x b b' : bget t x = Some b -> bget t' x = Some b' -> (forall y, y <> x -> bget t' y = bget t y) ->
    b_head b <= b_head b' -> grow t t' L.
  Proof.
    intros B B' Bo H y c Hy C. destruct (Z.eq_dec y x) as [->|N].
    - rewrite B in C. injection C as <-. eauto.
    - exists c. rewrite Bo by exact N. split; [exact C|lia].
  Qed.

  (** ** Taking back a block the root has (branch.go 168-173) *)
  Lemma tail_move t L rk det m x b r w :
    inv U t L rk None det m -> In x L -> bget t x = Some b -> b_root b = Node r ->
    sees t (Node r) (b_tail b) w -> base t < b_tail b -> (r <> m -> forall c, bget t r = Some c -> b_tail c < b_tail b) ->
    exists b', add_tail b w = Some b' /\ b_root b' = Node r /\ b_head b' = b_head b /\ b_headX b' = b_headX b /\
      b_kids b' = b_kids b /\ b_tail b' = b_tail b - 1 /\ b_tailX b' = k_prev w /\
      inv U (bput t x b') L rk None det m /\ keep t (bput t x b') L.
  Proof.
    intros I Hx B Er Hs Hbase Hc.
    pose proof (wf_of U t L rk _ det m I x b Hx B) as W.
    pose proof (rootn U t L rk _ det m I x b r Hx B Er) as At. pose proof (a_in _ _ _ _ _ _ _ _ At) as Hr.
    destruct (v_get _ _ _ _ _ _ _ I r Hr) as [c C]. pose proof (a_le _ _ _ _ _ _ _ _ At c C) as Hle.
    destruct (sees_inv U t L rk _ det m I r c (b_tail b) w Hr C ltac:(lia) Hs) as [Hh Uw].
    destruct (a_see _ _ _ _ _ _ _ _ At) as (w' & Sw & Xw). rewrite (sees_fun _ _ _ _ _ Sw Hs) in Xw.
    assert (E : add_tail b w = Some (mkbr (mset (b_tail b) w (b_blocks b)) (b_head b) (b_headX b) (b_tail b - 1) (k_prev w) (b_root b) (b_kids b))).
    { unfold add_tail. rewrite Xw, Z.eqb_refl, Hh. reflexivity. }
    eexists. split; [exact E|]. cbn [b_root b_head b_headX b_kids b_tail b_tailX].
    do 6 (split; [first [exact Er|reflexivity]|]).
    pose proof (wfb_add_tail b w _ W E Hh) as W'. set (b' := mkbr _ _ _ _ _ _ _) in *. clear E. set (t' := bput t x b').
    assert (Bx' : bget t' x = Some b') by apply bget_same.
    assert (Bo : forall y, y <> x -> bget t' y = bget t y) by (intros y N; now apply bget_other).
    assert (Nr : r <> x) by (intros ->; pose proof (a_rank _ _ _ _ _ _ _ _ At); lia).
    assert (K : keep t t' L).
    { apply (keep_one U t t' L rk None det m x b b' I Hx B Bx' Bo); [reflexivity|].
      intros h k' H S IH. destruct (Z.eq_dec h (b_tail b)) as [->|N].
      - constructor. rewrite (local_node t' x b' _ Bx'). cbn [b' b_blocks]. rewrite mget_mset, Z.eqb_refl. f_equal.
        apply (sees_root U t L rk _ det m I x b _ _ Hx B) in S; [|lia]. rewrite Er in S. exact (sees_fun _ _ _ _ _ Hs S).
      - assert (Q : mget h (b_blocks b') = mget h (b_blocks b)).
        { cbn [b' b_blocks]. rewrite mget_mset. destruct (Z.eqb_spec h (b_tail b)); [congruence|reflexivity]. }
        inversion S as [rf h0 k1 F|z d h0 k1 F G S']; subst.
        + constructor. rewrite (local_node t' x b' h Bx'), Q. now rewrite (local_node t x b h B) in F.
        + rewrite B in G. injection G as <-. apply (s_up t' x b'); [|exact Bx'|].
          * rewrite (local_node t' x b' h Bx'), Q. now rewrite (local_node t x b h B) in F.
          * cbn [b' b_root]. rewrite Er in *. apply (IH r c Hr (a_rank _ _ _ _ _ _ _ _ At) C); [|exact S'].
            destruct (Z_le_gt_dec h (b_tail b)); [lia|].
            destruct (w_full b W h) as [z Z]; [lia|]. rewrite (local_node t x b h B) in F. congruence. }
    split; [|exact K].
    pose proof (v_wf _ _ _ _ _ _ _ I x b Hx B) as (_ & V & T & _).
    apply (inv_put U t t' L rk None None det m x b b' I Hx B Bx' Bo); try reflexivity; try exact K; try exact W'.
    - apply (v_disk _ _ _ _ _ _ _ I).
    - apply (v_diskU _ _ _ _ _ _ _ I).
    - intros h k' F. cbn [b' b_blocks] in F. rewrite mget_mset in F. destruct (h =? b_tail b); [injection F as <-; exact Uw|eauto].
    - cbn [b' b_tail]. lia.
    - intros r' Er'. rewrite Er in Er'. injection Er' as <-.
      destruct (sees_all U t L rk _ det m I r Hr c (b_tail b - 1) C ltac:(lia)) as (k1 & S1 & _ & _).
      assert (S2 : sees t (Node r) (b_tail b - 1 + 1) w) by (replace (b_tail b - 1 + 1) with (b_tail b) by lia; exact Hs).
      pose proof (sees_link U t L rk _ det m I r Hr c (b_tail b - 1) k1 w C ltac:(lia) ltac:(lia) S1 S2) as Lk.
      destruct At as [A1 A2 A3 A4 A5 A6]. constructor; try assumption.
      + intros d D. rewrite Bo in D by exact Nr. rewrite C in D. injection D as <-. cbn [b' b_tail]. lia.
      + exists k1. split; [exact (K r c (b_tail b - 1) k1 A1 C ltac:(lia) S1)|cbn [b' b_tailX]; now symmetry].
      + intros N d D. rewrite Bo in D by exact Nr. destruct (A6 N d D) as [Q1 Q2]. specialize (Hc N d D).
        split; [cbn [b' b_tail]; unfold eff; lia|].
        refine (share_keep t t' L x r _ _ Hx A1 K _ Q2 (Z.le_refl _)).
        apply (grow_put t t' L x b b' B Bx' Bo). cbn [b' b_head]. lia.
    - intros bm Bm. assert (Nm : m <> x) by (intro; subst m; exact (a_not _ _ _ _ _ _ _ _ At eq_refl)).
      rewrite Bo in Bm by exact Nm. destruct (main_root t L rk _ det m bm I Bm) as (_ & R). exact R.
    - intros _. unfold eff. cbn [b' b_tail]. lia.
  Qed.

  (** ** Adding a head *)
  Lemma head_height t L rk ex det m x b k : inv U t L rk ex det m -> In x L -> bget t x = Some b -> U k -> k_prev k = b_headX b ->
    k_height k = b_head b + 1.
  Proof.
    intros I Hx B Uk P. pose proof (tail_le U t L rk _ det m I x b Hx B) as T.
    destruct (sees_all U t L rk _ det m I x Hx b (b_head b) B ltac:(lia)) as (a & S & Ha & Ua).
    destruct HU as [_ H]. rewrite (H a k Ua Uk); [lia|]. rewrite P. symmetry. exact (sees_head U t L rk _ det m I x b a Hx B S).
  Qed.
  Lemma head_move t L rk det m x b k :
    inv U t L rk None det m -> In x L -> bget t x = Some b -> U k -> k_prev k = b_headX b ->
    exists b', add_head b k = Some b' /\ b_head b' = b_head b + 1 /\ b_headX b' = k_hash k /\
      inv U (bput t x b') L rk None det m /\ keep t (bput t x b') L /\ sees (bput t x b') (Node x) (b_head b + 1) k.
  Proof.
    intros I Hx B Uk P. pose proof (head_height t L rk _ det m x b k I Hx B Uk P) as Hh.
    pose proof (wf_of U t L rk _ det m I x b Hx B) as W.
    assert (E : add_head b k = Some (mkbr (mset (b_head b + 1) k (b_blocks b)) (b_head b + 1) (k_hash k) (b_tail b) (b_tailX b) (b_root b) (b_kids b))).
    { unfold add_head. rewrite P, Z.eqb_refl, Hh. reflexivity. }
    eexists. split; [exact E|]. cbn [b_head b_headX]. split; [reflexivity|]. split; [reflexivity|].
    pose proof (wfb_add_head b k _ W E Hh) as W'. set (b' := mkbr _ _ _ _ _ _ _) in *. clear E. set (t' := bput t x b').
    assert (Bx' : bget t' x = Some b') by apply bget_same.
    assert (Bo : forall y, y <> x -> bget t' y = bget t y) by (intros y N; now apply bget_other).
    assert (K : keep t t' L).
    { apply (keep_one U t t' L rk None det m x b b' I Hx B Bx' Bo); [reflexivity|].
      intros h k' H S IH.
      assert (Q : mget h (b_blocks b') = mget h (b_blocks b)).
      { cbn [b' b_blocks]. rewrite mget_mset. destruct (Z.eqb_spec h (b_head b + 1)); [lia|reflexivity]. }
      inversion S as [rf h0 k1 F|z d h0 k1 F G S']; subst.
      - constructor. rewrite (local_node t' x b' h Bx'), Q. now rewrite (local_node t x b h B) in F.
      - rewrite B in G. injection G as <-. apply (s_up t' x b'); [|exact Bx'|].
        + rewrite (local_node t' x b' h Bx'), Q. now rewrite (local_node t x b h B) in F.
        + cbn [b' b_root]. destruct (b_root b) as [|r] eqn:Er; [rewrite sees_disk in *; exact S'|].
          pose proof (rootn U t L rk _ det m I x b r Hx B Er) as At. pose proof (a_in _ _ _ _ _ _ _ _ At) as Hr.
          destruct (v_get _ _ _ _ _ _ _ I r Hr) as [c C]. pose proof (a_le _ _ _ _ _ _ _ _ At c C) as Hle.
          apply (IH r c Hr (a_rank _ _ _ _ _ _ _ _ At) C); [|exact S'].
          destruct (Z_le_gt_dec h (b_tail b)); [lia|].
          destruct (w_full b W h) as [z Z]; [lia|]. rewrite (local_node t x b h B) in F. congruence. }
    split; [|split; [exact K|constructor; rewrite (local_node t' x b' _ Bx'); cbn [b' b_blocks]; rewrite mget_mset, Z.eqb_refl; reflexivity]].
    pose proof (v_wf _ _ _ _ _ _ _ I x b Hx B) as (_ & V & T & _).
    assert (G : grow t t' L) by (apply (grow_put t t' L x b b' B Bx' Bo); cbn [b' b_head]; lia).
    apply (inv_put U t t' L rk None None det m x b b' I Hx B Bx' Bo); try reflexivity; try exact K; try exact W'.
    - apply (v_disk _ _ _ _ _ _ _ I).
    - apply (v_diskU _ _ _ _ _ _ _ I).
    - cbn [b' b_head]. lia.
    - intros h k' F. cbn [b' b_blocks] in F. rewrite mget_mset in F. destruct (h =? _); [injection F as <-; exact Uk|eauto].
    - cbn [b' b_tail]. lia.
    - intros r Er. pose proof (rootn U t L rk _ det m I x b r Hx B Er) as At. pose proof (a_in _ _ _ _ _ _ _ _ At) as Hr.
      apply (attached_keep t t' L rk None None m x b b' r At Hx K G eq_refl eq_refl (v_get _ _ _ _ _ _ _ I r Hr)).
      intros N d d' D D'. rewrite Bo in D' by (intros ->; pose proof (a_rank _ _ _ _ _ _ _ _ At); lia). rewrite D in D'. injection D' as <-. lia.
    - intros bm Bm. destruct (Z.eq_dec m x) as [->|N].
      + rewrite Bx' in Bm. injection Bm as <-. destruct (main_root t L rk _ det x b I B) as (_ & R). exact R.
      + rewrite Bo in Bm by exact N. destruct (main_root t L rk _ det m bm I Bm) as (_ & R). exact R.
  Qed.

  (** ** The ledger gives back its head (bc_pool.go 207-213) *)
  Lemma rollback_move t L rk m b d w :
    inv U t L rk None None m -> bget t m = Some b -> t_disk t = d ++ [w] -> d <> [] ->
    exists b', add_tail b w = Some b' /\ b_head b' = b_head b /\ b_headX b' = b_headX b /\
      inv U (bput (set_disk t d) m b') L rk None None m /\ keep t (bput (set_disk t d) m b') L /\
      base (bput (set_disk t d) m b') = base t.
  Proof.
    intros I B Ed Nd. pose proof (v_main _ _ _ _ _ _ _ I) as Hm.
    destruct (main_root t L rk _ _ m b I B) as (Er & Ht & Hx).
    pose proof (wf_of U t L rk _ _ m I m b Hm B) as W.
    assert (Ew : disk_head t = w) by (unfold disk_head; rewrite Ed; apply last_last).
    assert (Hh : k_height w = b_tail b) by (rewrite Ht; unfold top; now rewrite Ew).
    assert (E : add_tail b w = Some (mkbr (mset (b_tail b) w (b_blocks b)) (b_head b) (b_headX b) (b_tail b - 1) (k_prev w) (b_root b) (b_kids b))).
    { unfold add_tail. rewrite Hx, Ew, Z.eqb_refl, Hh. reflexivity. }
    eexists. split; [exact E|]. cbn [b_head b_headX]. do 2 (split; [reflexivity|]).
    pose proof (wfb_add_tail b w _ W E Hh) as W'. set (b' := mkbr _ _ _ _ _ _ _) in *. clear E. set (t' := bput (set_disk t d) m b').
    assert (Bx' : bget t' m = Some b') by apply bget_same.
    assert (Bo : forall y, y <> m -> bget t' y = bget t y) by (intros y N; unfold t'; rewrite bget_other by exact N; reflexivity).
    destruct (v_disk _ _ _ _ _ _ _ I) as [DC DN].
    destruct (@exists_last _ d Nd) as (d0 & a & Ed0).
    assert (Lk : k_prev w = k_hash a /\ k_height w = k_height a + 1).
    { apply (DC d0 a w []). rewrite Ed, Ed0, <- app_assoc. reflexivity. }
    assert (D' : disk_ok t').
    { split; [|exact Nd]. apply (dchain_prefix d [w]). change (t_disk t') with d. rewrite <- Ed. exact DC. }
    assert (Et : top t' = b_tail b - 1).
    { unfold top, disk_head. change (t_disk t') with d. rewrite Ed0, last_last. lia. }
    assert (Eb : base t' = base t).
    { unfold base. change (t_disk t') with d. rewrite Ed. destruct d; [congruence|reflexivity]. }
    assert (K : keep t t' L).
    { apply (keep_one U t t' L rk None None m m b b' I Hm B Bx' Bo); [congruence|].
      intros h k' H S IH. destruct (Z.eq_dec h (b_tail b)) as [->|N].
      - constructor. rewrite (local_node t' m b' _ Bx'). cbn [b' b_blocks]. rewrite mget_mset, Z.eqb_refl. f_equal.
        apply (sees_root U t L rk _ _ m I m b _ _ Hm B) in S; [|lia]. rewrite Er, sees_disk, Ht, (disk_top t (conj DC DN)) in S. congruence.
      - assert (Q : mget h (b_blocks b') = mget h (b_blocks b)).
        { cbn [b' b_blocks]. rewrite mget_mset. destruct (Z.eqb_spec h (b_tail b)); [congruence|reflexivity]. }
        inversion S as [rf h0 k1 F|z e h0 k1 F G S']; subst h0 k1.
        + constructor. subst rf. rewrite (local_node t' m b' h Bx'), Q. now rewrite (local_node t m b h B) in F.
        + subst z. rewrite B in G. injection G as <-. apply (s_up t' m b'); [|exact Bx'|].
          * rewrite (local_node t' m b' h Bx'), Q. now rewrite (local_node t m b h B) in F.
          * cbn [b' b_root]. rewrite Er in *. rewrite sees_disk in *. unfold disk_get in *. change (t_disk t') with d.
            rewrite Ed in S'. apply (find_not_last _ d w); [|exact S']. apply Z.eqb_neq. lia. }
    split; [|split; [exact K|exact Eb]].
    pose proof (v_wf _ _ _ _ _ _ _ I m b Hm B) as (_ & V & T & _).
    assert (DU : Forall U (d ++ [w])) by (rewrite <- Ed; apply (v_diskU _ _ _ _ _ _ _ I)).
    apply Forall_app in DU. destruct DU as [DU1 DU2].
    apply (inv_put U t t' L rk None None None m m b b' I Hm B Bx' Bo); try reflexivity; try exact K; try exact W'; try assumption.
    - intros h k' F. cbn [b' b_blocks] in F. rewrite mget_mset in F. destruct (h =? b_tail b); [injection F as <-; now inversion DU2|eauto].
    - pose proof (base_top t' D'). cbn [b' b_tail]. lia.
    - intros r' Er'. congruence.
    - intros bm Bm. rewrite Bx' in Bm. injection Bm as <-. cbn [b' b_tail b_tailX]. split; [lia|].
      unfold disk_head. change (t_disk t') with d. rewrite Ed0, last_last. apply Lk.
    - congruence.
  Qed.

  (** ** The ledger takes the main branch's lowest block, or one more block on
      top of an empty main branch (tree_impl.go 98-112) *)
  Section Advance.
    Context (t : tree) (L : list Z) (rk : Z -> nat) (m : Z) (b : br) (k : knot).
    Context (I : inv U t L rk None None m) (B : bget t m = Some b) (Uk : U k) (Pk : k_prev k = k_hash (disk_head t)).
    Let d' := t_disk t ++ [k].
    Lemma adv_height : k_height k = top t + 1.
    Proof.
      destruct HU as [_ H]. rewrite (H (disk_head t) k); try assumption; [reflexivity|].
      pose proof (v_diskU _ _ _ _ _ _ _ I) as F. rewrite Forall_forall in F. apply F. apply disk_head_in. apply (v_disk _ _ _ _ _ _ _ I).
    Qed.
    Lemma adv_disk t' : t_disk t' = d' ->
      disk_ok t' /\ Forall U (t_disk t') /\ base t' = base t /\ disk_head t' = k /\ top t' = top t + 1 /\
      (forall h a, disk_get t h = Some a -> disk_get t' h = Some a).
    Proof.
      intro E. destruct (v_disk _ _ _ _ _ _ _ I) as [C N]. pose proof adv_height as H.
      assert (Hd : disk_head t' = k) by (unfold disk_head; rewrite E; apply last_last).
      split. { split; rewrite E; unfold d'; [|intro X; destruct (t_disk t); discriminate].
        destruct (@exists_last _ (t_disk t) N) as (l & a & F).
        assert (Ha : disk_head t = a) by (unfold disk_head; rewrite F; apply last_last).
        rewrite F in *. apply dchain_snoc; [exact C|congruence|]. rewrite <- Ha. exact H. }
      split. { rewrite E. apply Forall_app. split; [apply (v_diskU _ _ _ _ _ _ _ I)|repeat constructor; exact Uk]. }
      split. { unfold base. rewrite E. unfold d'. destruct (t_disk t); [congruence|reflexivity]. }
      split; [exact Hd|]. split; [unfold top at 1; now rewrite Hd|].
      intros h a F. unfold disk_get in *. rewrite E. now apply find_in_app.
    Qed.
    Let Hm : In m L := v_main _ _ _ _ _ _ _ I.
    Lemma adv_empty : b_head b = b_tail b ->
      let b' := mkbr [] (k_height k) (k_hash k) (k_height k) (k_hash k) (b_root b) (b_kids b) in
      forall t', t_disk t' = d' -> bget t' m = Some b' -> (forall y, y <> m -> bget t' y = bget t y) ->
      t_list t' = t_list t -> t_next t' = t_next t -> inv U t' L rk None None m /\ keep t t' L.
    Proof.
      intros E0 b' t' Ed Bx' Bo El En. destruct (adv_disk t' Ed) as (D1 & D2 & D3 & D4 & D5 & D6).
      destruct (main_root t L rk _ _ m b I B) as (Er & Ht & Hx). pose proof adv_height as Hh.
      pose proof (wf_of U t L rk _ _ m I m b Hm B) as W.
      assert (Q : forall h, mget h (b_blocks b) = None).
      { intro h. destruct (mget h (b_blocks b)) eqn:F; [|reflexivity]. apply (w_dom b W) in F. lia. }
      assert (K : keep t t' L).
      { apply (keep_one U t t' L rk None None m m b b' I Hm B Bx' Bo); [congruence|].
        intros h k' H S IH. apply (sees_root U t L rk _ _ m I m b _ _ Hm B) in S; [|lia]. rewrite Er, sees_disk in S.
        apply (s_up t' m b'); [now rewrite (local_node t' m b' h Bx')|exact Bx'|]. cbn [b' b_root]. rewrite Er, sees_disk. now apply D6. }
      split; [|exact K].
      pose proof (v_wf _ _ _ _ _ _ _ I m b Hm B) as (_ & V & T & _).
      apply (inv_put U t t' L rk None None None m m b b' I Hm B Bx' Bo); try reflexivity; try exact K; try assumption.
      - cbn [b' b_head]. lia.
      - constructor; cbn [b' b_tail b_head b_blocks b_tailX b_headX mget]; try discriminate; try lia; try reflexivity.
        constructor.
      - intros h k' F. discriminate.
      - cbn [b' b_tail]. lia.
      - intros r' Er'. congruence.
      - intros bm Bm. rewrite Bx' in Bm. injection Bm as <-. cbn [b' b_tail b_tailX]. rewrite D4. split; [lia|reflexivity].
      - congruence.
    Qed.
    Lemma adv_contained b' : mget (b_tail b + 1) (b_blocks b) = Some k -> remove_tail b k = Some b' ->
      forall t', t_disk t' = d' -> bget t' m = Some b' -> (forall y, y <> m -> bget t' y = bget t y) ->
      t_list t' = t_list t -> t_next t' = t_next t -> inv U t' L rk None None m /\ keep t t' L.
    Proof.
      intros Hk E t' Ed Bx' Bo El En. destruct (adv_disk t' Ed) as (D1 & D2 & D3 & D4 & D5 & D6).
      destruct (main_root t L rk _ _ m b I B) as (Er & Ht & Hx). pose proof adv_height as Hh.
      pose proof (wf_of U t L rk _ _ m I m b Hm B) as W. pose proof (wfb_remove_tail b k b' W E Hk) as W'.
      destruct (w_dom b W _ _ Hk) as [R Hk']. 
      assert (Eb : b' = mkbr (mdel (b_tail b + 1) (b_blocks b)) (b_head b) (b_headX b) (b_tail b + 1) (k_hash k) (b_root b) (b_kids b)).
      { unfold remove_tail in E. destruct (negb _); [discriminate|]. destruct (_ >? _); [discriminate|]. injection E as <-. now rewrite Hk'. }
      clear E. subst b'. set (b' := mkbr _ _ _ _ _ _ _) in *.
      assert (K : keep t t' L).
      { apply (keep_one U t t' L rk None None m m b b' I Hm B Bx' Bo); [congruence|].
        intros h k' H S IH. destruct (Z_le_gt_dec h (b_tail b + 1)) as [LE|GT].
        - apply (s_up t' m b'); [|exact Bx'|].
          + rewrite (local_node t' m b' h Bx'). cbn [b' b_blocks]. rewrite mget_mdel.
            destruct (Z.eqb_spec h (b_tail b + 1)); [reflexivity|].
            destruct (mget h (b_blocks b)) eqn:F; [|reflexivity]. apply (w_dom b W) in F. lia.
          + cbn [b' b_root]. rewrite Er, sees_disk. destruct (Z.eq_dec h (b_tail b + 1)) as [->|N].
            * apply (sees_own U t L rk _ _ m I m b _ _ Hm B) in S; [|lia]. rewrite Hk in S. injection S as <-.
              rewrite <- D4, Ht. replace (top t + 1) with (top t') by lia. apply disk_top. exact D1.
            * apply (sees_root U t L rk _ _ m I m b _ _ Hm B) in S; [|lia]. rewrite Er, sees_disk in S. now apply D6.
        - apply (sees_own U t L rk _ _ m I m b _ _ Hm B) in S; [|lia]. constructor.
          rewrite (local_node t' m b' h Bx'). cbn [b' b_blocks]. rewrite mget_mdel.
          destruct (Z.eqb_spec h (b_tail b + 1)); [lia|exact S]. }
      split; [|exact K].
      pose proof (v_wf _ _ _ _ _ _ _ I m b Hm B) as (_ & V & T & _).
      apply (inv_put U t t' L rk None None None m m b b' I Hm B Bx' Bo); try reflexivity; try exact K; try assumption.
      - intros h k' F. cbn [b' b_blocks] in F. rewrite mget_mdel in F. destruct (_ =? _); [discriminate|]. eauto.
      - cbn [b' b_tail]. lia.
      - intros r' Er'. congruence.
      - intros bm Bm. rewrite Bx' in Bm. injection Bm as <-. cbn [b' b_tail b_tailX]. rewrite D4. split; [lia|reflexivity].
      - congruence.
    Qed.
  End Advance.
End Blocks.
