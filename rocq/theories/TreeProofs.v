(** * The candidate tree: maps, the ledger's chain, what a branch sees *)
From Coq Require Import ZArith List Bool Lia Permutation.
From Verif Require Import Lib TreeModel.
Import ListNotations.
Local Open Scope Z_scope.

(** ** Maps and sets *)
Lemma mget_mdel {A} k (l : list (Z * A)) k' : mget k' (mdel k l) = if k' =? k then None else mget k' l.
Proof.
  induction l as [|[a v] l IH]; cbn [mdel mget]; [now destruct (k' =? k)|].
  destruct (Z.eqb_spec k a) as [->|N].
  - rewrite IH. destruct (Z.eqb_spec k' a); reflexivity.
  - cbn [mget]. rewrite IH. destruct (Z.eqb_spec k' a) as [->|]; [|reflexivity].
    destruct (Z.eqb_spec a k); congruence.
Qed.
Lemma mget_mset {A} k (v : A) l k' : mget k' (mset k v l) = if k' =? k then Some v else mget k' l.
Proof. unfold mset. cbn [mget]. destruct (k' =? k) eqn:E; [reflexivity|]. now rewrite mget_mdel, E. Qed.
Lemma mdel_fst {A} k (l : list (Z * A)) x : In x (map fst (mdel k l)) <-> In x (map fst l) /\ x <> k.
Proof.
  induction l as [|[a v] l IH]; cbn [mdel map In fst]; [tauto|].
  destruct (Z.eqb_spec k a) as [->|N]; cbn [map In fst]; rewrite IH; intuition congruence.
Qed.
Lemma mdel_nodup {A} k (l : list (Z * A)) : NoDup (map fst l) -> NoDup (map fst (mdel k l)).
Proof.
  induction l as [|[a v] l IH]; cbn [mdel map fst]; intro H; [constructor|].
  inversion H; subst. destruct (k =? a); [auto|]. cbn [map fst]. constructor; [|auto].
  rewrite mdel_fst. tauto.
Qed.
Lemma mset_nodup {A} k (v : A) l : NoDup (map fst l) -> NoDup (map fst (mset k v l)).
Proof. intro H. unfold mset. cbn [map fst]. constructor; [rewrite mdel_fst; tauto|now apply mdel_nodup]. Qed.
Lemma mget_in {A} k (l : list (Z * A)) : (exists v, mget k l = Some v) <-> In k (map fst l).
Proof.
  induction l as [|[a v] l IH]; cbn [mget map In fst]; [firstorder congruence|].
  destruct (Z.eqb_spec k a) as [->|N].
  - split; [now left|eauto].
  - rewrite IH. intuition congruence.
Qed.
Lemma mget_len {A} (l : list (Z * A)) L : NoDup L -> (forall x, In x L -> exists v, mget x l = Some v) -> (length L <= length l)%nat.
Proof.
  intros N H. rewrite <- (map_length fst l). apply NoDup_incl_length; [exact N|].
  intros x Ix. apply mget_in. auto.
Qed.
Lemma sin_In k l : sin k l = true <-> In k l.
Proof.
  unfold sin. rewrite existsb_exists. split.
  - intros (x & I & E). apply Z.eqb_eq in E. now subst.
  - intro I. exists k. split; [exact I|apply Z.eqb_refl].
Qed.
Lemma sin_false k l : sin k l = false <-> ~ In k l.
Proof. rewrite <- sin_In. destruct (sin k l); split; congruence. Qed.
Lemma sdel_In k l x : In x (sdel k l) <-> In x l /\ x <> k.
Proof.
  unfold sdel. rewrite filter_In. split; intros [I E]; (split; [exact I|]).
  - apply negb_true_iff, Z.eqb_neq in E. exact E.
  - apply negb_true_iff, Z.eqb_neq. exact E.
Qed.
Lemma sadd_In k l x : In x (sadd k l) <-> x = k \/ In x l.
Proof. unfold sadd. cbn [In]. rewrite sdel_In. destruct (Z.eq_dec x k); intuition. Qed.
Lemma sdel_nodup k l : NoDup l -> NoDup (sdel k l).
Proof. apply NoDup_filter. Qed.
Lemma sadd_nodup k l : NoDup l -> NoDup (sadd k l).
Proof. intro H. unfold sadd. constructor; [rewrite sdel_In; tauto|now apply sdel_nodup]. Qed.

Lemma bget_bput t x b y : bget (bput t x b) y = if y =? x then Some b else bget t y.
Proof. unfold bget, bput. cbn [t_heap set_heap]. apply mget_mset. Qed.
Lemma bget_same t x b : bget (bput t x b) x = Some b.
Proof. rewrite bget_bput, Z.eqb_refl. reflexivity. Qed.
Lemma bget_other t x b y : y <> x -> bget (bput t x b) y = bget t y.
Proof. intro N. rewrite bget_bput. destruct (Z.eqb_spec y x); congruence. Qed.

(** ** The ledger's chain *)
Definition dchain (l : list knot) : Prop :=
  forall p a b q, l = p ++ a :: b :: q -> k_prev b = k_hash a /\ k_height b = k_height a + 1.
Lemma dchain_tl a l : dchain (a :: l) -> dchain l.
Proof. intros H p x y q ->. apply (H (a :: p) x y q). reflexivity. Qed.
Lemma dchain_prefix p q : dchain (p ++ q) -> dchain p.
Proof. intros H a x y b ->. apply (H a x y (b ++ q)). now rewrite <- !app_assoc. Qed.
Lemma dchain_snoc l a k : dchain (l ++ [a]) -> k_prev k = k_hash a -> k_height k = k_height a + 1 -> dchain ((l ++ [a]) ++ [k]).
Proof.
  intros H P Q p x y q E. destruct (@exists_last _ (x :: y :: q)) as (q' & z & F); [discriminate|].
  rewrite F, app_assoc in E. apply app_inj_tail in E. destruct E as [E <-].
  destruct q as [|q1 q].
  - assert (q' = [x] /\ y = k) as [-> ->].
    { change [x; y] with ([x] ++ [y]) in F. apply app_inj_tail in F. destruct F; now split. }
    apply app_inj_tail in E. destruct E as [_ ->]. now split.
  - destruct (@exists_last _ (q1 :: q)) as (s & w & G); [discriminate|]. rewrite G in F.
    change (x :: y :: s ++ [w]) with ((x :: y :: s) ++ [w]) in F.
    apply app_inj_tail in F. destruct F as [<- _].
    apply (H p x y s). exact E.
Qed.
Lemma last_any {A} (l : list A) d d' : l <> [] -> last l d = last l d'.
Proof.
  induction l as [|a l IH]; [congruence|]. intros _. destruct l as [|b l]; [reflexivity|]. exact (IH ltac:(discriminate)).
Qed.
Lemma dchain_heights a l : dchain (a :: l) ->
  Forall (fun k => k_height a < k_height k) l /\ k_height (last (a :: l) a) = k_height a + zlen l.
Proof.
  revert a. induction l as [|b l IH]; intros a H.
  - split; [constructor|]. unfold zlen. cbn. lia.
  - destruct (H [] a b l eq_refl) as [_ E]. destruct (IH b (dchain_tl _ _ H)) as [F G]. split.
    + constructor; [lia|]. apply Forall_forall. intros k I. rewrite Forall_forall in F. specialize (F k I). lia.
    + change (last (a :: b :: l) a) with (last (b :: l) a).
      rewrite (last_any (b :: l) a b) by discriminate.
      rewrite G. unfold zlen. cbn [length]. lia.
Qed.
Definition k0 : knot := mkknot 0 0 0.
Definition base (t : tree) : Z := k_height (hd k0 (t_disk t)).
Definition top (t : tree) : Z := k_height (disk_head t).
Definition disk_ok (t : tree) : Prop := dchain (t_disk t) /\ t_disk t <> [].
Lemma find_spec l h : dchain l -> l <> [] ->
  (forall k, find (fun k => k_height k =? h) l = Some k -> k_height (hd k0 l) <= h <= k_height (last l k0) /\ k_height k = h /\ In k l) /\
  (k_height (hd k0 l) <= h <= k_height (last l k0) -> exists k, find (fun k => k_height k =? h) l = Some k).
Proof.
  intros D N. destruct l as [|a l]; [congruence|]. clear N. cbn [hd].
  rewrite (last_any (a :: l) k0 a) by discriminate.
  destruct (dchain_heights a l D) as [F G]. split.
  - intros k E. pose proof (find_some _ _ E) as [I X]. apply Z.eqb_eq in X.
    assert (k_height a <= k_height k).
    { destruct I as [->|I]; [lia|]. rewrite Forall_forall in F. specialize (F k I). lia. }
    split; [|now split]. split; [lia|].
    clear E. revert a D F G H I. induction l as [|b l IH]; intros a D F G H I.
    + destruct I as [<-|[]]. cbn. lia.
    + change (last (a :: b :: l) a) with (last (b :: l) a) in *.
      rewrite (last_any (b :: l) a b) in * by discriminate.
      pose proof (dchain_tl _ _ D) as D'. destruct (dchain_heights b l D') as [F' G'].
      destruct I as [<-|I]; [unfold zlen in *; cbn [length] in *; lia|].
      apply (IH b D' F' G'); [|exact I]. destruct I as [->|I]; [lia|]. rewrite Forall_forall in F'. specialize (F' k I). lia.
  - intros H. clear F. revert a D G H. induction l as [|b l IH]; intros a D G H.
    + cbn in H. cbn [find]. exists a. replace (k_height a =? h) with true by (symmetry; apply Z.eqb_eq; lia). reflexivity.
    + cbn [find]. destruct (Z.eqb_spec (k_height a) h) as [E|E]; [eauto|].
      change (last (a :: b :: l) a) with (last (b :: l) a) in *.
      rewrite (last_any (b :: l) a b) in * by discriminate.
      destruct (D [] a b l eq_refl) as [_ X].
      apply IH; [now apply dchain_tl in D|exact (proj2 (dchain_heights b l (dchain_tl _ _ D)))|lia].
Qed.
Lemma dchain_link l a b : dchain l -> In a l -> In b l -> k_height b = k_height a + 1 -> k_prev b = k_hash a.
Proof.
  intros D Ia Ib E. apply in_split in Ia. destruct Ia as (p & q & ->).
  assert (X : forall p a q, dchain (p ++ a :: q) -> Forall (fun k => k_height k < k_height a) p).
  { clear. intros p. induction p as [|c p IH]; intros a q D; [constructor|].
    destruct (dchain_heights c (p ++ a :: q) D) as [F _]. constructor.
    - rewrite Forall_forall in F. apply F. apply in_or_app. right. now left.
    - exact (IH a q (dchain_tl _ _ D)). }
  apply in_app_or in Ib. destruct Ib as [Ib|[<-|Ib]].
  - pose proof (X _ _ _ D) as F. rewrite Forall_forall in F. specialize (F b Ib). lia.
  - lia.
  - destruct q as [|c q]; [destruct Ib|]. destruct (D p a c q eq_refl) as [P Q].
    destruct Ib as [<-|Ib]; [exact P|].
    assert (D' : dchain (c :: q)).
    { intros s x y u Es. apply (D (p ++ a :: s) x y u). rewrite Es, <- app_assoc. reflexivity. }
    destruct (dchain_heights c q D') as [F _]. rewrite Forall_forall in F. specialize (F b Ib). lia.
Qed.
Section DiskFacts.
  Context (t : tree) (D : disk_ok t).
  Lemma disk_dom h k : disk_get t h = Some k -> base t <= h <= top t /\ k_height k = h /\ In k (t_disk t).
  Proof. destruct D as [C N]. apply (proj1 (find_spec _ h C N)). Qed.
  Lemma disk_full h : base t <= h <= top t -> exists k, disk_get t h = Some k.
  Proof. destruct D as [C N]. apply (proj2 (find_spec _ h C N)). Qed.
  Lemma disk_link h k k' : disk_get t h = Some k -> disk_get t (h + 1) = Some k' -> k_prev k' = k_hash k.
  Proof.
    intros A B. apply disk_dom in A. apply disk_dom in B. destruct A as (_ & A & I), B as (_ & B & J).
    apply (dchain_link (t_disk t)); [apply D|exact I|exact J|lia].
  Qed.
  Lemma disk_head_in : In (disk_head t) (t_disk t).
  Proof.
    unfold disk_head. destruct D as [_ N]. destruct (@exists_last _ (t_disk t) N) as (l & a & ->).
    rewrite last_last. apply in_or_app. right. now left.
  Qed.
  Lemma base_top : base t <= top t.
  Proof.
    unfold base, top, disk_head. destruct D as [C N]. destruct (t_disk t) as [|a l]; [congruence|].
    destruct (dchain_heights a l C) as [_ G]. cbn [hd]. rewrite (last_any (a :: l) _ a) by discriminate.
    rewrite G. unfold zlen. lia.
  Qed.
  Lemma disk_top : disk_get t (top t) = Some (disk_head t).
  Proof.
    destruct (disk_full (top t)) as [k E]; [pose proof base_top; lia|]. rewrite E. f_equal.
    apply disk_dom in E. destruct E as (_ & E & I).
    destruct D as [C N]. unfold top, disk_head in *. change (mkknot 0 0 0) with k0 in *.
    destruct (@exists_last _ (t_disk t) N) as (l & a & F). rewrite F in *. rewrite last_last in *.
    apply in_app_or in I. destruct I as [I|[<-|[]]]; [|reflexivity].
    exfalso. apply in_split in I. destruct I as (p & q & ->).
    rewrite <- app_assoc in C. cbn [app] in C.
    assert (C' : dchain (k :: q ++ [a])).
    { intros s x y u Es. apply (C (p ++ s) x y u). rewrite <- app_assoc, <- Es. reflexivity. }
    destruct (dchain_heights _ _ C') as [G _]. rewrite Forall_forall in G. assert (I : In a (q ++ [a])) by (apply in_or_app; right; now left). specialize (G a I). lia.
  Qed.
End DiskFacts.

(** ** What a branch sees: its own block at a height, or else its root's *)
Inductive sees (t : tree) : ref -> Z -> knot -> Prop :=
| s_here rf h k : local t rf h = Some k -> sees t rf h k
| s_up x b h k : local t (Node x) h = None -> bget t x = Some b -> sees t (b_root b) h k -> sees t (Node x) h k.
Lemma sees_fun t rf h k k' : sees t rf h k -> sees t rf h k' -> k = k'.
Proof.
  intro S. revert k'. induction S; intros k' S'; inversion S'; subst; try congruence.
  match goal with A : bget t x = Some ?p, B : bget t x = Some ?q |- _ => rewrite A in B; injection B as <- end. auto.
Qed.
Lemma sees_disk t h k : sees t Disk h k <-> disk_get t h = Some k.
Proof. split; intro H; [now inversion H|now constructor]. Qed.
Lemma local_node t x b h : bget t x = Some b -> local t (Node x) h = mget h (b_blocks b).
Proof. intro E. unfold local. now rewrite E. Qed.

(** One branch's own blocks: contiguous, linked, between tail and head *)
Record wfb (b : br) : Prop := {
  w_le : b_tail b <= b_head b;
  w_dom : forall h k, mget h (b_blocks b) = Some k -> b_tail b < h <= b_head b /\ k_height k = h;
  w_full : forall h, b_tail b < h <= b_head b -> exists k, mget h (b_blocks b) = Some k;
  w_first : forall k, mget (b_tail b + 1) (b_blocks b) = Some k -> k_prev k = b_tailX b;
  w_link : forall h k k', mget h (b_blocks b) = Some k -> mget (h + 1) (b_blocks b) = Some k' -> k_prev k' = k_hash k;
  w_head0 : b_head b = b_tail b -> b_headX b = b_tailX b;
  w_head : forall k, mget (b_head b) (b_blocks b) = Some k -> b_headX b = k_hash k;
  w_nodup : NoDup (map fst (b_blocks b)) }.
Fixpoint seqz (a : Z) (n : nat) : list Z := match n with O => [] | S m => a :: seqz (a + 1) m end.
Lemma seqz_In a n x : In x (seqz a n) <-> a <= x < a + Z.of_nat n.
Proof. revert a. induction n as [|n IH]; intro a; cbn [seqz In]; [lia|]. rewrite IH. lia. Qed.
Lemma seqz_nodup a n : NoDup (seqz a n).
Proof. revert a. induction n as [|n IH]; intro a; cbn [seqz]; constructor; [rewrite seqz_In; lia|auto]. Qed.
Lemma seqz_len a n : length (seqz a n) = n.
Proof. revert a. induction n as [|n IH]; intro a; cbn [seqz length]; auto. Qed.
Lemma wfb_size b : wfb b -> zlen (b_blocks b) = size b.
Proof.
  intro W. pose proof (w_le b W). assert (P : Permutation (map fst (b_blocks b)) (seqz (b_tail b + 1) (Z.to_nat (size b)))).
  { apply NoDup_Permutation; [apply W|apply seqz_nodup|]. intro x. rewrite seqz_In, <- mget_in. unfold size. split.
    - intros [v E]. apply (w_dom b W) in E. lia.
    - intro R. apply (w_full b W). lia. }
  apply Permutation_length in P. rewrite map_length, seqz_len in P. unfold zlen, size in *. lia.
Qed.
