(** Lists of blocks: what order and removal change. *)
Require Import Coq.Lists.List Coq.ZArith.ZArith Coq.Bool.Bool Coq.micromega.Lia Coq.Sorting.Permutation.
Require Import Verif.Lib Verif.StateModel Verif.StateSpec Verif.StateProofs.
Import ListNotations.
Local Open Scope Z_scope.

Definition same (l m : list ablock) : Prop := forall a, filter (from a) l = filter (from a) m.
Lemma same_refl l : same l l. Proof. intro. reflexivity. Qed.
Lemma same_sym l m : same l m -> same m l. Proof. intros S a. now rewrite (S a). Qed.
Lemma same_app l l' m m' : same l l' -> same m m' -> same (l ++ m) (l' ++ m').
Proof. intros A B a. now rewrite !filter_app, (A a), (B a). Qed.
Lemma from_self b : from (ab_addr b) b = true. Proof. apply Z.eqb_refl. Qed.
Lemma in_from b l : In b l <-> In b (filter (from (ab_addr b)) l).
Proof. rewrite filter_In, from_self. tauto. Qed.
Lemma same_in l m b : same l m -> In b l <-> In b m.
Proof. intro S. rewrite in_from, (in_from b m). now rewrite (S (ab_addr b)). Qed.
Lemma splits_same l m r : splits l m r -> same l (m ++ r).
Proof. intros S a. now rewrite filter_app. Qed.

(** Sharing what only one block can have. *)
Definition share (x y : ablock) : Prop :=
  ab_hash x = ab_hash y \/ (exists c, In c (creations x) /\ In c (creations y)) \/
  (exists h, ab_loghash x = Some h /\ ab_loghash y = Some h) \/
  (exists h, In h (map fst (ab_sends x)) /\ In h (map fst (ab_sends y))).
Record wf_live (l : list ablock) : Prop := {
  wl_ok : forall b, In b l -> block_ok b;
  wl_share : forall x y, In x l -> In y l -> share x y -> x = y;
  wl_height : forall a i b, nth_error (filter (from a) l) i = Some b -> ab_height b = Z.of_nat i + 1 }.
Lemma wf_same l m : same l m -> wf_live l -> wf_live m.
Proof.
  intros S W. split.
  - intros b I. apply (wl_ok l W). now apply (same_in l m b S).
  - intros x y I J. apply (wl_share l W); now apply (same_in l m _ S).
  - intros a i b E. rewrite <- (S a) in E. now apply (wl_height l W a).
Qed.
Lemma wf_prefix l m r : wf_live l -> splits l m r -> wf_live m.
Proof.
  intros W S. assert (I : forall b, In b m -> In b l) by (intros b I; apply (same_in l (m ++ r) b (splits_same l m r S)); apply in_or_app; now left).
  split.
  - intros b J. apply (wl_ok l W). now apply I.
  - intros x y J K. apply (wl_share l W); now apply I.
  - intros a i b E. apply (wl_height l W a). rewrite (S a), nth_error_app1; [assumption|]. apply nth_error_Some. congruence.
Qed.
Lemma wf_nodup l : wf_live l -> NoDup l.
Proof.
  intro W. apply NoDup_nth_error. intros i j L E.
  (* a block's place among those of its account is its height *)
  assert (P : forall l' i b, nth_error l' i = Some b -> nth_error (filter (from (ab_addr b)) l') (length (filter (from (ab_addr b)) (firstn i l'))) = Some b).
  { induction l' as [|x r IH]; intros [|n] b N; try discriminate.
    - injection N as ->. cbn [firstn filter length]. rewrite from_self. reflexivity.
    - cbn [firstn filter]. cbn [nth_error] in N. destruct (from (ab_addr b) x); cbn [length nth_error]; now apply IH. }
  assert (G : forall i j, (i < j)%nat -> (j < length l)%nat -> nth_error l i = nth_error l j -> False).
  { clear i j L E. intros i j LT LJ E. destruct (nth_error l j) as [b|] eqn:B; [|apply nth_error_None in B; lia].
    pose proof (wl_height l W _ _ b (P l i b E)) as H1. pose proof (wl_height l W _ _ b (P l j b B)) as H2.
    assert (X : firstn j l = firstn i l ++ b :: skipn (S i) (firstn j l)).
    { rewrite <- (firstn_skipn i (firstn j l)) at 1. rewrite firstn_firstn, Nat.min_l by lia. f_equal.
      rewrite <- (firstn_skipn 1 (skipn i (firstn j l))).
      assert (Y : forall (A : Type) n (k : list A), skipn 1 (skipn n k) = skipn (S n) k) by (intros A n; induction n as [|n IHn]; intros [|y k]; try reflexivity; apply IHn).
      rewrite Y. change (b :: skipn (S i) (firstn j l)) with ([b] ++ skipn (S i) (firstn j l)). f_equal.
      assert (Z : nth_error (firstn j l) i = Some b).
      { rewrite <- E. clear -LT. revert i j LT. induction l as [|x r IH]; intros [|i] [|j] LT; try lia; try reflexivity. cbn. apply IH. lia. }
      clear -Z. revert i Z. induction (firstn j l) as [|x r IH]; intros [|i] Z; try discriminate; [now injection Z as ->|]. cbn [skipn]. now apply IH. }
    rewrite X, filter_app, app_length in H2. cbn [filter] in H2. rewrite from_self in H2. cbn [length] in H2. lia. }
  destruct (Nat.lt_trichotomy i j) as [T|[T|T]]; [|assumption|].
  - exfalso. destruct (Nat.lt_ge_cases j (length l)) as [J|J]; [exact (G i j T J E)|]. apply nth_error_None in J. rewrite J in E. apply nth_error_None in E. lia.
  - exfalso. exact (G j i T L (eq_sym E)).
Qed.
Lemma wf_apart l m r b : wf_live l -> splits l m r -> In b m -> In b r -> False.
Proof.
  intros W S I J. pose proof (wf_nodup _ (wf_same l (m ++ r) (splits_same _ _ _ S) W)) as N.
  revert I J N. clear. induction m as [|x m IH]; cbn; [tauto|]. intros [->|I] J N; inversion N; subst; [|now apply IH].
  apply H1. apply in_or_app. now right.
Qed.
Lemma wf_hash l x y : wf_live l -> In x l -> In y l -> ab_hash x = ab_hash y -> x = y.
Proof. intros W I J E. apply (wl_share l W); auto. now left. Qed.
Lemma wf_first l x y : wf_live l -> In x l -> In y l -> ab_addr x = ab_addr y -> ab_height x = ab_height y -> x = y.
Proof.
  intros W I J A H. apply in_from in I, J. rewrite <- A in J. apply In_nth_error in I, J. destruct I as [i I], J as [j J].
  pose proof (wl_height l W _ _ _ I). pose proof (wl_height l W _ _ _ J). assert (i = j) by lia. subst. congruence.
Qed.

(** Keys only one block writes. *)
Definition once (k : skey) : Prop := match k with SCode _ | SMeta _ | SLog _ | SDepth _ => True | _ => False end.
Definition touches (b : ablock) (k : skey) : Prop :=
  match k with
  | SCode a => ab_addr b = a /\ ab_height b <= 1
  | SMeta c => In c (creations b)
  | SLog h => ab_loghash b = Some h
  | SDepth h => In h (map fst (ab_sends b))
  | _ => False
  end.
Lemma touch_unique l x y k : wf_live l -> In x l -> In y l -> once k -> touches x k -> touches y k -> x = y.
Proof.
  intros W I J O X Y. destruct k; try destruct O; cbn in X, Y.
  - destruct X as [A1 H1], Y as [A2 H2]. apply (wf_first l); auto; [congruence|].
    assert (G : forall z, In z l -> 1 <= ab_height z).
    { intros z K. apply in_from in K. apply In_nth_error in K. destruct K as [i K]. pose proof (wl_height l W _ _ _ K). lia. }
    pose proof (G x I). pose proof (G y J). lia.
  - apply (wl_share l W); auto. right. left. eauto.
  - apply (wl_share l W); auto. right. right. left. eauto.
  - apply (wl_share l W); auto. right. right. right. eauto.
Qed.

Section Writes.
Context (logs_kept : Z -> bool).
Notation wb := (write_batch logs_kept).
Notation view := (view logs_kept).
Lemma writes_touch b k : block_ok b -> once k -> lop (wb b) k <> None -> touches b k.
Proof.
  intros [C M] O N. destruct k; try destruct O; cbn.
  - rewrite wb_code in N. destruct (Z.eqb_spec (ab_addr b) a); [|congruence]. split; [assumption|]. destruct (ab_code b) as [c|]; [|now destruct N]. destruct (C c eq_refl). lia.
  - rewrite wb_meta in N. destruct (lastkv (ab_meta b) a) as [m|] eqn:E; [|now destruct N]. destruct (newest_some _ _ _ E) as ([c m'] & I & F). cbn [fst snd] in F.
    destruct (Z.eqb_spec c a); [subst|discriminate]. now apply (M a m').
  - rewrite wb_log in N. unfold item_of in N. cbn [it_log] in N. destruct (ab_loghash b) as [h'|]; [|now destruct N]. destruct (logs_kept (ab_addr b)); [|now destruct N].
    unfold lastkv, newest_of in N. cbn in N. destruct (Z.eqb_spec h' h); [now subst|now destruct N].
  - rewrite wb_depth in N. unfold item_of in N. cbn [it_depth] in N. destruct (ab_receive b); [|now destruct N]. destruct (lastkv _ h) as [v|] eqn:E; [|now destruct N].
    destruct (newest_some _ _ _ E) as (p & I & F). apply in_map_iff in I. destruct I as (q & <- & I). cbn [fst snd] in F. destruct (Z.eqb_spec (fst q) h); [subst|discriminate]. now apply in_map.
Qed.
Lemma view_none bs k : view bs k = None <-> forall b, In b bs -> lop (wb b) k = None.
Proof. rewrite view_newest. split; [intros E b I; exact (newest_None _ bs E b I)|apply newest_none]. Qed.
Lemma view_owner bs a k : owner k = Some a -> view bs k = view (filter (from a) bs) k.
Proof.
  intro O. rewrite !view_newest. symmetry. apply newest_filter. intros b F. unfold from in F. destruct k; try discriminate O; injection O as ->.
  - rewrite wb_stor. now rewrite F.
  - rewrite wb_bal. now rewrite F.
  - rewrite wb_code. now rewrite F.
Qed.
Lemma latest_cases k : latest k -> (exists a, owner k = Some a) \/ once k.
Proof. destruct k; cbn; try tauto; eauto. Qed.
Lemma view_once l b k : wf_live l -> once k -> In b l -> lop (wb b) k <> None -> view l k = lop (wb b) k.
Proof.
  intros W O I N. rewrite view_newest. destruct (lop (wb b) k) as [o|] eqn:E; [|congruence]. apply newest_uniform.
  - exists b. split; [assumption|]. congruence.
  - intros x w J F. assert (x = b).
    { apply (touch_unique l x b k W J I O); (apply writes_touch; [|assumption|]); [now apply (wl_ok l W)|congruence|now apply (wl_ok l W)|congruence]. }
    subst. congruence.
Qed.
Lemma view_same l m k : same l m -> wf_live l -> latest k -> view l k = view m k.
Proof.
  intros S W L. destruct (latest_cases k L) as [[a O]|O].
  - now rewrite (view_owner l a k O), (view_owner m a k O), (S a).
  - pose proof (wf_same l m S W) as W'. destruct (view l k) as [o|] eqn:E.
    + rewrite view_newest in E. destruct (newest_some _ _ _ E) as (b & I & F). symmetry. rewrite (view_once m b k W' O); [assumption|now apply (same_in l m b S)|congruence].
    + symmetry. apply view_none. intros b I. apply (proj1 (view_none l k)); [assumption|]. now apply (same_in l m b S).
Qed.
Lemma view_kept l m r k : splits l m r -> wf_live l -> latest k -> (forall b, In b r -> lop (wb b) k = None) -> view l k = view m k.
Proof.
  intros S W L N. rewrite (view_same l (m ++ r) k (splits_same _ _ _ S) W L), view_app. now rewrite (proj2 (view_none r k) N).
Qed.
Lemma view_gone l m r k b : splits l m r -> wf_live l -> once k -> In b r -> touches b k -> view m k = None.
Proof.
  intros S W O I T. apply view_none. intros x J. destruct (lop (wb x) k) as [o|] eqn:E; [|reflexivity]. exfalso.
  assert (IL : forall z, In z (m ++ r) -> In z l) by (intros z K; now apply (same_in l (m ++ r) z (splits_same _ _ _ S))).
  assert (x = b); [|subst; exact (wf_apart l m r b W S J I)].
  apply (touch_unique l x b k W); auto; [apply IL, in_or_app; now left|apply IL, in_or_app; now right|].
  apply writes_touch; [apply (wl_ok l W), IL, in_or_app; now left|assumption|congruence].
Qed.
End Writes.

(** * Snapshots *)
Definition seg_at (segs : list (list ablock)) (n : Z) : list ablock := if n <? 1 then [] else nth (Z.to_nat (n - 1)) segs [].
Definition seg_kv (bs : list ablock) (a k : Z) : option (list Z) := lastkv (flat_map ab_storage (filter (from a) bs)) k.
Definition seg_bal (bs : list ablock) (a t : Z) : option Z := lastkv (flat_map ab_bal (filter (from a) bs)) t.
Definition hist_ok (d : sdb) (segs : list (list ablock)) : Prop :=
  (forall a k n, sget d (SHStor a k n) = option_map VB (seg_kv (seg_at segs n) a k)) /\
  (forall a t n, sget d (SHBal a t n) = option_map VN (seg_bal (seg_at segs n) a t)).
Lemma newest_map {A B C} (f : A -> option B) (g : B -> C) l : newest_of (fun x => option_map g (f x)) l = option_map g (newest_of f l).
Proof. induction l as [|x r IH]; [reflexivity|]. rewrite !newest_cons, IH. now destruct (newest_of f r). Qed.
Section Snapshots.
Context (logs_kept : Z -> bool).
Notation view := (view logs_kept).
Lemma view_seg bs a k : view bs (SStor a k) = option_map (fun v => snd (put_bytes (SStor a k) v)) (seg_kv bs a k).
Proof.
  rewrite (view_owner logs_kept bs a) by reflexivity. rewrite view_newest. unfold seg_kv, lastkv. rewrite newest_flat.
  rewrite <- newest_map. apply newest_ext. intros b I. apply filter_In in I. destruct I as [_ F]. rewrite wb_stor. unfold from in F. now rewrite F.
Qed.
Lemma view_segb bs a t : view bs (SBal a t) = option_map (fun v => Some (VN v)) (seg_bal bs a t).
Proof.
  rewrite (view_owner logs_kept bs a) by reflexivity. rewrite view_newest. unfold seg_bal, lastkv. rewrite newest_flat.
  rewrite <- newest_map. apply newest_ext. intros b I. apply filter_In in I. destruct I as [_ F]. rewrite wb_bal. unfold from in F. now rewrite F.
Qed.
Lemma firstn_seg segs n : concat (firstn (S n) segs) = concat (firstn n segs) ++ seg_at segs (Z.of_nat (S n)).
Proof.
  unfold seg_at. destruct (Z.ltb_spec (Z.of_nat (S n)) 1); [lia|]. replace (Z.to_nat (Z.of_nat (S n) - 1)) with n by lia.
  clear. revert n. induction segs as [|x r IH]; intros [|n]; try reflexivity.
  - cbn. now rewrite app_nil_r.
  - cbn [firstn concat nth]. rewrite <- app_assoc. f_equal. apply IH.
Qed.
Lemma seg_at_0 segs : seg_at segs 0 = []. Proof. reflexivity. Qed.
Lemma floor_stor_ok d segs a k n : hist_ok d segs -> 0 <= n ->
  norm (floor_stor d a k n) = after (view (concat (firstn (Z.to_nat n) segs)) (SStor a k)).
Proof.
  intros [H _] N. unfold floor_stor. destruct (Z.ltb_spec n 0); [lia|]. induction (Z.to_nat n) as [|m IH].
  - cbn [newest_upto firstn concat]. change (Z.of_nat 0) with 0. rewrite H, seg_at_0. reflexivity.
  - cbn [newest_upto]. rewrite H, firstn_seg, view_app, view_seg. destruct (seg_kv (seg_at segs (Z.of_nat (S m))) a k) as [v|]; cbn [option_map].
    + unfold after. symmetry. apply norm_put.
    + exact IH.
Qed.
Lemma floor_bal_ok d segs a t n : hist_ok d segs -> 0 <= n ->
  floor_bal d a t n = after (view (concat (firstn (Z.to_nat n) segs)) (SBal a t)).
Proof.
  intros [_ H] N. unfold floor_bal. destruct (Z.ltb_spec n 0); [lia|]. induction (Z.to_nat n) as [|m IH].
  - cbn [newest_upto firstn concat]. change (Z.of_nat 0) with 0. rewrite H, seg_at_0. reflexivity.
  - cbn [newest_upto]. rewrite H, firstn_seg, view_app, view_segb. destruct (seg_bal (seg_at segs (Z.of_nat (S m))) a t) as [v|]; cbn [option_map].
    + reflexivity.
    + exact IH.
Qed.
End Snapshots.
