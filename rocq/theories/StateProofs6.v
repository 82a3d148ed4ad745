(** Taking back snapshot blocks, with the redo log and without. *)
Require Import Coq.Lists.List Coq.ZArith.ZArith Coq.Bool.Bool Coq.micromega.Lia Coq.Sorting.Permutation.
Require Import Verif.Lib Verif.StateModel Verif.StateSpec Verif.StateProofs Verif.StateProofs2 Verif.StateProofs3 Verif.StateProofs4 Verif.StateProofs5.
Import ListNotations.
Local Open Scope Z_scope.

(** * Chunks *)
Lemma number_in segs : forall h c, In c (number h segs) <-> exists i, nth_error segs i = Some (snd c) /\ fst c = Some (h + Z.of_nat i).
Proof.
  induction segs as [|x r IH]; intros h c.
  - split; [intros []|]. intros ([|i] & E & _); discriminate.
  - cbn [number]. split.
    + intros [<-|I]; [exists 0%nat; split; [reflexivity|cbn; f_equal; lia]|]. apply IH in I. destruct I as (i & E & F). exists (S i). split; [exact E|]. rewrite F. f_equal. lia.
    + intros ([|i] & E & F).
      * left. cbn in E. injection E as E. destruct c as [f s]. cbn in *. subst. f_equal. f_equal. lia.
      * right. apply IH. exists i. split; [exact E|]. rewrite F. f_equal. lia.
Qed.
Lemma number_snd segs : forall h, map snd (number h segs) = segs.
Proof. induction segs as [|x r IH]; intro h; [reflexivity|]. cbn. now rewrite IH. Qed.
Lemma number_length segs : forall h, length (number h segs) = length segs.
Proof. intro h. rewrite <- (number_snd segs h) at 2. now rewrite map_length. Qed.
Lemma seg_at_nth segs i : seg_at segs (Z.of_nat i + 1) = nth i segs [].
Proof. unfold seg_at. destruct (Z.ltb_spec (Z.of_nat i + 1) 1); [lia|]. f_equal. lia. Qed.
Lemma seg_at_above segs n : zlen segs < n -> seg_at segs n = [].
Proof. intro H. unfold seg_at. destruct (n <? 1); [reflexivity|]. apply nth_overflow. unfold zlen in H. lia. Qed.
Lemma seg_at_firstn segs n m : 0 <= n -> seg_at (firstn (Z.to_nat n) segs) m = if m <=? n then seg_at segs m else [].
Proof.
  intro N. unfold seg_at. destruct (Z.ltb_spec m 1); [now destruct (m <=? n)|]. destruct (Z.leb_spec m n).
  - assert (L : (Z.to_nat (m - 1) < Z.to_nat n)%nat) by lia. revert L. generalize (Z.to_nat (m - 1)) (Z.to_nat n). clear. intros i j. revert i j.
    induction segs as [|x r IH]; intros i j L; [destruct j, i; reflexivity|]. destruct j; [lia|]. destruct i; [reflexivity|]. cbn. apply IH. lia.
  - apply nth_overflow. rewrite firstn_length. lia.
Qed.
Lemma seg_at_in segs m b : In b (seg_at segs m) -> In b (concat segs) /\ 1 <= m <= zlen segs.
Proof.
  unfold seg_at. destruct (Z.ltb_spec m 1); [intros []|]. intro I. destruct (Nat.lt_ge_cases (Z.to_nat (m - 1)) (length segs)) as [L|L].
  - split; [|unfold zlen; lia]. apply in_concat. exists (nth (Z.to_nat (m - 1)) segs []). split; [now apply nth_In|assumption].
  - rewrite nth_overflow in I by assumption. destruct I.
Qed.
Lemma in_seg_at segs b : In b (concat segs) -> exists m, In b (seg_at segs m).
Proof.
  intro I. apply in_concat in I. destruct I as (x & I & J). destruct (In_nth_error _ _ I) as [i E]. exists (Z.of_nat i + 1). rewrite seg_at_nth. now rewrite (nth_error_nth _ _ _ E).
Qed.
Lemma writes_key_app r1 r2 a k : writes_key (r1 ++ r2) a k <-> writes_key r1 a k \/ writes_key r2 a k.
Proof.
  split.
  - intros (b & I & X). apply in_app_or in I. destruct I; [left|right]; now exists b.
  - intros [(b & I & X)|(b & I & X)]; exists b; (split; [apply in_or_app; tauto|assumption]).
Qed.
Lemma writes_tok_app r1 r2 a k : writes_tok (r1 ++ r2) a k <-> writes_tok r1 a k \/ writes_tok r2 a k.
Proof.
  split.
  - intros (b & I & X). apply in_app_or in I. destruct I; [left|right]; now exists b.
  - intros [(b & I & X)|(b & I & X)]; exists b; (split; [apply in_or_app; tauto|assumption]).
Qed.
Lemma writes_key_seg segs a k : writes_key (concat segs) a k <-> exists m, writes_key (seg_at segs m) a k.
Proof.
  split.
  - intros (b & I & X). destruct (in_seg_at segs b I) as [m J]. exists m, b. tauto.
  - intros (m & b & I & X). exists b. split; [now apply (seg_at_in segs m)|assumption].
Qed.
Lemma writes_tok_seg segs a k : writes_tok (concat segs) a k <-> exists m, writes_tok (seg_at segs m) a k.
Proof.
  split.
  - intros (b & I & X). destruct (in_seg_at segs b I) as [m J]. exists m, b. tauto.
  - intros (m & b & I & X). exists b. split; [now apply (seg_at_in segs m)|assumption].
Qed.

(** * The history in a store *)
Lemma zinsert_in k l x : In x (zinsert k l) <-> x = k \/ In x l.
Proof.
  induction l as [|y r IH]; cbn; [intuition|]. destruct (Z.eqb_spec k y) as [->|]; [cbn; intuition|]. destruct (k <? y); cbn; [intuition|]. rewrite IH. intuition.
Qed.
Fixpoint rises (l : list Z) : Prop := match l with [] => True | x :: r => (forall y, In y r -> x < y) /\ rises r end.
Lemma zinsert_rises k l : rises l -> rises (zinsert k l).
Proof.
  induction l as [|x r IH]; cbn; [tauto|]. intros [A B]. destruct (Z.eqb_spec k x) as [->|N]; [split; assumption|]. destruct (Z.ltb_spec k x).
  - cbn. split; [|now split]. intros y [<-|I]; [assumption|]. specialize (A y I). lia.
  - cbn. split; [|now apply IH]. intros y I. apply zinsert_in in I. destruct I as [->|I]; [lia|now apply A].
Qed.
Lemma sort_in l x : In x (fold_right zinsert [] l) <-> In x l.
Proof. induction l as [|y r IH]; [reflexivity|]. cbn [fold_right]. rewrite zinsert_in, IH. cbn. intuition. Qed.
Lemma sort_rises l : rises (fold_right zinsert [] l).
Proof. induction l as [|y r IH]; [exact Logic.I|]. cbn [fold_right]. now apply zinsert_rises. Qed.
Lemma hist_keys_rises d a : rises (hist_keys d a). Proof. apply sort_rises. Qed.
Lemma entry_in d k : keys_nodup d -> (exists v, In (k, v) d) <-> sget d k <> None.
Proof.
  intro N. split.
  - intros (v & I). rewrite (in_sget d k v N I). discriminate.
  - destruct (sget d k) as [v|] eqn:E; [|tauto]. intros _. exists v. now apply sget_in.
Qed.
Lemma stor_heights_in d segs a k h : keys_nodup d -> hist_ok d segs -> In h (stor_heights d a k) <-> writes_key (seg_at segs h) a k.
Proof.
  intros N [H _]. rewrite <- seg_kv_writes.
  assert (E : seg_kv (seg_at segs h) a k <> None <-> sget d (SHStor a k h) <> None) by (rewrite H; destruct (seg_kv (seg_at segs h) a k); cbn; split; congruence).
  rewrite E, <- (entry_in d _ N). unfold stor_heights. rewrite in_flat_map. split.
  - intros ([x v] & I & J). cbn [fst] in J. destruct x; try destruct J. destruct (Z.eqb_spec a0 a), (Z.eqb_spec k0 k); cbn in J; try destruct J as [<-|[]]; try destruct J. subst. now exists v.
  - intros (v & I). exists (SHStor a k h, v). split; [assumption|]. cbn [fst]. rewrite !Z.eqb_refl. now left.
Qed.
Lemma bal_heights_in d segs a k h : keys_nodup d -> hist_ok d segs -> In h (bal_heights d a k) <-> writes_tok (seg_at segs h) a k.
Proof.
  intros N [_ H]. rewrite <- seg_bal_writes.
  assert (E : seg_bal (seg_at segs h) a k <> None <-> sget d (SHBal a k h) <> None) by (rewrite H; destruct (seg_bal (seg_at segs h) a k); cbn; split; congruence).
  rewrite E, <- (entry_in d _ N). unfold bal_heights. rewrite in_flat_map. split.
  - intros ([x v] & I & J). cbn [fst] in J. destruct x; try destruct J. destruct (Z.eqb_spec a0 a), (Z.eqb_spec t k); cbn in J; try destruct J as [<-|[]]; try destruct J. subst. now exists v.
  - intros (v & I). exists (SHBal a k h, v). split; [assumption|]. cbn [fst]. rewrite !Z.eqb_refl. now left.
Qed.
Lemma hist_keys_in d segs a k : keys_nodup d -> hist_ok d segs -> In k (hist_keys d a) <-> writes_key (concat segs) a k.
Proof.
  intros N H. rewrite writes_key_seg. unfold hist_keys. rewrite sort_in, in_flat_map. split.
  - intros ([x v] & I & J). cbn [fst] in J. destruct x; try destruct J. destruct (Z.eqb_spec a0 a); [|destruct J]. destruct J as [<-|[]]. subst. exists n. apply (stor_heights_in d segs a k0 n N H).
    unfold stor_heights. apply in_flat_map. exists (SHStor a k0 n, v). split; [assumption|]. cbn [fst]. rewrite !Z.eqb_refl. now left.
  - intros (m & X). apply (stor_heights_in d segs a k m N H) in X. unfold stor_heights in X. apply in_flat_map in X. destruct X as ([x v] & I & J). cbn [fst] in J. destruct x; try destruct J.
    destruct (Z.eqb_spec a0 a), (Z.eqb_spec k0 k); cbn in J; try destruct J as [<-|[]]; try destruct J. subst. exists (SHStor a k n, v). split; [assumption|]. cbn [fst]. rewrite Z.eqb_refl. now left.
Qed.
Lemma hist_toks_in d segs a k : keys_nodup d -> hist_ok d segs -> In k (hist_toks d a) <-> writes_tok (concat segs) a k.
Proof.
  intros N H. rewrite writes_tok_seg. unfold hist_toks. rewrite sort_in, in_flat_map. split.
  - intros ([x v] & I & J). cbn [fst] in J. destruct x; try destruct J. destruct (Z.eqb_spec a0 a); [|destruct J]. destruct J as [<-|[]]. subst. exists n. apply (bal_heights_in d segs a t n N H).
    unfold bal_heights. apply in_flat_map. exists (SHBal a t n, v). split; [assumption|]. cbn [fst]. rewrite !Z.eqb_refl. now left.
  - intros (m & X). apply (bal_heights_in d segs a k m N H) in X. unfold bal_heights in X. apply in_flat_map in X. destruct X as ([x v] & I & J). cbn [fst] in J. destruct x; try destruct J.
    destruct (Z.eqb_spec a0 a), (Z.eqb_spec t k); cbn in J; try destruct J as [<-|[]]; try destruct J. subst. exists (SHBal a k n, v). split; [assumption|]. cbn [fst]. rewrite Z.eqb_refl. now left.
Qed.

(** * The loops without the redo log *)
Lemma stor_loop_ok d a n ks : forall before unconf bt u,
  (before = true \/ match ks with [] => True | k :: _ => existsb (fun h => h <=? n) (stor_heights d a k) = true end) ->
  recover_stor_loop d a n before ks unconf = (bt, u) ->
  (forall o, In o bt <-> exists k, In k ks /\ (o = put_bytes (SStor a k) (bytes_of (floor_stor d a k n)) \/ exists h, In h (stor_heights d a k) /\ n < h /\ o = (SHStor a k h, None))) /\
  (forall k, In k u <-> In k unconf /\ ~ In k ks).
Proof.
  induction ks as [|k r IH]; intros before unconf bt u C E; cbn [recover_stor_loop] in E.
  - injection E as <- <-. split; [|intro; cbn; tauto]. intro o. split; [intros []|intros (k & [] & _)].
  - assert (B : before || existsb (fun h => h <=? n) (stor_heights d a k) = true) by (destruct C as [-> | ->]; [reflexivity|apply orb_true_r]).
    rewrite B in E. destruct (recover_stor_loop d a n true r (filter (fun x => negb (x =? k)) unconf)) as [bt' u'] eqn:R. injection E as <- <-.
    destruct (IH true _ bt' u' (or_introl eq_refl) R) as [H1 H2]. split.
    + intro o. cbn [In]. rewrite in_app_iff, H1, in_map_iff. split.
      * intros [<-|[(h & <- & I)|(k' & I & X)]].
        -- exists k. split; [now left|now left].
        -- apply filter_In in I. destruct I as [I L]. exists k. split; [now left|]. right. exists h. split; [assumption|]. split; [now apply Z.ltb_lt|reflexivity].
        -- exists k'. split; [now right|assumption].
      * intros (k' & [<-|I] & X); [|right; right; now exists k']. destruct X as [->|(h & I & L & ->)]; [now left|]. right. left. exists h. split; [reflexivity|]. apply filter_In. split; [assumption|now apply Z.ltb_lt].
    + intro x. rewrite H2, filter_In, negb_true_iff, Z.eqb_neq. cbn. split; [intros [[A B1] C1]; split; [assumption|]; intros [->|]; tauto|]. intros [A B1]. split; [split; [assumption|]|]; intro; apply B1; [left; congruence|now right].
Qed.
Lemma bal_loop_ok d a n ks : forall unconf bt u,
  recover_bal_loop d a n ks unconf = (bt, u) ->
  (forall o, In o bt <-> exists k, In k ks /\ (o = (SBal a k, floor_bal d a k n) \/ exists h, In h (bal_heights d a k) /\ n < h /\ o = (SHBal a k h, None))) /\
  (forall k, In k u <-> In k unconf /\ ~ In k ks).
Proof.
  induction ks as [|k r IH]; intros unconf bt u E; cbn [recover_bal_loop] in E.
  - injection E as <- <-. split; [|intro; cbn; tauto]. intro o. split; [intros []|intros (k & [] & _)].
  - destruct (recover_bal_loop d a n r (filter (fun x => negb (x =? k)) unconf)) as [bt' u'] eqn:R. injection E as <- <-.
    destruct (IH _ bt' u' R) as [H1 H2]. split.
    + intro o. cbn [In]. rewrite in_app_iff, H1, in_map_iff. split.
      * intros [<-|[(h & <- & I)|(k' & I & X)]].
        -- exists k. split; [now left|now left].
        -- apply filter_In in I. destruct I as [I L]. exists k. split; [now left|]. right. exists h. split; [assumption|]. split; [now apply Z.ltb_lt|reflexivity].
        -- exists k'. split; [now right|assumption].
      * intros (k' & [<-|I] & X); [|right; right; now exists k']. destruct X as [->|(h & I & L & ->)]; [now left|]. right. left. exists h. split; [reflexivity|]. apply filter_In. split; [assumption|now apply Z.ltb_lt].
    + intro x. rewrite H2, filter_In, negb_true_iff, Z.eqb_neq. cbn. split; [intros [[A B1] C1]; split; [assumption|]; intros [->|]; tauto|]. intros [A B1]. split; [split; [assumption|]|]; intro; apply B1; [left; congruence|now right].
Qed.

Section Back.
Context (logs_kept cached builtin : Z -> bool) (ord : forall A, list A -> list A).
Hypothesis ord_in : forall A (l : list A) x, In x (ord A l) <-> In x l.
Notation item_of := (item_of logs_kept).
Notation items := (map item_of).
Notation wb := (write_batch logs_kept).
Notation view := (view logs_kept).
Notation logs_ok := (logs_ok logs_kept).
Notation holds := (holds logs_kept).
Notation restores := (restores logs_kept).

Lemma chunks_ok s : forall cs h, (forall i c, nth_error cs i = Some c -> logs_ok (fst (query_log s (h + Z.of_nat i))) (snd c)) ->
  forall bt ks ts, undo_chunks ord s h cs = (bt, ks, ts) ->
  (forall o, In o bt <-> exists c b, In c cs /\ In b (snd c) /\ In o (undo_item (fst c) (ab_addr b) (item_of b))) /\
  (forall a k, In (a, k) ks <-> writes_key (flat_map snd cs) a k) /\
  (forall a k, In (a, k) ts <-> writes_tok (flat_map snd cs) a k).
Proof.
  induction cs as [|[hist blocks] r IH]; intros h L bt ks ts E; cbn [undo_chunks] in E.
  - injection E as <- <- <-. split; [|split].
    + intro o. split; [intros []|intros (c & b & [] & _)].
    + intros a k. split; [intros []|intros (b & [] & _)].
    + intros a k. split; [intros []|intros (b & [] & _)].
  - destruct (undo_chunks ord s (h + 1) r) as [[bt' ks'] ts'] eqn:R. injection E as <- <- <-.
    assert (L0 : logs_ok (fst (query_log s h)) blocks) by (specialize (L 0%nat _ eq_refl); cbn in L; now rewrite Z.add_0_r in L).
    destruct (IH (h + 1)) with (bt := bt') (ks := ks') (ts := ts') as (H1 & H2 & H3); [|assumption|].
    { intros i c N. specialize (L (S i) c N). replace (h + 1 + Z.of_nat i) with (h + Z.of_nat (S i)) by lia. exact L. }
    split; [|split].
    + intro o. rewrite in_app_iff, H1, (undo_in logs_kept ord ord_in hist _ blocks o L0). split.
      * intros [(b & I & X)|(c & b & I & X)]; [exists (hist, blocks), b; split; [now left|tauto]|exists c, b; split; [now right|assumption]].
      * intros (c & b & [<-|I] & X); [left; now exists b|right; now exists c, b].
    + intros a k. cbn [flat_map snd]. rewrite in_app_iff, H2, writes_key_app, (keys_of_in logs_kept _ blocks a k L0). reflexivity.
    + intros a k. cbn [flat_map snd]. rewrite in_app_iff, H3, writes_tok_app, (toks_of_in logs_kept _ blocks a k L0). reflexivity.
Qed.

Section Snap.
Context (s : sstate) (segs : list (list ablock)) (unc : list ablock) (n : Z).
Let top := zlen segs.
Let pre := concat segs.
Let keep := concat (firstn (Z.to_nat n) segs).
Let gone := concat (skipn (Z.to_nat n) segs) ++ unc.
Hypothesis W : wf_live (pre ++ unc).
Hypothesis HN : 0 <= n < top.
Hypothesis HH : hist_ok (s_mem s) segs.
Definition chunks : list chunk := number (n + 1) (skipn (Z.to_nat n) segs) ++ match unc with [] => [] | u => [(None, u)] end.
Lemma chunks_blocks : flat_map snd chunks = gone.
Proof.
  unfold chunks, gone. rewrite flat_map_app. f_equal; [|destruct unc; [reflexivity|cbn; now rewrite app_nil_r]].
  rewrite flat_map_concat_map, number_snd. reflexivity.
Qed.
Lemma all_parts : pre ++ unc = keep ++ gone.
Proof. unfold pre, keep, gone. rewrite app_assoc, <- concat_app, firstn_skipn. reflexivity. Qed.
Lemma snap_splits : splits (pre ++ unc) keep gone.
Proof. intro a. rewrite all_parts. apply filter_app. Qed.
Lemma gone_ok b : In b gone -> block_ok b.
Proof. intro I. apply (wl_ok _ W). rewrite all_parts. apply in_or_app. now right. Qed.
Lemma chunk_seg h bl : In (Some h, bl) chunks <-> n < h <= top /\ bl = seg_at segs h.
Proof.
  unfold chunks. rewrite in_app_iff, number_in. cbn [fst snd].
  assert (SK : forall i, nth_error (skipn (Z.to_nat n) segs) i = nth_error segs (Z.to_nat n + i)).
  { generalize (Z.to_nat n). clear. intros j i. revert j. induction segs as [|x r IH]; intros [|j]; try reflexivity; [now destruct i|]. cbn. apply IH. }
  split.
  - intros [(i & E & F)|I]; [|destruct unc; [destruct I|destruct I as [I|[]]; discriminate]].
    injection F as ->. rewrite SK in E. assert (L : (Z.to_nat n + i < length segs)%nat) by (apply nth_error_Some; congruence). split; [unfold top, zlen; lia|].
    replace (n + 1 + Z.of_nat i) with (Z.of_nat (Z.to_nat n + i) + 1) by lia. rewrite seg_at_nth. symmetry. now apply nth_error_nth.
  - intros [H ->]. left. exists (Z.to_nat (h - n - 1)). split; [|f_equal; lia]. rewrite SK. replace (Z.to_nat n + Z.to_nat (h - n - 1))%nat with (Z.to_nat (h - 1)) by lia.
    unfold seg_at. destruct (Z.ltb_spec h 1); [lia|]. apply nth_error_nth'. unfold top, zlen in H. lia.
Qed.
Lemma chunk_in_gone c b : In c chunks -> In b (snd c) -> In b gone.
Proof. intros I J. rewrite <- chunks_blocks. apply in_flat_map. now exists c. Qed.
(** Removing the history above [n]. *)
Lemma hist_cut d bt : hist_ok d segs ->
  (forall a k m, (lop bt (SHStor a k m) = None /\ (n < m -> ~ writes_key (seg_at segs m) a k)) \/ (n < m /\ lop bt (SHStor a k m) = Some None)) ->
  (forall a k m, (lop bt (SHBal a k m) = None /\ (n < m -> ~ writes_tok (seg_at segs m) a k)) \/ (n < m /\ lop bt (SHBal a k m) = Some None)) ->
  hist_ok (sapply d bt) (firstn (Z.to_nat n) segs).
Proof.
  intros [H1 H2] A B. split.
  - intros a k m. rewrite sget_sapply, seg_at_firstn by lia. destruct (A a k m) as [[-> X]|[L ->]].
    + rewrite H1. destruct (Z.leb_spec m n); [reflexivity|]. assert (Y : seg_kv (seg_at segs m) a k = None).
      { destruct (seg_kv (seg_at segs m) a k) eqn:E; [|reflexivity]. exfalso. apply X; [assumption|]. apply seg_kv_writes. congruence. }
      rewrite Y. reflexivity.
    + destruct (Z.leb_spec m n); [lia|reflexivity].
  - intros a k m. rewrite sget_sapply, seg_at_firstn by lia. destruct (B a k m) as [[-> X]|[L ->]].
    + rewrite H2. destruct (Z.leb_spec m n); [reflexivity|]. assert (Y : seg_bal (seg_at segs m) a k = None).
      { destruct (seg_bal (seg_at segs m) a k) eqn:E; [|reflexivity]. exfalso. apply X; [assumption|]. apply seg_bal_writes. congruence. }
      rewrite Y. reflexivity.
    + destruct (Z.leb_spec m n); [lia|reflexivity].
Qed.

(** ** With the redo log *)
Section WithRedo.
Hypothesis L : forall i c, nth_error chunks i = Some c -> logs_ok (fst (query_log s (n + 1 + Z.of_nat i))) (snd c).
Context (bt : batch) (ks ts : list (Z * Z)).
Hypothesis E : undo_chunks ord s (n + 1) chunks = (bt, ks, ts).
Definition redo_back : batch := bt ++ recover_keys cached ord false s n n ks ++ recover_toks ord s n ts.
Let IN := chunks_ok s chunks (n + 1) L bt ks ts E.
Lemma bt_dels o : In o bt -> snd o = None.
Proof. intro I. apply (proj1 IN) in I. destruct I as (c & b & _ & _ & I). now apply undo_item_none in I. Qed.
Lemma redo_back_hist d : hist_ok d segs -> hist_ok (sapply d redo_back) (firstn (Z.to_nat n) segs).
Proof.
  intro H. apply hist_cut; [assumption| |]; intros a k m; unfold redo_back; rewrite !lop_app, recover_toks_other, recover_keys_other by discriminate.
  - destruct (lop_dels bt (SHStor a k m) bt_dels) as [X|[X N]]; rewrite X.
    + right. split; [|reflexivity]. apply lop_some in X. apply (proj1 IN) in X. destruct X as (c & b & I & _ & X). apply undo_item_hstor in X. destruct X as (X & _). destruct c as [f bl]. cbn in X. subst f. apply chunk_seg in I. lia.
    + left. split; [reflexivity|]. intros Lm (b & I & A & J). apply N. apply (proj1 IN). exists (Some m, seg_at segs m), b. split; [|split; [assumption|apply undo_item_hstor; now split]].
      apply chunk_seg. pose proof (seg_at_in segs m b I). unfold top. split; [lia|reflexivity].
  - destruct (lop_dels bt (SHBal a k m) bt_dels) as [X|[X N]]; rewrite X.
    + right. split; [|reflexivity]. apply lop_some in X. apply (proj1 IN) in X. destruct X as (c & b & I & _ & X). apply undo_item_hbal in X. destruct X as (X & _). destruct c as [f bl]. cbn in X. subst f. apply chunk_seg in I. lia.
    + left. split; [reflexivity|]. intros Lm (b & I & A & J). apply N. apply (proj1 IN). exists (Some m, seg_at segs m), b. split; [|split; [assumption|apply undo_item_hbal; now split]].
      apply chunk_seg. pose proof (seg_at_in segs m b I). unfold top. split; [lia|reflexivity].
Qed.
Lemma redo_back_once k : once k -> match lop bt k with
    | None => forall b, In b gone -> lop (wb b) k = None
    | Some o => norm o = after (view keep k)
    end.
Proof.
  intro O. destruct (lop_dels bt k bt_dels) as [X|[X N]]; rewrite X.
  - apply lop_some in X. apply (proj1 IN) in X. destruct X as (c & b & I & J & X). pose proof (chunk_in_gone c b I J) as G. apply (undo_item_once logs_kept (fst c) b k (gone_ok b G) O) in X.
    rewrite (view_gone logs_kept _ _ _ k b snap_splits W O G); [reflexivity|]. apply (writes_touch logs_kept); auto. now apply gone_ok.
  - intros b I. destruct (lop (wb b) k) eqn:Y; [|reflexivity]. exfalso. apply N. apply (proj1 IN). rewrite <- chunks_blocks in I. apply in_flat_map in I. destruct I as (c & I & J).
    exists c, b. split; [assumption|]. split; [assumption|]. apply (undo_item_once logs_kept (fst c) b k); [apply gone_ok; now apply (chunk_in_gone c)|assumption|congruence].
Qed.
Lemma redo_back_restores : restores redo_back keep gone.
Proof.
  intros k Lk. unfold redo_back. rewrite !lop_app. destruct IN as (I1 & I2 & I3). rewrite chunks_blocks in I2, I3. destruct k; try destruct Lk.
  - rewrite recover_toks_other by discriminate. rewrite recover_keys_ok by assumption. destruct (in_dec pair_dec (a, k) ks) as [I|I].
    + pose proof (floor_stor_ok logs_kept (s_mem s) segs a k n HH ltac:(lia)) as F. fold keep in F. change (snapshot_value cached false s n n a k) with (bytes_of (floor_stor (s_mem s) a k n)). assert (K := view_stor_kind logs_kept keep a k). rewrite bytes_back; rewrite F; [reflexivity|assumption].
    + assert (N : ~ writes_key gone a k) by (intro X; now apply I, I2). destruct (lop_dels bt (SStor a k) bt_dels) as [X|[X _]]; rewrite X; [|now apply writes_stor].
      exfalso. apply lop_some in X. apply I1 in X. destruct X as (c & b & J & J' & X). apply undo_item_stor in X. apply N. exists b. split; [now apply (chunk_in_gone c)|tauto].
  - rewrite recover_toks_ok by assumption. destruct (in_dec pair_dec (a, t) ts) as [I|I].
    + rewrite (floor_bal_ok logs_kept _ segs a t n HH) by lia. fold keep. unfold after. apply norm_norm.
    + rewrite recover_keys_other by discriminate. assert (N : ~ writes_tok gone a t) by (intro X; now apply I, I3). destruct (lop_dels bt (SBal a t) bt_dels) as [X|[X _]]; rewrite X; [|now apply writes_bal].
      exfalso. apply lop_some in X. apply I1 in X. destruct X as (c & b & J & J' & X). apply undo_item_bal in X. apply N. exists b. split; [now apply (chunk_in_gone c)|tauto].
  - rewrite recover_toks_other, recover_keys_other by discriminate. now apply redo_back_once.
  - rewrite recover_toks_other, recover_keys_other by discriminate. now apply redo_back_once.
  - rewrite recover_toks_other, recover_keys_other by discriminate. now apply redo_back_once.
  - rewrite recover_toks_other, recover_keys_other by discriminate. now apply redo_back_once.
Qed.
(** Which storage keys lose history. *)
Lemma redo_back_hstor a k m o : In (SHStor a k m, o) redo_back <-> o = None /\ n < m /\ writes_key (seg_at segs m) a k.
Proof.
  unfold redo_back. rewrite !in_app_iff. destruct IN as (I1 & _). split.
  - intros [I|[I|I]].
    + pose proof (bt_dels _ I) as D. cbn in D. subst o. split; [reflexivity|]. apply I1 in I. destruct I as ([f bl] & b & I & J & X). apply undo_item_hstor in X. cbn [fst snd] in *. destruct X as (-> & X). apply chunk_seg in I. destruct I as [H ->].
      split; [lia|]. now exists b.
    + apply in_map_iff in I. destruct I as (p & X & _). unfold put_bytes in X. discriminate.
    + apply in_map_iff in I. destruct I as (p & X & _). discriminate.
  - intros (-> & Lm & (b & I & X)). left. apply I1. exists (Some m, seg_at segs m), b. split; [|split; [assumption|now apply undo_item_hstor]].
    apply chunk_seg. pose proof (seg_at_in segs m b I). unfold top. split; [lia|reflexivity].
Qed.
End WithRedo.

(** ** Without the redo log *)
Section NoRedo.
Context (old : slog).
Hypothesis LO : logs_ok old unc.
Hypothesis ND : keys_nodup (s_mem s).
Hypothesis SK : forall b k, In b gone -> writes_key pre (ab_addr b) k -> (forall k', writes_key pre (ab_addr b) k' -> k <= k') -> writes_key keep (ab_addr b) k.
Definition plain_back : batch := flat_map undo_block gone ++ recover_to_snapshot ord (s_mem s) n old (map ab_addr gone).
Lemma keep_in a k : writes_key keep a k -> writes_key pre a k.
Proof. intros (b & I & X). exists b. split; [|assumption]. unfold pre. rewrite <- (firstn_skipn (Z.to_nat n) segs), concat_app. apply in_or_app. now left. Qed.
Lemma keep_tok a k : writes_tok keep a k -> writes_tok pre a k.
Proof. intros (b & I & X). exists b. split; [|assumption]. unfold pre. rewrite <- (firstn_skipn (Z.to_nat n) segs), concat_app. apply in_or_app. now left. Qed.
Lemma gone_keys a k : writes_key gone a k -> writes_key pre a k \/ writes_key unc a k.
Proof.
  unfold gone. rewrite writes_key_app. intros [(b & I & X)|X]; [left|now right]. exists b. split; [|assumption]. unfold pre. rewrite <- (firstn_skipn (Z.to_nat n) segs), concat_app. apply in_or_app. now right.
Qed.
Lemma gone_toks a k : writes_tok gone a k -> writes_tok pre a k \/ writes_tok unc a k.
Proof.
  unfold gone. rewrite writes_tok_app. intros [(b & I & X)|X]; [left|now right]. exists b. split; [|assumption]. unfold pre. rewrite <- (firstn_skipn (Z.to_nat n) segs), concat_app. apply in_or_app. now right.
Qed.
Lemma gone_above a k m : n < m -> writes_key (seg_at segs m) a k -> In a (map ab_addr gone).
Proof.
  intros Lm (b & I & A & _). subst a. apply in_map. rewrite <- chunks_blocks. apply in_flat_map. exists (Some m, seg_at segs m). split; [|assumption]. apply chunk_seg. pose proof (seg_at_in segs m b I). unfold top. split; [lia|reflexivity].
Qed.
Lemma gone_above_t a k m : n < m -> writes_tok (seg_at segs m) a k -> In a (map ab_addr gone).
Proof.
  intros Lm (b & I & A & _). subst a. apply in_map. rewrite <- chunks_blocks. apply in_flat_map. exists (Some m, seg_at segs m). split; [|assumption]. apply chunk_seg. pose proof (seg_at_in segs m b I). unfold top. split; [lia|reflexivity].
Qed.
Lemma unconf_keys a k : In k (map fst (kv_map (log_of old a))) <-> writes_key unc a k.
Proof.
  destruct LO as [_ LO2]. rewrite LO2, <- seg_kv_writes. unfold seg_kv. split.
  - intro I. apply in_map_iff in I. destruct I as ([k' v] & <- & I). apply kv_map_in in I. rewrite items_storage in I. cbn. congruence.
  - intro X. destruct (lastkv _ k) as [v|] eqn:Y; [|congruence]. apply in_map_iff. exists (k, v). split; [reflexivity|]. apply kv_map_in. now rewrite items_storage.
Qed.
Lemma unconf_toks a k : In k (map fst (bal_map (log_of old a))) <-> writes_tok unc a k.
Proof.
  destruct LO as [_ LO2]. rewrite LO2, <- seg_bal_writes. unfold seg_bal. split.
  - intro I. apply in_map_iff in I. destruct I as ([k' v] & <- & I). apply bal_map_in in I. rewrite items_bal in I. cbn. congruence.
  - intro X. destruct (lastkv _ k) as [v|] eqn:Y; [|congruence]. apply in_map_iff. exists (k, v). split; [reflexivity|]. apply bal_map_in. now rewrite items_bal.
Qed.
Lemma recover_stor_in a o : In a (map ab_addr gone) -> In o (recover_stor ord (s_mem s) a n (map fst (kv_map (log_of old a)))) <->
  (exists k, writes_key pre a k /\ (o = put_bytes (SStor a k) (bytes_of (floor_stor (s_mem s) a k n)) \/ exists h, writes_key (seg_at segs h) a k /\ n < h /\ o = (SHStor a k h, None))) \/
  (exists k, writes_key unc a k /\ ~ writes_key pre a k /\ o = (SStor a k, None)).
Proof.
  intro IA. unfold recover_stor. destruct (recover_stor_loop (s_mem s) a n false (hist_keys (s_mem s) a) (map fst (kv_map (log_of old a)))) as [bt u] eqn:R.
  destruct (stor_loop_ok (s_mem s) a n (hist_keys (s_mem s) a) false (map fst (kv_map (log_of old a))) bt u) as [H1 H2]; [|assumption|].
  { right. pose proof (hist_keys_rises (s_mem s) a) as RS. pose proof (fun k => hist_keys_in (s_mem s) segs a k ND HH) as HK. destruct (hist_keys (s_mem s) a) as [|k0 r]; [exact Logic.I|].
    apply in_map_iff in IA. destruct IA as (b & <- & IB).
    assert (X : writes_key keep (ab_addr b) k0).
    { apply SK; [assumption|apply HK; now left|]. intros k' Y. apply HK in Y. destruct Y as [->|Y]; [lia|]. destruct RS as [RS _]. specialize (RS k' Y). lia. }
    unfold keep in X. apply writes_key_seg in X. destruct X as (m & X). rewrite seg_at_firstn in X by lia. destruct (Z.leb_spec m n) as [LE|LE]; [|destruct X as (z & [] & _)].
    apply existsb_exists. exists m. split; [now apply (stor_heights_in (s_mem s) segs)|now apply Z.leb_le]. }
  rewrite in_app_iff, H1, in_map_iff. split.
  - intros [(k & I & X)|(k & <- & I)].
    + left. exists k. split; [now apply (hist_keys_in (s_mem s) segs a k ND HH)|]. destruct X as [X|(h & J & X)]; [now left|right]. exists h. split; [now apply (stor_heights_in (s_mem s) segs)|assumption].
    + right. exists k. apply (proj1 (ord_in _ _ _)) in I. apply H2 in I. destruct I as [I1 I2]. split; [now apply unconf_keys|]. split; [|reflexivity]. intro Y. apply I2. now apply (hist_keys_in (s_mem s) segs a k ND HH).
  - intros [(k & I & X)|(k & X & N & ->)].
    + left. exists k. split; [now apply (hist_keys_in (s_mem s) segs a k ND HH)|]. destruct X as [X|(h & J & X)]; [now left|right]. exists h. split; [now apply (stor_heights_in (s_mem s) segs)|assumption].
    + right. exists k. split; [reflexivity|]. apply (proj2 (ord_in _ _ _)). apply H2. split; [now apply unconf_keys|]. intro Y. apply N. now apply (hist_keys_in (s_mem s) segs a k ND HH).
Qed.
Lemma recover_bal_in a o : In o (recover_bal ord (s_mem s) a n (map fst (bal_map (log_of old a)))) <->
  (exists k, writes_tok pre a k /\ (o = (SBal a k, floor_bal (s_mem s) a k n) \/ exists h, writes_tok (seg_at segs h) a k /\ n < h /\ o = (SHBal a k h, None))) \/
  (exists k, writes_tok unc a k /\ ~ writes_tok pre a k /\ o = (SBal a k, None)).
Proof.
  unfold recover_bal. destruct (recover_bal_loop (s_mem s) a n (hist_toks (s_mem s) a) (map fst (bal_map (log_of old a)))) as [bt u] eqn:R.
  destruct (bal_loop_ok (s_mem s) a n (hist_toks (s_mem s) a) (map fst (bal_map (log_of old a))) bt u) as [H1 H2]; [assumption|].
  rewrite in_app_iff, H1, in_map_iff. split.
  - intros [(k & I & X)|(k & <- & I)].
    + left. exists k. split; [now apply (hist_toks_in (s_mem s) segs a k ND HH)|]. destruct X as [X|(h & J & X)]; [now left|right]. exists h. split; [now apply (bal_heights_in (s_mem s) segs)|assumption].
    + right. exists k. apply (proj1 (ord_in _ _ _)) in I. apply H2 in I. destruct I as [I1 I2]. split; [now apply unconf_toks|]. split; [|reflexivity]. intro Y. apply I2. now apply (hist_toks_in (s_mem s) segs a k ND HH).
  - intros [(k & I & X)|(k & X & N & ->)].
    + left. exists k. split; [now apply (hist_toks_in (s_mem s) segs a k ND HH)|]. destruct X as [X|(h & J & X)]; [now left|right]. exists h. split; [now apply (bal_heights_in (s_mem s) segs)|assumption].
    + right. exists k. split; [reflexivity|]. apply (proj2 (ord_in _ _ _)). apply H2. split; [now apply unconf_toks|]. intro Y. apply N. now apply (hist_toks_in (s_mem s) segs a k ND HH).
Qed.
Lemma recover_in o : In o (recover_to_snapshot ord (s_mem s) n old (map ab_addr gone)) <-> exists a, In a (map ab_addr gone) /\
  (In o (recover_stor ord (s_mem s) a n (map fst (kv_map (log_of old a)))) \/ In o (recover_bal ord (s_mem s) a n (map fst (bal_map (log_of old a))))).
Proof.
  unfold recover_to_snapshot. rewrite in_flat_map. split.
  - intros (a & I & X). apply (proj1 (ord_in _ _ _)) in I. apply in_app_or in X. now exists a.
  - intros (a & I & X). exists a. split; [now apply (proj2 (ord_in _ _ _))|]. now apply in_or_app.
Qed.
Lemma undo_block_in b o : In o (undo_block b) <-> snd o = None /\ once (fst o) /\ touches b (fst o).
Proof.
  unfold undo_block. rewrite !in_app_iff. destruct o as [k o]. cbn [fst snd]. split.
  - intros [I|[I|[I|I]]].
    + destruct (Z.leb_spec (ab_height b) 1); [|destruct I]. destruct I as [I|[]]. injection I as <- <-. repeat split. assumption.
    + destruct (ab_creates b) as [c|] eqn:Y; [|destruct I]. destruct I as [I|[]]. injection I as <- <-. repeat split. cbn. unfold creations. rewrite Y. now left.
    + destruct (ab_loghash b) as [c|] eqn:Y; [|destruct I]. destruct I as [I|[]]. injection I as <- <-. repeat split. assumption.
    + apply in_flat_map in I. destruct I as ([h c] & I & J). cbn [fst snd] in J. destruct J as [J|J].
      * injection J as <- <-. repeat split. cbn. now apply (in_map fst) in I.
      * destruct c as [c|]; [|destruct J]. destruct J as [J|[]]. injection J as <- <-. repeat split. cbn. unfold creations. apply in_or_app. right. apply in_flat_map. exists (h, Some c). split; [assumption|now left].
  - intros (-> & O & T). destruct k; try destruct O; cbn in T.
    + left. destruct T as [<- T]. destruct (Z.leb_spec (ab_height b) 1); [now left|lia].
    + unfold creations in T. apply in_app_or in T. destruct T as [T|T]; [right; left; destruct (ab_creates b); [destruct T as [->|[]]; now left|destruct T]|].
      right. right. right. apply in_flat_map in T. destruct T as ([h c] & I & J). apply in_flat_map. exists (h, c). split; [assumption|]. cbn [snd] in *. destruct c; [|destruct J]. destruct J as [->|[]]. right. now left.
    + right. right. left. rewrite T. now left.
    + right. right. right. apply in_map_iff in T. destruct T as (p & <- & I). apply in_flat_map. exists p. split; [assumption|now left].
Qed.
Lemma undo_blocks_none k : ~ once k -> lop (flat_map undo_block gone) k = None.
Proof. intro N. apply lop_none. intros o I E. apply in_flat_map in I. destruct I as (b & _ & I). apply undo_block_in in I. rewrite E in I. tauto. Qed.
Lemma plain_back_hstor a k m o : In (SHStor a k m, o) plain_back <-> o = None /\ n < m /\ writes_key (seg_at segs m) a k.
Proof.
  unfold plain_back. rewrite in_app_iff, recover_in. split.
  - intros [I|(x & IX & [I|I])].
    + apply in_flat_map in I. destruct I as (b & _ & I). apply undo_block_in in I. cbn in I. tauto.
    + apply (recover_stor_in x _ IX) in I. destruct I as [(k' & Y & [E|(h & Z1 & Z2 & E)])|(k' & _ & _ & E)]; try (unfold put_bytes in E); try discriminate. injection E as -> -> -> ->. tauto.
    + apply recover_bal_in in I. destruct I as [(k' & Y & [E|(h & Z1 & Z2 & E)])|(k' & _ & _ & E)]; discriminate.
  - intros (-> & Lm & X). right. pose proof (gone_above a k m Lm X) as IA. exists a. split; [assumption|]. left. apply (recover_stor_in a _ IA). left. exists k. split; [apply writes_key_seg; now exists m|]. right. now exists m.
Qed.
Lemma plain_back_hbal a k m o : In (SHBal a k m, o) plain_back <-> o = None /\ n < m /\ writes_tok (seg_at segs m) a k.
Proof.
  unfold plain_back. rewrite in_app_iff, recover_in. split.
  - intros [I|(x & IX & [I|I])].
    + apply in_flat_map in I. destruct I as (b & _ & I). apply undo_block_in in I. cbn in I. tauto.
    + apply (recover_stor_in x _ IX) in I. destruct I as [(k' & Y & [E|(h & Z1 & Z2 & E)])|(k' & _ & _ & E)]; try (unfold put_bytes in E); discriminate.
    + apply recover_bal_in in I. destruct I as [(k' & Y & [E|(h & Z1 & Z2 & E)])|(k' & _ & _ & E)]; try discriminate. injection E as -> -> -> ->. tauto.
  - intros (-> & Lm & X). right. pose proof (gone_above_t a k m Lm X) as IA. exists a. split; [assumption|]. right. apply recover_bal_in. left. exists k. split; [apply writes_tok_seg; now exists m|]. right. now exists m.
Qed.
Lemma plain_back_hist d : hist_ok d segs -> hist_ok (sapply d plain_back) (firstn (Z.to_nat n) segs).
Proof.
  intro H. apply hist_cut; [assumption| |]; intros a k m.
  - destruct (lop plain_back (SHStor a k m)) as [o|] eqn:X.
    + apply lop_some in X. apply plain_back_hstor in X. destruct X as (-> & X & _). right. tauto.
    + left. split; [reflexivity|]. intros Lm Y. apply (proj1 (lop_in plain_back (SHStor a k m))); [|assumption]. exists None. now apply plain_back_hstor.
  - destruct (lop plain_back (SHBal a k m)) as [o|] eqn:X.
    + apply lop_some in X. apply plain_back_hbal in X. destruct X as (-> & X & _). right. tauto.
    + left. split; [reflexivity|]. intros Lm Y. apply (proj1 (lop_in plain_back (SHBal a k m))); [|assumption]. exists None. now apply plain_back_hbal.
Qed.
Lemma plain_back_stor a k o : In (SStor a k, o) plain_back <-> In a (map ab_addr gone) /\
  ((writes_key pre a k /\ o = snd (put_bytes (SStor a k) (bytes_of (floor_stor (s_mem s) a k n)))) \/ (writes_key unc a k /\ ~ writes_key pre a k /\ o = None)).
Proof.
  unfold plain_back. rewrite in_app_iff, recover_in. split.
  - intros [I|(x & IX & [I|I])].
    + apply in_flat_map in I. destruct I as (b & _ & I). apply undo_block_in in I. cbn in I. tauto.
    + pose proof IX as IX'. apply (recover_stor_in x _ IX) in I. destruct I as [(k' & Y & [E|(h & Z1 & Z2 & E)])|(k' & Y1 & Y2 & E)]; try discriminate; unfold put_bytes in E; injection E as -> -> ->; (split; [assumption|]); [left; now split|right; tauto].
    + apply recover_bal_in in I. destruct I as [(k' & Y & [E|(h & Z1 & Z2 & E)])|(k' & _ & _ & E)]; discriminate.
  - intros (IA & X). right. exists a. split; [assumption|]. left. apply (recover_stor_in a _ IA). destruct X as [[X ->]|(X & Y & ->)]; [left; exists k; split; [assumption|now left]|right; exists k; tauto].
Qed.
Lemma plain_back_bal a k o : In (SBal a k, o) plain_back <-> In a (map ab_addr gone) /\
  ((writes_tok pre a k /\ o = floor_bal (s_mem s) a k n) \/ (writes_tok unc a k /\ ~ writes_tok pre a k /\ o = None)).
Proof.
  unfold plain_back. rewrite in_app_iff, recover_in. split.
  - intros [I|(x & IX & [I|I])].
    + apply in_flat_map in I. destruct I as (b & _ & I). apply undo_block_in in I. cbn in I. tauto.
    + apply (recover_stor_in x _ IX) in I. destruct I as [(k' & Y & [E|(h & Z1 & Z2 & E)])|(k' & Y1 & Y2 & E)]; try (unfold put_bytes in E); discriminate.
    + apply recover_bal_in in I. destruct I as [(k' & Y & [E|(h & Z1 & Z2 & E)])|(k' & Y1 & Y2 & E)]; try discriminate; injection E as -> -> ->; (split; [assumption|]); [left; now split|right; tauto].
  - intros (IA & X). right. exists a. split; [assumption|]. right. apply recover_bal_in. destruct X as [[X ->]|(X & Y & ->)]; [left; exists k; split; [assumption|now left]|right; exists k; tauto].
Qed.
Lemma plain_back_once k o : once k -> In (k, o) plain_back <-> o = None /\ exists b, In b gone /\ touches b k.
Proof.
  intro O. unfold plain_back. rewrite in_app_iff, recover_in. split.
  - intros [I|(x & IX & [I|I])].
    + apply in_flat_map in I. destruct I as (b & IB & I). apply undo_block_in in I. cbn in I. split; [tauto|]. exists b. tauto.
    + apply (recover_stor_in x _ IX) in I. destruct I as [(k' & Y & [E|(h & Z1 & Z2 & E)])|(k' & Y1 & Y2 & E)]; try (unfold put_bytes in E); injection E as -> _; destruct O.
    + apply recover_bal_in in I. destruct I as [(k' & Y & [E|(h & Z1 & Z2 & E)])|(k' & Y1 & Y2 & E)]; injection E as -> _; destruct O.
  - intros (-> & b & I & T). left. apply in_flat_map. exists b. split; [assumption|]. apply undo_block_in. cbn. tauto.
Qed.
Lemma plain_back_one k : once k -> match lop plain_back k with None => forall b, In b gone -> lop (wb b) k = None | Some o => norm o = after (view keep k) end.
Proof.
  intro O. destruct (lop plain_back k) as [o|] eqn:X.
  - apply lop_some in X. apply (plain_back_once k o O) in X. destruct X as (-> & b & I & T). now rewrite (view_gone logs_kept _ _ _ k b snap_splits W O I T).
  - intros b I. destruct (lop (wb b) k) eqn:Y; [|reflexivity]. exfalso. apply (proj1 (lop_in plain_back k)); [|assumption]. exists None. apply (plain_back_once k None O). split; [reflexivity|]. exists b. split; [assumption|].
    apply (writes_touch logs_kept); [now apply gone_ok|assumption|congruence].
Qed.
Lemma plain_back_restores : restores plain_back keep gone.
Proof.
  intros k Lk.
  destruct k; try destruct Lk.
    + destruct (lop plain_back (SStor a k)) as [o|] eqn:X.
      * apply lop_some in X. apply plain_back_stor in X. destruct X as (_ & [[_ ->]|(Y & N & ->)]).
        -- pose proof (floor_stor_ok logs_kept (s_mem s) segs a k n HH ltac:(lia)) as F. fold keep in F. assert (K := view_stor_kind logs_kept keep a k). rewrite bytes_back; rewrite F; [reflexivity|assumption].
        -- assert (V : view keep (SStor a k) = None) by (apply view_stor_none; intro Q; now apply N, keep_in). now rewrite V.
      * apply writes_stor. intro Y. apply (proj1 (lop_in plain_back (SStor a k))); [|assumption]. destruct (dec_key pre a k) as [Q|Q]; [eexists|exists None]; apply plain_back_stor.
        -- split; [destruct Y as (b & I & A & _); subst a; now apply in_map|]. left. split; [assumption|reflexivity].
        -- split; [destruct Y as (b & I & A & _); subst a; now apply in_map|]. right. split; [|tauto]. destruct (gone_keys a k Y); tauto.
    + destruct (lop plain_back (SBal a t)) as [o|] eqn:X.
      * apply lop_some in X. apply plain_back_bal in X. destruct X as (_ & [[_ ->]|(Y & N & ->)]).
        -- rewrite (floor_bal_ok logs_kept _ segs a t n HH) by lia. fold keep. unfold after. apply norm_norm.
        -- assert (V : view keep (SBal a t) = None) by (apply view_bal_none; intro Q; now apply N, keep_tok). now rewrite V.
      * apply writes_bal. intro Y. apply (proj1 (lop_in plain_back (SBal a t))); [|assumption]. destruct (dec_tok pre a t) as [Q|Q]; [eexists|exists None]; apply plain_back_bal.
        -- split; [destruct Y as (b & I & A & _); subst a; now apply in_map|]. left. split; [assumption|reflexivity].
        -- split; [destruct Y as (b & I & A & _); subst a; now apply in_map|]. right. split; [|tauto]. destruct (gone_toks a t Y); tauto.
    + apply plain_back_one; exact Logic.I.
    + apply plain_back_one; exact Logic.I.
    + apply plain_back_one; exact Logic.I.
    + apply plain_back_one; exact Logic.I.
Qed.
End NoRedo.
End Snap.
End Back.
