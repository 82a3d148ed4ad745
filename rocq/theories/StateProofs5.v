(** What the batches of a rollback bring a store back to. *)
Require Import Coq.Lists.List Coq.ZArith.ZArith Coq.Bool.Bool Coq.micromega.Lia Coq.Sorting.Permutation.
Require Import Verif.Lib Verif.StateModel Verif.StateSpec Verif.StateProofs Verif.StateProofs2 Verif.StateProofs3 Verif.StateProofs4.
Import ListNotations.
Local Open Scope Z_scope.

Lemma pmem_in p l : pmem p l = true <-> In p l.
Proof.
  unfold pmem. rewrite existsb_exists. split.
  - intros ([x y] & I & E). apply andb_true_iff in E. destruct E as [E1 E2]. apply Z.eqb_eq in E1, E2. destruct p. cbn in *. now subst.
  - intro I. exists p. now rewrite !Z.eqb_refl.
Qed.
Lemma norm_put_bytes k v : norm (snd (put_bytes k (bytes_of v))) = norm (match v with Some (VB b) => Some (VB b) | _ => None end).
Proof. now destruct v as [[[|]|]|]. Qed.

Lemma bytes_back v : match norm v with Some (VB (_ :: _)) | None => True | _ => False end -> forall k, norm (snd (put_bytes k (bytes_of v))) = norm v.
Proof. destruct v as [[[|]|]|]; cbn; try tauto; reflexivity. Qed.
Section Back.
Context (logs_kept cached builtin : Z -> bool) (ord : forall A, list A -> list A).
Hypothesis ord_in : forall A (l : list A) x, In x (ord A l) <-> In x l.
Notation item_of := (item_of logs_kept).
Notation items := (map item_of).
Notation wb := (write_batch logs_kept).
Notation view := (view logs_kept).
Notation logs_ok := (logs_ok logs_kept).

(** A store holds the newest state after [l]. *)
Definition holds (d : sdb) (l : list ablock) : Prop := forall k, latest k -> norm (sget d k) = after (view l k).
(** A batch takes [r] back, leaving [m]. *)
Definition restores (bt : batch) (m r : list ablock) : Prop :=
  forall k, latest k -> match lop bt k with
    | None => forall b, In b r -> lop (wb b) k = None
    | Some o => norm o = after (view m k)
    end.
Lemma restores_ok d bt l m r : holds d l -> wf_live l -> splits l m r -> restores bt m r -> holds (sapply d bt) m.
Proof.
  intros H W S R k L. rewrite sget_sapply. specialize (R k L). destruct (lop bt k) as [o|]; [assumption|].
  rewrite (H k L). now rewrite (view_kept logs_kept l m r k S W L R).
Qed.
Lemma holds_same d l m : wf_live l -> same l m -> holds d l -> holds d m.
Proof. intros W S H k L. rewrite (H k L). now rewrite (view_same logs_kept l m k S W L). Qed.
(** Values of storage and balance in the view have the right kind. *)
Lemma view_stor_kind bs a k : match after (view bs (SStor a k)) with Some (VB (_ :: _)) | None => True | _ => False end.
Proof. rewrite view_seg. destruct (seg_kv bs a k) as [[|x v]|]; exact Logic.I. Qed.
(** Which blocks write a storage key or a balance. *)
Lemma writes_stor r a k : ~ writes_key r a k -> forall b, In b r -> lop (wb b) (SStor a k) = None.
Proof.
  intros N b I. rewrite wb_stor. destruct (Z.eqb_spec (ab_addr b) a) as [E|]; [|reflexivity]. destruct (lastkv (ab_storage b) k) eqn:L; [|reflexivity].
  exfalso. apply N. exists b. repeat split; auto. apply lastkv_some_in. congruence.
Qed.
Lemma writes_bal r a k : ~ writes_tok r a k -> forall b, In b r -> lop (wb b) (SBal a k) = None.
Proof.
  intros N b I. rewrite wb_bal. destruct (Z.eqb_spec (ab_addr b) a) as [E|]; [|reflexivity]. destruct (lastkv (ab_bal b) k) eqn:L; [|reflexivity].
  exfalso. apply N. exists b. repeat split; auto. apply lastkv_some_in. congruence.
Qed.
Lemma view_stor_none bs a k : view bs (SStor a k) = None <-> ~ writes_key bs a k.
Proof. rewrite view_seg, <- seg_kv_writes. destruct (seg_kv bs a k); cbn; split; intro N; [discriminate|exfalso; apply N; discriminate|intro X; now apply X|reflexivity]. Qed.
Lemma view_bal_none bs a k : view bs (SBal a k) = None <-> ~ writes_tok bs a k.
Proof. rewrite view_segb, <- seg_bal_writes. destruct (seg_bal bs a k); cbn; split; intro N; [discriminate|exfalso; apply N; discriminate|intro X; now apply X|reflexivity]. Qed.

(** ** Taking back unconfirmed blocks *)
Section Accounts.
Context (s : sstate) (segs : list (list ablock)) (unc rest bs : list ablock) (next taken : slog).
Let top := zlen segs.
Let pre := concat segs.
Hypothesis W : wf_live (pre ++ unc).
Hypothesis S : splits unc rest bs.
Hypothesis LN : logs_ok next rest.
Hypothesis LT : logs_ok taken bs.
Hypothesis AD : forall a, In a (map fst taken) <-> In a (map ab_addr bs).
Hypothesis HH : hist_ok (s_mem s) segs.
Hypothesis CS : forall a k, cached a = true -> norm (sget (s_cache s) (SStor a k)) = after (view pre (SStor a k)).
Let addrs := map fst taken.
Let left := filter (fun p : Z * list item => existsb (Z.eqb (fst p)) addrs) next.
Let back := fun ks0 kept : list (Z * Z) => filter (fun p => negb (pmem p kept)) ks0.
Definition undo_accounts_batch : batch :=
  undo_log ord None taken ++ replay ord addrs next ++
  recover_keys cached ord true s top top (back (keys_of taken) (keys_of left)) ++
  recover_toks ord s top (back (toks_of taken) (toks_of left)).
Lemma wl_bs b : In b bs -> block_ok b.
Proof.
  intro I. apply (wl_ok _ W). apply in_or_app. right. apply (same_in unc (rest ++ bs) b (splits_same _ _ _ S)). apply in_or_app. now right.
Qed.
Lemma left_logs : logs_ok left (filter (fun b => existsb (Z.eqb (ab_addr b)) addrs) rest).
Proof.
  destruct LN as [N L]. split.
  - unfold left. clear -N. induction next as [|p r IH]; [constructor|]. cbn in N. inversion N; subst. cbn [filter]. destruct (existsb _ addrs); [|now apply IH]. cbn. constructor; [|now apply IH].
    intro I. apply H1. apply in_map_iff in I. destruct I as (q & E & I). apply filter_In in I. rewrite <- E. now apply in_map.
  - intro a. unfold log_of, left. rewrite (zget_filter (fun x => existsb (Z.eqb x) addrs)).
    assert (F : filter (from a) (filter (fun b => existsb (Z.eqb (ab_addr b)) addrs) rest) = if existsb (Z.eqb a) addrs then filter (from a) rest else []).
    { clear. induction rest as [|b r IH]; [now destruct (existsb _ _)|]. cbn [filter]. destruct (from a b) eqn:F.
      - assert (ab_addr b = a) by (now apply Z.eqb_eq). subst a. destruct (existsb (Z.eqb (ab_addr b)) addrs); [cbn [filter]; now rewrite F, IH|exact IH].
      - destruct (existsb (Z.eqb (ab_addr b)) addrs); [cbn [filter]; now rewrite F, IH|exact IH]. }
    rewrite F. specialize (L a). unfold log_of in L. destruct (existsb (Z.eqb a) addrs); [exact L|reflexivity].
Qed.
Lemma in_addrs a : existsb (Z.eqb a) addrs = true <-> In a (map ab_addr bs).
Proof. rewrite <- AD. rewrite existsb_exists. split; [intros (x & I & E); apply Z.eqb_eq in E; now subst|intro I; exists a; split; [assumption|apply Z.eqb_refl]]. Qed.
Lemma back_keys a k : In (a, k) (back (keys_of taken) (keys_of left)) <-> writes_key bs a k /\ ~ writes_key rest a k.
Proof.
  unfold back. rewrite filter_In, (keys_of_in logs_kept taken bs a k LT), negb_true_iff.
  assert (X : pmem (a, k) (keys_of left) = false <-> ~ In (a, k) (keys_of left)) by (rewrite <- pmem_in; destruct (pmem (a, k) (keys_of left)); split; congruence).
  rewrite X, (keys_of_in logs_kept left _ a k left_logs). split; intros [A B]; (split; [assumption|]); intros C; apply B.
  - destruct C as (b & I & E & J). exists b. repeat split; auto. apply filter_In. split; [assumption|]. apply in_addrs. destruct A as (b' & I' & E' & _). rewrite E, <- E'. now apply in_map.
  - destruct C as (b & I & E & J). exists b. repeat split; auto. apply filter_In in I. tauto.
Qed.
Lemma back_toks a k : In (a, k) (back (toks_of taken) (toks_of left)) <-> writes_tok bs a k /\ ~ writes_tok rest a k.
Proof.
  unfold back. rewrite filter_In, (toks_of_in logs_kept taken bs a k LT), negb_true_iff.
  assert (X : pmem (a, k) (toks_of left) = false <-> ~ In (a, k) (toks_of left)) by (rewrite <- pmem_in; destruct (pmem (a, k) (toks_of left)); split; congruence).
  rewrite X, (toks_of_in logs_kept left _ a k left_logs). split; intros [A B]; (split; [assumption|]); intros C; apply B.
  - destruct C as (b & I & E & J). exists b. repeat split; auto. apply filter_In. split; [assumption|]. apply in_addrs. destruct A as (b' & I' & E' & _). rewrite E, <- E'. now apply in_map.
  - destruct C as (b & I & E & J). exists b. repeat split; auto. apply filter_In in I. tauto.
Qed.
Lemma dec_key r a k : writes_key r a k \/ ~ writes_key r a k.
Proof. rewrite <- seg_kv_writes. destruct (seg_kv r a k); [left; discriminate|right; intro X; now apply X]. Qed.
Lemma dec_tok r a k : writes_tok r a k \/ ~ writes_tok r a k.
Proof. rewrite <- seg_bal_writes. destruct (seg_bal r a k); [left; discriminate|right; intro X; now apply X]. Qed.
Lemma firstn_top : concat (firstn (Z.to_nat top) segs) = pre.
Proof. unfold top, pre, zlen. rewrite Nat2Z.id, firstn_all. reflexivity. Qed.
Lemma top_nonneg : 0 <= top. Proof. unfold top, zlen. lia. Qed.
Lemma snap_top a k : norm (snd (put_bytes (SStor a k) (snapshot_value cached true s top top a k))) = after (view pre (SStor a k)).
Proof.
  assert (K := view_stor_kind pre a k). unfold snapshot_value. cbn [andb]. rewrite Z.eqb_refl, andb_true_r. destruct (cached a) eqn:C.
  - rewrite bytes_back; rewrite (CS a k C); [reflexivity|assumption].
  - pose proof (floor_stor_ok logs_kept (s_mem s) segs a k top HH top_nonneg) as F. rewrite firstn_top in F. rewrite bytes_back; rewrite F; [reflexivity|assumption].
Qed.
Lemma undo_dels : forall o, In o (undo_log ord None taken) -> snd o = None.
Proof. intros o I. apply (undo_in logs_kept ord ord_in None taken bs o LT) in I. destruct I as (b & _ & I). now apply undo_item_none in I. Qed.
Lemma splits_pre : splits (pre ++ unc) (pre ++ rest) bs.
Proof. intro a. rewrite !filter_app, (S a), app_assoc. reflexivity. Qed.
Lemma undo_once k : once k -> match (match lop (undo_log ord None taken) k with Some o => Some o | None => None end) with
    | None => forall b, In b bs -> lop (wb b) k = None
    | Some o => norm o = after (view (pre ++ rest) k)
    end.
Proof.
  intro O. destruct (lop_dels (undo_log ord None taken) k undo_dels) as [E|[E N]]; rewrite E.
  - apply lop_some in E. apply (undo_in logs_kept ord ord_in None taken bs _ LT) in E. destruct E as (b & I & E). apply (undo_item_once logs_kept None b k (wl_bs b I) O) in E.
    rewrite (view_gone logs_kept _ _ _ k b splits_pre W O I); [reflexivity|]. apply (writes_touch logs_kept); auto. now apply wl_bs.
  - intros b I. destruct (lop (wb b) k) eqn:X; [|reflexivity]. exfalso. apply N. apply (undo_in logs_kept ord ord_in None taken bs _ LT). exists b. split; [assumption|].
    apply (undo_item_once logs_kept None b k (wl_bs b I) O). congruence.
Qed.
Lemma undo_accounts_restores : restores undo_accounts_batch (pre ++ rest) bs.
Proof.
  intros k L. unfold undo_accounts_batch. rewrite !lop_app.
  destruct k; try destruct L.
  - (* storage *)
    rewrite recover_toks_other by discriminate. rewrite recover_keys_ok by assumption. destruct (in_dec pair_dec (a, k) _) as [I|I].
    + apply back_keys in I. destruct I as [A B]. rewrite snap_top, view_app. now rewrite (proj2 (view_stor_none rest a k) B).
    + rewrite (replay_ok logs_kept cached builtin ord ord_in addrs next rest a) by (auto; discriminate). destruct (in_dec Z.eq_dec a addrs) as [J|J].
      * destruct (view rest (SStor a k)) as [o|] eqn:V; [rewrite view_app, V; reflexivity|].
        assert (N : ~ writes_key bs a k) by (intro X; apply I, back_keys; split; [assumption|now apply view_stor_none]).
        destruct (lop_dels (undo_log ord None taken) (SStor a k) undo_dels) as [E|[E _]]; rewrite E; [|now apply writes_stor].
        exfalso. apply N. apply lop_some in E. apply (undo_in logs_kept ord ord_in None taken bs _ LT) in E. destruct E as (b & I' & E). apply undo_item_stor in E. exists b. tauto.
      * assert (N : ~ writes_key bs a k) by (intros (b & I' & E & _); apply J; apply AD; subst a; now apply in_map).
        destruct (lop_dels (undo_log ord None taken) (SStor a k) undo_dels) as [E|[E _]]; rewrite E; [|now apply writes_stor].
        exfalso. apply N. apply lop_some in E. apply (undo_in logs_kept ord ord_in None taken bs _ LT) in E. destruct E as (b & I' & E). apply undo_item_stor in E. exists b. tauto.
  - (* balance *)
    rewrite recover_toks_ok by assumption. destruct (in_dec pair_dec (a, t) _) as [I|I].
    + apply back_toks in I. destruct I as [A B]. rewrite (floor_bal_ok logs_kept _ segs a t top HH top_nonneg), firstn_top, view_app. rewrite (proj2 (view_bal_none rest a t) B). unfold after. apply norm_norm.
    + rewrite recover_keys_other by discriminate. rewrite (replay_ok logs_kept cached builtin ord ord_in addrs next rest a) by (auto; discriminate). destruct (in_dec Z.eq_dec a addrs) as [J|J].
      * destruct (view rest (SBal a t)) as [o|] eqn:V; [rewrite view_app, V; reflexivity|].
        assert (N : ~ writes_tok bs a t) by (intro X; apply I, back_toks; split; [assumption|now apply view_bal_none]).
        destruct (lop_dels (undo_log ord None taken) (SBal a t) undo_dels) as [E|[E _]]; rewrite E; [|now apply writes_bal].
        exfalso. apply N. apply lop_some in E. apply (undo_in logs_kept ord ord_in None taken bs _ LT) in E. destruct E as (b & I' & E). apply undo_item_bal in E. exists b. tauto.
      * assert (N : ~ writes_tok bs a t) by (intros (b & I' & E & _); apply J; apply AD; subst a; now apply in_map).
        destruct (lop_dels (undo_log ord None taken) (SBal a t) undo_dels) as [E|[E _]]; rewrite E; [|now apply writes_bal].
        exfalso. apply N. apply lop_some in E. apply (undo_in logs_kept ord ord_in None taken bs _ LT) in E. destruct E as (b & I' & E). apply undo_item_bal in E. exists b. tauto.
  - rewrite recover_toks_other, recover_keys_other, replay_other by (exact Logic.I || discriminate). pose proof (undo_once (SCode a) Logic.I) as X. now destruct (lop (undo_log ord None taken) (SCode a)).
  - rewrite recover_toks_other, recover_keys_other, replay_other by (exact Logic.I || discriminate). pose proof (undo_once (SMeta a) Logic.I) as X. now destruct (lop (undo_log ord None taken) (SMeta a)).
  - rewrite recover_toks_other, recover_keys_other, replay_other by (exact Logic.I || discriminate). pose proof (undo_once (SLog h) Logic.I) as X. now destruct (lop (undo_log ord None taken) (SLog h)).
  - rewrite recover_toks_other, recover_keys_other, replay_other by (exact Logic.I || discriminate). pose proof (undo_once (SDepth h) Logic.I) as X. now destruct (lop (undo_log ord None taken) (SDepth h)).
Qed.
End Accounts.
End Back.
