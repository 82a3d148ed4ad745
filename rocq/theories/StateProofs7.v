(** The invariant of the state database, and writing and confirming. *)
Require Import Coq.Lists.List Coq.ZArith.ZArith Coq.Bool.Bool Coq.micromega.Lia Coq.Sorting.Permutation.
Require Import Verif.Lib Verif.StateModel Verif.StateSpec Verif.StateProofs Verif.StateProofs2 Verif.StateProofs3 Verif.StateProofs4 Verif.StateProofs5 Verif.StateProofs6.
Import ListNotations.
Local Open Scope Z_scope.

Lemma has_redo_query s h : has_redo s h = snd (query_log s h).
Proof. unfold has_redo, query_log. destruct (zget (s_rcache s) h); [reflexivity|]. now destruct (zget (s_rstore s) h). Qed.
Lemma no_redo_query s h : has_redo s h = false -> query_log s h = ([], false).
Proof. unfold has_redo, query_log. destruct (zget (s_rcache s) h); [discriminate|]. destruct (zget (s_rstore s) h); [discriminate|]. now intros ->. Qed.
Lemma cache_ops_app cached x y : cache_ops cached (x ++ y) = cache_ops cached x ++ cache_ops cached y.
Proof. apply flat_map_app. Qed.
Lemma hist_keep d bt segs : hist_ok d segs -> (forall k, histkey k -> lop bt k = None) -> hist_ok (sapply d bt) segs.
Proof. intros [A B] N. split; intros; rewrite sget_sapply, N by exact Logic.I; [apply A|apply B]. Qed.
Lemma snoc_nth {A} (l : list A) b i x : nth_error (l ++ [b]) i = Some x -> (nth_error l i = Some x) \/ (i = length l /\ x = b).
Proof.
  intro E. destruct (Nat.lt_ge_cases i (length l)) as [L|L]; [left; now rewrite nth_error_app1 in E|]. rewrite nth_error_app2 in E by assumption.
  right. destruct (i - length l)%nat as [|j] eqn:Y; [|destruct j; discriminate]. injection E as <-. split; [lia|reflexivity].
Qed.
Lemma share_sym x y : share x y -> share y x.
Proof.
  intros [E|[(c & A & B)|[(h & A & B)|(h & A & B)]]]; [left; congruence|right; left; now exists c|right; right; left; now exists h|right; right; right; now exists h].
Qed.
Lemma share_apart x y : apart x y -> share x y -> False.
Proof. intros (A & B & C & D) [E|[(c & F & G)|[(h & F & G)|(h & F & G)]]]; [contradiction|now apply (B c)|now apply (C h)|now apply (D h)]. Qed.
Lemma wf_snoc l b : wf_live l -> block_ok b -> (forall x, In x l -> apart x b) -> ab_height b = zlen (filter (from (ab_addr b)) l) + 1 -> wf_live (l ++ [b]).
Proof.
  intros W B A H. split.
  - intros x I. apply in_app_or in I. destruct I as [I|[<-|[]]]; [now apply (wl_ok l W)|assumption].
  - intros x y I J Sh. apply in_app_or in I, J. destruct I as [I|[<-|[]]], J as [J|[<-|[]]].
    + now apply (wl_share l W).
    + exfalso. now apply (share_apart x b (A x I)).
    + exfalso. apply (share_apart y b (A y J)). now apply share_sym.
    + reflexivity.
  - intros a i x E. rewrite filter_app in E. cbn [filter] in E. destruct (from a b) eqn:F.
    + apply snoc_nth in E. destruct E as [E|[-> ->]]; [now apply (wl_height l W a)|]. apply Z.eqb_eq in F. subst a. exact H.
    + rewrite app_nil_r in E. now apply (wl_height l W a).
Qed.
Lemma empty_wf : wf_live [].
Proof. split; [intros b []|intros x y []|intros a [|i] b; discriminate]. Qed.

(** ** Batches kept by hash *)
Lemma without_cons b r l : without (b :: r) l = without r (filter (fun x => negb (ab_hash x =? ab_hash b)) l).
Proof.
  induction l as [|x l IH]; [reflexivity|]. unfold without in *. cbn [filter existsb] in *. rewrite (Z.eqb_sym (ab_hash b)). destruct (ab_hash x =? ab_hash b) eqn:E; cbn [negb orb filter].
  - exact IH.
  - destruct (existsb (fun y => ab_hash y =? ab_hash x) r); cbn [negb]; [exact IH|f_equal; exact IH].
Qed.
Lemma without_nil l : without [] l = l.
Proof. unfold without. induction l as [|x r IH]; [reflexivity|]. cbn [filter existsb negb]. f_equal. exact IH. Qed.

Section Inv.
Context (logs_kept cached builtin : Z -> bool) (ord : forall A, list A -> list A).
Hypothesis ord_in : forall A (l : list A) x, In x (ord A l) <-> In x l.
Hypothesis cached_builtin : forall a, cached a = true -> builtin a = true.
Notation item_of := (item_of logs_kept).
Notation items := (map item_of).
Notation wb := (write_batch logs_kept).
Notation view := (view logs_kept).
Notation logs_ok := (logs_ok logs_kept).
Notation holds := (holds logs_kept).
Notation restores := (restores logs_kept).

Definition prel (b : ablock) (p : Z * batch) : Prop :=
  fst p = ab_hash b /\ (forall k, latest k -> lop (snd p) k = lop (wb b) k) /\ (forall k, histkey k -> lop (snd p) k = None).
Record st_ok (d : sdb) (l : list ablock) (segs : list (list ablock)) : Prop := {
  st_holds : holds d l; st_hist : hist_ok d segs; st_nodup : keys_nodup d }.
Record cache_ok (c mem : sdb) (segs : list (list ablock)) : Prop := {
  ca_bal : forall a t v, sget c (SBal a t) = Some v -> sget mem (SBal a t) = Some v;
  ca_meta : forall a, norm (sget c (SMeta a)) = norm (sget mem (SMeta a));
  ca_stor : forall a k, cached a = true -> norm (sget c (SStor a k)) = after (view (concat segs) (SStor a k)) }.
Record redo_ok (c : list (Z * slog)) (cur : Z) (st : list (Z * slog)) (segs : list (list ablock)) (unc : list ablock) (most : Z) : Prop := {
  ro_cur : cur = zlen segs + 1;
  ro_now : exists l, zget c (zlen segs + 1) = Some l /\ logs_ok l unc;
  ro_cache : forall h l, 1 <= h <= zlen segs -> zget c h = Some l -> logs_ok l (seg_at segs h);
  ro_chain : forall h, h <= zlen segs -> zget c h <> None -> zget c (h + 1) <> None;
  ro_store : forall h l, zget st h = Some l -> logs_ok l (seg_at segs h);
  ro_kept : exists lo, 0 <= lo <= zlen segs /\ zlen segs - 1200 <= lo /\ lo <= Z.max 0 (most - 1200) /\ forall h, zget st h <> None <-> lo < h <= zlen segs }.
Record inv (w : world) (most : Z) : Prop := {
  i_wf : wf_live (live w);
  i_mem : st_ok (s_mem (w_s w)) (live w) (w_segs w);
  i_disk : st_ok (s_disk (w_s w)) (concat (w_segs w)) (w_segs w);
  i_pend : Forall2 prel (w_unc w) (s_pending (w_s w));
  i_cache : cache_ok (s_cache (w_s w)) (s_mem (w_s w)) (w_segs w);
  i_redo : redo_ok (s_rcache (w_s w)) (s_rcur (w_s w)) (s_rstore (w_s w)) (w_segs w) (w_unc w) most;
  i_most : zlen (w_segs w) <= most }.

Lemma st_add d l segs bt bs : st_ok d l segs -> (forall k, latest k -> lop bt k = view bs k) -> (forall k, histkey k -> lop bt k = None) -> st_ok (sapply d bt) (l ++ bs) segs.
Proof.
  intros [H1 H2 H3] A B. split; [|now apply hist_keep|now apply sapply_nodup].
  intros k L. rewrite sget_sapply, (A k L), view_app. destruct (view bs k); [reflexivity|now apply H1].
Qed.
Lemma view_one b k : view [b] k = lop (wb b) k.
Proof. rewrite view_newest. unfold newest_of. cbn. now destruct (lop (wb b) k). Qed.
Lemma wb_no_hist b k : histkey k -> forall o, ~ In (k, o) (wb b).
Proof. intros H o I. apply (proj1 (lop_in (wb b) k)); [now exists o|]. now apply wb_hist. Qed.
Lemma rb_no_hist a i k : histkey k -> forall o, ~ In (k, o) (redo_batch a i).
Proof.
  intros H o I. unfold redo_batch in I. repeat (apply in_app_iff in I; destruct I as [I|I]).
  - apply in_map_iff in I. destruct I as (p & E & _). unfold put_bytes in E. injection E as <- _. destruct H.
  - apply in_map_iff in I. destruct I as (p & E & _). injection E as <- _. destruct H.
  - destruct (it_code i); [destruct I|]. destruct I as [E|[]]. injection E as <- _. destruct H.
  - apply in_flat_map in I. destruct I as (p & _ & [E|[E|[]]]); injection E as <- _; destruct H.
  - apply in_map_iff in I. destruct I as (p & E & _). injection E as <- _. destruct H.
  - apply in_map_iff in I. destruct I as (p & E & _). injection E as <- _. destruct H.
Qed.
(** The cache follows the store. *)
Lemma cache_follow c mem segs segs' bt :
  cache_ok c mem segs ->
  (forall a k, cached a = true -> norm (sget (sapply c (cache_ops cached bt)) (SStor a k)) = after (view (concat segs') (SStor a k))) ->
  cache_ok (sapply c (cache_ops cached bt)) (sapply mem bt) segs'.
Proof.
  intros [A B _] C. split; [| |exact C].
  - intros a t v. rewrite !sget_sapply, cache_same by exact Logic.I. destruct (lop bt (SBal a t)); [tauto|apply A].
  - intro a. rewrite !sget_sapply, cache_same by exact Logic.I. destruct (lop bt (SMeta a)); [reflexivity|apply B].
Qed.
Lemma cache_quiet c mem segs bt : cache_ok c mem segs -> (forall a k n o, ~ In (SHStor a k n, o) bt) -> cache_ok (sapply c (cache_ops cached bt)) (sapply mem bt) segs.
Proof.
  intros H N. apply (cache_follow c mem segs); [assumption|]. intros a k C. rewrite sget_sapply, cache_stor_none by (intros; apply N). now apply (ca_stor _ _ _ H).
Qed.

(** ** Write *)
Lemma write_inv w m b : inv w m -> allowed w (OWrite b) ->
  inv {| w_s := write logs_kept cached (w_s w) b; w_segs := w_segs w; w_unc := w_unc w ++ [b] |} m.
Proof.
  intros I (B & A & H). destruct I as [W M D P C R X]. pose proof (wf_snoc _ b W B A H) as W'.
  assert (LV : live {| w_s := write logs_kept cached (w_s w) b; w_segs := w_segs w; w_unc := w_unc w ++ [b] |} = live w ++ [b]) by (unfold live; cbn; now rewrite app_assoc).
  split; cbn [w_s w_segs w_unc write s_mem s_disk s_pending s_cache s_rcache s_rcur s_rstore]; rewrite ?LV; auto.
  - apply st_add; [assumption|intros k _; now rewrite view_one|apply wb_hist].
  - apply Forall2_app; [assumption|]. constructor; [|constructor]. split; [reflexivity|]. split; [reflexivity|intros k K; now apply wb_hist].
  - apply cache_quiet; [assumption|]. intros a k n o. now apply wb_no_hist.
  - destruct R as [R1 [l [R2 [R3 R4]]] R5 R6 R7 R8]. unfold add_log. rewrite R1, R2. split; auto.
    + exists (zset l (ab_addr b) (log_of l (ab_addr b) ++ [item_of b])). rewrite zget_zset, Z.eqb_refl. split; [reflexivity|]. split; [now apply zset_nodup|].
      intro a. rewrite log_of_zset, filter_app, items_app, !R4. cbn [filter]. change (from a b) with (ab_addr b =? a). destruct (Z.eqb_spec (ab_addr b) a) as [->|]; [reflexivity|]. cbn [map]. now rewrite app_nil_r.
    + intros h l' Hh. rewrite zget_zset. destruct (Z.eqb_spec (zlen (w_segs w) + 1) h); [lia|]. now apply R5.
    + intros h Hh. rewrite !zget_zset. destruct (Z.eqb_spec (zlen (w_segs w) + 1) h); [lia|]. intro N. destruct (Z.eqb_spec (zlen (w_segs w) + 1) (h + 1)); [discriminate|]. now apply R6.
Qed.

(** ** Pending batches *)
Lemma pend_get unc p b : Forall2 prel unc p -> NoDup (map ab_hash unc) -> In b unc -> exists bt, zget p (ab_hash b) = Some bt /\ prel b (ab_hash b, bt).
Proof.
  intro F. induction F as [|x [h bt] unc p (E & Q) F IH]; [intros _ []|]. cbn in E. subst h. intros N I. cbn [map] in N. inversion N; subst. cbn [zget]. destruct I as [->|I].
  - rewrite Z.eqb_refl. exists bt. split; [reflexivity|]. now split.
  - destruct (Z.eqb_spec (ab_hash x) (ab_hash b)) as [E|]; [|now apply IH]. exfalso. apply H1. rewrite E. now apply in_map.
Qed.
Lemma pend_del unc p h : Forall2 prel unc p -> Forall2 prel (filter (fun x => negb (ab_hash x =? h)) unc) (zdel p h).
Proof.
  intro F. unfold zdel. induction F as [|x q unc p Q F IH]; [constructor|]. cbn [filter]. rewrite (proj1 Q). destruct (ab_hash x =? h); cbn [negb]; [assumption|now constructor].
Qed.
Lemma pend_dels bs : forall unc p, Forall2 prel unc p -> Forall2 prel (without bs unc) (fold_left zdel (map ab_hash bs) p).
Proof.
  induction bs as [|b r IH]; intros unc p F; [now rewrite without_nil|]. rewrite without_cons. cbn [map fold_left]. apply IH. now apply pend_del.
Qed.
Lemma take_pending_ok conf : forall unc p, Forall2 prel unc p -> NoDup (map ab_hash unc) -> NoDup (map ab_hash conf) -> (forall b, In b conf -> In b unc) ->
  exists bs p', take_pending p (map ab_hash conf) = Some (bs, p') /\ (forall k, latest k -> lop bs k = view conf k) /\ (forall k, histkey k -> lop bs k = None) /\ Forall2 prel (without conf unc) p'.
Proof.
  induction conf as [|b r IH]; intros unc p F N1 N2 S; cbn [map take_pending].
  - exists [], p. rewrite without_nil. repeat split; auto.
  - destruct (pend_get unc p b F N1 (S b (or_introl eq_refl))) as (bt & G & _ & Q1 & Q2). rewrite G. cbn [map] in N2. inversion N2; subst.
    destruct (IH _ _ (pend_del unc p (ab_hash b) F)) as (bs & p' & E & A1 & A2 & A3).
    + clear -N1. induction unc as [|x l IHl]; [constructor|]. cbn in N1. inversion N1; subst. cbn [filter]. destruct (negb _); [|now apply IHl]. cbn. constructor; [|now apply IHl].
      intro X. apply H1. apply in_map_iff in X. destruct X as (y & E & X). apply filter_In in X. rewrite <- E. now apply in_map.
    + assumption.
    + intros x I. apply filter_In. split; [apply S; now right|]. apply negb_true_iff, Z.eqb_neq. intro E. apply H1. rewrite <- E. now apply in_map.
    + rewrite E. exists (bt ++ bs), p'. split; [reflexivity|]. split; [|split].
      * intros k L. rewrite lop_app, (A1 k L). change (b :: r) with ([b] ++ r). rewrite view_app, view_one. cbn [snd] in Q1. now rewrite (Q1 k L).
      * intros k K. rewrite lop_app, (A2 k K). now apply Q2.
      * now rewrite without_cons.
Qed.
Lemma pend_view unc p k : Forall2 prel unc p -> latest k -> lop (flat_map snd p) k = view unc k.
Proof.
  intros F L. induction F as [|x q unc p (_ & Q & _) F IH]; [reflexivity|]. cbn [flat_map]. rewrite lop_app, IH. pose proof (view_app logs_kept [x] unc k) as V. cbn [app] in V. rewrite V, view_one. destruct (view unc k); [reflexivity|now apply Q].
Qed.
Lemma pend_hist unc p k : Forall2 prel unc p -> histkey k -> lop (flat_map snd p) k = None.
Proof. intros F L. induction F as [|x q unc p (_ & _ & Q) F IH]; [reflexivity|]. cbn [flat_map]. rewrite lop_app, IH. now apply Q. Qed.

Lemma wf_hashes l : wf_live l -> NoDup (map ab_hash l).
Proof.
  intro W. pose proof (wf_nodup l W) as N. assert (H : forall x y, In x l -> In y l -> ab_hash x = ab_hash y -> x = y) by (intros; now apply (wf_hash l)). clear W.
  induction N as [|x r NI N IH]; [constructor|]. cbn. constructor.
  - intro I. apply in_map_iff in I. destruct I as (y & E & I). apply NI. rewrite <- (H y x); [assumption|now right|now left|assumption].
  - apply IH. intros; apply H; auto; now right.
Qed.
Lemma nodup_part {A} (l m : list A) : NoDup (l ++ m) -> NoDup l /\ NoDup m.
Proof.
  induction l as [|x r IH]; cbn; intro N; [split; [constructor|assumption]|]. inversion N; subst. destruct (IH H2). split; [|assumption]. constructor; [|assumption].
  intro I. apply H1. apply in_or_app. now left.
Qed.

(** ** InsertSnapshotBlock *)
Lemma seg_at_snoc segs conf n : seg_at (segs ++ [conf]) n = if n =? zlen segs + 1 then conf else seg_at segs n.
Proof.
  unfold seg_at. destruct (Z.ltb_spec n 1); [destruct (Z.eqb_spec n (zlen segs + 1)); [unfold zlen in *; lia|reflexivity]|]. destruct (Z.eqb_spec n (zlen segs + 1)) as [->|N].
  - replace (Z.to_nat (zlen segs + 1 - 1)) with (length segs) by (unfold zlen; lia). rewrite app_nth2, Nat.sub_diag by lia. reflexivity.
  - destruct (Nat.lt_ge_cases (Z.to_nat (n - 1)) (length segs)); [now apply app_nth1|]. rewrite !nth_overflow; [reflexivity|assumption|rewrite app_length; cbn; unfold zlen in N; lia].
Qed.
Lemma hist_snoc d segs conf l : hist_ok d segs -> logs_ok l conf -> hist_ok (sapply d (history_batch ord (zlen segs + 1) l)) (segs ++ [conf]).
Proof.
  intros [A B] L. split.
  - intros a k n. rewrite sget_sapply, (history_stor logs_kept ord ord_in l conf) by assumption. rewrite seg_at_snoc. destruct (Z.eqb_spec n (zlen segs + 1)) as [->|N]; [|apply A].
    destruct (seg_kv conf a k); cbn [option_map]; [reflexivity|]. rewrite A, seg_at_above by lia. reflexivity.
  - intros a k n. rewrite sget_sapply, (history_bal logs_kept ord ord_in l conf) by assumption. rewrite seg_at_snoc. destruct (Z.eqb_spec n (zlen segs + 1)) as [->|N]; [|apply B].
    destruct (seg_bal conf a k); cbn [option_map]; [reflexivity|]. rewrite B, seg_at_above by lia. reflexivity.
Qed.
Lemma hist_value a k n o bs l h : logs_ok l bs -> In (SHStor a k n, o) (history_batch ord h l) -> exists v, seg_kv bs a k = Some v /\ o = Some (VB v).
Proof.
  intros L I. unfold history_batch in I. apply in_app_or in I. destruct I as [I|I]; apply in_flat_map in I; destruct I as ([a' is] & I & J); apply in_map_iff in J; destruct J as ([k' v] & E & J); cbn [fst snd] in *; [|discriminate].
  injection E as -> -> -> <-. apply (proj1 (ord_in _ _ _)) in I, J. pose proof (logs_in _ l bs a is L I) as ->. apply kv_map_in in J. rewrite items_storage in J. now exists v.
Qed.
Lemma concat_snoc {A} (segs : list (list A)) conf : concat (segs ++ [conf]) = concat segs ++ conf.
Proof. rewrite concat_app. cbn. now rewrite app_nil_r. Qed.
Lemma logs_empty_list l bs : logs_ok l bs -> l = [] -> forall a, filter (from a) bs = [].
Proof. intros [_ L] -> a. specialize (L a). cbn in L. now destruct (filter (from a) bs). Qed.
Lemma snap_inv w m conf : inv w m -> allowed w (OSnap conf) ->
  exists s, insert_snapshot cached ord (w_s w) (top_of w + 1) conf = Some s /\
    inv {| w_s := s; w_segs := w_segs w ++ [conf]; w_unc := without conf (w_unc w) |} (Z.max m (zlen (w_segs w) + 1)).
Proof.
  intros I S. cbn in S. destruct I as [W M D P C R X]. set (rest := without conf (w_unc w)) in *.
  set (top := zlen (w_segs w)) in *. assert (TN : 0 <= top) by (unfold top, zlen; lia).
  destruct R as [R1 [nx [R2 R3]] R5 R6 R7 [lo (K1 & K2 & K3 & K4)]]. fold top in R1, R2, R5, R6, K2, K4.
  destruct (split_ok logs_kept (concat (w_segs w)) (w_unc w) conf rest W S nx R3) as (cur & nx' & SP & LC & LR).
  assert (SP' : (match nx with [] => Some ([], nx) | _ => split_log (rev conf) [] nx end) = Some (cur, nx')).
  { destruct nx; [|assumption]. pose proof (logs_empty_list [] _ R3 eq_refl) as E0. assert (conf = []); [|subst conf; exact SP].
    destruct conf as [|b r]; [reflexivity|]. pose proof (S (ab_addr b)) as E. rewrite E0 in E. cbn [filter] in E. rewrite from_self in E. discriminate. }
  assert (LV : live w = concat (w_segs w) ++ w_unc w) by reflexivity.
  assert (SM : same (live w) (concat (w_segs w ++ [conf]) ++ rest)).
  { intro a. rewrite LV, concat_snoc, !filter_app, (S a), app_assoc. reflexivity. }
  pose proof (wf_same _ _ SM W) as W'.
  assert (IN : forall b, In b conf -> In b (w_unc w)).
  { intros b J. apply (same_in _ _ b (splits_same _ _ _ S)). apply in_or_app. now left. }
  pose proof (wf_hashes _ W) as NH. rewrite LV, map_app in NH. apply nodup_part in NH. destruct NH as [_ NH].
  pose proof (wf_hashes _ W') as NH'. rewrite concat_snoc, !map_app in NH'. apply nodup_part in NH'. destruct NH' as [NH' _]. apply nodup_part in NH'. destruct NH' as [_ NH'].
  destruct (take_pending_ok conf (w_unc w) (s_pending (w_s w)) P NH NH' IN) as (bs & p' & TP & B1 & B2 & B3). fold rest in B3.
  set (rc := set_current (zset (s_rcache (w_s w)) (top + 1) cur) (top + 1 + 1) nx').
  set (rs := if 1200 <? top + 1 then zdel (zset (s_rstore (w_s w)) (top + 1) cur) (top + 1 - 1200) else zset (s_rstore (w_s w)) (top + 1) cur).
  assert (RI : redo_insert (w_s w) (top + 1) conf = Some (rc, top + 1 + 1, rs)).
  { unfold redo_insert. rewrite R1, R2, SP'. reflexivity. }
  destruct (set_current_get (zset (s_rcache (w_s w)) (top + 1) cur) (top + 1 + 1) nx') as (cut & CU & G). fold rc in G.
  assert (RSG : forall h, zget rs h = if h =? top + 1 then Some cur else if h =? top + 1 - 1200 then (if 1200 <? top + 1 then None else zget (s_rstore (w_s w)) h) else zget (s_rstore (w_s w)) h).
  { intro h. unfold rs. destruct (1200 <? top + 1) eqn:Y; rewrite ?zget_zdel, zget_zset, (Z.eqb_sym (top + 1) h).
    - rewrite (Z.eqb_sym (top + 1 - 1200) h). destruct (Z.eqb_spec h (top + 1 - 1200)); [destruct (Z.eqb_spec h (top + 1)); [lia|reflexivity]|reflexivity].
    - destruct (h =? top + 1); [reflexivity|]. now destruct (h =? top + 1 - 1200). }
  assert (QL : fst (query_log {| s_mem := s_mem (w_s w); s_disk := s_disk (w_s w); s_pending := s_pending (w_s w); s_cache := s_cache (w_s w); s_rcache := rc; s_rcur := top + 1 + 1; s_rstore := rs |} (top + 1)) = cur).
  { unfold query_log. cbn [s_rcache s_rstore]. destruct (zget rc (top + 1)) as [l|] eqn:E.
    - rewrite G in E. destruct (Z.eqb_spec (top + 1) (top + 1 + 1)); [lia|]. destruct (top + 1 <=? cut); [discriminate|]. rewrite zget_zset, Z.eqb_refl in E. injection E as <-. reflexivity.
    - rewrite RSG, Z.eqb_refl. reflexivity. }
  unfold insert_snapshot. change (top_of w) with top. rewrite RI, QL, TP.
  eexists. split; [reflexivity|].
  assert (HO : forall k, latest k -> lop (history_batch ord (top + 1) cur) k = None) by (intros k L; apply history_other; destruct k; try destruct L; cbn; tauto).
  split; cbn [w_s w_segs w_unc s_mem s_disk s_pending s_cache s_rcache s_rcur s_rstore].
  - exact W'.
  - destruct M as [M1 M2 M3]. split.
    + intros k L. rewrite sget_sapply, (HO k L). apply (holds_same logs_kept (s_mem (w_s w)) (live w)); auto.
    + now apply hist_snoc.
    + now apply sapply_nodup.
  - destruct D as [D1 D2 D3]. rewrite sapply_app. split.
    + intros k L. rewrite sget_sapply, (HO k L). rewrite concat_snoc, sget_sapply, (B1 k L), view_app. destruct (view conf k); [reflexivity|now apply D1].
    + apply hist_snoc; [|assumption]. now apply hist_keep.
    + now apply sapply_nodup, sapply_nodup.
  - exact B3.
  - apply (cache_follow _ _ (w_segs w)); [assumption|]. intros a k Ca. rewrite sget_sapply, concat_snoc, view_app, view_seg.
    pose proof (fun o => cache_stor_in cached (history_batch ord (top + 1) cur) a k o Ca) as CI.
    assert (HI : forall n o, In (SHStor a k n, o) (history_batch ord (top + 1) cur) -> exists v, seg_kv conf a k = Some v).
    { intros n o J. assert (Y : lop (history_batch ord (top + 1) cur) (SHStor a k n) <> None) by (apply lop_in; now exists o).
      rewrite (history_stor logs_kept ord ord_in cur conf) in Y by assumption. destruct (n =? top + 1); [|congruence]. destruct (seg_kv conf a k) as [v|]; [now exists v|now destruct Y]. }
    destruct (seg_kv conf a k) as [v|] eqn:E; cbn [option_map].
    + assert (Y : lop (cache_ops cached (history_batch ord (top + 1) cur)) (SStor a k) = Some (Some (VB v))).
      { assert (Z0 : In (SHStor a k (top + 1), Some (VB v)) (history_batch ord (top + 1) cur)).
        { apply lop_some. rewrite (history_stor logs_kept ord ord_in cur conf), Z.eqb_refl, E by assumption. reflexivity. }
        apply lop_uniform; [apply CI; now exists (top + 1)|]. intros o J. apply CI in J. destruct J as (n & J).
        (* every entry carries the last value *)
        apply (hist_value a k n o conf cur) in J; [|assumption]. destruct J as (v' & V & ->). congruence. }
      rewrite Y. unfold after. symmetry. apply norm_put.
    + assert (Y : lop (cache_ops cached (history_batch ord (top + 1) cur)) (SStor a k) = None).
      { apply cache_stor_none. intros n o J. destruct (HI n o J) as [v V]. discriminate. }
      rewrite Y. now apply (ca_stor _ _ _ C).
  - replace (zlen (w_segs w ++ [conf])) with (top + 1) by (unfold top, zlen; rewrite app_length; cbn; lia).
    split.
    + unfold zlen; rewrite app_length; cbn. unfold top, zlen. lia.
    + replace (zlen (w_segs w ++ [conf])) with (top + 1) by (unfold top, zlen; rewrite app_length; cbn; lia). exists nx'. split; [|assumption]. rewrite G. now rewrite Z.eqb_refl.
    + replace (zlen (w_segs w ++ [conf])) with (top + 1) by (unfold top, zlen; rewrite app_length; cbn; lia). intros h l Hh. rewrite G, seg_at_snoc. fold top. destruct (Z.eqb_spec h (top + 1 + 1)); [lia|].
      destruct (h <=? cut); [discriminate|]. rewrite zget_zset, (Z.eqb_sym (top + 1) h). destruct (Z.eqb_spec h (top + 1)) as [->|]; [intro E; injection E as <-; assumption|]. apply R5. lia.
    + replace (zlen (w_segs w ++ [conf])) with (top + 1) by (unfold top, zlen; rewrite app_length; cbn; lia). intros h Hh. rewrite !G. destruct (Z.eqb_spec h (top + 1 + 1)); [lia|].
      destruct (Z.leb_spec h cut); [congruence|]. destruct (Z.eqb_spec (h + 1) (top + 1 + 1)); [discriminate|]. destruct (Z.leb_spec (h + 1) cut); [lia|]. rewrite !zget_zset.
      destruct (Z.eqb_spec (top + 1) h); [lia|]. destruct (Z.eqb_spec (top + 1) (h + 1)); [discriminate|]. apply R6. lia.
    + intros h l. rewrite RSG, seg_at_snoc. fold top. destruct (h =? top + 1); [intro E; injection E as <-; assumption|]. destruct (h =? top + 1 - 1200); [destruct (1200 <? top + 1); [discriminate|apply R7]|apply R7].
    + replace (zlen (w_segs w ++ [conf])) with (top + 1) by (unfold top, zlen; rewrite app_length; cbn; lia).
      exists (if 1200 <? top + 1 then Z.max lo (top + 1 - 1200) else lo). destruct (Z.ltb_spec 1200 (top + 1)).
      * repeat split; try lia.
        -- rewrite RSG in H0. destruct (Z.eqb_spec h (top + 1)); [lia|]. destruct (Z.eqb_spec h (top + 1 - 1200)); [destruct (Z.ltb_spec 1200 (top + 1)); [congruence|lia]|]. apply K4 in H0. lia.
        -- rewrite RSG in H0. destruct (Z.eqb_spec h (top + 1)); [lia|]. destruct (Z.eqb_spec h (top + 1 - 1200)); [destruct (Z.ltb_spec 1200 (top + 1)); [congruence|lia]|]. apply K4 in H0. lia.
        -- intro Q. rewrite RSG. destruct (Z.eqb_spec h (top + 1)); [discriminate|]. destruct (Z.eqb_spec h (top + 1 - 1200)); [lia|]. apply K4. lia.
      * repeat split; try lia.
        -- rewrite RSG in H0. destruct (Z.eqb_spec h (top + 1)); [lia|]. destruct (Z.eqb_spec h (top + 1 - 1200)); [destruct (Z.ltb_spec 1200 (top + 1)); [lia|]|]; apply K4 in H0; lia.
        -- rewrite RSG in H0. destruct (Z.eqb_spec h (top + 1)); [lia|]. destruct (Z.eqb_spec h (top + 1 - 1200)); [destruct (Z.ltb_spec 1200 (top + 1)); [lia|]|]; apply K4 in H0; lia.
        -- intro Q. rewrite RSG. destruct (Z.eqb_spec h (top + 1)); [discriminate|]. destruct (Z.eqb_spec h (top + 1 - 1200)); [lia|]. apply K4. lia.
  - unfold top, zlen. rewrite app_length. cbn [length]. lia.
Qed.
End Inv.
