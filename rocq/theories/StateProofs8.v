(** Taking back, restarting, and every step of the state database. *)
Require Import Coq.Lists.List Coq.ZArith.ZArith Coq.Bool.Bool Coq.micromega.Lia Coq.Sorting.Permutation.
Require Import Verif.Lib Verif.StateModel Verif.StateSpec Verif.StateProofs Verif.StateProofs2 Verif.StateProofs3 Verif.StateProofs4 Verif.StateProofs5 Verif.StateProofs6 Verif.StateProofs7.
Import ListNotations.
Local Open Scope Z_scope.

Lemma number_nth segs : forall h i, nth_error (number h segs) i = option_map (fun x => (Some (h + Z.of_nat i), x)) (nth_error segs i).
Proof.
  induction segs as [|x r IH]; intros h [|i]; cbn [number nth_error option_map]; try reflexivity.
  - now rewrite Z.add_0_r.
  - rewrite IH. destruct (nth_error r i); [|reflexivity]. cbn. do 3 f_equal. lia.
Qed.
Lemma skipn_nth {A} (l : list A) : forall n i, nth_error (skipn n l) i = nth_error l (n + i).
Proof. induction l as [|x r IH]; intros [|n] i; cbn; try reflexivity; [now destruct i|apply IH]. Qed.
Lemma undo_item_quiet a i k : histkey k -> forall o, ~ In (k, o) (undo_item None a i).
Proof.
  intros H o J. unfold undo_item in J. repeat (apply in_app_iff in J; destruct J as [J|J]).
  - apply in_map_iff in J. destruct J as (p & E & _). injection E as <- _. destruct H.
  - apply in_map_iff in J. destruct J as (p & E & _). injection E as <- _. destruct H.
  - apply in_map_iff in J. destruct J as (p & E & _). injection E as <- _. destruct H.
  - destruct (it_code i); [destruct J|]. destruct J as [E|[]]. injection E as <- _. destruct H.
  - apply in_map_iff in J. destruct J as (p & E & _). injection E as <- _. destruct H.
  - apply in_map_iff in J. destruct J as (p & E & _). injection E as <- _. destruct H.
Qed.
Lemma quiet_lop bt k : (forall o, ~ In (k, o) bt) -> lop bt k = None.
Proof. intro N. destruct (lop bt k) eqn:E; [|reflexivity]. apply lop_some in E. now apply N in E. Qed.

Section Steps.
Context (logs_kept cached builtin : Z -> bool) (ord : forall A, list A -> list A).
Hypothesis ord_in : forall A (l : list A) x, In x (ord A l) <-> In x l.
Hypothesis cached_builtin : forall a, cached a = true -> builtin a = true.
Notation item_of := (item_of logs_kept).
Notation wb := (write_batch logs_kept).
Notation view := (view logs_kept).
Notation logs_ok := (logs_ok logs_kept).
Notation holds := (holds logs_kept).
Notation restores := (restores logs_kept).
Notation inv := (inv logs_kept cached).
Notation prel := (prel logs_kept).
Notation st_ok := (st_ok logs_kept).
Notation cache_ok := (cache_ok logs_kept cached).
Notation redo_ok := (redo_ok logs_kept).

(** ** Deleting unconfirmed blocks *)
Lemma accounts_quiet s segs next taken k : histkey k -> forall o, ~ In (k, o) (undo_accounts_batch cached ord s segs next taken).
Proof.
  intros H o J. unfold undo_accounts_batch in J. repeat (apply in_app_iff in J; destruct J as [J|J]).
  - unfold undo_log in J. apply in_flat_map in J. destruct J as (p & _ & J). apply in_flat_map in J. destruct J as (i & _ & J). now apply undo_item_quiet in J.
  - unfold replay in J. apply in_flat_map in J. destruct J as (a & _ & J). apply in_flat_map in J. destruct J as (i & _ & J). unfold replay_item in J. apply in_app_iff in J.
    destruct J as [J|J]; apply in_map_iff in J; destruct J as (p & E & _); injection E as <- _; destruct H.
  - apply in_map_iff in J. destruct J as (p & E & _). injection E as <- _. destruct H.
  - apply in_map_iff in J. destruct J as (p & E & _). injection E as <- _. destruct H.
Qed.
Lemma acc_inv w m bs : inv w m -> allowed w (ODelAcc bs) ->
  exists s, rollback_accounts cached ord (w_s w) (top_of w) bs = Some s /\ inv {| w_s := s; w_segs := w_segs w; w_unc := without bs (w_unc w) |} m.
Proof.
  intros I S. cbn in S. destruct I as [W M D P C R X]. set (rest := without bs (w_unc w)) in *. set (top := zlen (w_segs w)) in *.
  destruct R as [R1 [nx [R2 R3]] R5 R6 R7 R8]. fold top in R1, R2, R5, R6.
  destruct (take_ok logs_kept (concat (w_segs w)) (w_unc w) rest bs W S nx R3) as (nx' & taken & T & L1 & L2 & AD).
  unfold rollback_accounts. change (top_of w) with top.
  assert (Q : query_log (w_s w) (top + 1) = (nx, true)) by (unfold query_log; now rewrite R2).
  rewrite Q. cbn [negb]. rewrite T. eexists. split; [reflexivity|].
  change (undo_log ord None taken ++ _) with (undo_accounts_batch cached ord (w_s w) (w_segs w) nx' taken).
  set (bt := undo_accounts_batch cached ord (w_s w) (w_segs w) nx' taken).
  pose proof (splits_pre (w_segs w) (w_unc w) rest bs S) as SP.
  assert (RS : restores bt (concat (w_segs w) ++ rest) bs).
  { apply (undo_accounts_restores logs_kept cached builtin ord ord_in (w_s w) (w_segs w) (w_unc w)); auto; [apply (st_hist _ _ _ _ M)|apply (ca_stor _ _ _ _ _ C)]. }
  destruct (set_current_get (s_rcache (w_s w)) (top + 1) nx') as (cut & CU & G).
  split; cbn [w_s w_segs w_unc s_mem s_disk s_pending s_cache s_rcache s_rcur s_rstore live]; auto.
  - exact (wf_prefix _ _ _ W SP).
  - destruct M as [M1 M2 M3]. split; [now apply (restores_ok logs_kept _ _ (live w) _ bs)| |now apply sapply_nodup].
    apply hist_keep; [assumption|]. intros k K. apply quiet_lop. now apply accounts_quiet.
  - now apply pend_dels.
  - apply cache_quiet; [assumption|]. intros a k n o. now apply accounts_quiet.
  - fold top. split; fold top; auto.
    + exists nx'. split; [|assumption]. rewrite G. now rewrite Z.eqb_refl.
    + intros h l Hh. rewrite G. destruct (Z.eqb_spec h (top + 1)); [lia|]. destruct (h <=? cut); [discriminate|]. now apply R5.
    + intros h Hh. rewrite !G. destruct (Z.eqb_spec h (top + 1)); [lia|]. destruct (Z.leb_spec h cut); [congruence|]. destruct (Z.eqb_spec (h + 1) (top + 1)); [discriminate|].
      destruct (Z.leb_spec (h + 1) cut); [lia|]. now apply R6.
Qed.

(** ** Restart *)
Lemma metas_get d a : keys_nodup d ->
  lop (flat_map (fun e : skey * sval => match fst e with SMeta _ => [(fst e, Some (snd e))] | _ => [] end) d) (SMeta a) = option_map Some (sget d (SMeta a)).
Proof.
  intro N. destruct (sget d (SMeta a)) as [v|] eqn:E; cbn [option_map].
  - apply lop_uniform.
    + apply in_flat_map. exists (SMeta a, v). split; [now apply sget_in|now left].
    + intros o J. apply in_flat_map in J. destruct J as ([k x] & J & F). cbn [fst snd] in F. destruct k; try destruct F. injection H as -> <-. apply (in_sget d _ _ N) in J. congruence.
      destruct H.
  - apply quiet_lop. intros o J. apply in_flat_map in J. destruct J as ([k x] & J & F). cbn [fst snd] in F. destruct k; try (now destruct F). destruct F as [F|[]]. injection F as -> <-. apply (in_sget d _ _ N) in J. congruence.
Qed.
Lemma restart_inv w m : inv w m -> inv (restart builtin w) m.
Proof.
  intros [W M D P C R X]. unfold restart.
  assert (SP : splits (live w) (concat (w_segs w) ++ []) (w_unc w)) by (intro a; unfold live; now rewrite app_nil_r, filter_app).
  split; cbn [w_s w_segs w_unc s_mem s_disk s_pending s_cache s_rcache s_rcur s_rstore live]; auto.
  - exact (wf_prefix _ _ _ W SP).
  - unfold live. cbn [w_segs w_unc]. now rewrite app_nil_r.
  - destruct D as [D1 D2 D3]. split.
    + intros a t v. rewrite sget_sapply, quiet_lop, fill_get by (assumption || (intros o J; apply in_flat_map in J; destruct J as ([k x] & _ & F); cbn [fst snd] in F; destruct k; try (now destruct F); destruct F as [F|[]]; discriminate)).
      discriminate.
    + intro a. rewrite sget_sapply, metas_get by assumption. destruct (sget (s_disk (w_s w)) (SMeta a)); cbn [option_map]; [reflexivity|]. now rewrite fill_get.
    + intros a k Ca. rewrite sget_sapply, quiet_lop, fill_get by (assumption || (intros o J; apply in_flat_map in J; destruct J as ([k0 x] & _ & F); cbn [fst snd] in F; destruct k0; try (now destruct F); destruct F as [F|[]]; discriminate)).
      rewrite (cached_builtin a Ca). rewrite <- (D1 (SStor a k) Logic.I). destruct (sget (s_disk (w_s w)) (SStor a k)); reflexivity.
  - destruct R as [R1 _ R5 R6 R7 R8]. change (top_of w) with (zlen (w_segs w)). split; auto.
    + exists []. cbn [zget]. rewrite Z.eqb_refl. split; [reflexivity|apply logs_nil].
    + intros h l Hh. cbn [zget]. destruct (Z.eqb_spec (zlen (w_segs w) + 1) h); [lia|discriminate].
    + intros h Hh. cbn [zget]. destruct (Z.eqb_spec (zlen (w_segs w) + 1) h); [lia|congruence].
Qed.

(** ** Writing blocks back *)
Notation rb := (fun b => redo_batch (ab_addr b) (item_of b)).
Lemma rewrite_ok keep bk l : wf_live (keep ++ bk) -> logs_ok l bk ->
  forall bs s, (forall b, In b bs -> In b bk) ->
  rewrite_blocks cached s l bs = Some {| s_mem := sapply (s_mem s) (flat_map rb bs); s_disk := s_disk s;
    s_pending := s_pending s ++ map (fun b => (ab_hash b, rb b)) bs;
    s_cache := sapply (s_cache s) (cache_ops cached (flat_map rb bs));
    s_rcache := s_rcache s; s_rcur := s_rcur s; s_rstore := s_rstore s |}.
Proof.
  intros W [_ L] bs. induction bs as [|b r IH]; intros s H; cbn [rewrite_blocks].
  - destruct s. cbn. now rewrite app_nil_r.
  - assert (J : In b (filter (from (ab_addr b)) bk)) by (apply -> in_from; apply H; now left). apply In_nth_error in J. destruct J as [i J].
    rewrite (L (ab_addr b)). destruct (filter (from (ab_addr b)) bk) as [|f q] eqn:E; [now destruct i|]. cbn [map].
    pose proof (heights_rise logs_kept (keep ++ bk) (f :: q) (ab_addr b) 0%nat i f b W) as HR.
    assert (Y : ab_height b - ab_height f = Z.of_nat i).
    { rewrite HR; [lia| |reflexivity|assumption]. exists (filter (from (ab_addr b)) keep), []. now rewrite filter_app, E, app_nil_r. }
    change (it_height (item_of f)) with (ab_height f). rewrite Y. destruct (Z.ltb_spec (Z.of_nat i) 0); [lia|]. rewrite Nat2Z.id.
    change (item_of f :: map item_of q) with (map item_of (f :: q)). rewrite (map_nth_error item_of i (f :: q) J). rewrite IH by (intros x Hx; apply H; now right).
    cbn [write_by_redo s_mem s_disk s_pending s_cache s_rcache s_rcur s_rstore flat_map map]. rewrite <- app_assoc, cache_ops_app, !sapply_app. reflexivity.
Qed.
Lemma rbs_quiet bs k : histkey k -> forall o, ~ In (k, o) (flat_map rb bs).
Proof. intros H o J. apply in_flat_map in J. destruct J as (b & _ & J). now apply rb_no_hist in J. Qed.
Lemma rbs_view bs k : (forall b, In b bs -> block_ok b) -> latest k -> lop (flat_map rb bs) k = view bs k.
Proof. intros B K. rewrite lop_flat, view_newest. apply newest_ext. intros b J. apply redo_wb; auto. Qed.

(** ** Deleting snapshot blocks *)
Lemma back_inv w m n bt l bk gone :
  inv w m -> 0 <= n < zlen (w_segs w) ->
  restores bt (concat (firstn (Z.to_nat n) (w_segs w))) (concat (skipn (Z.to_nat n) (w_segs w)) ++ w_unc w) ->
  (forall d, hist_ok d (w_segs w) -> hist_ok (sapply d bt) (firstn (Z.to_nat n) (w_segs w))) ->
  (forall a k m o, In (SHStor a k m, o) bt <-> o = None /\ n < m /\ writes_key (seg_at (w_segs w) m) a k) ->
  logs_ok l bk -> splits (live w) (concat (firstn (Z.to_nat n) (w_segs w)) ++ bk) gone ->
  exists s, rewrite_blocks cached
    {| s_mem := sapply (s_mem (w_s w)) bt; s_disk := sapply (s_disk (w_s w)) (flat_map snd (s_pending (w_s w)) ++ bt); s_pending := [];
       s_cache := fill_snapshot_cache builtin (sapply (s_mem (w_s w)) bt) (sapply (s_cache (w_s w)) (cache_ops cached bt));
       s_rcache := set_current (fold_left forget (chunk_heights (chunks (w_segs w) (w_unc w) n)) (s_rcache (w_s w))) (n + 1) l; s_rcur := n + 1;
       s_rstore := fold_left zdel (chunk_heights (chunks (w_segs w) (w_unc w) n)) (s_rstore (w_s w)) |} l bk = Some s /\
    inv {| w_s := s; w_segs := firstn (Z.to_nat n) (w_segs w); w_unc := bk |} m.
Proof.
  intros [W M D P C R X] N RS HK HS LB SP. set (segs := w_segs w) in *. set (keep := firstn (Z.to_nat n) segs) in *.
  pose proof (wf_prefix _ _ _ W SP) as W'. pose proof (snap_splits segs (w_unc w) n) as S0. fold keep in S0.
  assert (ZK : zlen keep = n) by (unfold keep, zlen; rewrite firstn_length; unfold zlen in N; lia).
  rewrite (rewrite_ok (concat keep) bk l W' LB bk) by auto. cbn [s_mem s_disk s_pending s_cache s_rcache s_rcur s_rstore app]. eexists. split; [reflexivity|].
  set (mem1 := sapply (s_mem (w_s w)) bt).
  assert (BO : forall b, In b bk -> block_ok b) by (intros b J; apply (wl_ok _ W'); apply in_or_app; now right).
  assert (M1 : st_ok mem1 (concat keep) keep).
  { destruct M as [H1 H2 H3]. split; [now apply (restores_ok logs_kept _ _ (live w) _ (concat (skipn (Z.to_nat n) segs) ++ w_unc w))|now apply HK|now apply sapply_nodup]. }
  assert (D1 : st_ok (sapply (s_disk (w_s w)) (flat_map snd (s_pending (w_s w)) ++ bt)) (concat keep) keep).
  { rewrite sapply_app. pose proof (st_add logs_kept _ _ _ (flat_map snd (s_pending (w_s w))) (w_unc w) D) as D2.
    destruct D2 as [H1 H2 H3]; [intros k K; now apply pend_view|intros k K; now apply (pend_hist logs_kept (w_unc w))|].
    split; [now apply (restores_ok logs_kept _ _ (live w) _ (concat (skipn (Z.to_nat n) segs) ++ w_unc w))|now apply HK|now apply sapply_nodup]. }
  set (hs := chunk_heights (chunks segs (w_unc w) n)).
  assert (HH : forall h, existsb (Z.eqb h) hs = (n <? h) && (h <=? zlen segs)).
  { intro h. apply eq_true_iff_eq. rewrite existsb_exists, andb_true_iff, Z.ltb_lt, Z.leb_le. unfold hs, chunk_heights. split.
    - intros (y & J & E). apply Z.eqb_eq in E. subst y. apply in_flat_map in J. destruct J as ([[h'|] bl] & J & F); [|destruct F]. destruct F as [F|[]]. cbn in F. subst h'.
      apply (chunk_seg logs_kept cached builtin segs (w_unc w) n W N) in J. tauto.
    - intro E. exists h. split; [|apply Z.eqb_refl]. apply in_flat_map. exists (Some h, seg_at segs h). split; [|now left]. now apply (chunk_seg logs_kept cached builtin segs (w_unc w) n W N). }
  split; cbn [w_s w_segs w_unc s_mem s_disk s_pending s_cache s_rcache s_rcur s_rstore live].
  - exact W'.
  - apply st_add; [assumption|intros k K; now apply rbs_view|intros k K; apply quiet_lop; now apply rbs_quiet].
  - exact D1.
  - assert (F : forall bs, (forall b, In b bs -> block_ok b) -> Forall2 prel bs (map (fun b => (ab_hash b, rb b)) bs)).
    { induction bs as [|b r IH]; intro B; [constructor|]. cbn [map]. constructor; [|apply IH; intros; apply B; now right]. split; [reflexivity|]. split; intros k K; cbn [snd].
      - apply redo_wb; [apply B; now left|assumption].
      - apply quiet_lop. now apply rb_no_hist. }
    now apply F.
  - apply cache_quiet; [|intros a k x o; now apply rbs_quiet]. destruct C as [C1 C2 C3]. destruct M1 as [H1 H2 H3]. split.
    + intros a t v. rewrite fill_get by assumption. unfold mem1. rewrite !sget_sapply, cache_same by exact Logic.I. destruct (lop bt (SBal a t)); [tauto|apply C1].
    + intro a. rewrite fill_get by assumption. unfold mem1. rewrite !sget_sapply, cache_same by exact Logic.I. destruct (lop bt (SMeta a)); [reflexivity|apply C2].
    + intros a k Ca. rewrite fill_get, (cached_builtin a Ca) by assumption. rewrite <- (H1 (SStor a k) Logic.I). destruct (sget mem1 (SStor a k)) as [v|] eqn:E; [reflexivity|].
      pose proof (H1 (SStor a k) Logic.I) as V. rewrite E in V. cbn [norm] in V |- *. rewrite sget_sapply.
      pose proof (fun o => cache_stor_in cached bt a k o Ca) as CI.
      destruct (lop (cache_ops cached bt) (SStor a k)) as [o|] eqn:EL.
      * apply lop_some, CI in EL. destruct EL as (x & EL). apply HS in EL. destruct EL as (-> & _). reflexivity.
      * rewrite (C3 a k Ca). rewrite V. f_equal. rewrite <- (firstn_skipn (Z.to_nat n) segs) at 1. fold keep. rewrite concat_app, view_app.
        assert (NW : view (concat (skipn (Z.to_nat n) segs)) (SStor a k) = None); [|now rewrite NW].
        apply view_stor_none. intros (b & J & EA & EK). apply in_concat in J. destruct J as (sg & J & JB). apply In_nth_error in J. destruct J as [i J]. rewrite skipn_nth in J.
        assert (SA : seg_at segs (Z.of_nat (Z.to_nat n + i) + 1) = sg).
        { unfold seg_at. destruct (Z.ltb_spec (Z.of_nat (Z.to_nat n + i) + 1) 1); [lia|]. replace (Z.to_nat (Z.of_nat (Z.to_nat n + i) + 1 - 1)) with (Z.to_nat n + i)%nat by lia. now apply nth_error_nth. }
        assert (Y : In (SStor a k, None) (cache_ops cached bt)).
        { apply CI. exists (Z.of_nat (Z.to_nat n + i) + 1). apply HS. repeat split; [lia|]. rewrite SA. now exists b. }
        apply (proj1 (lop_in (cache_ops cached bt) (SStor a k))); [now exists None|assumption].
  - destruct R as [R1 R2 R5 R6 R7 [lo (K1 & K2 & K3 & K4)]]. fold segs in R1, R2, R5, R6, R7, K1, K2, K4.
    destruct (set_current_get (fold_left forget hs (s_rcache (w_s w))) (n + 1) l) as (cut & CU & G).
    assert (FG : forall h, zget (fold_left forget hs (s_rcache (w_s w))) h = if (n <? h) && (h <=? zlen segs) then None else zget (s_rcache (w_s w)) h).
    { intro h. change forget with (@zdel slog). rewrite zget_fold_del, HH. reflexivity. }
    assert (FS : forall h, zget (fold_left zdel hs (s_rstore (w_s w))) h = if (n <? h) && (h <=? zlen segs) then None else zget (s_rstore (w_s w)) h).
    { intro h. rewrite zget_fold_del, HH. reflexivity. }
    split; rewrite ?ZK.
    + reflexivity.
    + exists l. split; [|assumption]. rewrite G. now rewrite Z.eqb_refl.
    + intros h l' Hh. rewrite G, FG. destruct (Z.eqb_spec h (n + 1)); [lia|]. destruct (h <=? cut); [discriminate|]. destruct (Z.ltb_spec n h); [lia|]. cbn [andb]. unfold keep. rewrite seg_at_firstn by lia.
      destruct (Z.leb_spec h n); [|lia]. apply R5. lia.
    + intros h Hh. rewrite !G, !FG. destruct (Z.eqb_spec h (n + 1)); [lia|]. destruct (Z.leb_spec h cut); [congruence|]. destruct (Z.ltb_spec n h); [lia|]. cbn [andb].
      destruct (Z.eqb_spec (h + 1) (n + 1)); [discriminate|]. destruct (Z.leb_spec (h + 1) cut); [lia|]. destruct (Z.ltb_spec n (h + 1)); [lia|]. cbn [andb]. apply R6. lia.
    + intros h l'. rewrite FS. unfold keep. rewrite seg_at_firstn by lia. destruct (Z.ltb_spec n h), (Z.leb_spec h n); try lia; cbn [andb].
      * destruct (Z.leb_spec h (zlen segs)); [discriminate|]. intro E. exfalso. assert (Y : zget (s_rstore (w_s w)) h <> None) by congruence. apply K4 in Y. lia.
      * apply R7.
    + exists (Z.min lo n). repeat split; try lia.
      * rewrite FS in H. destruct (Z.ltb_spec n h), (Z.leb_spec h (zlen segs)); cbn [andb] in H; try congruence; apply K4 in H; lia.
      * rewrite FS in H. destruct (Z.ltb_spec n h), (Z.leb_spec h (zlen segs)); cbn [andb] in H; try congruence; apply K4 in H; lia.
      * intro Q. rewrite FS. destruct (Z.ltb_spec n h); [lia|]. cbn [andb]. apply K4. lia.
  - rewrite ZK. lia.
Qed.
(** The redo log, where there is one, is there for every later height. *)
Lemma redo_right w m n h : inv w m -> 0 <= n < zlen (w_segs w) -> has_redo (w_s w) (n + 1) = true -> n < h <= zlen (w_segs w) ->
  logs_ok (fst (query_log (w_s w) h)) (seg_at (w_segs w) h).
Proof.
  intros I N HR H. pose proof (i_redo _ _ _ _ I) as [R1 R2 R5 R6 R7 [lo (K1 & K2 & K3 & K4)]]. unfold query_log.
  destruct (zget (s_rcache (w_s w)) h) as [l|] eqn:E; [apply (R5 h l); [lia|assumption]|]. destruct (zget (s_rstore (w_s w)) h) as [l|] eqn:E'; [now apply (R7 h l)|].
  exfalso. assert (LO : h <= lo). { destruct (Z.le_gt_cases h lo); [assumption|]. assert (zget (s_rstore (w_s w)) h <> None) by (apply K4; lia). congruence. }
  unfold has_redo in HR. destruct (zget (s_rcache (w_s w)) (n + 1)) eqn:E1.
  - assert (A : forall j : nat, n + 1 + Z.of_nat j <= zlen (w_segs w) + 1 -> zget (s_rcache (w_s w)) (n + 1 + Z.of_nat j) <> None).
    { induction j as [|j IH]; intro B; [rewrite Z.add_0_r; congruence|]. replace (n + 1 + Z.of_nat (Datatypes.S j)) with (n + 1 + Z.of_nat j + 1) by lia. apply R6; [lia|]. apply IH. lia. }
    specialize (A (Z.to_nat (h - n - 1))). replace (n + 1 + Z.of_nat (Z.to_nat (h - n - 1))) with h in A by lia. apply A; [lia|assumption].
  - destruct (zget (s_rstore (w_s w)) (n + 1)) eqn:E2; [assert (Y : zget (s_rstore (w_s w)) (n + 1) <> None) by congruence; apply K4 in Y; lia|].
    destruct (zget (s_rstore (w_s w)) (n + 1 - 1)) eqn:E3; [|discriminate]. assert (Y : zget (s_rstore (w_s w)) (n + 1 - 1) <> None) by congruence. apply K4 in Y. lia.
Qed.
Lemma top_right w m : inv w m -> logs_ok (fst (query_log (w_s w) (zlen (w_segs w) + 1))) (w_unc w).
Proof. intro I. pose proof (i_redo _ _ _ _ I) as [R1 [l [R2 R3]] _ _ _ _]. unfold query_log. now rewrite R2. Qed.
Lemma chunk_nth segs unc n i c : 0 <= n < zlen segs -> nth_error (chunks segs unc n) i = Some c ->
  (n + 1 + Z.of_nat i <= zlen segs /\ c = (Some (n + 1 + Z.of_nat i), seg_at segs (n + 1 + Z.of_nat i))) \/ (n + 1 + Z.of_nat i = zlen segs + 1 /\ c = (None, unc)).
Proof.
  intros N E. unfold chunks in E. assert (LN : length (number (n + 1) (skipn (Z.to_nat n) segs)) = (length segs - Z.to_nat n)%nat) by (rewrite number_length, skipn_length; reflexivity).
  unfold zlen in *. destruct (Nat.lt_ge_cases i (length segs - Z.to_nat n)) as [L|L].
  - rewrite nth_error_app1 in E by lia. rewrite number_nth, skipn_nth in E. destruct (nth_error segs (Z.to_nat n + i)) as [x|] eqn:X; [|discriminate]. injection E as <-. left. split; [lia|].
    f_equal. unfold seg_at. destruct (Z.ltb_spec (n + 1 + Z.of_nat i) 1); [lia|]. symmetry. apply nth_error_nth. replace (Z.to_nat (n + 1 + Z.of_nat i - 1)) with (Z.to_nat n + i)%nat by lia. assumption.
  - rewrite nth_error_app2 in E by lia. rewrite LN in E. destruct unc as [|u r]; [now destruct (i - _)%nat|]. destruct (i - (length segs - Z.to_nat n))%nat as [|j] eqn:J; [|now destruct j]. injection E as <-.
    right. split; [lia|reflexivity].
Qed.
Lemma last_number h l : forall d : chunk, fst d <> None -> fst (last (number h l) d) <> None.
Proof.
  revert h. induction l as [|x q IH]; intros h d Hd; [assumption|]. cbn [number]. specialize (IH (h + 1) d Hd). destruct (number (h + 1) q); [discriminate|exact IH].
Qed.
Lemma old_ok w m n : inv w m -> 0 <= n < zlen (w_segs w) ->
  logs_ok (match last (chunks (w_segs w) (w_unc w) n) (Some 0, []) with (None, _) => fst (query_log (w_s w) (n + zlen (chunks (w_segs w) (w_unc w) n))) | _ => [] end) (w_unc w).
Proof.
  intros I N. pose proof (top_right w m I) as T. unfold chunks. destruct (w_unc w) as [|u r].
  - rewrite app_nil_r. pose proof (last_number (n + 1) (skipn (Z.to_nat n) (w_segs w)) (Some 0, []) ltac:(discriminate)) as Y. destruct (last _ _) as [[h|] bl]; [apply logs_nil|now destruct Y].
  - rewrite last_last. replace (n + zlen _) with (zlen (w_segs w) + 1); [assumption|]. unfold zlen in *. rewrite app_length, number_length, skipn_length. cbn [length]. lia.
Qed.
Lemma snaps_inv w m n : inv w m -> allowed w (ODelSnap n) ->
  exists w', delete_snapshots cached builtin ord w n = Some w' /\ inv w' m.
Proof.
  intros I (N & HR). pose proof I as [W M D P C R X]. unfold delete_snapshots. assert (CE : number (n + 1) (skipn (Z.to_nat n) (w_segs w)) ++ match w_unc w with [] => [] | u => [(None, u)] end = chunks (w_segs w) (w_unc w) n) by (unfold chunks; now destruct (w_unc w)).
  cbv zeta. rewrite CE. set (cs := chunks (w_segs w) (w_unc w) n) in *.
  unfold rollback_snapshots. destruct (has_redo (w_s w) (n + 1)) eqn:H.
  - assert (BK : snd (hd (None, []) cs) = seg_at (w_segs w) (n + 1)).
    { destruct (nth_error cs 0) as [c|] eqn:E.
      - pose proof (chunk_nth _ _ _ _ _ N E) as [[_ ->]|[Y _]]; [|lia]. rewrite Z.add_0_r in E. destruct cs; [discriminate|]. injection E as ->. reflexivity.
      - exfalso. assert (Y : In (Some (n + 1), seg_at (w_segs w) (n + 1)) cs) by (apply (chunk_seg logs_kept cached builtin _ _ _ W N); split; [lia|reflexivity]). destruct cs; [destruct Y|discriminate]. }
    rewrite BK. rewrite has_redo_query in H. destruct (query_log (w_s w) (n + 1)) as [l has] eqn:Q. cbn [snd] in H. subst has.
    destruct (undo_chunks ord (w_s w) (n + 1) cs) as [[bt ks] ts] eqn:U.
    assert (HR' : has_redo (w_s w) (n + 1) = true) by (rewrite has_redo_query, Q; reflexivity).
    assert (L : forall i c, nth_error cs i = Some c -> logs_ok (fst (query_log (w_s w) (n + 1 + Z.of_nat i))) (snd c)).
    { intros i c E. pose proof (chunk_nth _ _ _ _ _ N E) as [[Y ->]|[Y ->]]; cbn [snd]; [now apply (redo_right w m n); auto; lia|]. rewrite Y. now apply (top_right w m). }
    destruct (back_inv w m n (redo_back cached ord (w_s w) n bt ks ts) l (seg_at (w_segs w) (n + 1)) (concat (skipn (Z.to_nat (n + 1)) (w_segs w)) ++ w_unc w) I N) as (s & E & J).
    + apply (redo_back_restores logs_kept cached builtin ord ord_in); auto. apply (st_hist _ _ _ _ M).
    + apply (redo_back_hist logs_kept cached builtin ord ord_in (w_s w) (w_segs w) (w_unc w) n W N L bt ks ts U).
    + apply (redo_back_hstor logs_kept cached builtin ord ord_in (w_s w) (w_segs w) (w_unc w) n W N L bt ks ts U).
    + pose proof (redo_right w m n (n + 1) I N HR' ltac:(lia)) as Y. now rewrite Q in Y.
    + pose proof (snap_splits (w_segs w) (w_unc w) (n + 1)) as Y. assert (ES : Z.to_nat (n + 1) = Datatypes.S (Z.to_nat n)) by lia. rewrite ES in Y |- *. rewrite (firstn_seg logs_kept) in Y.
      replace (Z.of_nat (Datatypes.S (Z.to_nat n))) with (n + 1) in Y by lia. exact Y.
    + unfold redo_back in E. fold cs in E. rewrite E. eexists. split; [reflexivity|exact J].
  - rewrite (no_redo_query _ _ H). destruct HR as [HR|SK]; [discriminate|].
    pose proof (old_ok w m n I N) as LO. fold cs in LO. set (old := match last cs (Some 0, []) with (None, _) => fst (query_log (w_s w) (n + zlen cs)) | _ => [] end) in *.
    destruct (back_inv w m n (plain_back ord (w_s w) (w_segs w) (w_unc w) n old) [] [] (concat (skipn (Z.to_nat n) (w_segs w)) ++ w_unc w) I N) as (s & E & J).
    + apply (plain_back_restores logs_kept cached builtin ord ord_in); auto; [apply (st_hist _ _ _ _ M)|apply (st_nodup _ _ _ _ M)].
    + apply (plain_back_hist logs_kept cached builtin ord ord_in); auto; [apply (st_hist _ _ _ _ M)|apply (st_nodup _ _ _ _ M)].
    + apply (plain_back_hstor logs_kept cached builtin ord ord_in); auto; [apply (st_hist _ _ _ _ M)|apply (st_nodup _ _ _ _ M)].
    + apply logs_nil.
    + rewrite app_nil_r. apply snap_splits.
    + unfold plain_back in E. fold cs in E. cbv zeta in E |- *. pose proof (chunks_blocks _ _ n W) as CB. fold cs in CB. rewrite CB. fold old. rewrite E. eexists. split; [reflexivity|exact J].
Qed.

(** ** Every step *)
Lemma empty_inv : inv empty_world 0.
Proof.
  split; cbn [empty_world w_s w_segs w_unc s_mem s_disk s_pending s_cache s_rcache s_rcur s_rstore live concat app].
  - apply empty_wf.
  - split; [intros k _; reflexivity| |constructor]. split; intros; cbn; unfold seg_at; destruct (n <? 1); try reflexivity; destruct (Z.to_nat (n - 1)); reflexivity.
  - split; [intros k _; reflexivity| |constructor]. split; intros; cbn; unfold seg_at; destruct (n <? 1); try reflexivity; destruct (Z.to_nat (n - 1)); reflexivity.
  - constructor.
  - split; [discriminate|reflexivity|reflexivity].
  - split.
    + reflexivity.
    + exists []. split; [reflexivity|apply logs_nil].
    + intros h l H. unfold zlen in H. cbn in H. lia.
    + intros h H. unfold zlen in H. cbn in H. cbn [zget]. destruct (Z.eqb_spec 1 h); [lia|congruence].
    + discriminate.
    + exists 0. unfold zlen. cbn [length]. repeat split; try lia; cbn [zget] in *; try congruence.
  - unfold zlen. cbn. lia.
Qed.
Lemma step_inv w m o : inv w m -> allowed w o -> exists w', step logs_kept cached builtin ord w o = Some w' /\ inv w' (Z.max m (zlen (w_segs w'))).
Proof.
  intros I A. pose proof (i_most _ _ _ _ I) as X. destruct o as [b|conf|bs|n|]; cbn [step].
  - eexists. split; [reflexivity|]. cbn [w_segs]. rewrite Z.max_l by assumption. now apply (write_inv logs_kept cached builtin).
  - destruct (snap_inv logs_kept cached builtin ord ord_in cached_builtin w m conf I A) as (s & E & J). rewrite E. eexists. split; [reflexivity|]. cbn [w_segs]. unfold zlen at 1. rewrite app_length. cbn [length].
    replace (Z.of_nat (length (w_segs w) + 1)) with (zlen (w_segs w) + 1) by (unfold zlen; lia). exact J.
  - destruct (acc_inv w m bs I A) as (s & E & J). rewrite E. eexists. split; [reflexivity|]. cbn [w_segs]. rewrite Z.max_l by assumption. exact J.
  - destruct (snaps_inv w m n I A) as (w' & E & J). exists w'. split; [assumption|]. rewrite Z.max_l; [assumption|]. apply (i_most _ _ _ _ J).
  - eexists. split; [reflexivity|]. rewrite Z.max_l by assumption. now apply restart_inv.
Qed.
Lemma reached_inv w m : reached logs_kept cached builtin ord w m -> inv w m.
Proof.
  intro H. induction H as [|w m o w' H IH A E]; [apply empty_inv|]. destruct (step_inv w m o IH A) as (w'' & E' & J). rewrite E in E'. injection E' as <-. exact J.
Qed.
End Steps.
