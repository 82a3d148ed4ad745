From Verif Require Import Lib.
From Verif Require RoadModel RoadProofs ChainProofs.
Import RoadProofs.
From Verif Require Import IdxModel IdxSpec IdxProofs IdxProofs2 IdxProofs3 IdxProofs4 IdxProofs5 IdxProofs6 IdxProofs7 IdxProofs8.
From Coq Require Import Permutation Sorted.
Import ListNotations.

(** ** Rolling back snapshot blocks *)
Lemma iblocks_items gs u : iblocks (items gs u) = flat_map g_blocks gs ++ u.
Proof.
  unfold items. assert (E : forall A B, iblocks (A ++ B) = iblocks A ++ iblocks B) by (intros; apply flat_map_app). rewrite E, iblocks_map. f_equal. induction gs as [|g gs IH]; cbn [flat_map]; [reflexivity|]. rewrite !E, iblocks_map, IH. cbn. now rewrite app_nil_r.
Qed.
Lemma isbs_items gs u : isbs (items gs u) = map g_sb gs.
Proof.
  unfold items. assert (E : forall A B, isbs (A ++ B) = isbs A ++ isbs B) by (intros; apply flat_map_app). rewrite E, isbs_map, app_nil_r. induction gs as [|g gs IH]; cbn [flat_map map]; [reflexivity|]. rewrite !E, isbs_map, IH. reflexivity.
Qed.
Lemma creates_items gs u : flat_map item_creates (items gs u) = flat_map creates (flat_map g_blocks gs ++ u).
Proof.
  assert (M : forall l, flat_map item_creates (map IBlock l) = flat_map creates l) by (induction l as [|b l IH]; cbn; [reflexivity|now rewrite IH]).
  unfold items. rewrite flat_map_app, flat_map_app, M. f_equal. induction gs as [|g gs IH]; cbn [flat_map]; [reflexivity|]. rewrite !flat_map_app, M, IH. cbn. now rewrite app_nil_r.
Qed.
Section Roll.
  Context (S1 T : list seg) (U : list blk) (W : wf (S1 ++ T) U) (NE : S1 <> []).
  Let D := flat_map g_blocks T ++ U.
  Let pre := flat_map g_blocks S1.
  Lemma bb_cut : bb (S1 ++ T) U = pre ++ D. Proof. unfold bb, pre, D. now rewrite flat_map_app, app_assoc. Qed.
  Lemma cut_apart b : In b pre -> In b D -> False.
  Proof. intros A B. pose proof (c_hash _ _ W) as N. rewrite bb_cut in N. exact (apart _ _ b N A B). Qed.
  Lemma cut_chain : chainlike D.
  Proof.
    pose proof (c_hash _ _ W) as N. pose proof bb_cut as E. constructor.
    - rewrite E, flat_map_app in N. now apply nd_app_r in N.
    - pose proof (c_taken _ _ W) as N'. unfold taken in *. rewrite E, flat_map_app in N'. now apply nd_app_r in N'.
    - intros b B. destruct b as [|a n h [f|] subs]; cbn; auto. apply (cut_apart (BRecv a n h None subs)); [|exact B]. destruct (c_none _ _ W a n h subs) as [X|[X _]].
      + rewrite E. apply in_or_app. now right.
      + unfold pre. destruct S1 as [|g S2]; [now destruct NE|]. cbn in *. rewrite app_nil_r in X. apply in_or_app. now left.
      + destruct S1; [now destruct NE|discriminate].
    - intros l b r a f h ED TK (t & c' & y' & C' & Y' & E' & _). pose proof (c_from _ _ W (pre ++ l) b r) as A. rewrite E, ED, <- app_assoc in A. specialize (A eq_refl). destruct TK as (n & subs & ->). cbn in A. destruct A as (c & y & C & Y & Ey & Ty).
      exists a, c, y. split; [|auto]. apply in_app_or in C. destruct C as [C|C]; [|exact C]. exfalso. assert (CC : c = c') by (apply (same_block (bb (S1 ++ T) U) f); [exact N|rewrite E; apply in_or_app; now left|rewrite E; apply in_or_app; now right|rewrite <- Ey; now apply hs_send|rewrite <- E'; now apply hs_send]). subst c'. now apply (cut_apart c).
  Qed.
  Lemma cut_good d : good d (S1 ++ T) U -> good (apply (rollback_ops (items T U)) d) S1 [].
  Proof.
    intros G. pose proof bb_cut as E. apply (good_undo S1 T U [] (items T U) d W G); rewrite ?iblocks_items, ?isbs_items; fold D; try exact cut_chain.
    - intros s. rewrite in_map_iff. split; intros (g & A & B); exists g; auto.
    - intros b. split; [intros []|]. intros [A B]. apply B. unfold D. apply in_or_app. now right.
    - intros g b A B. unfold D. apply in_or_app. left. apply in_flat_map. eauto.
    - intros g b A B. intros C. apply (cut_apart b); [|exact C]. unfold pre. apply in_flat_map. eauto.
    - intros b B. rewrite E. apply in_or_app. now right.
    - intros f t (c' & y' & C' & Y' & E' & _) a n h subs H. rewrite E in H. apply in_app_or in H. destruct H as [H|H]; [exfalso|exact H]. apply in_split in H. destruct H as (l & r & EH). pose proof (c_from _ _ W l (BRecv a n h (Some f) subs) (r ++ D)) as A. rewrite E, EH, <- app_assoc in A. specialize (A eq_refl). cbn in A. destruct A as (c & y & C & Y & Ey & _).
      assert (CP : In c pre) by (rewrite EH; apply in_or_app; now left). assert (CC : c = c') by (apply (same_block (bb (S1 ++ T) U) f); [apply (c_hash _ _ W)|rewrite E; apply in_or_app; now left|rewrite E; apply in_or_app; now right|rewrite <- Ey; now apply hs_send|rewrite <- E'; now apply hs_send]). subst c'. now apply (cut_apart c).
  Qed.
End Roll.
Theorem inv_rollback x S1 T U sv again : inv x (S1 ++ T) U sv -> S1 <> [] -> again = [] \/ (exists g T', T = g :: T' /\ again = g_blocks g) -> inv (rollback x (items T U) again) S1 again sv.
Proof.
  intros V NE AG. pose proof (v_wf _ _ _ _ V) as W. assert (W0 : wf S1 []) by (apply (wf_cut S1 T U); auto; exists (flat_map g_blocks T ++ U); unfold bb; rewrite flat_map_app, app_nil_r; now rewrite app_assoc).
  assert (WA : wf S1 again).
  { destruct AG as [->|(g & T' & -> & ->)]; [exact W0|]. apply (wf_cut S1 (g :: T') U); auto. exists (flat_map g_blocks T' ++ U). unfold bb. rewrite flat_map_app. cbn [flat_map]. now rewrite <- !app_assoc. }
  unfold rollback. apply (inv_inserts sv S1 again _ []); [|exact WA]. pose proof (cut_chain S1 T U W NE) as CH.
  constructor; try exact W0; try exact (v_swf _ _ _ _ V); try exact (v_nd _ _ _ _ V); try exact (v_disk _ _ _ _ V); cbn [i_store i_cache i_confirm rollback_snapshot st_disk st_mem st_snap st_unc].
  - rewrite !apply_app. apply (cut_good S1 T U W NE). apply (apply_all_unc (S1 ++ T) U (st_unc (i_store x)) (v_unc _ _ _ _ V) []); [exact W|apply (v_snap _ _ _ _ V)].
  - unfold view. cbn [st_mem st_disk rollback_snapshot]. rewrite apply_app. apply (cut_good S1 T U W NE). apply (v_mem _ _ _ _ V).
  - constructor.
  - unfold view. cbn [st_mem st_disk rollback_snapshot]. rewrite apply_app. apply cache_step; [apply (v_cache _ _ _ _ V)|]. intros o O. destruct (rollback_cached (items T U)) with (o := o) as [X|X]; auto. now rewrite iblocks_items.
  - intros h n. rewrite forget_ok, creates_items. destruct (in_dec Z.eq_dec h _) as [H|H]; [discriminate|]. intros E. apply (v_conf _ _ _ _ V) in E. destruct E as (c & C & [(g & G & B & ->)|[Q ->]]); exists c; (split; [exact C|]).
    + left. exists g. split; [|auto]. apply in_app_or in G. destruct G as [G|G]; [exact G|]. destruct H. apply in_flat_map. exists c. split; [|exact C]. apply in_or_app. left. apply in_flat_map. eauto.
    + destruct H. apply in_flat_map. exists c. split; [|exact C]. apply in_or_app. now right.
Qed.
(** ** Flushes, restarts, evictions *)
Lemma good_same d d' S0 U k : good d S0 U -> good d' S0 U -> proper k -> get keq d k = get keq d' k.
Proof.
  intros G G' P. destruct (get keq d k) as [v|] eqn:E.
  - symmetry. apply (G' k P). now apply (G k P).
  - destruct (get keq d' k) as [v|] eqn:E'; [|reflexivity]. apply (G' k P), (G k P) in E'. congruence.
Qed.
Lemma plain_proper k : plain k -> proper k. Proof. destruct k; cbn; auto. Qed.
Theorem inv_flush x S0 U sv : inv x S0 U sv -> inv (flush x) S0 U S0.
Proof.
  intros V. pose proof (v_wf _ _ _ _ V) as W. assert (W0 : wf S0 []) by now apply (wf_prefix S0 [] U). assert (G : good (view (flush_store (i_store x))) S0 U) by (apply (apply_all_unc S0 U (st_unc (i_store x)) (v_unc _ _ _ _ V) []); [exact W|apply (v_snap _ _ _ _ V)]).
  constructor; try exact W; try exact W0; cbn [flush i_store i_cache i_confirm flush_store st_disk st_mem st_snap st_unc].
  - apply nodup_apply. apply (v_nd _ _ _ _ V).
  - apply (v_snap _ _ _ _ V).
  - apply (v_snap _ _ _ _ V).
  - exact G.
  - apply (v_unc _ _ _ _ V).
  - intros k v E. apply (v_cache _ _ _ _ V) in E. destruct E as [P E]. split; [exact P|]. rewrite <- E. apply (good_same _ _ S0 U); [exact G|apply (v_mem _ _ _ _ V)|now apply plain_proper].
  - apply (v_conf _ _ _ _ V).
Qed.
Lemma sub_creates b y S0 U : wf S0 U -> In b (bb S0 U) -> In y (sends b) -> s_create y = true -> In (s_hash y) (creates b).
Proof.
  intros W B Y C. destruct b as [a n s|a n h f subs]; cbn in *.
  - destruct Y as [->|[]]. rewrite C. now left.
  - pose proof (c_subs _ _ W a n h f subs B) as F. rewrite Forall_forall in F. rewrite (F y Y) in C. discriminate.
Qed.
Lemma inv_restart d sv made : wf sv [] -> NoDup (map fst d) -> good d sv [] -> (forall h, In h made -> created sv h) -> inv (open_idx d made) sv [] sv.
Proof.
  intros W N G M. unfold open_idx. match goal with |- inv (fold_left _ _ ?x0) _ _ _ => assert (V : inv x0 sv [] sv) end.
  { constructor; auto; cbn; try discriminate. constructor. }
  revert V. match goal with |- inv ?x0 _ _ _ -> _ => generalize x0 end. intros x0 V. revert x0 V. induction made as [|h made IH]; intros x V; cbn [fold_left]; [exact V|]. apply IH; [intros; apply M; now right|].
  constructor; try exact W; try exact (v_swf _ _ _ _ V); try exact (v_nd _ _ _ _ V); try exact (v_disk _ _ _ _ V); cbn [i_store i_cache i_confirm].
  - apply (v_snap _ _ _ _ V).
  - apply (v_mem _ _ _ _ V).
  - apply (v_unc _ _ _ _ V).
  - apply (v_cache _ _ _ _ V).
  - intros h' n. unfold remember. rewrite (get_put _ zeq). destruct (Z.eqb_spec h h') as [<-|]; [|apply (v_conf _ _ _ _ V)]. intros [= <-]. unfold confirm_height. destruct (get Z.eqb (i_confirm x) h) as [n|] eqn:E; [now apply (v_conf _ _ _ _ V)|].
    destruct (M h (or_introl eq_refl)) as (b & y & B & Y & <- & C). exists b. split; [apply (sub_creates b y sv []); auto; unfold bb; rewrite app_nil_r; exact B|]. left. apply in_flat_map in B. destruct B as (g & Gg & B). exists g. split; [exact Gg|]. split; [exact B|]. apply (slow_confirmed x sv [] (inv_ok _ _ _ _ V) g b); auto. now apply hs_send.
Qed.
Lemma get_filter {K V} (eqb : K -> K -> bool) (eqb_ok : forall x y, eqb x y = true <-> x = y) (p : K -> bool) (m : list (K * V)) k v : get eqb (filter (fun e => p (fst e)) m) k = Some v -> get eqb m k = Some v.
Proof.
  induction m as [|[q u] m IH]; cbn; [trivial|]. destruct (p q) eqn:P; cbn.
  - destruct (eqb q k); auto.
  - intros H. destruct (eqb q k) eqn:E; [|auto]. exfalso. apply eqb_ok in E. subst q. clear IH. revert H. induction m as [|[q' u'] m IH]; cbn; [discriminate|]. destruct (p q') eqn:P'; cbn; [|exact IH]. destruct (eqb q' k) eqn:E'; [|exact IH]. apply eqb_ok in E'. subst q'. congruence.
Qed.
(** ** Every reachable state *)
Lemma wf_nil : wf [] []. Proof. constructor; cbn; try (now constructor); try (intros; tauto). all: intros l; intros; destruct l; discriminate. Qed.
Lemma good_nil : good [] [] [].
Proof.
  intros k P v. destruct k; try contradiction; cbn; (split; [discriminate|]); destruct v; try contradiction; cbn; intros H; exfalso;
    first [now destruct H as (? & [] & _)|now destruct H as (? & ? & [] & _)|now destruct H as ((? & ? & ? & [] & _) & _)|now destruct H as (? & ? & ? & [])|now destruct H as ((? & ? & [] & _) & _)].
Qed.
Definition winv (w : world) : Prop := inv (w_idx w) (w_log w) (w_unc w) (w_saved w).
Theorem reach_inv w : reach w -> winv w.
Proof.
  unfold winv. induction 1 as [|w o R V A].
  - apply inv_restart; [apply wf_nil|constructor|apply good_nil|intros h []].
  - destruct o as [b|s loc locs|bs|n redo| |made|ks hs acc]; cbn [allowed step] in *.
    + cbn [w_idx w_log w_unc w_saved]. apply inv_insert; [exact V|]. apply wf_accept; [apply (v_wf _ _ _ _ V)|exact A].
    + now apply inv_snap.
    + cbn [w_idx w_log w_unc w_saved]. destruct A as (A1 & _ & A3 & A4). apply inv_delete; auto.
    + unfold roll. cbn [w_idx w_log w_unc w_saved]. set (m := (length (w_log w) - n)%nat). assert (EL : w_log w = firstn m (w_log w) ++ skipn m (w_log w)) by now rewrite firstn_skipn. apply inv_rollback; [now rewrite <- EL| |].
      * intros E. assert (length (firstn m (w_log w)) = 0%nat) by now rewrite E. rewrite firstn_length in H. lia.
      * destruct redo; [|now left]. destruct (skipn m (w_log w)) as [|g T']; [now left|right]. now exists g, T'.
    + now apply (inv_flush _ _ _ (w_saved w)).
    + cbn [w_idx w_log w_unc w_saved]. apply inv_restart; [apply (v_swf _ _ _ _ V)|apply (v_nd _ _ _ _ V)|apply (v_disk _ _ _ _ V)|exact A].
    + cbn [w_idx w_log w_unc w_saved]. constructor; cbn [i_store i_cache i_confirm].
      * apply (v_wf _ _ _ _ V).
      * apply (v_swf _ _ _ _ V).
      * apply (v_nd _ _ _ _ V).
      * apply (v_disk _ _ _ _ V).
      * apply (v_snap _ _ _ _ V).
      * apply (v_mem _ _ _ _ V).
      * apply (v_unc _ _ _ _ V).
      * intros k v E. apply (v_cache _ _ _ _ V). apply (get_filter keq keq_spec (fun k => negb (existsb (keq k) ks)) _ _ _ E).
      * intros h n E. apply (v_conf _ _ _ _ V). apply (get_filter Z.eqb zeq (fun k => negb (existsb (Z.eqb k) hs)) _ _ _ E).
Qed.
Print Assumptions reach_inv.
