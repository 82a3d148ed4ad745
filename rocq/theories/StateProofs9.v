(** The list of contracts of a consensus group holds every contract of the chain. *)
Require Import Coq.Lists.List Coq.ZArith.ZArith Coq.Bool.Bool Coq.micromega.Lia.
Require Import Verif.Lib Verif.StateModel Verif.StateSpec Verif.StateProofs Verif.StateProofs2 Verif.StateProofs3 Verif.StateProofs4 Verif.StateProofs5 Verif.StateProofs6 Verif.StateProofs7 Verif.StateProofs8.
Import ListNotations.
Local Open Scope Z_scope.

(** A batch that, if it touches the list key of a contract, sets it. *)
Definition sets (bt : batch) (k : skey) : Prop := forall o, In (k, o) bt -> o = Some (VB []).
Definition listed (d : sdb) (k : skey) : Prop := sget d k = Some (VB []).
Lemma sets_none bt k : (forall o, ~ In (k, o) bt) -> sets bt k.
Proof. intros N o I. now apply N in I. Qed.
Lemma sets_app x y k : sets x k -> sets y k -> sets (x ++ y) k.
Proof. intros A B o I. apply in_app_or in I. destruct I; auto. Qed.
Lemma listed_keep d bt k : sets bt k -> listed d k -> listed (sapply d bt) k.
Proof. intros S L. unfold listed. rewrite sget_sapply. destruct (lop bt k) eqn:E; [|assumption]. apply lop_some in E. now apply S. Qed.
Lemma listed_new d bt k : sets bt k -> In (k, Some (VB [])) bt -> listed (sapply d bt) k.
Proof. intros S I. unfold listed. rewrite sget_sapply, (lop_uniform bt k (Some (VB []))); auto. Qed.

Section Listing.
Context (logs_kept cached builtin : Z -> bool) (ord : forall A, list A -> list A).
Notation wb := (write_batch logs_kept).
Definition groups (b : ablock) (k : skey) : Prop := exists c g m, In (c, (g, m)) (ab_meta b) /\ k = SGid g c.
Definition gid (k : skey) : Prop := match k with SGid _ _ => True | _ => False end.

Lemma wb_sets b k : gid k -> sets (wb b) k.
Proof.
  intros G o I. unfold write_batch in I. repeat (apply in_app_iff in I; destruct I as [I|I]).
  - apply in_map_iff in I. destruct I as (p & E & _). injection E as <- _. destruct G.
  - apply in_map_iff in I. destruct I as (p & E & _). injection E as <- _. destruct G.
  - destruct (ab_code b); [|destruct I]. destruct I as [E|[]]. injection E as <- _. destruct G.
  - apply in_flat_map in I. destruct I as (p & _ & [E|[E|[]]]); [injection E as <- _; destruct G|]. injection E as _ <-. reflexivity.
  - apply in_map_iff in I. destruct I as (p & E & _). injection E as <- _. destruct G.
  - apply in_map_iff in I. destruct I as (p & E & _). injection E as <- _. destruct G.
Qed.
Lemma wb_groups b k : groups b k -> In (k, Some (VB [])) (wb b).
Proof.
  intros (c & g & m & I & ->). unfold write_batch. apply in_or_app. right. apply in_or_app. right. apply in_or_app. right. apply in_or_app. left. apply in_flat_map. exists (c, (g, m)). split; [assumption|]. right. now left.
Qed.
Lemma rb_none a i k : gid k -> forall o, ~ In (k, o) (redo_batch a i).
Proof.
  intros G o I. unfold redo_batch in I. repeat (apply in_app_iff in I; destruct I as [I|I]).
  - apply in_map_iff in I. destruct I as (p & E & _). injection E as <- _. destruct G.
  - apply in_map_iff in I. destruct I as (p & E & _). injection E as <- _. destruct G.
  - destruct (it_code i); [destruct I|]. destruct I as [E|[]]. injection E as <- _. destruct G.
  - apply in_flat_map in I. destruct I as (p & _ & [E|[E|[]]]); injection E as <- _; destruct G.
  - apply in_map_iff in I. destruct I as (p & E & _). injection E as <- _. destruct G.
  - apply in_map_iff in I. destruct I as (p & E & _). injection E as <- _. destruct G.
Qed.
Lemma undo_item_none hist a i k : gid k -> forall o, ~ In (k, o) (undo_item hist a i).
Proof.
  intros H o J. unfold undo_item in J. repeat (apply in_app_iff in J; destruct J as [J|J]).
  - apply in_map_iff in J. destruct J as (p & E & _). destruct hist; injection E as <- _; destruct H.
  - apply in_map_iff in J. destruct J as (p & E & _). destruct hist; injection E as <- _; destruct H.
  - apply in_map_iff in J. destruct J as (p & E & _). injection E as <- _. destruct H.
  - destruct (it_code i); [destruct J|]. destruct J as [E|[]]. injection E as <- _. destruct H.
  - apply in_map_iff in J. destruct J as (p & E & _). injection E as <- _. destruct H.
  - apply in_map_iff in J. destruct J as (p & E & _). injection E as <- _. destruct H.
Qed.
Lemma undo_log_none hist l k : gid k -> forall o, ~ In (k, o) (undo_log ord hist l).
Proof.
  intros H o J. unfold undo_log in J. apply in_flat_map in J. destruct J as (p & _ & J). apply in_flat_map in J. destruct J as (i & _ & J). now apply undo_item_none in J.
Qed.
Lemma recover_none uc s top n ks ts k : gid k -> forall o, ~ In (k, o) (recover_keys cached ord uc s top n ks ++ recover_toks ord s n ts).
Proof. intros H o J. apply in_app_or in J. destruct J as [J|J]; apply in_map_iff in J; destruct J as (p & E & _); injection E as <- _; destruct H. Qed.
Lemma replay_none addrs l k : gid k -> forall o, ~ In (k, o) (replay ord addrs l).
Proof.
  intros H o J. unfold replay in J. apply in_flat_map in J. destruct J as (a & _ & J). apply in_flat_map in J. destruct J as (i & _ & J). unfold replay_item in J. apply in_app_iff in J.
  destruct J as [J|J]; apply in_map_iff in J; destruct J as (p & E & _); injection E as <- _; destruct H.
Qed.
Lemma history_none h l k : gid k -> forall o, ~ In (k, o) (history_batch ord h l).
Proof.
  intros H o J. unfold history_batch in J. apply in_app_or in J. destruct J as [J|J]; apply in_flat_map in J; destruct J as (p & _ & J); apply in_map_iff in J; destruct J as (q & E & _); injection E as <- _; destruct H.
Qed.
Lemma chunks_none s cs : forall h bt ks ts k, undo_chunks ord s h cs = (bt, ks, ts) -> gid k -> forall o, ~ In (k, o) bt.
Proof.
  induction cs as [|[hist bl] r IH]; intros h bt ks ts k E G o J; cbn [undo_chunks] in E; [injection E as <- _ _; destruct J|].
  destruct (undo_chunks ord s (h + 1) r) as [[bt' ks'] ts'] eqn:U. injection E as <- _ _. apply in_app_or in J. destruct J as [J|J]; [now apply undo_log_none in J|now apply (IH _ _ _ _ k U G) in J].
Qed.
Lemma block_none b k : gid k -> forall o, ~ In (k, o) (undo_block b).
Proof.
  intros G o J. unfold undo_block in J. repeat (apply in_app_iff in J; destruct J as [J|J]).
  - destruct (ab_height b <=? 1); [|destruct J]. destruct J as [E|[]]. injection E as <- _. destruct G.
  - destruct (ab_creates b); [|destruct J]. destruct J as [E|[]]. injection E as <- _. destruct G.
  - destruct (ab_loghash b); [|destruct J]. destruct J as [E|[]]. injection E as <- _. destruct G.
  - apply in_flat_map in J. destruct J as (p & _ & [E|J]); [injection E as <- _; destruct G|]. destruct (snd p); [|destruct J]. destruct J as [E|[]]. injection E as <- _. destruct G.
Qed.
Lemma stor_loop_none d a n k : gid k -> forall ks before u o, ~ In (k, o) (fst (recover_stor_loop d a n before ks u)).
Proof.
  intro G. induction ks as [|x r IH]; intros before u o J; cbn [recover_stor_loop] in J; [destruct J|]. destruct (before || _); [|destruct J].
  destruct (recover_stor_loop d a n true r _) as [bt u'] eqn:E. cbn [fst] in J. destruct J as [J|J]; [injection J as <- _; destruct G|]. apply in_app_or in J. destruct J as [J|J].
  - apply in_map_iff in J. destruct J as (p & F & _). injection F as <- _. destruct G.
  - specialize (IH true (filter (fun x0 => negb (x0 =? x)) u) o). rewrite E in IH. now apply IH.
Qed.
Lemma bal_loop_none d a n k : gid k -> forall ks u o, ~ In (k, o) (fst (recover_bal_loop d a n ks u)).
Proof.
  intro G. induction ks as [|x r IH]; intros u o J; cbn [recover_bal_loop] in J; [destruct J|].
  destruct (recover_bal_loop d a n r _) as [bt u'] eqn:E. cbn [fst] in J. destruct J as [J|J]; [injection J as <- _; destruct G|]. apply in_app_or in J. destruct J as [J|J].
  - apply in_map_iff in J. destruct J as (p & F & _). injection F as <- _. destruct G.
  - specialize (IH (filter (fun x0 => negb (x0 =? x)) u) o). rewrite E in IH. now apply IH.
Qed.
Lemma snapshot_none d n l addrs k : gid k -> forall o, ~ In (k, o) (recover_to_snapshot ord d n l addrs).
Proof.
  intros G o J. unfold recover_to_snapshot in J. apply in_flat_map in J. destruct J as (a & _ & J). apply in_app_or in J. destruct J as [J|J].
  - unfold recover_stor in J. pose proof (stor_loop_none d a n k G (hist_keys d a) false (map fst (kv_map (log_of l a))) o) as N. destruct (recover_stor_loop _ _ _ _ _ _) as [bt u]. apply in_app_or in J. destruct J as [J|J]; [now apply N|].
    apply in_map_iff in J. destruct J as (p & F & _). injection F as <- _. destruct G.
  - unfold recover_bal in J. pose proof (bal_loop_none d a n k G (hist_toks d a) (map fst (bal_map (log_of l a))) o) as N. destruct (recover_bal_loop _ _ _ _ _) as [bt u]. apply in_app_or in J. destruct J as [J|J]; [now apply N|].
    apply in_map_iff in J. destruct J as (p & F & _). injection F as <- _. destruct G.
Qed.

(** ** The invariant *)
Record linv (w : world) : Prop := {
  l_mem : forall b k, In b (live w) -> groups b k -> listed (s_mem (w_s w)) k;
  l_disk : forall b k, In b (concat (w_segs w)) -> groups b k -> listed (s_disk (w_s w)) k;
  l_unc : forall b k, In b (w_unc w) -> groups b k -> listed (s_disk (w_s w)) k \/ exists bt, zget (s_pending (w_s w)) (ab_hash b) = Some bt /\ In (k, Some (VB [])) bt;
  l_sets : forall h bt k, In (h, bt) (s_pending (w_s w)) -> gid k -> sets bt k }.
Lemma groups_gid b k : groups b k -> gid k. Proof. now intros (c & g & m & _ & ->). Qed.
Lemma zdel_in {V} (p : list (Z * V)) h x : In x (zdel p h) -> In x p.
Proof. unfold zdel. rewrite filter_In. now intros [I _]. Qed.
Lemma take_get hs : forall p bs p', take_pending p hs = Some (bs, p') ->
  (forall k, (forall h bt, In (h, bt) p -> sets bt k) -> sets bs k) /\
  (forall x, In x p' -> In x p) /\ (forall h, ~ In h hs -> zget p' h = zget p h) /\
  (forall h bt, In h hs -> zget p h = Some bt -> forall o, In o bt -> In o bs).
Proof.
  induction hs as [|h r IH]; intros p bs p' E; cbn [take_pending] in E.
  - injection E as <- <-. split; [intros k _ o []|]. split; [auto|]. split; [auto|]. intros h bt [].
  - destruct (zget p h) as [b|] eqn:G; [|discriminate]. destruct (take_pending (zdel p h) r) as [[bs' p'']|] eqn:T; [|discriminate]. injection E as <- <-.
    destruct (IH _ _ _ T) as (A & B & C & D). repeat split.
    + intros k S. apply sets_app; [apply (S h); now apply zget_in|]. apply A. intros x bt I. apply (S x). now apply zdel_in in I.
    + intros x I. apply B in I. now apply zdel_in in I.
    + intros x N. rewrite C by (intro X; apply N; now right). rewrite zget_zdel. destruct (Z.eqb_spec h x); [exfalso; apply N; now left|reflexivity].
    + intros x bt I F o O. apply in_or_app. destruct (Z.eq_dec h x) as [->|N]; [left; congruence|]. right. destruct I as [I|I]; [contradiction|]. apply (D x bt); auto. rewrite zget_zdel. destruct (Z.eqb_spec h x); [contradiction|assumption].
Qed.
Lemma rewrite_listed k l bs : gid k -> forall s s', rewrite_blocks cached s l bs = Some s' ->
  s_disk s' = s_disk s /\ sget (s_mem s') k = sget (s_mem s) k /\ (forall h bt, In (h, bt) (s_pending s') -> In (h, bt) (s_pending s) \/ forall o, ~ In (k, o) bt).
Proof.
  intro G. induction bs as [|b r IH]; intros s s' E; cbn [rewrite_blocks] in E; [injection E as <-; auto|].
  destruct (log_of l (ab_addr b)) as [|i q] eqn:L; [discriminate|]. destruct (_ <? 0); [discriminate|]. destruct (nth_error _ _) as [i'|]; [|discriminate].
  destruct (IH _ _ E) as (A & B & C). cbn [write_by_redo s_mem s_disk s_pending] in *. split; [assumption|]. split.
  - rewrite B, sget_sapply, quiet_lop; [reflexivity|]. intro o. now apply rb_none.
  - intros h bt I. destruct (C h bt I) as [J|J]; [|now right]. apply in_app_or in J. destruct J as [J|[J|[]]]; [now left|]. injection J as <- <-. right. intro o. now apply rb_none.
Qed.
Lemma fold_del_in {V} hs : forall (p : list (Z * V)) x, In x (fold_left zdel hs p) -> In x p.
Proof. induction hs as [|h r IH]; intros p x I; [assumption|]. cbn in I. apply IH in I. now apply zdel_in in I. Qed.
Lemma pending_sets (p : list (Z * batch)) k : (forall h bt, In (h, bt) p -> sets bt k) -> sets (flat_map snd p) k.
Proof. intros S o I. apply in_flat_map in I. destruct I as ([h bt] & I & J). now apply (S h bt I). Qed.
Lemma without_in bs l b : In b (without bs l) -> In b l /\ ~ In (ab_hash b) (map ab_hash bs).
Proof.
  intro I. apply filter_In in I. destruct I as [I N]. split; [assumption|]. intro J. apply in_map_iff in J. destruct J as (x & E & J). apply negb_true_iff in N.
  assert (Y : existsb (fun y => ab_hash y =? ab_hash b) bs = true) by (apply existsb_exists; exists x; split; [assumption|now apply Z.eqb_eq]). congruence.
Qed.
Lemma linv_step w m o w' : linv w -> inv logs_kept cached w m -> allowed w o ->
  step logs_kept cached builtin ord w o = Some w' -> linv w'.
Proof.
  intros [M D U S] INV A E. pose proof (i_pend _ _ _ _ INV) as P. pose proof (i_wf _ _ _ _ INV) as W. destruct o as [b|conf|bs|n|]; cbn [step] in E.
  - injection E as <-. split; cbn [w_s w_segs w_unc write s_mem s_disk s_pending].
    + intros x k I G. unfold live in I. cbn [w_segs w_unc] in I. rewrite app_assoc in I. apply in_app_or in I. destruct I as [I|[<-|[]]].
      * apply listed_keep; [apply wb_sets; now apply groups_gid in G|now apply (M x)].
      * apply listed_new; [apply wb_sets; now apply groups_gid in G|now apply wb_groups].
    + exact D.
    + assert (ZG : forall (p : list (Z * batch)) h v, zget (p ++ [(ab_hash b, v)]) h = match zget p h with Some y => Some y | None => if ab_hash b =? h then Some v else None end).
      { intros p h v. induction p as [|[h' y] r IH]; cbn [app zget]; [reflexivity|]. destruct (h' =? h); [reflexivity|exact IH]. }
      assert (ZN : zget (s_pending (w_s w)) (ab_hash b) = None).
      { apply zget_none. intro I. assert (Y : In (ab_hash b) (map ab_hash (w_unc w))).
        { clear -P I. induction P as [|x q r p (Q & _) F IH]; [destruct I|]. cbn [map] in *. destruct I as [I|I]; [left; congruence|right; auto]. }
        apply in_map_iff in Y. destruct Y as (x & F & Y). destruct A as (_ & A & _). apply (A x); [apply in_or_app; now right|assumption]. }
      intros x k I G. apply in_app_or in I. destruct I as [I|[<-|[]]].
      * destruct (U x k I G) as [L|(bt & L & J)]; [now left|]. right. exists bt. split; [|assumption]. now rewrite ZG, L.
      * right. rewrite ZG, ZN, Z.eqb_refl. eexists. split; [reflexivity|now apply wb_groups].
    + intros h bt k I G. apply in_app_or in I. destruct I as [I|[I|[]]]; [now apply (S h)|]. injection I as <- <-. now apply wb_sets.
  - cbn in A. unfold insert_snapshot in E. destruct (redo_insert (w_s w) (top_of w + 1) conf) as [[[rc cur] rs]|]; [|discriminate].
    destruct (take_pending (s_pending (w_s w)) (map ab_hash conf)) as [[bs p]|] eqn:T; [|discriminate]. injection E as <-.
    destruct (take_get _ _ _ _ T) as (T1 & T2 & T3 & T4).
    assert (IC : forall b, In b conf -> In b (w_unc w)).
    { intros b J. apply (same_in _ _ b (splits_same _ _ _ A)). apply in_or_app. now left. }
    assert (IL : forall b, In b (concat (w_segs w ++ [conf]) ++ without conf (w_unc w)) -> In b (live w)).
    { intros b J. unfold live. rewrite concat_app in J. cbn [concat] in J. rewrite app_nil_r in J. apply in_app_or in J. destruct J as [J|J]; apply in_or_app.
      - apply in_app_or in J. destruct J; [now left|right; auto].
      - right. now apply without_in in J. }
    split; cbn [w_s w_segs w_unc s_mem s_disk s_pending].
    + intros b k I G. pose proof (groups_gid _ _ G) as GK. apply listed_keep; [apply sets_none; intro; now apply history_none|]. apply (M b); [now apply IL|assumption].
    + intros b k I G. pose proof (groups_gid _ _ G) as GK.
      assert (SB : sets bs k) by (apply T1; intros; now apply (S h)). assert (SA : sets (bs ++ history_batch ord (top_of w + 1) (fst (query_log {| s_mem := s_mem (w_s w); s_disk := s_disk (w_s w); s_pending := s_pending (w_s w); s_cache := s_cache (w_s w); s_rcache := rc; s_rcur := cur; s_rstore := rs |} (top_of w + 1)))) k).
      { apply sets_app; [assumption|apply sets_none; intro; now apply history_none]. }
      rewrite concat_app in I. cbn [concat] in I. rewrite app_nil_r in I. apply in_app_or in I. destruct I as [I|I].
      * apply listed_keep; [assumption|now apply (D b)].
      * destruct (U b k (IC b I) G) as [L|(bt & L & J)]; [now apply listed_keep|]. apply listed_new; [assumption|]. apply in_or_app. left. apply (T4 (ab_hash b) bt); auto. now apply in_map.
    + intros b k I G. pose proof (groups_gid _ _ G) as GK. apply without_in in I. destruct I as [I N].
      destruct (U b k I G) as [L|(bt & L & J)].
      * left. apply listed_keep; [|assumption]. apply sets_app; [apply T1; intros; now apply (S h)|apply sets_none; intro; now apply history_none].
      * right. exists bt. split; [|assumption]. now rewrite T3.
    + intros h bt k I G. apply T2 in I. now apply (S h).
  - unfold rollback_accounts in E. destruct (query_log (w_s w) (top_of w + 1)) as [l has]. destruct has; cbn [negb] in E; [|discriminate]. destruct (take_logs bs l []) as [l' taken]. injection E as <-.
    split; cbn [w_s w_segs w_unc s_mem s_disk s_pending].
    + intros b k I G. pose proof (groups_gid _ _ G) as GK. apply listed_keep.
      * apply sets_none. intros o J. apply in_app_or in J. destruct J as [J|J]; [now apply undo_log_none in J|]. apply in_app_or in J. destruct J as [J|J]; [now apply replay_none in J|now apply recover_none in J].
      * apply (M b); [|assumption]. unfold live in *. cbn [w_segs w_unc] in I. apply in_app_or in I. apply in_or_app. destruct I as [I|I]; [now left|right; now apply without_in in I].
    + exact D.
    + intros b k I G. apply without_in in I. destruct I as [I N]. destruct (U b k I G) as [L|(bt & L & J)]; [now left|]. right. exists bt. split; [|assumption]. rewrite zget_fold_del.
      destruct (existsb (Z.eqb (ab_hash b)) (map ab_hash bs)) eqn:X; [|assumption]. exfalso. apply N. apply existsb_exists in X. destruct X as (y & J' & F). apply Z.eqb_eq in F. now rewrite F.
    + intros h bt k I G. apply fold_del_in in I. now apply (S h).
  - unfold delete_snapshots in E. cbv zeta in E. set (cs := number (n + 1) (skipn (Z.to_nat n) (w_segs w)) ++ match w_unc w with [] => [] | u => [(None, u)] end) in *. set (back := if has_redo (w_s w) (n + 1) then _ else _) in *.
    destruct (rollback_snapshots cached builtin ord (w_s w) n cs back) as [s|] eqn:R; [|discriminate]. injection E as <-.
    assert (BK : forall b, In b (concat (firstn (Z.to_nat n) (w_segs w)) ++ back) -> In b (concat (w_segs w)) \/ In b (w_unc w)).
    { intros b I. apply in_app_or in I. destruct I as [I|I].
      - left. rewrite <- (firstn_skipn (Z.to_nat n) (w_segs w)), concat_app. apply in_or_app. now left.
      - unfold back in I. destruct (has_redo (w_s w) (n + 1)); [|destruct I]. unfold cs in I. pose proof (firstn_skipn (Z.to_nat n) (w_segs w)) as FS. destruct (skipn (Z.to_nat n) (w_segs w)) as [|x r]; cbn in I.
        + destruct (w_unc w); cbn in I; [destruct I|now right].
        + left. rewrite <- FS, concat_app. apply in_or_app. right. apply in_or_app. now left. }
    unfold rollback_snapshots in R. destruct (query_log (w_s w) (n + 1)) as [l has]. cbv zeta in R.
    set (bt := if has then _ else _) in R.
    assert (BN : forall k, gid k -> forall o, ~ In (k, o) bt).
    { intros k G o J. unfold bt in J. destruct has.
      - destruct (undo_chunks ord (w_s w) (n + 1) cs) as [[bt0 ks] ts] eqn:UC. apply in_app_or in J. destruct J as [J|J]; [now apply (chunks_none _ _ _ _ _ _ k UC) in J|now apply recover_none in J].
      - apply in_app_or in J. destruct J as [J|J]; [|now apply snapshot_none in J]. apply in_flat_map in J. destruct J as (b & _ & J). now apply block_none in J. }
    clearbody bt. assert (RL : forall k, gid k -> _) by (intros k G; exact (rewrite_listed k l back G _ _ R)). cbn [s_mem s_disk s_pending] in RL.
    assert (DK : forall b k, In b (concat (w_segs w)) \/ In b (w_unc w) -> groups b k -> listed (s_disk s) k).
    { intros b k I G. pose proof (groups_gid _ _ G) as GK. destruct (RL k GK) as (R1 & _). rewrite R1. rewrite sapply_app. apply listed_keep; [now apply sets_none, BN|].
      assert (PS : sets (flat_map snd (s_pending (w_s w))) k) by (apply pending_sets; intros; now apply (S h)).
      destruct I as [I|I]; [apply listed_keep; [assumption|now apply (D b)]|]. destruct (U b k I G) as [L|(x & L & J)]; [now apply listed_keep|]. apply listed_new; [assumption|].
      apply in_flat_map. exists (ab_hash b, x). split; [now apply zget_in|assumption]. }
    split; cbn [w_s w_segs w_unc].
    + intros b k I G. pose proof (groups_gid _ _ G) as GK. destruct (RL k GK) as (_ & R2 & _). unfold listed. rewrite R2. apply listed_keep; [now apply sets_none, BN|]. apply (M b); [|assumption]. unfold live in *. cbn [w_segs w_unc] in I.
      apply in_or_app. now apply BK.
    + intros b k I G. apply (DK b k); [|assumption]. apply BK. apply in_or_app. now left.
    + intros b k I G. left. apply (DK b k); [|assumption]. apply BK. apply in_or_app. now right.
    + intros h x k I G. destruct (RL k G) as (_ & _ & R3). destruct (R3 h x I) as [[]|J]. now apply sets_none.
  - injection E as <-. unfold restart. split; cbn [w_s w_segs w_unc s_mem s_disk s_pending].
    + intros b k I G. unfold live in I. cbn [w_segs w_unc] in I. rewrite app_nil_r in I. now apply (D b).
    + exact D.
    + intros b k [].
    + intros h bt k [].
Qed.
Lemma linv_empty : linv empty_world.
Proof. split; [intros b k []|intros b k []|intros b k []|intros h bt k []]. Qed.
End Listing.
