(** The batches: history, undoing, recovering, replaying, and the cache. *)
Require Import Coq.Lists.List Coq.ZArith.ZArith Coq.Bool.Bool Coq.micromega.Lia Coq.Sorting.Permutation.
Require Import Verif.Lib Verif.StateModel Verif.StateSpec Verif.StateProofs Verif.StateProofs2 Verif.StateProofs3.
Import ListNotations.
Local Open Scope Z_scope.

Definition writes_tok (bs : list ablock) (a t : Z) : Prop := exists b, In b bs /\ ab_addr b = a /\ In t (map fst (ab_bal b)).
Definition set_all {V} (l m : list (Z * V)) : list (Z * V) := fold_left (fun m p => zset m (fst p) (snd p)) l m.
Lemma set_all_get {V} (l : list (Z * V)) : forall m k, zget (set_all l m) k = match lastkv l k with Some v => Some v | None => zget m k end.
Proof.
  induction l as [|p r IH]; intros m k; [reflexivity|]. unfold set_all. cbn [fold_left]. fold (set_all r (zset m (fst p) (snd p))). rewrite IH, zget_zset.
  unfold lastkv. rewrite newest_cons. destruct (newest_of _ r); [reflexivity|]. now destruct (fst p =? k).
Qed.
Lemma set_all_nodup {V} (l : list (Z * V)) : forall m, NoDup (map fst m) -> NoDup (map fst (set_all l m)).
Proof. induction l as [|p r IH]; intros m N; [assumption|]. apply IH. now apply zset_nodup. Qed.
Lemma set_all_in {V} (l : list (Z * V)) k v : In (k, v) (set_all l []) <-> lastkv l k = Some v.
Proof.
  pose proof (set_all_get l [] k) as G. cbn [zget] in G. pose proof (set_all_nodup l [] (NoDup_nil _)) as N. split.
  - intro I. rewrite (zget_nodup _ _ _ N I) in G. now destruct (lastkv l k).
  - intro E. rewrite E in G. now apply zget_in.
Qed.
Lemma lastkv_some_in {V} (l : list (Z * V)) k : lastkv l k <> None <-> In k (map fst l).
Proof. pose proof (lastkv_None l k). destruct (in_dec Z.eq_dec k (map fst l)); [|tauto]. split; [tauto|]. intros _ E. tauto. Qed.
Lemma seg_kv_writes bs a k : seg_kv bs a k <> None <-> writes_key bs a k.
Proof.
  unfold seg_kv. rewrite lastkv_some_in. rewrite in_map_iff. split.
  - intros (p & E & I). apply in_flat_map in I. destruct I as (b & I & J). apply filter_In in I. destruct I as [I F]. exists b. repeat split; [assumption|now apply Z.eqb_eq|rewrite <- E; now apply in_map].
  - intros (b & I & A & J). apply in_map_iff in J. destruct J as (p & E & J). exists p. split; [assumption|]. apply in_flat_map. exists b. split; [|assumption]. subst a. now apply -> in_from.
Qed.
Lemma seg_bal_writes bs a k : seg_bal bs a k <> None <-> writes_tok bs a k.
Proof.
  unfold seg_bal. rewrite lastkv_some_in. rewrite in_map_iff. split.
  - intros (p & E & I). apply in_flat_map in I. destruct I as (b & I & J). apply filter_In in I. destruct I as [I F]. exists b. repeat split; [assumption|now apply Z.eqb_eq|rewrite <- E; now apply in_map].
  - intros (b & I & A & J). apply in_map_iff in J. destruct J as (p & E & J). exists p. split; [assumption|]. apply in_flat_map. exists b. split; [|assumption]. subst a. now apply -> in_from.
Qed.

Definition pair_dec (x y : Z * Z) : {x = y} + {x <> y}.
Proof. decide equality; apply Z.eq_dec. Defined.
Section Batches.
Context (logs_kept cached builtin : Z -> bool) (ord : forall A, list A -> list A).
Hypothesis ord_in : forall A (l : list A) x, In x (ord A l) <-> In x l.
Notation item_of := (item_of logs_kept).
Notation items := (map item_of).
Notation wb := (write_batch logs_kept).
Notation view := (view logs_kept).
Notation logs_ok := (logs_ok logs_kept).

Lemma kv_map_in is k v : In (k, v) (kv_map is) <-> lastkv (flat_map it_storage is) k = Some v.
Proof. apply set_all_in. Qed.
Lemma bal_map_in is k v : In (k, v) (bal_map is) <-> lastkv (flat_map it_bal is) k = Some v.
Proof. apply set_all_in. Qed.
Lemma items_storage bs : flat_map it_storage (items bs) = flat_map ab_storage bs.
Proof. induction bs as [|b r IH]; [reflexivity|]. cbn [map flat_map]. now rewrite IH. Qed.
Lemma items_bal bs : flat_map it_bal (items bs) = flat_map ab_bal bs.
Proof. induction bs as [|b r IH]; [reflexivity|]. cbn [map flat_map]. now rewrite IH. Qed.

(** ** History *)
Lemma history_stor l bs h a k n : logs_ok l bs ->
  lop (history_batch ord h l) (SHStor a k n) = if n =? h then option_map (fun v => Some (VB v)) (seg_kv bs a k) else None.
Proof.
  intro L. unfold history_batch. rewrite lop_app.
  assert (E : lop (flat_map (fun p => map (fun q => (SHBal (fst p) (fst q) h, Some (VN (snd q)))) (ord _ (bal_map (snd p)))) (ord _ l)) (SHStor a k n) = None).
  { apply lop_none. intros o I. apply in_flat_map in I. destruct I as (p & _ & I). apply in_map_iff in I. destruct I as (q & <- & _). cbn. congruence. }
  rewrite E. clear E.
  assert (IN : forall o, In (SHStor a k n, o) (flat_map (fun p => map (fun q => (SHStor (fst p) (fst q) h, Some (VB (snd q)))) (ord _ (kv_map (snd p)))) (ord _ l))
               <-> n = h /\ exists v, seg_kv bs a k = Some v /\ o = Some (VB v)).
  { intro o. rewrite in_flat_map. split.
    - intros ([a' is] & I & J). apply (proj1 (ord_in _ _ _)) in I. apply in_map_iff in J. destruct J as ([k' v] & E & J). apply (proj1 (ord_in _ _ _)) in J. cbn [fst snd] in *. injection E as -> -> -> <-. split; [reflexivity|].
      exists v. split; [|reflexivity]. pose proof (logs_in _ l bs a is L I) as ->. apply kv_map_in in J. now rewrite items_storage in J.
    - intros (-> & v & E & ->). exists (a, items (filter (from a) bs)). split.
      + apply (proj2 (ord_in _ _ _)). apply (logs_has logs_kept l bs a L). intro X. unfold seg_kv in E. rewrite X in E. discriminate.
      + apply in_map_iff. exists (k, v). split; [reflexivity|]. apply (proj2 (ord_in _ _ _)). cbn [snd]. apply kv_map_in. now rewrite items_storage. }
  destruct (Z.eqb_spec n h) as [->|NE]; [destruct (seg_kv bs a k) as [v|] eqn:E|].
  - cbn [option_map]. apply lop_uniform; [apply IN; split; [reflexivity|]; now exists v|]. intros o' I. apply IN in I. destruct I as (_ & w & F & ->). congruence.
  - cbn [option_map]. apply lop_none. intros [x o] I X. cbn in X. subst x. apply IN in I. destruct I as (_ & w & F & _). congruence.
  - apply lop_none. intros [x o] I X. cbn in X. subst x. apply IN in I. destruct I as (F & _). congruence.
Qed.
Lemma history_bal l bs h a k n : logs_ok l bs ->
  lop (history_batch ord h l) (SHBal a k n) = if n =? h then option_map (fun v => Some (VN v)) (seg_bal bs a k) else None.
Proof.
  intro L. unfold history_batch. rewrite lop_app.
  assert (E : lop (flat_map (fun p => map (fun q => (SHStor (fst p) (fst q) h, Some (VB (snd q)))) (ord _ (kv_map (snd p)))) (ord _ l)) (SHBal a k n) = None).
  { apply lop_none. intros o I. apply in_flat_map in I. destruct I as (p & _ & I). apply in_map_iff in I. destruct I as (q & <- & _). cbn. congruence. }
  rewrite E. clear E.
  assert (IN : forall o, In (SHBal a k n, o) (flat_map (fun p => map (fun q => (SHBal (fst p) (fst q) h, Some (VN (snd q)))) (ord _ (bal_map (snd p)))) (ord _ l))
               <-> n = h /\ exists v, seg_bal bs a k = Some v /\ o = Some (VN v)).
  { intro o. rewrite in_flat_map. split.
    - intros ([a' is] & I & J). apply (proj1 (ord_in _ _ _)) in I. apply in_map_iff in J. destruct J as ([k' v] & E & J). apply (proj1 (ord_in _ _ _)) in J. cbn [fst snd] in *. injection E as -> -> -> <-. split; [reflexivity|].
      exists v. split; [|reflexivity]. pose proof (logs_in _ l bs a is L I) as ->. apply bal_map_in in J. now rewrite items_bal in J.
    - intros (-> & v & E & ->). exists (a, items (filter (from a) bs)). split.
      + apply (proj2 (ord_in _ _ _)). apply (logs_has logs_kept l bs a L). intro X. unfold seg_bal in E. rewrite X in E. discriminate.
      + apply in_map_iff. exists (k, v). split; [reflexivity|]. apply (proj2 (ord_in _ _ _)). cbn [snd]. apply bal_map_in. now rewrite items_bal. }
  destruct (Z.eqb_spec n h) as [->|NE]; [destruct (seg_bal bs a k) as [v|] eqn:E|].
  - cbn [option_map]. assert (X : lop (flat_map (fun p => map (fun q => (SHBal (fst p) (fst q) h, Some (VN (snd q)))) (ord _ (bal_map (snd p)))) (ord _ l)) (SHBal a k h) = Some (Some (VN v))).
    { apply lop_uniform; [apply IN; split; [reflexivity|]; now exists v|]. intros o' I. apply IN in I. destruct I as (_ & w & F & ->). congruence. }
    now rewrite X.
  - cbn [option_map]. assert (X : lop (flat_map (fun p => map (fun q => (SHBal (fst p) (fst q) h, Some (VN (snd q)))) (ord _ (bal_map (snd p)))) (ord _ l)) (SHBal a k h) = None).
    { apply lop_none. intros [x o] I X. cbn in X. subst x. apply IN in I. destruct I as (_ & w & F & _). congruence. }
    now rewrite X.
  - assert (X : lop (flat_map (fun p => map (fun q => (SHBal (fst p) (fst q) h, Some (VN (snd q)))) (ord _ (bal_map (snd p)))) (ord _ l)) (SHBal a k n) = None).
    { apply lop_none. intros [x o] I X. cbn in X. subst x. apply IN in I. destruct I as (F & _). congruence. }
    now rewrite X.
Qed.
Definition histkey (k : skey) : Prop := match k with SHStor _ _ _ | SHBal _ _ _ => True | _ => False end.
Lemma history_other l h k : ~ histkey k -> lop (history_batch ord h l) k = None.
Proof.
  intro H. apply lop_none. intros o I. unfold history_batch in I. apply in_app_or in I.
  destruct I as [I|I]; apply in_flat_map in I; destruct I as (p & _ & I); apply in_map_iff in I; destruct I as (q & <- & _); intros <-; apply H; exact Logic.I.
Qed.

(** ** Undoing *)
Lemma undo_in hist l bs o : logs_ok l bs -> In o (undo_log ord hist l) <-> exists b, In b bs /\ In o (undo_item hist (ab_addr b) (item_of b)).
Proof.
  intro L. unfold undo_log. rewrite in_flat_map. split.
  - intros ([a is] & I & J). apply (proj1 (ord_in _ _ _)) in I. cbn [fst snd] in J. pose proof (logs_in _ l bs a is L I) as ->. apply in_flat_map in J. destruct J as (i & K & J).
    apply in_map_iff in K. destruct K as (b & <- & K). apply filter_In in K. destruct K as [K F]. apply Z.eqb_eq in F. subst a. now exists b.
  - intros (b & I & J). exists (ab_addr b, items (filter (from (ab_addr b)) bs)). split.
    + apply (proj2 (ord_in _ _ _)). apply (logs_has logs_kept l bs _ L). apply (proj1 (in_from _ _)) in I. destruct (filter _ bs); [destruct I|discriminate].
    + cbn [fst snd]. apply in_flat_map. exists (item_of b). split; [|assumption]. apply in_map. now apply -> in_from.
Qed.
Lemma keys_of_in l bs a k : logs_ok l bs -> In (a, k) (keys_of l) <-> writes_key bs a k.
Proof.
  intro L. unfold keys_of. rewrite in_flat_map. split.
  - intros ([a' is] & I & J). cbn [fst snd] in J. pose proof (logs_in _ l bs a' is L I) as ->. apply in_flat_map in J. destruct J as (i & K & J).
    apply in_map_iff in K. destruct K as (b & <- & K). apply filter_In in K. destruct K as [K F]. apply Z.eqb_eq in F. subst a'. apply in_map_iff in J. destruct J as (q & E & J). injection E as <- <-.
    exists b. repeat split; [assumption|]. now apply (in_map fst) in J.
  - intros (b & I & A & J). subst a. exists (ab_addr b, items (filter (from (ab_addr b)) bs)). split.
    + apply (logs_has logs_kept l bs _ L). apply (proj1 (in_from _ _)) in I. destruct (filter _ bs); [destruct I|discriminate].
    + cbn [fst snd]. apply in_flat_map. exists (item_of b). split; [apply in_map; now apply -> in_from|]. apply in_map_iff in J. destruct J as (q & <- & J). apply in_map_iff. now exists q.
Qed.
Lemma toks_of_in l bs a k : logs_ok l bs -> In (a, k) (toks_of l) <-> writes_tok bs a k.
Proof.
  intro L. unfold toks_of. rewrite in_flat_map. split.
  - intros ([a' is] & I & J). cbn [fst snd] in J. pose proof (logs_in _ l bs a' is L I) as ->. apply in_flat_map in J. destruct J as (i & K & J).
    apply in_map_iff in K. destruct K as (b & <- & K). apply filter_In in K. destruct K as [K F]. apply Z.eqb_eq in F. subst a'. apply in_map_iff in J. destruct J as (q & E & J). injection E as <- <-.
    exists b. repeat split; [assumption|]. now apply (in_map fst) in J.
  - intros (b & I & A & J). subst a. exists (ab_addr b, items (filter (from (ab_addr b)) bs)). split.
    + apply (logs_has logs_kept l bs _ L). apply (proj1 (in_from _ _)) in I. destruct (filter _ bs); [destruct I|discriminate].
    + cbn [fst snd]. apply in_flat_map. exists (item_of b). split; [apply in_map; now apply -> in_from|]. apply in_map_iff in J. destruct J as (q & <- & J). apply in_map_iff. now exists q.
Qed.
Lemma undo_item_none hist a i o : In o (undo_item hist a i) -> snd o = None.
Proof.
  unfold undo_item. intro I. repeat (apply in_app_iff in I; destruct I as [I|I]);
    try (apply in_map_iff in I; destruct I as (p & <- & _); reflexivity).
  destruct (it_code i); cbn in I; [destruct I|destruct I as [<-|[]]; reflexivity].
Qed.
(** Undoing a block deletes what only it wrote. *)
Lemma undo_item_once hist b k : block_ok b -> once k -> In (k, None) (undo_item hist (ab_addr b) (item_of b)) <-> lop (wb b) k <> None.
Proof.
  intros [C _] O. unfold undo_item. rewrite !in_app_iff, !in_map_iff. split.
  - intros [(p & E & _)|[(p & E & _)|[(p & E & I)|[I|[(p & E & I)|(p & E & I)]]]]].
    + injection E as <-. destruct hist; destruct O.
    + injection E as <-. destruct hist; destruct O.
    + injection E as <-. rewrite wb_meta. cbn [item_of it_meta] in I. apply (in_map fst) in I. apply lastkv_some_in in I. now destruct (lastkv _ _).
    + cbn [item_of it_code] in I. destruct (ab_code b) as [c|] eqn:X; [|destruct I]. destruct c; [destruct I|]. destruct I as [E|[]]. injection E as <-. rewrite wb_code, X, Z.eqb_refl. discriminate.
    + injection E as <-. rewrite wb_log. apply (in_map fst) in I. apply lastkv_some_in in I. now destruct (lastkv _ _).
    + injection E as <-. rewrite wb_depth. apply (in_map fst) in I. apply lastkv_some_in in I. now destruct (lastkv _ _).
  - intro N. destruct k; try destruct O.
    + rewrite wb_code in N. destruct (Z.eqb_spec (ab_addr b) a) as [<-|]; [|congruence]. destruct (ab_code b) as [c|] eqn:E; [|now destruct N]. destruct (C c eq_refl) as [X _].
      do 3 right. left. cbn [item_of it_code]. rewrite E. destruct c; [congruence|now left].
    + rewrite wb_meta in N. assert (X : lastkv (ab_meta b) a <> None) by (intro X; rewrite X in N; now apply N). apply lastkv_some_in in X. apply in_map_iff in X. destruct X as (p & <- & I).
      do 2 right. left. now exists p.
    + rewrite wb_log in N. assert (X : lastkv (it_log (item_of b)) h <> None) by (intro X; rewrite X in N; now apply N). apply lastkv_some_in in X. apply in_map_iff in X. destruct X as (p & <- & I).
      do 4 right. left. now exists p.
    + rewrite wb_depth in N. assert (X : lastkv (it_depth (item_of b)) h <> None) by (intro X; rewrite X in N; now apply N). apply lastkv_some_in in X. apply in_map_iff in X. destruct X as (p & <- & I).
      do 5 right. now exists p.
Qed.
Lemma undo_item_stor hist b a k : In (SStor a k, None) (undo_item hist (ab_addr b) (item_of b)) -> hist = None /\ ab_addr b = a /\ In k (map fst (ab_storage b)).
Proof.
  unfold undo_item. rewrite !in_app_iff, !in_map_iff.
  intros [(p & E & I)|[(p & E & _)|[(p & E & I)|[I|[(p & E & I)|(p & E & I)]]]]].
  - destruct hist; [discriminate|]. injection E as <- <-. cbn [item_of it_storage] in I. repeat split. now exists p.
  - destruct hist; discriminate.
  - discriminate.
  - destruct (it_code _); [destruct I|]. destruct I as [E|[]]. discriminate.
  - discriminate.
  - discriminate.
Qed.
Lemma undo_item_bal hist b a k : In (SBal a k, None) (undo_item hist (ab_addr b) (item_of b)) -> hist = None /\ ab_addr b = a /\ In k (map fst (ab_bal b)).
Proof.
  unfold undo_item. rewrite !in_app_iff, !in_map_iff.
  intros [(p & E & I)|[(p & E & I)|[(p & E & I)|[I|[(p & E & I)|(p & E & I)]]]]].
  - destruct hist; discriminate.
  - destruct hist; [discriminate|]. injection E as <- <-. cbn [item_of it_bal] in I. repeat split. now exists p.
  - discriminate.
  - destruct (it_code _); [destruct I|]. destruct I as [E|[]]. discriminate.
  - discriminate.
  - discriminate.
Qed.
Lemma undo_item_hstor hist b a k n : In (SHStor a k n, None) (undo_item hist (ab_addr b) (item_of b)) <-> hist = Some n /\ ab_addr b = a /\ In k (map fst (ab_storage b)).
Proof.
  unfold undo_item. rewrite !in_app_iff, !in_map_iff. split.
  - intros [(p & E & I)|[(p & E & I)|[(p & E & I)|[I|[(p & E & I)|(p & E & I)]]]]].
    + destruct hist; [|discriminate]. injection E as <- <- <-. cbn [item_of it_storage] in I. repeat split. now exists p.
    + destruct hist; discriminate.
    + discriminate.
    + destruct (it_code _); [destruct I|]. destruct I as [E|[]]. discriminate.
    + discriminate.
    + discriminate.
  - intros (-> & <- & (p & <- & I)). left. now exists p.
Qed.
Lemma undo_item_hbal hist b a k n : In (SHBal a k n, None) (undo_item hist (ab_addr b) (item_of b)) <-> hist = Some n /\ ab_addr b = a /\ In k (map fst (ab_bal b)).
Proof.
  unfold undo_item. rewrite !in_app_iff, !in_map_iff. split.
  - intros [(p & E & I)|[(p & E & I)|[(p & E & I)|[I|[(p & E & I)|(p & E & I)]]]]].
    + destruct hist; discriminate.
    + destruct hist; [|discriminate]. injection E as <- <- <-. cbn [item_of it_bal] in I. repeat split. now exists p.
    + discriminate.
    + destruct (it_code _); [destruct I|]. destruct I as [E|[]]. discriminate.
    + discriminate.
    + discriminate.
  - intros (-> & <- & (p & <- & I)). right. left. now exists p.
Qed.
(** A batch of deletions. *)
Lemma lop_dels b k : (forall o, In o b -> snd o = None) -> lop b k = Some None \/ (lop b k = None /\ ~ In (k, None) b).
Proof.
  intro D. destruct (lop b k) as [o|] eqn:E.
  - left. pose proof (D _ (lop_some b k o E)) as X. cbn in X. now subst.
  - right. split; [reflexivity|]. intro I. apply (proj1 (lop_in b k)); [now exists None|assumption].
Qed.
Lemma lop_del_in b k : (forall o, In o b -> snd o = None) -> lop b k = if lop b k then Some None else None.
Proof. intro D. destruct (lop_dels b k D) as [->|[-> _]]; reflexivity. Qed.

(** ** Replaying *)
Lemma replay_item_stor b a k : from a b = true -> lop (replay_item a (item_of b)) (SStor a k) = lop (wb b) (SStor a k).
Proof.
  intro F. pose proof F as F'. unfold from in F'. rewrite wb_stor, F'. unfold replay_item. rewrite lop_app.
  assert (E : lop (map (fun p => (SBal a (fst p), Some (VN (snd p)))) (it_bal (item_of b))) (SStor a k) = None) by nomatch. rewrite E.
  unfold put_bytes. rewrite (lop_map (it_storage (item_of b)) (SStor a) (fun v => match v with [] => None | _ => Some (VB v) end)); [reflexivity|congruence].
Qed.
Lemma replay_item_bal b a k : from a b = true -> lop (replay_item a (item_of b)) (SBal a k) = lop (wb b) (SBal a k).
Proof.
  intro F. pose proof F as F'. unfold from in F'. rewrite wb_bal, F'. unfold replay_item. rewrite lop_app.
  rewrite (lop_map (it_bal (item_of b)) (SBal a) (fun v => Some (VN v))); [|congruence]. cbn [item_of it_bal].
  destruct (lastkv (ab_bal b) k); [reflexivity|]. cbn [option_map].
  assert (E : lop (map (fun p => put_bytes (SStor a (fst p)) (snd p)) (it_storage (item_of b))) (SBal a k) = None) by nomatch. exact E.
Qed.
Lemma replay_item_other a i k : (forall x, k <> SStor a x) -> (forall x, k <> SBal a x) -> lop (replay_item a i) k = None.
Proof.
  intros A B. apply lop_none. unfold replay_item. intros o I. apply in_app_or in I. destruct I as [I|I]; apply in_map_iff in I; destruct I as (p & <- & _); unfold put_bytes; cbn; intro E; [now apply (A (fst p))|now apply (B (fst p))].
Qed.
Lemma replay_ok addrs l bs a k : logs_ok l bs -> owner k = Some a -> (forall x, k <> SCode x) ->
  lop (replay ord addrs l) k = if in_dec Z.eq_dec a addrs then view bs k else None.
Proof.
  intros [_ L] O C. unfold replay. rewrite lop_flat.
  assert (X : forall x, lop (flat_map (replay_item x) (log_of l x)) k = if x =? a then view bs k else None).
  { intro x. rewrite lop_flat, L. destruct (Z.eqb_spec x a) as [->|NE].
    - rewrite (view_owner logs_kept bs a k O), view_newest.
      assert (G : forall l', (forall b, In b l' -> from a b = true) -> newest_of (fun x => lop (replay_item a x) k) (items l') = newest_of (fun b => lop (wb b) k) l').
      { induction l' as [|b r IH]; intro F; [reflexivity|]. cbn [map]. rewrite !newest_cons, IH; [|intros; apply F; now right].
        assert (E : lop (replay_item a (item_of b)) k = lop (wb b) k).
        { destruct k; try discriminate O; injection O as ->; [apply replay_item_stor|apply replay_item_bal|now destruct (C a)]; apply F; now left. }
        now rewrite E. }
      apply G. intros b I. apply filter_In in I. tauto.
    - apply newest_none. intros i _. apply replay_item_other; intros y ->; injection O as ->; congruence. }
  rewrite (newest_ext _ (fun x => if x =? a then view bs k else None)) by (intros; apply X).
  destruct (in_dec Z.eq_dec a addrs) as [I|I].
  - destruct (view bs k) as [o|]; [|apply newest_none; intros x _; now destruct (x =? a)].
    apply newest_uniform; [exists a; split; [now apply (proj2 (ord_in _ _ _))|rewrite Z.eqb_refl; discriminate]|]. intros x w _. destruct (x =? a); [congruence|discriminate].
  - apply newest_none. intros x J. destruct (Z.eqb_spec x a) as [->|]; [|reflexivity]. apply (proj1 (ord_in _ _ _)) in J. contradiction.
Qed.
Lemma replay_other addrs l k : (match k with SStor _ _ | SBal _ _ => False | _ => True end) -> lop (replay ord addrs l) k = None.
Proof.
  intro K. unfold replay. rewrite lop_flat. apply newest_none. intros x _. rewrite lop_flat. apply newest_none. intros i _. apply replay_item_other; intros y ->; destruct K.
Qed.

(** ** Recovering *)
Lemma recover_keys_ok uc s top n ks a k :
  lop (recover_keys cached ord uc s top n ks) (SStor a k) = if in_dec pair_dec (a, k) ks then Some (snd (put_bytes (SStor a k) (snapshot_value cached uc s top n a k))) else None.
Proof.
  unfold recover_keys. destruct (in_dec _ (a, k) ks) as [I|I].
  - apply lop_uniform.
    + apply in_map_iff. exists (a, k). split; [reflexivity|now apply (proj2 (ord_in _ _ _))].
    + intros o J. apply in_map_iff in J. destruct J as ([a' k'] & E & _). unfold put_bytes in E. cbn [fst snd] in E. injection E as -> -> <-. reflexivity.
  - apply lop_none. intros o J E. apply in_map_iff in J. destruct J as ([a' k'] & <- & J). unfold put_bytes in E. cbn [fst snd] in E. injection E as -> ->. apply (proj1 (ord_in _ _ _)) in J. contradiction.
Qed.
Lemma recover_keys_other uc s top n ks k : (forall a x, k <> SStor a x) -> lop (recover_keys cached ord uc s top n ks) k = None.
Proof. intro N. apply lop_none. intros o J E. apply in_map_iff in J. destruct J as ([a' k'] & <- & J). unfold put_bytes in E. cbn [fst snd] in E. symmetry in E. now apply N in E. Qed.
Lemma recover_toks_ok s n ts a t :
  lop (recover_toks ord s n ts) (SBal a t) = if in_dec pair_dec (a, t) ts then Some (floor_bal (s_mem s) a t n) else None.
Proof.
  unfold recover_toks. destruct (in_dec _ (a, t) ts) as [I|I].
  - apply lop_uniform.
    + apply in_map_iff. exists (a, t). split; [reflexivity|now apply (proj2 (ord_in _ _ _))].
    + intros o J. apply in_map_iff in J. destruct J as ([a' k'] & E & _). cbn [fst snd] in E. injection E as -> -> <-. reflexivity.
  - apply lop_none. intros o J E. apply in_map_iff in J. destruct J as ([a' k'] & <- & J). cbn [fst snd] in E. injection E as -> ->. apply (proj1 (ord_in _ _ _)) in J. contradiction.
Qed.
Lemma recover_toks_other s n ts k : (forall a x, k <> SBal a x) -> lop (recover_toks ord s n ts) k = None.
Proof. intro N. apply lop_none. intros o J E. apply in_map_iff in J. destruct J as ([a' k'] & <- & J). cbn [fst snd] in E. symmetry in E. now apply N in E. Qed.

(** ** The cache *)
Lemma cache_same b k : (match k with SBal _ _ | SMeta _ => True | _ => False end) -> lop (cache_ops cached b) k = lop b k.
Proof.
  intro K. unfold cache_ops. rewrite lop_flat, lop_newest. apply newest_ext. intros [x o] _. cbn [fst snd].
  destruct x; try (destruct (skey_eq_dec _ k) as [<-|]; [destruct K|reflexivity]); cbn [lop fst snd].
  - reflexivity.
  - reflexivity.
  - destruct (cached a).
    + cbn [lop fst snd]. destruct (skey_eq_dec (SStor a k0) k) as [<-|]; [destruct K|]. destruct (skey_eq_dec (SHStor a k0 n) k) as [<-|]; [destruct K|reflexivity].
    + destruct (skey_eq_dec (SHStor a k0 n) k) as [<-|]; [destruct K|reflexivity].
Qed.
Lemma cache_stor_none b a k : (forall n o, ~ In (SHStor a k n, o) b) -> lop (cache_ops cached b) (SStor a k) = None.
Proof.
  intro N. apply lop_none. intros [x o] I E. cbn in E. subst x. unfold cache_ops in I. apply in_flat_map in I. destruct I as ([y o'] & I & J). cbn [fst snd] in J.
  destruct y; try destruct J as [J|[]]; try discriminate; try destruct J.
  destruct (cached a0); [|destruct J]. destruct J as [J|[]]. injection J as -> -> ->. now apply (N n o).
Qed.
Lemma cache_stor_in b a k o : cached a = true -> In (SStor a k, o) (cache_ops cached b) <-> exists n, In (SHStor a k n, o) b.
Proof.
  intro C. unfold cache_ops. rewrite in_flat_map. split.
  - intros ([y o'] & I & J). cbn [fst snd] in J. destruct y; try destruct J as [J|[]]; try discriminate; try destruct J.
    destruct (cached a0); [|destruct J]. destruct J as [J|[]]. injection J as -> -> ->. now exists n.
  - intros (n & I). exists (SHStor a k n, o). split; [assumption|]. cbn [fst snd]. rewrite C. now left.
Qed.
Lemma fill_get d c k : keys_nodup d -> sget (fill_snapshot_cache builtin d c) k =
  match k with
  | SStor a _ => if builtin a then match sget d k with Some v => Some v | None => sget c k end else sget c k
  | _ => sget c k
  end.
Proof.
  intro N. unfold fill_snapshot_cache. rewrite sget_sapply.
  set (f := fun e : skey * sval => match fst e with SStor a _ => if builtin a then [(fst e, Some (snd e))] else [] | _ => [] end).
  assert (IN : forall o, In (k, o) (flat_map f d) <-> exists v, o = Some v /\ In (k, v) d /\ match k with SStor a _ => builtin a = true | _ => False end).
  { intro o. rewrite in_flat_map. unfold f. split.
    - intros ([x v] & I & J). cbn [fst snd] in J. destruct x; try destruct J. destruct (builtin a) eqn:B; [|destruct J]. destruct J as [J|[]]. injection J as <- <-. now exists v.
    - intros (v & -> & I & K). exists (k, v). split; [assumption|]. cbn [fst snd]. destruct k; try contradiction. rewrite K. now left. }
  destruct (lop (flat_map f d) k) as [o|] eqn:E.
  - apply lop_some in E. apply IN in E. destruct E as (v & -> & I & K). destruct k; try contradiction. rewrite K, (in_sget d _ v N I). reflexivity.
  - destruct k; try reflexivity. destruct (builtin a) eqn:B; [|reflexivity]. destruct (sget d (SStor a k)) as [v|] eqn:G; [|reflexivity].
    exfalso. apply (proj1 (lop_in (flat_map f d) (SStor a k))); [|assumption]. exists (Some v). apply IN. exists v. split; [reflexivity|]. split; [now apply sget_in|]. reflexivity.
Qed.
End Batches.
