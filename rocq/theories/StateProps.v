(** * C56, C57: the state database

    [logs_kept], [cached] and [builtin] say which accounts keep logs, which are held in the
    snapshot cache and which are built in; [ord] is the order in which Go walks a map.  A world
    is [reached] by any history of inserted account blocks, inserted snapshot blocks, deletions
    of both and restarts. *)
Require Import Coq.Lists.List Coq.ZArith.ZArith Coq.Bool.Bool Coq.micromega.Lia.
Require Import Verif.Lib Verif.StateModel Verif.StateSpec Verif.StateProofs Verif.StateProofs2 Verif.StateProofs3 Verif.StateProofs4 Verif.StateProofs5 Verif.StateProofs6 Verif.StateProofs7 Verif.StateProofs8 Verif.StateProofs9.
Import ListNotations.
Local Open Scope Z_scope.

(** ** From the views of the proofs to the specification *)
Lemma spec_storage kept bs a k : bytes_of (after (view kept bs (SStor a k))) = storage_after bs a k.
Proof.
  unfold storage_after. rewrite view_newest, (newest_ext _ (fun b => option_map (fun v => snd (put_bytes (SStor a k) v)) (if ab_addr b =? a then lastkv (ab_storage b) k else None))).
  - rewrite newest_map. destruct (newest_of _ bs) as [[|x v]|]; reflexivity.
  - intros b _. rewrite wb_stor. now destruct (ab_addr b =? a).
Qed.
Lemma spec_balance kept bs a t : after (view kept bs (SBal a t)) = option_map VN (balance_after bs a t).
Proof.
  unfold balance_after. rewrite view_newest, (newest_ext _ (fun b => option_map (fun v => Some (VN v)) (if ab_addr b =? a then lastkv (ab_bal b) t else None))).
  - rewrite newest_map. now destruct (newest_of _ bs).
  - intros b _. rewrite wb_bal. now destruct (ab_addr b =? a).
Qed.
Lemma spec_code kept bs a : bytes_of (after (view kept bs (SCode a))) = code_after bs a.
Proof.
  unfold code_after. rewrite view_newest, (newest_ext _ (fun b => option_map (fun v => Some (VB v)) (if ab_addr b =? a then ab_code b else None))).
  - rewrite newest_map. destruct (newest_of _ bs) as [[|x v]|]; reflexivity.
  - intros b _. rewrite wb_code. now destruct (ab_addr b =? a).
Qed.
Lemma spec_meta kept bs c : bytes_of (after (view kept bs (SMeta c))) = meta_after bs c.
Proof.
  unfold meta_after. rewrite view_newest, (newest_ext _ (fun b => option_map (fun v => Some (VB v)) (option_map snd (lastkv (ab_meta b) c)))).
  - rewrite newest_map. destruct (newest_of _ bs) as [[|x v]|]; reflexivity.
  - intros b _. rewrite wb_meta. now destruct (lastkv (ab_meta b) c).
Qed.
Lemma spec_log kept bs h : bytes_of (after (view kept bs (SLog h))) = log_after kept bs h.
Proof.
  unfold log_after. rewrite view_newest, (newest_ext _ (fun b => option_map (fun v => Some (VB v)) (match ab_loghash b with
    | Some h' => if (h' =? h) && kept (ab_addr b) then Some (ab_loglist b) else None | None => None end))).
  - rewrite newest_map. destruct (newest_of _ bs) as [[|x v]|]; reflexivity.
  - intros b _. rewrite wb_log. f_equal. unfold item_of. cbn [it_log]. destruct (ab_loghash b) as [h'|]; [|reflexivity]. destruct (kept (ab_addr b)); [|now rewrite andb_false_r].
    rewrite andb_true_r. unfold lastkv, newest_of. cbn. now destruct (h' =? h).
Qed.
Lemma lastkv_const {V A} (l : list (Z * A)) (v : V) h : lastkv (map (fun p => (fst p, v)) l) h = if existsb (Z.eqb h) (map fst l) then Some v else None.
Proof.
  destruct (existsb (Z.eqb h) (map fst l)) eqn:E.
  - apply newest_uniform.
    + apply existsb_exists in E. destruct E as (x & I & E). apply Z.eqb_eq in E. subst x. apply in_map_iff in I. destruct I as (p & E & I). exists (fst p, v). split.
      * apply in_map_iff. now exists p.
      * cbn. rewrite E, Z.eqb_refl. discriminate.
    + intros x w I F. apply in_map_iff in I. destruct I as (p & <- & _). cbn in F. destruct (fst p =? h); congruence.
  - apply lastkv_None. rewrite map_map. cbn. intro I. assert (Y : existsb (Z.eqb h) (map fst l) = true) by (apply existsb_exists; exists h; split; [assumption|apply Z.eqb_refl]). congruence.
Qed.
Lemma spec_depth kept bs h : num_of (after (view kept bs (SDepth h))) = depth_after bs h.
Proof.
  unfold depth_after. rewrite view_newest, (newest_ext _ (fun b => option_map (fun v => Some (VN v)) (if ab_receive b && existsb (Z.eqb h) (map fst (ab_sends b)) then Some ((ab_depth b + 1) mod 65536) else None))).
  - rewrite newest_map. now destruct (newest_of _ bs).
  - intros b _. rewrite wb_depth. f_equal. unfold item_of. cbn [it_depth]. destruct (ab_receive b); cbn [andb]; [|reflexivity]. apply (lastkv_const (ab_sends b)).
Qed.

(** What can be asked about the newest state. *)
Definition reads_as (s : sstate) (kept : Z -> bool) (bs : list ablock) : Prop :=
  (forall a k, get_storage s a k = storage_after bs a k) /\
  (forall a t, get_balance s a t = or_zero (balance_after bs a t)) /\
  (forall a t v, In (t, v) (get_balances s a) <-> balance_after bs a t = Some v) /\
  (forall a, code_after bs a = get_code s a) /\
  (forall c, get_meta s c = meta_after bs c) /\
  (forall h, get_log s h = log_after kept bs h) /\
  (forall h, get_depth s h = depth_after bs h).

Section Props.
Context (logs_kept cached builtin : Z -> bool) (ord : forall A, list A -> list A).
Context (ord_in : forall A (l : list A) x, In x (ord A l) <-> In x l).
Context (cached_builtin : forall a, cached a = true -> builtin a = true).
Notation reached := (reached logs_kept cached builtin ord).
Notation step := (step logs_kept cached builtin ord).

Lemma inv_reads w m : inv logs_kept cached w m -> reads_as (w_s w) logs_kept (live w).
Proof.
  intros [W [M1 M2 M3] D P C R X].
  assert (B : forall a t, sget (s_mem (w_s w)) (SBal a t) = option_map VN (balance_after (live w) a t) \/ (balance_after (live w) a t = None /\ sget (s_mem (w_s w)) (SBal a t) = Some (VB []))).
  { intros a t. pose proof (M1 (SBal a t) Logic.I) as E. rewrite spec_balance in E. destruct (sget (s_mem (w_s w)) (SBal a t)) as [[[|x v]|n]|]; cbn [norm] in E; auto. right. split; [now destruct (balance_after (live w) a t)|reflexivity]. }
  assert (BN : forall a t, num_of (sget (s_mem (w_s w)) (SBal a t)) = or_zero (balance_after (live w) a t)).
  { intros a t. destruct (B a t) as [-> |[-> ->]]; [now destruct (balance_after (live w) a t)|reflexivity]. }
  repeat split.
  - intros a k. unfold get_storage. rewrite <- bytes_norm, (M1 (SStor a k) Logic.I). apply spec_storage.
  - intros a t. unfold get_balance. rewrite <- BN. destruct (sget (s_cache (w_s w)) (SBal a t)) as [v|] eqn:E; [|reflexivity]. now rewrite (ca_bal _ _ _ _ _ C a t v E).
  - intro I. apply in_flat_map in I. destruct I as ([k x] & I & J). destruct k; try destruct J; destruct x; try destruct J. destruct (a0 =? a) eqn:E; [|destruct J]. destruct J as [J|[]]. injection J as -> ->.
    apply Z.eqb_eq in E. subst a0. apply (in_sget _ _ _ M3) in I. destruct (B a t) as [E|[_ E]]; rewrite E in I; [|discriminate]. destruct (balance_after (live w) a t); [|discriminate]. now injection I as ->.
  - intro E. destruct (B a t) as [E'|[E' _]]; [|congruence]. rewrite E in E'. apply sget_in in E'. apply in_flat_map. exists (SBal a t, VN v). split; [exact E'|]. cbn. rewrite Z.eqb_refl. now left.
  - intro a. unfold get_code. rewrite <- bytes_norm, (M1 (SCode a) Logic.I). symmetry. apply spec_code.
  - intro c. unfold get_meta. rewrite <- bytes_norm, (ca_meta _ _ _ _ _ C c), (M1 (SMeta c) Logic.I). apply spec_meta.
  - intro h. unfold get_log. rewrite <- bytes_norm, (M1 (SLog h) Logic.I). apply spec_log.
  - intro h. unfold get_depth. rewrite <- num_norm, (M1 (SDepth h) Logic.I). apply spec_depth.
Qed.
Lemma inv_snapshot w m uc n a k : inv logs_kept cached w m -> 0 <= n -> snapshot_value cached uc (w_s w) (top_of w) n a k = storage_after (confirmed_upto w n) a k.
Proof.
  intros [W [M1 M2 M3] D P C R X] N. unfold snapshot_value. destruct (uc && cached a && (n =? top_of w)) eqn:E.
  - apply andb_true_iff in E. destruct E as [E T]. apply andb_true_iff in E. destruct E as [_ Ca]. apply Z.eqb_eq in T. subst n.
    rewrite <- bytes_norm, (ca_stor _ _ _ _ _ C a k Ca), spec_storage. unfold confirmed_upto, top_of, zlen. now rewrite Nat2Z.id, firstn_all.
  - rewrite <- bytes_norm, (floor_stor_ok logs_kept _ _ a k n M2 N). apply spec_storage.
Qed.
Lemma inv_snapshot_balance w m n a t : inv logs_kept cached w m -> 0 <= n -> snapshot_balance (w_s w) n a t = balance_after (confirmed_upto w n) a t.
Proof.
  intros [W [M1 M2 M3] D P C R X] N. unfold snapshot_balance. rewrite (floor_bal_ok logs_kept _ _ a t n M2 N), spec_balance. unfold confirmed_upto. now destruct (balance_after _ a t).
Qed.

(** ** C56: the newest state is what the blocks of the chain leave behind *)
(** No step the chain takes fails or panics. *)
Theorem state_steps_succeed w m o : reached w m -> allowed w o -> exists w', step w o = Some w'.
Proof.
  intros H A. destruct (step_inv logs_kept cached builtin ord ord_in cached_builtin w m o) as (w' & E & _); [now apply (reached_inv logs_kept cached builtin ord)|assumption|]. now exists w'.
Qed.
(** After any history, every question about the newest state is answered by the blocks of the
    chain: the confirmed ones in order, then the unconfirmed ones. *)
Theorem state_is_the_chain w m : reached w m -> reads_as (w_s w) logs_kept (live w).
Proof. intro H. apply (inv_reads w m). now apply (reached_inv logs_kept cached builtin ord). Qed.
(** So nothing else of the history matters: two histories that leave each account with the same
    blocks leave the same state. *)
Theorem state_of_same_chains w1 m1 w2 m2 : reached w1 m1 -> reached w2 m2 ->
  (forall a, filter (from a) (live w1) = filter (from a) (live w2)) -> reads_as (w_s w1) logs_kept (live w2).
Proof.
  intros H1 H2 S. pose proof (state_is_the_chain w1 m1 H1) as (A & B & C & D & E & F & G). pose proof (i_wf _ _ _ _ (reached_inv logs_kept cached builtin ord ord_in cached_builtin w1 m1 H1)) as W.
  assert (V : forall k, latest k -> view logs_kept (live w1) k = view logs_kept (live w2) k) by (intros k L; now apply view_same).
  assert (BE : forall a t, balance_after (live w1) a t = balance_after (live w2) a t).
  { intros a t. pose proof (V (SBal a t) Logic.I) as E'. apply (f_equal after) in E'. rewrite !spec_balance in E'. destruct (balance_after (live w1) a t), (balance_after (live w2) a t); cbn in E'; congruence. }
  repeat split; intros.
  - rewrite A, <- !(spec_storage logs_kept), V by exact Logic.I. reflexivity.
  - rewrite B, BE. reflexivity.
  - rewrite <- BE. now apply C.
  - apply C. now rewrite BE.
  - rewrite <- D, <- !(spec_code logs_kept), V by exact Logic.I. reflexivity.
  - rewrite E, <- !(spec_meta logs_kept), V by exact Logic.I. reflexivity.
  - rewrite F, <- !(spec_log logs_kept), V by exact Logic.I. reflexivity.
  - rewrite G, <- !(spec_depth logs_kept), V by exact Logic.I. reflexivity.
Qed.
(** A block written and taken back leaves no trace. *)
Theorem state_block_taken_back w m b : reached w m -> allowed w (OWrite b) ->
  exists w1 w2, step w (OWrite b) = Some w1 /\ step w1 (ODelAcc [b]) = Some w2 /\ live w2 = live w /\ reads_as (w_s w2) logs_kept (live w).
Proof.
  intros H A. destruct (state_steps_succeed w m (OWrite b) H A) as (w1 & E1). pose proof (R_step _ _ _ _ w m (OWrite b) w1 H A E1) as H1.
  assert (U : w_unc w1 = w_unc w ++ [b]) by (cbn in E1; injection E1 as <-; reflexivity). assert (SG : w_segs w1 = w_segs w) by (cbn in E1; injection E1 as <-; reflexivity).
  assert (WO : without [b] (w_unc w ++ [b]) = w_unc w).
  { rewrite without_cons, without_nil, filter_app. cbn [filter]. rewrite Z.eqb_refl. cbn [negb]. rewrite app_nil_r. destruct A as (_ & A & _).
    assert (Y : forall x, In x (w_unc w) -> negb (ab_hash x =? ab_hash b) = true).
    { intros x I. apply negb_true_iff, Z.eqb_neq. apply (A x). apply in_or_app. now right. }
    clear -Y. induction (w_unc w) as [|x r IH]; [reflexivity|]. cbn [filter]. rewrite (Y x) by now left. f_equal. apply IH. intros; apply Y; now right. }
  assert (A1 : allowed w1 (ODelAcc [b])). { cbn. rewrite U, WO. intro a. now rewrite filter_app. }
  destruct (state_steps_succeed w1 _ (ODelAcc [b]) H1 A1) as (w2 & E2). exists w1, w2. split; [assumption|]. split; [assumption|].
  assert (L : live w2 = live w).
  { cbn in E2. destruct (rollback_accounts cached ord (w_s w1) (top_of w1) [b]); [|discriminate]. injection E2 as <-. unfold live. cbn [w_segs w_unc]. now rewrite SG, U, WO. }
  split; [assumption|]. rewrite <- L. exact (state_is_the_chain w2 _ (R_step _ _ _ _ w1 _ (ODelAcc [b]) w2 H1 A1 E2)).
Qed.
(** Deleting the snapshot blocks above a height leaves the state of the blocks confirmed up to
    it; with the redo log at hand, also the blocks confirmed by the first deleted snapshot
    block, unconfirmed again. *)
Theorem state_snapshots_taken_back w m n : reached w m -> allowed w (ODelSnap n) ->
  exists w', step w (ODelSnap n) = Some w' /\ w_segs w' = firstn (Z.to_nat n) (w_segs w) /\
    reads_as (w_s w') logs_kept (confirmed_upto w (if has_redo (w_s w) (n + 1) then n + 1 else n)).
Proof.
  intros H A. destruct (state_steps_succeed w m (ODelSnap n) H A) as (w' & E). exists w'. split; [assumption|]. pose proof (state_is_the_chain w' _ (R_step _ _ _ _ w m _ w' H A E)) as RD. destruct A as (N & _).
  cbn in E. unfold delete_snapshots in E. destruct (rollback_snapshots _ _ _ _ _ _ _) as [s|]; [|discriminate]. injection E as <-. cbn [w_segs w_s]. split; [reflexivity|].
  cbn [w_s] in RD. unfold live in RD. cbn [w_segs w_unc] in RD. unfold confirmed_upto. destruct (has_redo (w_s w) (n + 1)).
  - replace (Z.to_nat (n + 1)) with (Datatypes.S (Z.to_nat n)) by lia. rewrite (firstn_seg logs_kept). replace (Z.of_nat (Datatypes.S (Z.to_nat n))) with (n + 1) by lia.
    replace (seg_at (w_segs w) (n + 1)) with (snd (hd (None, []) (number (n + 1) (skipn (Z.to_nat n) (w_segs w)) ++ match w_unc w with [] => [] | u => [(None, u)] end))); [exact RD|].
    pose proof (skipn_nth (w_segs w) (Z.to_nat n) 0) as Y. rewrite Nat.add_0_r in Y. unfold seg_at. destruct (Z.ltb_spec (n + 1) 1); [lia|]. replace (n + 1 - 1) with n by lia.
    destruct (skipn (Z.to_nat n) (w_segs w)) as [|x r]; cbn [nth_error] in Y.
    + exfalso. symmetry in Y. apply nth_error_None in Y. unfold zlen in N. lia.
    + symmetry in Y. cbn. symmetry. now apply nth_error_nth.
  - rewrite app_nil_r in RD. exact RD.
Qed.
(** The redo log is at hand for every height less than 1200 below the greatest the chain has had. *)
Theorem state_redo_kept w m n : reached w m -> 0 <= n < zlen (w_segs w) -> m - 1200 <= n -> has_redo (w_s w) (n + 1) = true.
Proof.
  intros H N B. pose proof (i_redo _ _ _ _ (reached_inv logs_kept cached builtin ord ord_in cached_builtin w m H)) as [R1 R2 R5 R6 R7 [lo (K1 & K2 & K3 & K4)]].
  unfold has_redo. destruct (zget (s_rcache (w_s w)) (n + 1)); [reflexivity|]. destruct (zget (s_rstore (w_s w)) (n + 1)) eqn:E; [reflexivity|]. exfalso. apply K4 in E; [assumption|lia].
Qed.
(** A restart leaves the state of the confirmed blocks. *)
Theorem state_restarted w m : reached w m -> exists w', step w ORestart = Some w' /\ reads_as (w_s w') logs_kept (concat (w_segs w)) /\ w_segs w' = w_segs w.
Proof.
  intro H. destruct (state_steps_succeed w m ORestart H Logic.I) as (w' & E). exists w'. split; [assumption|]. pose proof (state_is_the_chain w' _ (R_step _ _ _ _ w m ORestart w' H Logic.I E)) as RD.
  cbn in E. injection E as <-. split; [|reflexivity]. unfold live in RD. cbn [restart w_segs w_unc] in RD. now rewrite app_nil_r in RD.
Qed.

(** ** C57: the state of a snapshot *)
(** At every height, with or without the cache, storage and balances are what the blocks
    confirmed up to that height leave behind. *)
Theorem snapshot_state w m n : reached w m -> 0 <= n ->
  (forall uc a k, snapshot_value cached uc (w_s w) (top_of w) n a k = storage_after (confirmed_upto w n) a k) /\
  (forall a t, snapshot_balance (w_s w) n a t = balance_after (confirmed_upto w n) a t).
Proof.
  intros H N. pose proof (reached_inv logs_kept cached builtin ord ord_in cached_builtin w m H) as I. split; intros; [now apply (inv_snapshot w m)|now apply (inv_snapshot_balance w m)].
Qed.
(** The state of a snapshot never changes while the snapshot block stays. *)
Theorem snapshot_state_stays w m o w' n : reached w m -> allowed w o -> step w o = Some w' -> 0 <= n <= zlen (w_segs w) -> n <= zlen (w_segs w') ->
  (forall uc uc' a k, snapshot_value cached uc' (w_s w') (top_of w') n a k = snapshot_value cached uc (w_s w) (top_of w) n a k) /\
  (forall a t, snapshot_balance (w_s w') n a t = snapshot_balance (w_s w) n a t).
Proof.
  intros H A E N N'. pose proof (R_step _ _ _ _ w m o w' H A E) as H'. destruct (snapshot_state w m n H (proj1 N)) as [A1 A2]. destruct (snapshot_state w' _ n H' (proj1 N)) as [B1 B2].
  assert (C : confirmed_upto w' n = confirmed_upto w n).
  { unfold confirmed_upto. f_equal. destruct o as [b|conf|bs|n0|]; cbn in E.
    - injection E as <-. reflexivity.
    - destruct (insert_snapshot _ _ _ _ _); [|discriminate]. injection E as <-. cbn [w_segs]. rewrite firstn_app. replace (Z.to_nat n - length (w_segs w))%nat with 0%nat by (unfold zlen in N; lia). apply app_nil_r.
    - destruct (rollback_accounts _ _ _ _ _); [|discriminate]. injection E as <-. reflexivity.
    - unfold delete_snapshots in E. destruct (rollback_snapshots _ _ _ _ _ _ _); [|discriminate]. injection E as <-. cbn [w_segs] in *. rewrite firstn_firstn. f_equal. unfold zlen in N'. rewrite firstn_length in N'. lia.
    - injection E as <-. reflexivity. }
  split; intros; [now rewrite A1, B1, C|now rewrite A2, B2, C].
Qed.
(** ** C56: the list of contracts of a consensus group *)
(** Every contract a block of the chain makes is in the list of its group. *)
Theorem contract_list_complete w m b c g s : reached w m -> In b (live w) -> In (c, (g, s)) (ab_meta b) -> In c (get_contracts (w_s w) g).
Proof.
  intros H I J. assert (L : linv w).
  { clear I J. induction H as [|w m o w' H IH A E]; [apply linv_empty|]. apply (linv_step logs_kept cached builtin ord w m o w' IH); auto. now apply (reached_inv logs_kept cached builtin ord). }
  pose proof (l_mem w L b (SGid g c) I) as M. unfold listed in M. apply in_flat_map. exists (SGid g c, VB []). split; [apply sget_in, M; now exists c, g, s|]. cbn. rewrite Z.eqb_refl. now left.
Qed.
End Props.

(** ** Cases *)
Definition plain (h a n : Z) (kv : list (Z * list Z)) (bal : list (Z * Z)) : ablock :=
  {| ab_hash := h; ab_addr := a; ab_height := n; ab_creates := None; ab_receive := false; ab_sends := []; ab_loghash := None; ab_loglist := [];
     ab_storage := kv; ab_bal := bal; ab_code := None; ab_meta := []; ab_depth := 0 |}.
Definition all : Z -> bool := fun _ => true.
Definition one : Z -> bool := fun a => a =? 1.
Definition keep_order : forall A, list A -> list A := fun _ l => l.
Fixpoint allowed_all (w : world) (os : list op) : Prop :=
  match os with
  | [] => True
  | o :: r => allowed w o /\ match step all one one keep_order w o with Some w' => allowed_all w' r | None => False end
  end.
Fixpoint run (w : world) (os : list op) : option world :=
  match os with
  | [] => Some w
  | o :: r => match step all one one keep_order w o with Some w' => run w' r | None => None end
  end.
Lemma run_reached os : forall w m w', reached all one one keep_order w m -> allowed_all w os -> run w os = Some w' -> exists m', reached all one one keep_order w' m'.
Proof.
  induction os as [|o r IH]; intros w m w' H A E; cbn in *; [injection E as <-; eauto|]. destruct A as [A B]. destruct (step all one one keep_order w o) as [w1|] eqn:S; [|discriminate].
  exact (IH w1 _ w' (R_step _ _ _ _ w m o w1 H A S) B E).
Qed.
Lemma allowed_cons w o r w' : allowed w o -> step all one one keep_order w o = Some w' -> allowed_all w' r -> allowed_all w (o :: r).
Proof. intros A E B. cbn [allowed_all]. now rewrite E. Qed.
Ltac meets := match goal with
  | |- allowed _ (OWrite _) => split; [split; [discriminate|intros ? ? []]|split; [intros ? I; vm_compute in I; repeat (destruct I as [<-|I]; [unfold apart; vm_compute; repeat split; try discriminate; intros; contradiction|]); contradiction|vm_compute; reflexivity]]
  | |- allowed _ ORestart => exact Logic.I
  | |- allowed _ (ODelSnap _) => split; [vm_compute; split; [discriminate|reflexivity]|left; vm_compute; reflexivity]
  | |- allowed ?w (OSnap ?l) => let x := eval vm_compute in (w_unc w) in let y := eval vm_compute in (without l x) in let l' := eval vm_compute in l in change (splits x l' y)
  | |- allowed ?w (ODelAcc ?l) => let x := eval vm_compute in (w_unc w) in let y := eval vm_compute in (without l x) in let l' := eval vm_compute in l in change (splits x y l')
  end.
Ltac splitting := let a := fresh "a" in intro a; cbn [filter app]; unfold from; cbn [ab_addr]; repeat match goal with |- context [?x =? a] => destruct (Z.eqb_spec x a) end; first [reflexivity|exfalso; lia].
Ltac go := lazymatch goal with
  | |- allowed_all _ [] => exact Logic.I
  | |- allowed_all ?w (?o :: ?r) =>
      let x := eval vm_compute in (step all one one keep_order w o) in
      lazymatch x with Some ?w' => apply (allowed_cons w o r w'); [meets; try splitting|vm_compute; reflexivity|go] end
  end.

(** Account 1 sets key 5 twice, its second block also key 3; account 2 only has a balance. *)
Definition b1 : ablock := plain 11 1 1 [(5, [1])] [(7, 100)].
Definition b2 : ablock := plain 12 1 2 [(3, [9]); (5, [2])] [(7, 90)].
Definition c1 : ablock := plain 21 2 1 [] [(7, 10)].
Definition c2 : ablock := plain 22 2 2 [] [(7, 4)].
Definition story : list op := [OWrite b1; OWrite c1; OSnap [b1]; OWrite b2; OSnap [b2; c1]; OWrite c2; ODelAcc [c2]; OSnap []; ODelSnap 1; OWrite c2; ORestart; OWrite c1].
Example story_allowed : allowed_all empty_world story.
Proof. unfold story. go. Qed.
Example story_reached : exists w m, run empty_world story = Some w /\ reached all one one keep_order w m /\
  zlen (w_segs w) = 1 /\ live w = [b1; c1] /\ get_storage (w_s w) 1 5 = [1] /\ get_storage (w_s w) 1 3 = [] /\ get_balance (w_s w) 1 7 = 100 /\ get_balance (w_s w) 2 7 = 10.
Proof.
  destruct (run empty_world story) as [w|] eqn:E; [|vm_compute in E; discriminate].
  destruct (run_reached story empty_world 0 w (R_empty _ _ _ _) story_allowed E) as [m H]. exists w, m. split; [reflexivity|]. split; [assumption|].
  vm_compute in E. injection E as <-. repeat split; reflexivity.
Qed.
(** Before the rollback the three snapshots have their states: key 5 of account 1 is [1] at
    height 1 and [2] from height 2 on. *)
Example story_snapshots : exists w m, run empty_world (firstn 8 story) = Some w /\ reached all one one keep_order w m /\ allowed w (ODelSnap 1) /\
  map (fun n => snapshot_value one true (w_s w) (top_of w) n 1 5) [0; 1; 2; 3] = [[]; [1]; [2]; [2]] /\
  map (fun n => snapshot_balance (w_s w) n 2 7) [0; 1; 2; 3] = [None; None; Some 10; Some 10] /\ get_balance (w_s w) 2 7 = 10.
Proof.
  assert (A : allowed_all empty_world (firstn 8 story)) by (unfold story; cbn [firstn]; go).
  destruct (run empty_world (firstn 8 story)) as [w|] eqn:E; [|vm_compute in E; discriminate].
  destruct (run_reached _ empty_world 0 w (R_empty _ _ _ _) A E) as [m H]. exists w, m. split; [reflexivity|]. split; [assumption|].
  vm_compute in E. injection E as <-. split; [meets|]. repeat split; reflexivity.
Qed.

(** ** What does not hold *)
(** Deleting snapshot blocks whose redo log is gone.  An account's smallest storage key was first
    set after the height that stays; the rest of the account's storage is then left as it was. *)
Fixpoint empty_snapshots (k : nat) (w : world) : option world :=
  match k with
  | O => Some w
  | S k => match step all one one keep_order w (OSnap []) with Some w' => empty_snapshots k w' | None => None end
  end.
Lemma empty_reached k : forall w m w', reached all one one keep_order w m -> empty_snapshots k w = Some w' -> exists m', reached all one one keep_order w' m'.
Proof.
  induction k as [|k IH]; intros w m w' H E; cbn [empty_snapshots] in E; [injection E as <-; eauto|]. destruct (step all one one keep_order w (OSnap [])) as [w1|] eqn:S; [|discriminate].
  apply (IH w1 (Z.max m (zlen (w_segs w1)))); [|assumption]. apply (R_step _ _ _ _ w m (OSnap [])); [assumption| |assumption]. cbn. rewrite without_nil. intro a. reflexivity.
Qed.
Definition old_story : option world :=
  match run empty_world [OWrite b1; OSnap [b1]; OWrite b2; OSnap [b2]] with Some w => empty_snapshots (Z.to_nat 1200) w | None => None end.
Theorem old_rollback_restores_storage_refuted : exists w m n w', reached all one one keep_order w m /\ 0 <= n < zlen (w_segs w) /\
  step all one one keep_order w (ODelSnap n) = Some w' /\ w_segs w' = firstn (Z.to_nat n) (w_segs w) /\ w_unc w' = [] /\
  exists a k, get_storage (w_s w') a k <> storage_after (live w') a k.
Proof.
  assert (A : allowed_all empty_world [OWrite b1; OSnap [b1]; OWrite b2; OSnap [b2]]) by go.
  destruct (run empty_world [OWrite b1; OSnap [b1]; OWrite b2; OSnap [b2]]) as [w0|] eqn:E0; [|vm_compute in E0; discriminate].
  destruct (run_reached _ empty_world 0 w0 (R_empty _ _ _ _) A E0) as [m0 H0].
  assert (Q : match empty_snapshots (Z.to_nat 1200) w0 with
              | None => false
              | Some w => (zlen (w_segs w) =? 1202) && match step all one one keep_order w (ODelSnap 1) with
                          | None => false
                          | Some w' => match w_unc w' with [] => true | _ => false end && zlist_eqb (get_storage (w_s w') 1 3) [9] && zlist_eqb (storage_after (live w') 1 3) []
                          end
              end = true).
  { revert E0. intro E0. vm_compute in E0. injection E0 as <-. vm_compute. reflexivity. }
  destruct (empty_snapshots (Z.to_nat 1200) w0) as [w|] eqn:E1; [|discriminate]. destruct (empty_reached _ w0 m0 w H0 E1) as [m H].
  apply andb_true_iff in Q. destruct Q as [T Q]. apply Z.eqb_eq in T. destruct (step all one one keep_order w (ODelSnap 1)) as [w'|] eqn:E2; [|discriminate].
  apply andb_true_iff in Q. destruct Q as [Q Q3]. apply andb_true_iff in Q. destruct Q as [Q1 Q2]. apply zlist_eqb_eq in Q2, Q3.
  exists w, m, 1, w'. split; [assumption|]. split; [lia|]. split; [assumption|]. split.
  - clear -E2. cbn in E2. unfold delete_snapshots in E2. destruct (rollback_snapshots _ _ _ _ _ _ _); [|discriminate]. now injection E2 as <-.
  - split; [now destruct (w_unc w')|]. exists 1, 3. rewrite Q2, Q3. discriminate.
Qed.
(** The list of contracts of a group also holds contracts whose blocks were taken back. *)
Definition maker : ablock :=
  {| ab_hash := 31; ab_addr := 3; ab_height := 1; ab_creates := Some 50; ab_receive := false; ab_sends := []; ab_loghash := None; ab_loglist := [];
     ab_storage := []; ab_bal := []; ab_code := None; ab_meta := [(50, (2, [1; 2]))]; ab_depth := 0 |}.
Theorem contract_list_exact_refuted : exists w m g c, reached all one one keep_order w m /\ In c (get_contracts (w_s w) g) /\ ~ exists b s, In b (live w) /\ In (c, (g, s)) (ab_meta b).
Proof.
  assert (B : allowed empty_world (OWrite maker)).
  { split; [split; [discriminate|]|split; [intros x []|reflexivity]]. intros c m [E|[]]. injection E as <- <-. now left. }
  destruct (step all one one keep_order empty_world (OWrite maker)) as [w1|] eqn:E1; [|vm_compute in E1; discriminate].
  pose proof (R_step _ _ _ _ _ _ _ _ (R_empty _ _ _ _) B E1) as H1. vm_compute in E1. injection E1 as <-.
  match type of H1 with reached _ _ _ _ ?w ?m => assert (A1 : allowed w (ODelAcc [maker])) end.
  { intro a. vm_compute. destruct a as [|[[p|p|]|p|]|p]; reflexivity. }
  match type of H1 with reached _ _ _ _ ?w ?m => destruct (step all one one keep_order w (ODelAcc [maker])) as [w2|] eqn:E2; [|vm_compute in E2; discriminate] end.
  pose proof (R_step _ _ _ _ _ _ _ _ H1 A1 E2) as H2. vm_compute in E2. injection E2 as <-.
  eexists _, _, 2, 50. split; [exact H2|]. split; [left; reflexivity|]. intros (b & s & [] & _).
Qed.
(** Two blocks that share a log hash (before the seed upgrade the hash covers only the logs,
    interfaces/core/vm_log_list.go:37-59): taking back one loses the log of the other.  This is
    why [allowed] asks for different log hashes. *)
Definition logger (h a : Z) : ablock :=
  {| ab_hash := h; ab_addr := a; ab_height := 1; ab_creates := None; ab_receive := true; ab_sends := []; ab_loghash := Some 77; ab_loglist := [4; 2];
     ab_storage := []; ab_bal := []; ab_code := None; ab_meta := []; ab_depth := 0 |}.
Theorem shared_log_kept_refuted : exists x y w, ab_hash x <> ab_hash y /\ ab_addr x <> ab_addr y /\ block_ok x /\ block_ok y /\
  run empty_world [OWrite x; OWrite y; ODelAcc [y]] = Some w /\ live w = [x] /\ get_log (w_s w) 77 <> log_after all (live w) 77.
Proof.
  exists (logger 41 4), (logger 42 5). destruct (run empty_world [OWrite (logger 41 4); OWrite (logger 42 5); ODelAcc [logger 42 5]]) as [w|] eqn:E; [|vm_compute in E; discriminate]. exists w.
  vm_compute in E. injection E as <-. repeat split; try discriminate; try (intros ? ? []).
Qed.

Print Assumptions state_steps_succeed.
Print Assumptions state_is_the_chain.
Print Assumptions state_of_same_chains.
Print Assumptions state_block_taken_back.
Print Assumptions state_snapshots_taken_back.
Print Assumptions state_redo_kept.
Print Assumptions state_restarted.
Print Assumptions snapshot_state.
Print Assumptions snapshot_state_stays.
Print Assumptions contract_list_complete.
Print Assumptions old_rollback_restores_storage_refuted.
Print Assumptions contract_list_exact_refuted.
Print Assumptions shared_log_kept_refuted.
