(** C12: contract storage as an execution sees it. *)
From Verif Require Import Lib VmDbModel VmDbSpec VmDbProofs VmDbProofs2 VmDbProofs3.
From Coq Require Import Sorted.

(** A read returns the last value written in this execution, else the committed value (empty if
    there is none). Writes of keys longer than 32 bytes are refused. *)
Theorem storage_reads_exact : forall committed balances ops k, ascending committed ->
  let d := vrun (start committed balances) ops in
  (forall v, last_write ops k v -> zlen k <= 32 -> v_get k d = v) /\
  (not_written ops k \/ 32 < zlen k -> committed_value committed k (v_get k d)).
Proof.
  intros c b ops k Hc d. pose proof (vrun_ok _ ops (start_ok c b)) as U. fold d in U.
  destruct (vrun_chain (start c b) ops) as [Ch _]. fold d in Ch. cbn [start v_chain] in Ch.
  unfold v_get. rewrite u_get_val by auto. split.
  - intros v H1 H2. unfold d. destruct (uval_run c b ops k v) as [_ H]. now rewrite H.
  - intro H. assert (uval (v_uns d) k = None) as ->.
    { destruct H as [H|H]; [now apply not_written_none|].
      destruct (uval (v_uns d) k) eqn:E; [|reflexivity]. apply uval_run in E as [_ E]. lia. }
    unfold v_get_original, committed_value. rewrite Ch. apply ascending_sorted in Hc.
    destruct (mget k c) as [v|] eqn:E.
    + left. now apply mget_In.
    + right. split; [|reflexivity]. intros v' Hv. apply mget_In in Hv; auto. congruence.
Qed.
(** a write is refused exactly if the key is longer than 32 bytes *)
Theorem long_keys_rejected : forall k v d, v_set k v d = None <-> 32 < zlen k.
Proof. intros. unfold v_set. destruct (32 <? zlen k) eqn:E; split; intro; try discriminate; try reflexivity; lia. Qed.

(** Resetting an execution gives back the committed view, whatever was done before. *)
Theorem reset_restores_committed : forall committed balances ops later,
  vrun (start committed balances) (ops ++ VReset :: later) = vrun (start committed balances) later.
Proof.
  intros c b ops later. unfold vrun. rewrite fold_left_app. cbn [fold_left vstep]. unfold v_reset, u_reset.
  fold (vrun (start c b) ops). destruct (vrun_chain (start c b) ops) as [-> ->]. reflexivity.
Qed.

(** The write set handed to the chain is exactly the last writes, in order, empty values standing
    for deletions, also when it was already asked for in between. *)
Theorem write_set_exact : forall committed balances ops,
  let l := snd (v_unsaved (vrun (start committed balances) ops)) in
  ascending l /\ forall k v, In (k, v) l <-> last_write ops k v /\ zlen k <= 32.
Proof.
  intros c b ops l. pose proof (vrun_ok _ ops (start_ok c b)) as (S & D & Ca).
  assert (l = u_storage (v_uns (vrun (start c b) ops))) as ->.
  { unfold l, v_unsaved, u_get_storage. destruct (u_dirty (v_uns (vrun (start c b) ops))) eqn:E; [reflexivity|]. now apply Ca. }
  split; [now apply ascending_sorted|]. intros k v. rewrite <- (uval_run c b). unfold uval. symmetry. now apply mget_In.
Qed.

(** Balances: the last one set in this execution, else the committed one. *)
Theorem balance_reads_exact : forall committed balances ops t,
  let d := vrun (start committed balances) ops in
  (forall a, last_balance ops t a -> v_balance t d = a) /\
  ((forall a, ~ last_balance ops t a) -> v_balance t d = v_balance t (start committed balances)).
Proof.
  intros c b ops t d. unfold v_balance. split.
  - intros a H. apply (balance_run c b) in H. fold d in H. now rewrite H.
  - intro H. destruct (zget t (u_balance (v_uns d))) as [a|] eqn:E.
    + exfalso. apply (H a). now apply (balance_run c b).
    + destruct (vrun_chain (start c b) ops) as [_ Cb]. fold d in Cb. rewrite Cb. reflexivity.
Qed.

Lemma filter_len {A} (f : A -> bool) l : (length (filter f l) <= length l)%nat.
Proof. induction l as [|z l IHl]; cbn; [lia|destruct (f z); cbn; lia]. Qed.
Lemma iter_lengths c b ops p : committed_ok c ->
  let d := vrun (start c b) ops in
  (length (filter (fun x => in_range p (fst x)) (u_storage (v_uns d))) + length (chain_entries (v_chain d) p)
   <= length ops + length c)%nat.
Proof.
  intros Hc d. destruct (vrun_chain (start c b) ops) as [Ch _]. fold d in Ch. cbn [start v_chain] in Ch.
  rewrite Ch, chain_entries_eq by auto. apply Nat.add_le_mono; [|apply filter_len].
  eapply Nat.le_trans; [apply filter_len|]. apply storage_len.
Qed.
(** Iterating forwards lists exactly the readable keys with the prefix, each once, in order, with the
    value a read returns. Missing for the full property: the empty key is never listed (refuted
    below), and a prefix that is a committed key followed by zero bytes also matches that key. *)
Theorem iteration_forward_partial : forall committed balances ops p n,
  committed_ok committed -> prefix_ok committed p -> ops_ok ops -> (length ops + length committed < n)%nat ->
  let d := vrun (start committed balances) ops in
  let l := drain mi_next n (v_iter p d) in
  ascending l /\ forall k v, In (k, v) l <-> has_prefix p k /\ v_get k d = v /\ v <> [] /\ k <> [].
Proof.
  intros c b ops p n Hc Hp Ho Hn d l.
  pose proof (vrun_ok _ ops (start_ok c b)) as (S & _).
  destruct (vrun_chain (start c b) ops) as [Ch _]. fold d in Ch. cbn [start v_chain] in Ch.
  destruct (fresh_lists n (fun k => bin k (u_deleted (v_uns d)))
    (filter (fun x => in_range p (fst x)) (u_storage (v_uns d))) (chain_entries (v_chain d) p)) as [HS HL].
  - now apply filter_sorted.
  - rewrite Ch. now apply chain_entries_sorted.
  - eapply Nat.le_lt_trans; [apply iter_lengths; auto|exact Hn].
  - split; [now apply ascending_sorted|]. intros k v. unfold l, v_iter. rewrite HL.
    pose proof (visible_lists c b ops p k v Hc Hp Ho) as V. cbv zeta in V. fold d in V. tauto.
Qed.

(** Without the empty key, the same holds backwards from the end and forwards from any key, whatever
    the iterator was used for before. *)
Definition no_empty_key (committed : list kv) (ops : list vop) : Prop :=
  (forall v, ~ In ([], v) committed) /\ (forall v, ~ In (VSet [] v) ops).
Lemma no_empty_lists c b ops p : committed_ok c -> no_empty_key c ops ->
  let d := vrun (start c b) ops in
  ~ In [] (keys (filter (fun x => in_range p (fst x)) (u_storage (v_uns d)))) /\
  ~ In [] (keys (chain_entries (v_chain d) p)).
Proof.
  intros Hc [E1 E2] d. destruct (vrun_chain (start c b) ops) as [Ch _]. fold d in Ch. cbn [start v_chain] in Ch.
  pose proof (vrun_ok _ ops (start_ok c b)) as (S & _). split; intro H; unfold keys in H;
    apply in_map_iff in H as ([k v] & E & H); cbn in E; subst k.
  - apply filter_In in H as [H _]. apply mget_In in H; auto. apply (uval_run c b ops) in H as [(pre & post & E & _) _].
    apply (E2 v). rewrite E. apply in_or_app. right. now left.
  - rewrite Ch, chain_entries_eq in H by auto. apply filter_In in H as [H _]. now apply (E1 v).
Qed.
Theorem iteration_backward_partial : forall committed balances ops p n used,
  committed_ok committed -> prefix_ok committed p -> ops_ok ops -> no_empty_key committed ops ->
  (length ops + length committed <= n)%nat ->
  let d := vrun (start committed balances) ops in
  let l := drain_from mi_prev n (mi_last (fold_left istep used (v_iter p d))) in
  descending l /\ forall k v, In (k, v) l <-> has_prefix p k /\ v_get k d = v /\ v <> [].
Proof.
  intros c b ops p n used Hc Hp Ho Hne Hn d l.
  pose proof (vrun_ok _ ops (start_ok c b)) as (S & _).
  destruct (vrun_chain (start c b) ops) as [Ch _]. fold d in Ch. cbn [start v_chain] in Ch.
  destruct (no_empty_lists c b ops p Hc Hne) as [E1 E2]. fold d in E1, E2.
  destruct (irun_keeps used (v_iter p d)) as [K1 K2].
  change (lists (v_iter p d)) with (filter (fun x => in_range p (fst x)) (u_storage (v_uns d)), chain_entries (v_chain d) p) in K1.
  destruct (last_lists n (fold_left istep used (v_iter p d)) _ _ K1) as [HS HL]; auto.
  - now apply filter_sorted.
  - rewrite Ch. now apply chain_entries_sorted.
  - eapply Nat.le_trans; [apply (iter_lengths c b ops p Hc)|exact Hn].
  - split.
    + unfold descending. clear HL. unfold l. induction HS; constructor; auto.
      eapply Forall_impl; [|eassumption]. intros y Hy. cbv beta in *. now apply bltb_before.
    + intros k v. unfold l. rewrite HL, K2.
      pose proof (visible_lists c b ops p k v Hc Hp Ho) as V. cbv zeta in V. fold d in V. exact V.
Qed.
Theorem iteration_seek_partial : forall committed balances ops p n used k0,
  committed_ok committed -> prefix_ok committed p -> ops_ok ops -> no_empty_key committed ops ->
  (length ops + length committed <= n)%nat ->
  let d := vrun (start committed balances) ops in
  let l := drain_from mi_next n (mi_seek k0 (fold_left istep used (v_iter p d))) in
  ascending l /\ forall k v, In (k, v) l <-> has_prefix p k /\ v_get k d = v /\ v <> [] /\ ~ before k k0.
Proof.
  intros c b ops p n used k0 Hc Hp Ho Hne Hn d l.
  pose proof (vrun_ok _ ops (start_ok c b)) as (S & _).
  destruct (vrun_chain (start c b) ops) as [Ch _]. fold d in Ch. cbn [start v_chain] in Ch.
  destruct (no_empty_lists c b ops p Hc Hne) as [E1 E2]. fold d in E1, E2.
  destruct (irun_keeps used (v_iter p d)) as [K1 K2].
  change (lists (v_iter p d)) with (filter (fun x => in_range p (fst x)) (u_storage (v_uns d)), chain_entries (v_chain d) p) in K1.
  destruct (seek_lists n (fold_left istep used (v_iter p d)) _ _ k0 K1) as [HS HL]; auto.
  - now apply filter_sorted.
  - rewrite Ch. now apply chain_entries_sorted.
  - eapply Nat.le_trans; [apply (iter_lengths c b ops p Hc)|exact Hn].
  - split; [now apply ascending_sorted|]. intros k v. unfold l. rewrite HL, K2.
    pose proof (visible_lists c b ops p k v Hc Hp Ho) as V. cbv zeta in V. fold d in V.
    rewrite <- bltb_before, not_true_iff_false. cbn [v_iter mi_new m_del]. tauto.
Qed.

(** Deleting is writing the empty value: a key that was never there and one written and then deleted
    are alike to reads and iterators (a consequence, spelled out). *)
Theorem delete_is_invisible : forall committed balances ops k p n,
  committed_ok committed -> prefix_ok committed p -> ops_ok ops -> bytes_ok k -> (length ops + length committed < n)%nat ->
  let d := vrun (start committed balances) (ops ++ [VSet k []]) in zlen k <= 32 ->
  v_get k d = [] /\ forall v, ~ In (k, v) (drain mi_next (S n) (v_iter p d)).
Proof.
  intros c b ops k p n Hc Hp Ho Hk Hn d Hl.
  assert (G : v_get k d = []).
  { apply (storage_reads_exact c b (ops ++ [VSet k []]) k); auto; [apply Hc|]. exists ops, []. repeat split; auto. }
  split; [exact G|]. intros v Hin.
  destruct (iteration_forward_partial c b (ops ++ [VSet k []]) p (S n)) as [_ I]; auto.
  - intros k1 v1 H. apply in_app_or in H as [H|[H|[]]]; [now apply (Ho k1 v1)|]. now injection H as <- _.
  - rewrite app_length. cbn [length]. lia.
  - apply I in Hin. fold d in Hin. destruct Hin as (_ & E & N & _). congruence.
Qed.

(** ** Where the full statement fails *)
(** The empty key is readable but no forward iteration lists it. *)
Theorem iteration_empty_key_refuted : exists committed ops n,
  committed_ok committed /\ (length ops + length committed < n)%nat /\
  let d := vrun (start committed []) ops in
  v_get [] d = [7] /\ drain mi_next n (v_iter [] d) = [([1], [9])].
Proof.
  exists [([1], [9])], [VSet [] [7]], 5%nat. split.
  - split; [repeat constructor|]. constructor; [|constructor]. cbn. repeat split; [repeat constructor; unfold is_byte; lia|unfold zlen; cbn; lia|discriminate].
  - split; [cbn; lia|]. vm_compute. auto.
Qed.
(** A prefix ending in a zero byte lists a shorter committed key that does not have the prefix. *)
Theorem iteration_zero_prefix_refuted : exists committed p n,
  committed_ok committed /\ (length committed < n)%nat /\
  let d := start committed [] in
  In ([5], [9]) (drain mi_next n (v_iter p d)) /\ ~ has_prefix p [5].
Proof.
  exists [([5], [9])], [5; 0], 3%nat. split.
  - split; [repeat constructor|]. constructor; [|constructor]. cbn. repeat split; [repeat constructor; unfold is_byte; lia|unfold zlen; cbn; lia|discriminate].
  - split; [cbn; lia|]. split; [vm_compute; auto|]. intros [r H]. discriminate.
Qed.
(** Turning round in the middle loses entries: with the keys 1..5 readable, stepping back from 5 gives
    4 and then 2. *)
Theorem iteration_turn_loses_entries_refuted : exists committed ops,
  committed_ok committed /\
  let d := vrun (start committed []) ops in
  let m := fold_left istep [INext; INext; INext; INext; INext] (v_iter [] d) in
  mi_key m = Some [5] /\ mi_key (istep m IPrev) = Some [4] /\ mi_key (istep (istep m IPrev) IPrev) = Some [2]
  /\ v_get [3] d <> [].
Proof.
  exists [([2], [9]); ([4], [9])], [VSet [1] [8]; VSet [3] [8]; VSet [5] [8]]. split.
  - split; [apply ascending_sorted; repeat (constructor; try reflexivity)|].
    repeat (apply Forall_cons || apply Forall_nil); cbn; (repeat split; [repeat constructor; unfold is_byte; lia|unfold zlen; cbn; lia|discriminate]).
  - vm_compute. repeat split; try reflexivity. discriminate.
Qed.

(** ** A concrete case *)
Definition ex_committed : list kv := [([1; 1], [9]); ([1; 2], [9]); ([2; 7], [9]); ([3], [9])].
Definition ex_ops : list vop :=
  [VSet [1; 3] [5]; VReset; VSet [1; 2] [4]; VSet [1; 2] []; VUnsaved; VSet [2; 7] [6]; VSet [1; 0] [3]; VSetBalance 1 5].
Example ex_committed_ok : committed_ok ex_committed.
Proof.
  split; [apply ascending_sorted; repeat (constructor; try reflexivity)|].
  repeat (apply Forall_cons || apply Forall_nil); cbn; (repeat split; [repeat constructor; unfold is_byte; lia|unfold zlen; cbn; lia|discriminate]).
Qed.
Example ex_prefix_ok : prefix_ok ex_committed [1].
Proof.
  split; [repeat constructor; unfold is_byte; lia|]. split; [unfold zlen; cbn; lia|].
  intros k v n H. cbn in H. repeat (destruct H as [H|H]; [injection H as <- _; discriminate|]). easy.
Qed.
Example ex_ops_ok : ops_ok ex_ops /\ no_empty_key ex_committed ex_ops.
Proof.
  split; [|split].
  - intros k v H. cbn in H. repeat (destruct H as [H|H]; [try discriminate; injection H as <- _; repeat constructor; unfold is_byte; lia|]). easy.
  - intros v H. cbn in H. intuition discriminate.
  - intros v H. cbn in H. intuition discriminate.
Qed.
Example ex_iteration :
  drain mi_next 20 (v_iter [1] (vrun (start ex_committed []) ex_ops)) = [([1; 0], [3]); ([1; 1], [9])]
  /\ drain_from mi_prev 20 (mi_last (v_iter [] (vrun (start ex_committed []) ex_ops)))
     = [([3], [9]); ([2; 7], [6]); ([1; 1], [9]); ([1; 0], [3])]
  /\ drain_from mi_next 20 (mi_seek [1; 1] (v_iter [] (vrun (start ex_committed []) ex_ops)))
     = [([1; 1], [9]); ([2; 7], [6]); ([3], [9])].
Proof. vm_compute. auto. Qed.
Example ex_last_write : last_write ex_ops [2; 7] [6] /\ not_written ex_ops [1; 1].
Proof.
  split.
  - exists [VSet [1; 3] [5]; VReset; VSet [1; 2] [4]; VSet [1; 2] []; VUnsaved], [VSet [1; 0] [3]; VSetBalance 1 5].
    split; [reflexivity|]. split; [intro H; cbn in H; intuition discriminate|]. intros v H; cbn in H; intuition discriminate.
  - intros pre post v H. exfalso.
    assert (In (VSet [1; 1] v) ex_ops) as Q by (rewrite H; apply in_or_app; right; now left).
    cbn in Q. intuition discriminate.
Qed.

Print Assumptions storage_reads_exact.
Print Assumptions long_keys_rejected.
Print Assumptions reset_restores_committed.
Print Assumptions write_set_exact.
Print Assumptions balance_reads_exact.
Print Assumptions iteration_forward_partial.
Print Assumptions iteration_backward_partial.
Print Assumptions iteration_seek_partial.
Print Assumptions delete_is_invisible.
Print Assumptions iteration_empty_key_refuted.
Print Assumptions iteration_zero_prefix_refuted.
Print Assumptions iteration_turn_loses_entries_refuted.
