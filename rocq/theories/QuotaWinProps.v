(** C40: the record of recent quota use says, for every account and every history of insertions, deletions, snapshots and
    rollbacks, what the chain says. Specification: QuotaWinSpec.v. *)
From Verif Require Import Lib QuotaModel QuotaProofs2 QuotaWinModel QuotaWinSpec QuotaWinProofs QuotaWinProofs2.
From Coq Require Import Permutation.

(** Missing for the full claim: rollbacks that leave between 1 and 74 held snapshots, and rollbacks to genesis; the code is
    wrong there (rolled_back_window_refuted, rollback_to_genesis_refuted). *)
Theorem quota_window_exact_partial c : reach c -> forall a, used_list (qc_list c) a = window_spec (qc_snaps c) (qc_pend c) a.
Proof. intro H. exact (proj1 (inv_window c (reach_inv c H))). Qed.
Theorem global_quota_exact_partial c : reach c -> global_quota (qc_list c) = global_spec (qc_snaps c).
Proof. intro H. exact (proj2 (inv_window c (reach_inv c H))). Qed.
(** A snapshot that confirms unconfirmed blocks never stops the node. *)
Theorem quota_window_no_panic c confirmed invalid rest : reach c -> Permutation (qc_pend c) (confirmed ++ invalid ++ rest) ->
  qc_snapshot c confirmed invalid rest <> None.
Proof.
  intros H P. destruct (reach_inv c H) as (g & pre & mid & es & bk & H1 & H2 & H3 & H4 & H5 & H6 & H7). unfold qc_snapshot.
  destruct (new_next_ok (qc_list c) es (qc_pend c) confirmed (invalid ++ rest)) as (s' & _ & _ & _ & E & _); auto; [exists bk; auto|].
  rewrite E. discriminate.
Qed.
(** Restarting (that is: losing the unconfirmed blocks) does not change what is reported for confirmed ones. *)
Theorem quota_window_restart c a : reach c -> qc_snaps c <> [] ->
  removelast (used_list (qc_list (qc_start (qc_snaps c))) a) = removelast (used_list (qc_list c) a) /\
  global_quota (qc_list (qc_start (qc_snaps c))) = global_quota (qc_list c).
Proof.
  intros H Hn. pose proof (r_start _ Hn) as H'. rewrite (quota_window_exact_partial _ H), (quota_window_exact_partial _ H'),
    (global_quota_exact_partial _ H), (global_quota_exact_partial _ H'). cbn [qc_start qc_snaps qc_pend]. unfold window_spec. now rewrite !removelast_app1.
Qed.

(** ** Two histories in which the report is wrong *)
Definition bA := mkQblk 1 100 100.
Definition bB := mkQblk 1 7 7.
(** Genesis and three snapshots; the last one is rolled back: the use in the first of them is then reported twice. *)
Definition short_chain : qchain := qc_rollback (qc_start [[]; [bA]; [bB]; []]) 1 false.
Theorem rolled_back_window_refuted : exists c a, reach_any c /\ used_list (qc_list c) a <> window_spec (qc_snaps c) (qc_pend c) a /\
  map qi_total (used_list (qc_list c) a) = [100; 100; 7; 0] /\ map qi_total (window_spec (qc_snaps c) (qc_pend c) a) = [100; 7; 0] /\
  global_quota (qc_list c) <> global_spec (qc_snaps c).
Proof.
  exists short_chain, 1. split; [apply a_rollback; [apply a_start; discriminate|cbn; lia]|]. vm_compute. repeat split; discriminate.
Qed.
(** Genesis and two snapshots, both rolled back: the network's use is never taken back. *)
Theorem rollback_to_genesis_refuted : exists c, reach_any c /\ qc_snaps c = [[]] /\ qc_pend c = [] /\
  global_quota (qc_list c) <> global_spec (qc_snaps c).
Proof.
  exists (qc_rollback (qc_start [[]; [bA]; [bB]]) 2 false). split; [apply a_rollback; [apply a_start; discriminate|cbn; lia]|].
  vm_compute. repeat split; discriminate.
Qed.

(** ** What the quota rules need *)
Lemma use_nonneg a bs : Forall (fun b => 0 <= b_quota b) bs -> 0 <= qi_total (use_of a bs).
Proof. induction 1; cbn; [lia|]. cbv zeta. destruct (b_addr x =? a); cbn; lia. Qed.
(** The quota rules of C13 ask for a window of at most 75 entries without negative use: every history gives one. *)
Theorem quota_window_fits c a up gl ct lf un : reach c -> Forall (Forall (fun b => 0 <= b_quota b)) (qc_snaps c) -> Forall (fun b => 0 <= b_quota b) (qc_pend c) ->
  db_ok (mkQdb up gl (used_list (qc_list c) a) ct lf un).
Proof.
  intros H HS HP. rewrite (quota_window_exact_partial _ H). unfold window_spec. split; cbn [q_used].
  - rewrite zlen_app. unfold zlen. rewrite map_length. cbn [length]. unfold lastn. rewrite skipn_length. lia.
  - apply Forall_app. split; [|repeat constructor; now apply use_nonneg]. apply Forall_map. unfold lastn.
    assert (HT : Forall (Forall (fun b => 0 <= b_quota b)) (tl (qc_snaps c))) by (destruct HS; [constructor|auto]).
    apply Forall_forall. intros x Hx. apply use_nonneg. rewrite Forall_forall in HT. apply HT. rewrite <- (firstn_skipn (length (tl (qc_snaps c)) - 74)). apply in_or_app. now right.
Qed.

(** ** Histories that meet the hypotheses *)
Definition long : list (list qblk) := [] :: repeat [bA; mkQblk 2 5 5] 100.
Definition h1 := qc_insert (qc_insert (qc_start long) bB) (mkQblk 2 1 1).
Example window_ex : reach (qc_rollback h1 10 true) /\ length (used_list (qc_list (qc_rollback h1 10 true)) 1) = 75%nat /\
  qi_total (global_quota (qc_list h1)) = 74 * 105 /\ map qi_total (skipn 72 (used_list (qc_list h1) 1)) = [100; 100; 7].
Proof.
  split; [|vm_compute; auto]. apply r_rollback; [apply r_insert, r_insert, r_start; discriminate|vm_compute; lia|].
  left. vm_compute. lia.
Qed.
Example window_snapshot_ex : exists c, qc_snapshot h1 [bB] [] [mkQblk 2 1 1] = Some c /\ reach c /\
  map qi_total (skipn 72 (used_list (qc_list c) 1)) = [100; 7; 0] /\ map qi_total (skipn 73 (used_list (qc_list c) 2)) = [0; 1].
Proof.
  destruct (qc_snapshot h1 [bB] [] [mkQblk 2 1 1]) as [c|] eqn:E; [|exfalso; revert E; vm_compute; discriminate].
  exists c. split; [reflexivity|]. split; [eapply (r_snapshot h1); [apply r_insert, r_insert, r_start; discriminate| |exact E]; reflexivity|].
  revert E. vm_compute. intros [= <-]. split; reflexivity.
Qed.
Example window_short_ex : reach (qc_delete (qc_insert (qc_start [[]]) bA) [bA] []) /\ reach (qc_rollback (qc_start ([] :: repeat [bA] 700)) 650 false).
Proof.
  split; [apply r_delete; [apply r_insert, r_start; discriminate|reflexivity]|].
  apply r_rollback; [apply r_start; discriminate|vm_compute; lia|]. right. vm_compute. lia.
Qed.

Print Assumptions quota_window_exact_partial.
Print Assumptions global_quota_exact_partial.
Print Assumptions quota_window_no_panic.
Print Assumptions quota_window_restart.
Print Assumptions quota_window_fits.
Print Assumptions rolled_back_window_refuted.
Print Assumptions rollback_to_genesis_refuted.
