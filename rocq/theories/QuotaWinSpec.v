(** What the quota window must report. *)
From Verif Require Import Lib QuotaModel QuotaWinModel.
From Coq Require Import Permutation.

(** what an account used in a set of blocks: number of blocks, quota charged to its stake, quota used *)
Fixpoint use_of (a : Z) (bs : list qblk) : qinfo :=
  match bs with
  | [] => mkQinfo 0 0 0
  | b :: r => let u := use_of a r in
      if b_addr b =? a then mkQinfo (1 + qi_count u) (b_quota b + qi_total u) (b_used b + qi_used u) else u
  end.
Fixpoint total (bs : list qblk) : qinfo :=
  match bs with
  | [] => mkQinfo 0 0 0
  | b :: r => let u := total r in mkQinfo (1 + qi_count u) (b_quota b + qi_total u) (b_used b + qi_used u)
  end.
Definition lastn {A} (n : nat) (l : list A) : list A := skipn (length l - n) l.
(** For each account: its use in each of the last 74 snapshots after genesis, and then in the unconfirmed blocks. *)
Definition window_spec (snaps : list (list qblk)) (pend : list qblk) (a : Z) : list qinfo :=
  map (use_of a) (lastn 74 (tl snaps)) ++ [use_of a pend].
(** For the network: everything in the last 74 snapshots after genesis. *)
Definition global_spec (snaps : list (list qblk)) : qinfo := total (concat (lastn 74 (tl snaps))).

(** Histories of a node. [held]: how many snapshots the node keeps the use of in memory. *)
Definition held (c : qchain) : nat := (length (ql_list (qc_list c)) - 1)%nat.
Inductive reach : qchain -> Prop :=
| r_start snaps : snaps <> [] -> reach (qc_start snaps)
| r_insert c b : reach c -> reach (qc_insert c b)
| r_delete c bs rest : reach c -> Permutation (qc_pend c) (bs ++ rest) -> reach (qc_delete c bs rest)
| r_snapshot c confirmed invalid rest c' : reach c -> Permutation (qc_pend c) (confirmed ++ invalid ++ rest) ->
    qc_snapshot c confirmed invalid rest = Some c' -> reach c'
| r_rollback c d keep : reach c -> (1 <= d < length (qc_snaps c))%nat ->
    (75 + d <= held c \/ (held c <= d /\ d + 2 <= length (qc_snaps c)))%nat -> reach (qc_rollback c d keep).
(** Any rollback that leaves the genesis snapshot. *)
Inductive reach_any : qchain -> Prop :=
| a_start snaps : snaps <> [] -> reach_any (qc_start snaps)
| a_insert c b : reach_any c -> reach_any (qc_insert c b)
| a_delete c bs rest : reach_any c -> Permutation (qc_pend c) (bs ++ rest) -> reach_any (qc_delete c bs rest)
| a_snapshot c confirmed invalid rest c' : reach_any c -> Permutation (qc_pend c) (confirmed ++ invalid ++ rest) ->
    qc_snapshot c confirmed invalid rest = Some c' -> reach_any c'
| a_rollback c d keep : reach_any c -> (1 <= d < length (qc_snaps c))%nat -> reach_any (qc_rollback c d keep).
