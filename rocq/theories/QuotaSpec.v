(** What the quota properties mean. *)
From Verif Require Import Lib QuotaModel.

(** The step function of a table: the highest step whose threshold the amount reaches. *)
Definition step_reached (table : list Z) (x : Z) (i : Z) : Prop :=
  0 <= i <= section_len /\ (i = 0 \/ exists t, nth_error table (Z.to_nat i) = Some t /\ t <= x) /\
  forall j t, i < j <= section_len -> nth_error table (Z.to_nat j) = Some t -> x < t.
(** A table the code is meant for: one threshold per step, rising, starting at nothing. *)
Definition rising (table : list Z) : Prop :=
  zlen table = section_len + 1 /\ nth_error table 0 = Some 0 /\
  forall i j a b, (i < j)%nat -> nth_error table i = Some a -> nth_error table j = Some b -> a < b.
(** the share of an amount that counts in a congested network *)
Definition effective (qc : Z) (congested : bool) (amount : Z) : Z :=
  if congested then amount * qc / qc_division else amount.
(** the quota an amount earns: 280 for each step reached *)
Definition earns (table : list Z) (qc : Z) (congested : bool) (amount q : Z) : Prop :=
  exists i, step_reached table (effective qc congested (Z.max 0 amount)) i /\ q = 280 * i.

(** The network is congested once the quota used in the window exceeds 50 units of 74 * 21000; the ratio is then
    the row of the published table for the number of units used, rounded up, from 51 to at most 500. *)
Definition unit_ : Z := 74 * 21000.
Definition congestion (rows : list Z) (upgraded : bool) (used : Z) (qc : Z) (congested : bool) : Prop :=
  if upgraded && (50 * unit_ <? used)
  then congested = true /\ exists k, 51 <= k <= 500 /\ (k = 500 \/ used <= k * unit_) /\ (k - 1) * unit_ < used /\
       nth_error rows (Z.to_nat (k - 51)) = Some qc
  else congested = false.

(** Quota saved up over past snapshots: [s] arrives before each one, [u] was used in it, and an overdraft is forgiven.
    That is the largest balance of "arrived minus used" counted from any snapshot on. *)
Fixpoint balance (s : Z) (used : list Z) : Z := match used with [] => 0 | u :: r => s - u + balance s r end.
Definition saved_up (s : Z) (used : list Z) (r : Z) : Prop :=
  (exists k, (k <= length used)%nat /\ r = balance s (skipn k used)) /\
  forall k, balance s (skipn k used) <= r.

(** What the account may spend on its next block. [past]: use in the confirmed snapshots of the window, [pending]: in
    the unconfirmed ones (None: no window yet); [s] and [p]: the quota its stake and its proof of work earn. *)
Inductive may_spend (blocked : bool) (past : list Z) (pending : option Z) (s p : Z) : bres -> Prop :=
| ms_none : pending = None -> past = [] -> blocked = false -> may_spend blocked past pending s p (BOk p p)
| ms_none_blocked : pending = None -> past = [] -> blocked = true -> may_spend blocked past pending s p (BOk 0 0)
| ms_over saved u : pending = Some u -> saved_up s past saved -> saved + s < u -> may_spend blocked past pending s p BErr
| ms_ok saved u : pending = Some u -> saved_up s past saved -> u <= saved + s -> blocked = false ->
    may_spend blocked past pending s p (BOk (Z.min 1000000 (saved + s - u + p)) p)
| ms_blocked saved u : pending = Some u -> saved_up s past saved -> u <= saved + s -> blocked = true ->
    may_spend blocked past pending s p (BOk 0 0).
(** A contract is blocked while its latest block is a failed receive with fewer than 75 confirmations. *)
Definition blocked_contract (db : qdb) : Prop := q_contract db = true /\ exists n, q_last_failed db = Some n /\ n < 75.
