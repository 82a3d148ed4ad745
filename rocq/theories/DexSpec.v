(** What the exchange owes to whom, stated without the matching engine. *)
From Coq Require Import ZArith List Bool Lia.
From Verif Require Import Lib DexFloat DexModel.
Import ListNotations.
Open Scope Z_scope.

(** Sum of [f] over a list. *)
Definition total {A} (f : A -> Z) (l : list A) : Z := fold_right (fun x n => f x + n) 0 l.

(** What an open order still keeps locked: a sell order the quantity not yet sold, a buy
    order the amount not yet spent and the fee reserve not yet used. *)
Definition held (o : order) : Z :=
  if o_side o then o_qty o - o_exq o
  else (o_amt o - o_exa o) + (o_lock o - o_exb o - o_exo o).

(** An order within its limits. *)
Definition within (o : order) : Prop :=
  0 <= o_exq o <= o_qty o /\ 0 <= o_exa o /\ 0 <= o_exb o /\ 0 <= o_exo o
  /\ (o_side o = false -> o_exa o <= o_amt o /\ o_exb o + o_exo o <= o_lock o).
(** Rates set by the contract: at most 0.2 % each. *)
Definition rates_ok (o : order) : Prop :=
  0 <= o_tb o <= 200 /\ 0 <= o_to o <= 200 /\ 0 <= o_mb o <= 200 /\ 0 <= o_mo o <= 200.
Definition open (o : order) : Prop := o_status o = Pending \/ o_status o = PartialExecuted.

(** The kinds of order that may rest in the book. *)
Definition rests (o : order) : Prop :=
  o_type o <> Market /\ o_type o <> FillOrKill /\ o_type o <> ImmediateOrCancel.

(** The token an order locks, and what account [a] has locked in token [t] by it. *)
Definition lock_token (m : market) (o : order) : Z := if o_side o then m_trade m else m_quote m.
Definition held_for (mkt : Z -> option market) (a t : Z) (o : order) : Z :=
  match mkt (o_market o) with
  | Some m => if (o_addr o =? a) && (lock_token m o =? t) then held o else 0
  | None => 0
  end.
(** What a settlement under way takes out of the locked funds of [a] in [t]. *)
Definition settle_takes (m : market) (a t : Z) (s : settle) : Z :=
  if (s_addr s =? a) && (s_token m s =? t) then s_rel s + s_red s else 0.
Definition msg_takes (a t : Z) (g : msg) : Z := total (settle_takes (g_m g) a t) (g_set g).

(** Locked funds: exactly what open orders hold, what orders on their way hold and what
    settlements on their way will take. *)
Definition backed (mkt : Z -> option market) (st : dex) : Prop :=
  forall a t,
    snd (acct (a, t) (d_acc st))
    = total (held_for mkt a t) (d_book st) + total (held_for mkt a t) (d_orders st)
      + total (msg_takes a t) (d_msgs st).
(** Nothing appears or disappears: the contract's balance in every token is what the
    users own, available or locked, plus the collected fees. *)
Definition owned (t : Z) (acc : accounts) : Z :=
  total (fun e => if snd (fst e) =? t then fst (snd e) + snd (snd e) else 0) acc.
Definition solvent (st : dex) : Prop :=
  forall t, tget t (d_bal st) = owned t (d_acc st) + tget t (d_div st) + tget t (d_oper st).
Definition funds_ok (st : dex) : Prop :=
  Forall (fun e => 0 <= fst (snd e) /\ 0 <= snd (snd e)) (d_acc st).

(** Fees of a fee list, and the two tokens' flows in a list of settlements. *)
Definition fee_sum (f : list (Z * Z * Z)) : Z := total (fun x => snd (fst x) + snd x) f.
Definition gained (b : bool) (l : list settle) : Z :=
  total (fun s => if Bool.eqb (s_trade s) b then s_inc s else 0) l.
Definition spent (b : bool) (l : list settle) : Z :=
  total (fun s => if Bool.eqb (s_trade s) b then s_red s else 0) l.

(** Priority between two orders of one side: the better price, then the earlier time,
    then the smaller serial number (the last three bytes of the id). *)
Definition better (p r : order) : Prop :=
  (if o_side p then o_price p < o_price r else o_price r < o_price p)
  \/ (o_price p = o_price r
      /\ (o_time p < o_time r \/ (o_time p = o_time r /\ o_id p mod 2 ^ 24 < o_id r mod 2 ^ 24))).
