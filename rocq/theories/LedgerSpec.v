(** Specification vocabulary for the ledger properties: amounts of a token held,
    in transit, issued and destroyed. *)
From Verif Require Import Lib VmModel LedgerModel.

Fixpoint sumz (l : list Z) : Z := match l with [] => 0 | x :: r => x + sumz r end.

(** what a sent block carries of token [t]: its amount, and its fee (always VITE) *)
Definition carries (t : Z) (b : sblock) : Z :=
  (if b_token b =? t then b_amount b else 0) + (if t =? vite then b_fee b else 0).

Section Spec.
Context {S : Type}.

(** total of token [t] on accounts, in transit, and overall *)
Definition held (t : Z) (g : ledger S) : Z := sumz (map (fun p => bal (snd p) t) (g_acct g)).
Definition in_transit (t : Z) (g : ledger S) : Z := sumz (map (fun s => carries t (sn_block s)) (g_flight g)).
Definition supply (t : Z) (g : ledger S) : Z := held t g + in_transit t g.

(** newly issued: reward blocks among the sent ones *)
Definition is_reward (b : sblock) : bool := match b_type b with TSendReward => true | _ => false end.
Definition issued (t : Z) (sends : list sblock) : Z := sumz (map (carries t) (filter is_reward sends)).

Definition fee_of (t : Z) (b : sblock) : Z := if t =? vite then b_fee b else 0.
Definition amount_of (t : Z) (b : sblock) : Z := if b_token b =? t then b_amount b else 0.

(** a call of a built-in method that asks for the received amount to be burned *)
Definition burns (e : lenv S) (d : adb S) (self : Z) (b : sblock) : bool :=
  match l_builtin e self (b_data b) with
  | BMethod p => match bm_receive p (add_balance d (b_token b) (b_amount b)) b with
                 | Some (_, x, _) => x | None => false end
  | _ => false
  end.

(** destroyed when the block [b] is received by [self] with outcome [st]: the fee,
    unless a call failed and was refunded; and the amount, if a built-in method that
    succeeded burned it *)
Definition destroyed (t : Z) (e : lenv S) (depth : Z) (d : adb S) (self : Z) (b : sblock) (st : rstatus) : Z :=
  match b_type b, st with
  | TSendCreate, _ => fee_of t b
  | TSendRefund, _ => fee_of t b
  | TSendReward, _ => if l_seed e then fee_of t b
                      else match st with RFail => 0 | RDepth => fee_of t b
                           | RSuccess => fee_of t b + if burns e d self b then amount_of t b else 0 end
  | TSendCall, RFail => 0
  | TSendCall, RDepth => fee_of t b
  | TSendCall, RSuccess => fee_of t b + if burns e d self b then amount_of t b else 0
  end.

Definition op_destroyed (init : S) (t : Z) (g : ledger S) (o : op S) (st : option rstatus) : Z :=
  match o, st with
  | OpReceive e _ _ _ h, Some st =>
    match find (fun s => sn_hash s =? h) (g_flight g) with
    | Some s => destroyed t e (sn_depth s) (acct_or init g (b_to (sn_block s))) (b_to (sn_block s)) (sn_block s) st
    | None => 0
    end
  | _, _ => 0
  end.

(** issued and destroyed along a whole history *)
Fixpoint total_issued (init : S) (t : Z) (g : ledger S) (ops : list (op S)) : Z :=
  match ops with
  | [] => 0
  | o :: r => match lstep init g o with
              | LOk g' _ sends => issued t sends + total_issued init t g' r
              | _ => total_issued init t g r end
  end.
Fixpoint total_destroyed (init : S) (t : Z) (g : ledger S) (ops : list (op S)) : Z :=
  match ops with
  | [] => 0
  | o :: r => match lstep init g o with
              | LOk g' st _ => op_destroyed init t g o st + total_destroyed init t g' r
              | _ => total_destroyed init t g r end
  end.

(** Amounts handed to the machine are not negative: request blocks pass
    ledger/verifier/account_verifier.go 215-231; fees of built-in methods and amounts of
    the blocks they send are not negative; contract code sends stack words. *)
Record env_ok (e : lenv S) : Prop := mkEnvOk {
  eo_fee : forall a data p b f, l_builtin e a data = BMethod p -> bm_fee p b = Some f -> 0 <= f;
  eo_receive : forall a data p d b r burn sends, l_builtin e a data = BMethod p ->
      bm_receive p d b = Some (r, burn, sends) -> Forall (fun x => 0 <= b_amount x /\ 0 <= b_fee x) sends;
  eo_run : forall d b, Forall (fun v => 0 <= sd_amount v) (cr_sends (l_run e d b));
  eo_init : forall d b, Forall (fun v => 0 <= sd_amount v) (cr_sends (l_init e d b)) }.

Definition op_ok (o : op S) : Prop :=
  match o with
  | OpSend e _ b => env_ok e /\ 0 <= b_amount b
  | OpReceive e _ _ _ _ => env_ok e
  end.

(** well-formed ledgers: one entry per account, distinct hashes of blocks in transit, no
    negative amount anywhere, nobody at a depth beyond the limit, creations only by users *)
Record ledger_ok (g : ledger S) : Prop := mkLedgerOk {
  lo_accts : NoDup (map fst (g_acct g));
  lo_hashes : NoDup (map sn_hash (g_flight g));
  lo_fresh : Forall (fun s => sn_hash s < g_next g) (g_flight g);
  lo_amounts : Forall (fun s => 0 <= b_amount (sn_block s) /\ 0 <= b_fee (sn_block s)) (g_flight g);
  lo_bal : forall a d t, assoc a (g_acct g) = Some d -> 0 <= bal d t;
  lo_depth : Forall (fun s => 0 <= sn_depth s <= 512) (g_flight g);
  lo_create : Forall (fun s => b_type (sn_block s) = TSendCreate -> sn_depth s = 0) (g_flight g) }.

End Spec.
