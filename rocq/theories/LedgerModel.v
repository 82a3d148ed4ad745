(** Model of vm/vm.go: sending and receiving transactions on account balances
    (RunV2 184-254, sendCreate 273-365, receiveCreate 373-442, sendCall 449-503,
    receiveCall 521-661, doRefund 663-715, sendReward 717-739, sendRefund 741-762,
    receiveReward 764-794, receiveRefund 796-821, doSendBlockList 847-868,
    revert 870-873) and of the chain's set of sent, not yet received blocks.
    Everything of an account other than its balances (storage, code, logs, contract
    meta) is one value of an arbitrary type [S]. *)
From Verif Require Import Lib VmModel.

(** interfaces/core block types used in the model *)
Inductive btype := TSendCreate | TSendCall | TSendReward | TSendRefund.

(** The fields of interfaces/core/account_block.go a request block needs here. *)
Record sblock := mkBlock {
  b_from : Z; b_to : Z; b_type : btype; b_token : Z; b_amount : Z; b_fee : Z; b_data : list Z }.

(** vm/util/common.go 43-53 *)
Definition make_request (from to : Z) (ty : btype) (amount token : Z) (data : list Z) : sblock :=
  mkBlock from to ty token amount 0 data.

(** A sent block known to the chain, with its call depth (ledger/chain/state/write.go 97-114). *)
Record sent := mkSent { sn_hash : Z; sn_depth : Z; sn_block : sblock }.

Definition vite : Z := 0.              (* ledger.ViteTokenId; any fixed token would do *)
Definition call_depth : Z := 512.      (* vm/params.go 11 *)
Definition create_fee : Z := 10000000000000000000. (* 10 VITE of 10^18 units; vm/params.go 34, vm.go 880-882 *)

(** One account as the virtual machine sees it through vm_db: balances by token
    (vm_db/balance.go) and the rest. *)
Record adb (S : Type) := mkAdb { d_bal : list (Z * Z); d_rest : S }.
Arguments mkAdb {S} _ _. Arguments d_bal {S} _. Arguments d_rest {S} _.

Definition bal {S} (d : adb S) (t : Z) : Z := match assoc t (d_bal d) with Some a => a | None => 0 end.
Definition set_bal {S} (d : adb S) (t a : Z) : adb S := mkAdb (assoc_set t a (d_bal d)) (d_rest d).
Definition set_rest {S} (d : adb S) (r : S) : adb S := mkAdb (d_bal d) r.

(** vm/util/db_helper.go 26-31 *)
Definition add_balance {S} (d : adb S) (t a : Z) : adb S := set_bal d t (bal d t + a).
(** vm/util/db_helper.go 37-47 *)
Definition sub_balance {S} (d : adb S) (t a : Z) : option (adb S) :=
  if a <=? bal d t then Some (set_bal d t (bal d t - a)) else None.
(** vm/vm.go 82-99 *)
Definition can_transfer {S} (d : adb S) (t amount fee : Z) : bool :=
  if fee =? 0 then amount <=? bal d t
  else if t =? vite then amount + fee <=? bal d t
  else (amount <=? bal d t) && (fee <=? bal d vite).

(** A method of a built-in contract (vm/contracts/contracts.go 36-48). [bm_send] is
    DoSend: it may reject, and it may rewrite the data of the block. [bm_receive] is
    DoReceive: [None] on error, else the new rest of the account, whether it burns the
    received amount (only contracts_asset.go 257 touches a balance), and the blocks to send. *)
Record bmethod (S : Type) := mkMethod {
  bm_fee : sblock -> option Z;
  bm_send : adb S -> sblock -> option (list Z);
  bm_receive : adb S -> sblock -> option (S * bool * list sblock);
  bm_refund : sblock -> list Z * bool }.
Arguments bm_fee {S} _. Arguments bm_send {S} _. Arguments bm_receive {S} _. Arguments bm_refund {S} _.

(** contracts.go 253-285: not a built-in address, a built-in address without such a
    method, or a method. *)
Inductive builtin (S : Type) := BNone | BMissing | BMethod (p : bmethod S).
Arguments BNone {S}. Arguments BMissing {S}. Arguments BMethod {S} _.

(** Outcome of running contract code: error class, final rest of the account, requests. *)
Inductive cerr := COutOfQuota | CNoReliableStatus | COther.
Record crun (S : Type) := mkRun { cr_err : option cerr; cr_rest : S; cr_sends : list vsend }.
Arguments mkRun {S} _ _ _. Arguments cr_err {S} _. Arguments cr_rest {S} _. Arguments cr_sends {S} _.

(** What the functions of vm.go consult besides balances. Quota decisions are data of
    each operation (they are the subject of the quota model). *)
Record lenv (S : Type) := mkLenv {
  l_builtin : Z -> list Z -> builtin S;
  l_is_contract : Z -> bool;              (* contract meta exists *)
  l_minters : Z -> bool;                  (* AddressGovernance or AddressAsset, vm.go 729-732 *)
  l_create_ok : list Z -> bool;           (* the checks of vm.go 289-335 on the creation data *)
  l_new_addr : sblock -> Z;               (* util.NewContractAddress *)
  l_run : adb S -> sblock -> crun S;      (* c.run of an existing contract *)
  l_init : adb S -> sblock -> crun S;     (* c.run of the init code plus the code size and code
                                             quota checks of receiveCreate 399-405; on success
                                             the rest includes the new code *)
  l_seed : bool }.                        (* upgrade.IsSeedUpgrade *)
Arguments l_builtin {S} _. Arguments l_is_contract {S} _. Arguments l_minters {S} _. Arguments l_create_ok {S} _.
Arguments l_new_addr {S} _. Arguments l_run {S} _. Arguments l_init {S} _. Arguments l_seed {S} _.

Section Model.
Context {S : Type}.
Implicit Types (e : lenv S) (d : adb S).

(** vm/vm.go 449-503; [qok] is the outcome of the quota check when quota is charged *)
Definition send_call e (qok : bool) d (b : sblock) : option (adb S * sblock) :=
  match l_builtin e (b_to b) (b_data b) with
  | BMissing => None
  | BMethod p =>
    match bm_fee p b with
    | None => None
    | Some fee =>
      let b := mkBlock (b_from b) (b_to b) (b_type b) (b_token b) (b_amount b) fee (b_data b) in
      if can_transfer d (b_token b) (b_amount b) fee then
        if qok then
          match bm_send p d b with
          | None => None
          | Some data =>
            match sub_balance d (b_token b) (b_amount b) with
            | None => None
            | Some d1 =>
              match sub_balance d1 vite fee with
              | None => None
              | Some d2 => Some (d2, mkBlock (b_from b) (b_to b) (b_type b) (b_token b) (b_amount b) fee data)
              end
            end
          end
        else None
      else None
    end
  | BNone =>
    let b := mkBlock (b_from b) (b_to b) (b_type b) (b_token b) (b_amount b) 0 (b_data b) in
    if qok then
      if can_transfer d (b_token b) (b_amount b) 0 then
        match sub_balance d (b_token b) (b_amount b) with
        | None => None | Some d1 => Some (d1, b) end
      else None
    else None
  end.

(** vm/vm.go 273-365 *)
Definition send_create e (qok : bool) d (b : sblock) : option (adb S * sblock) :=
  if qok && l_create_ok e (b_data b) then
    if can_transfer d (b_token b) (b_amount b) create_fee then
      match sub_balance d (b_token b) (b_amount b) with
      | None => None
      | Some d1 =>
        match sub_balance d1 vite create_fee with
        | None => None
        | Some d2 => Some (d2, mkBlock (b_from b) (l_new_addr e b) (b_type b) (b_token b) (b_amount b) create_fee (b_data b))
        end
      end
    else None
  else None.

(** vm/vm.go 717-739: rewards are minted, no balance is deducted *)
Definition send_reward e d (b : sblock) : option (adb S * sblock) :=
  if l_minters e (b_from b) then Some (d, b) else None.

(** vm/vm.go 741-762 *)
Definition send_refund d (b : sblock) : option (adb S * sblock) :=
  let b := mkBlock (b_from b) (b_to b) (b_type b) (b_token b) (b_amount b) 0 (b_data b) in
  if can_transfer d (b_token b) (b_amount b) 0 then
    match sub_balance d (b_token b) (b_amount b) with None => None | Some d1 => Some (d1, b) end
  else None.

(** vm/vm.go 847-868. A block of type SendCreate in the list would dereference nil;
    no caller produces one, the model treats it as an error. *)
Fixpoint do_send_list e d (l : list sblock) : option (adb S * list sblock) :=
  match l with
  | [] => Some (d, [])
  | b :: r =>
    match (match b_type b with
           | TSendCall => send_call e true d b
           | TSendReward => send_reward e d b
           | TSendRefund => send_refund d b
           | TSendCreate => None end) with
    | None => None
    | Some (d1, b1) =>
      match do_send_list e d1 r with None => None | Some (d2, r2) => Some (d2, b1 :: r2) end
    end
  end.

(** Result of processing a received block: the account and the blocks it sends, with
    the status byte of vm.go 505-519; or no block (drop, or try again later). *)
Inductive rstatus := RSuccess | RFail | RDepth.
Inductive rres :=
| ROk (st : rstatus) (d : adb S) (sends : list sblock)
| RNone (retry : bool)
| RPanic.

(** vm/vm.go 663-715: the blocks appended and the balance additions *)
Definition do_refund d (self : Z) (b : sblock) (data : list Z) (need : bool) (ty : btype) : adb S * list sblock :=
  if (0 <? b_amount b) && (0 <? b_fee b) && (b_token b =? vite) then
    (add_balance d vite (b_amount b + b_fee b), [make_request self (b_from b) ty (b_amount b + b_fee b) vite data])
  else
    let '(d1, l1) := if 0 <? b_amount b
      then (add_balance d (b_token b) (b_amount b), [make_request self (b_from b) ty (b_amount b) (b_token b) data])
      else (d, []) in
    let '(d2, l2) := if 0 <? b_fee b
      then (add_balance d1 vite (b_fee b), l1 ++ [make_request self (b_from b) ty (b_fee b) vite data])
      else (d1, l1) in
    match l2 with
    | [] => if need then (d2, [make_request self (b_from b) TSendCall 0 vite data]) else (d2, [])
    | _ => (d2, l2)
    end.

(** vm.go 556-571, 610-624, 637-651: refund and publish; an empty list is published as is *)
Definition finish_refund e d (self : Z) (b : sblock) (data : list Z) (need : bool) (ty : btype) : rres :=
  let '(d1, l) := do_refund d self b data need ty in
  match do_send_list e d1 l with
  | None => RNone true
  | Some (d2, l2) => ROk RFail d2 l2
  end.

Definition requests (self : Z) (l : list vsend) : list sblock :=
  map (fun v => make_request self (sd_to v) TSendCall (sd_amount v) (sd_token v) (sd_data v)) l.

(** Quota outcome of a receive: enough, not enough (retry), hard error; and whether
    other unconfirmed blocks of the account exist (vm.go 602-606). *)
Inductive qres := QOk | QRetry | QError.

(** vm/vm.go 521-661 *)
Definition receive_call e (q : qres) (unconfirmed : bool) (depth : Z) d (self : Z) (b : sblock) : rres :=
  if call_depth <=? depth then ROk RDepth (add_balance d (b_token b) (b_amount b)) []
  else match l_builtin e self (b_data b) with
  | BMissing => RPanic
  | BMethod p =>
    match q with
    | QRetry => RNone true
    | QError => RNone false
    | QOk =>
      let d1 := add_balance d (b_token b) (b_amount b) in
      let ok := match bm_receive p d1 b with
        | None => None
        | Some (r, burn, sends) =>
          match (if burn : bool then sub_balance (set_rest d1 r) (b_token b) (b_amount b) else Some (set_rest d1 r)) with
          | None => None
          | Some d2 => do_send_list e d2 sends
          end
        end in
      match ok with
      | Some (d3, l) => ROk RSuccess d3 l
      | None => let '(data, need) := bm_refund p b in finish_refund e d self b data need TSendCall
      end
    end
  | BNone =>
    match q with
    | QRetry => RNone true
    | QError => RNone false
    | QOk =>
      let d1 := add_balance d (b_token b) (b_amount b) in
      if l_is_contract e self then
        let r := l_run e d1 b in
        let res := match cr_err r with
          | Some err => inr err
          | None => match do_send_list e (set_rest d1 (cr_rest r)) (requests self (cr_sends r)) with
                    | Some x => inl x | None => inr COther end
          end in
        match res with
        | inl (d2, l) => ROk RSuccess d2 l
        | inr CNoReliableStatus => RNone true
        | inr COutOfQuota => if unconfirmed then RNone true else finish_refund e d self b [] false TSendRefund
        | inr COther => finish_refund e d self b [] false TSendRefund
        end
      else ROk RSuccess d1 []
    end
  end.

(** vm/vm.go 373-442 *)
Definition receive_create e (q : qres) (exists_already : bool) d (self : Z) (b : sblock) : rres :=
  if exists_already then RNone false
  else match q with
  | QRetry | QError => RNone false
  | QOk =>
    let d1 := add_balance d (b_token b) (b_amount b) in
    let r := l_init e d1 b in
    let ok := match cr_err r with
      | Some _ => None
      | None => do_send_list e (set_rest d1 (cr_rest r)) (requests self (cr_sends r)) end in
    match ok with
    | Some (d2, l) => ROk RSuccess d2 l
    | None =>
      if 0 <? b_amount b then
        match do_send_list e (add_balance d (b_token b) (b_amount b))
                [make_request self (b_from b) TSendRefund (b_amount b) (b_token b) []] with
        | Some (d2, l) => ROk RFail d2 l
        | None => RNone true
        end
      else ROk RFail d []
    end
  end.

(** vm/vm.go 764-821 *)
Definition receive_plain (q : qres) d (b : sblock) : rres :=
  match q with
  | QRetry => RNone true | QError => RNone false
  | QOk => ROk RSuccess (add_balance d (b_token b) (b_amount b)) [] end.

(** vm/vm.go 228-250 *)
Definition receive e (q : qres) (unconfirmed exists_already : bool) (depth : Z) d (self : Z) (b : sblock) : rres :=
  match b_type b with
  | TSendCreate => receive_create e q exists_already d self b
  | TSendCall => receive_call e q unconfirmed depth d self b
  | TSendReward => if l_seed e then receive_plain q d b else receive_call e q unconfirmed depth d self b
  | TSendRefund => receive_plain q d b
  end.

(** ** The ledger: all accounts and the sent blocks nobody has received yet *)
Record ledger := mkLedger { g_acct : list (Z * adb S); g_flight : list sent; g_next : Z }.

Definition acct_or (init : S) (g : ledger) (a : Z) : adb S :=
  match assoc a (g_acct g) with Some d => d | None => mkAdb [] init end.

(** What is submitted. A receive names the sent block by its hash; the data that the
    machine consults besides the ledger rides along with the operation, so that a
    history ranges over every possible behaviour of it. *)
Inductive op :=
| OpSend (e : lenv S) (qok : bool) (b : sblock)
| OpReceive (e : lenv S) (q : qres) (unconfirmed exists_already : bool) (hash : Z).

(** new sent blocks get fresh hashes *)
Fixpoint enlist (n depth : Z) (l : list sblock) : list sent :=
  match l with [] => [] | b :: r => mkSent n depth b :: enlist (n + 1) depth r end.

Definition remove_sent (h : Z) (l : list sent) : list sent := filter (fun s => negb (sn_hash s =? h)) l.

Inductive lres := LOk (g : ledger) (status : option rstatus) (sends : list sblock) | LReject | LPanic.

(** vm.go 205-226 and the insertion of the block (state/write.go, onroad) *)
Definition lstep (init : S) (g : ledger) (o : op) : lres :=
  match o with
  | OpSend e qok b =>
    let d := acct_or init g (b_from b) in
    match (match b_type b with
           | TSendCall => send_call e qok d b
           | TSendCreate => send_create e qok d b
           | _ => None end) with
    | None => LReject
    | Some (d1, b1) =>
      LOk (mkLedger (assoc_set (b_from b) d1 (g_acct g)) (g_flight g ++ enlist (g_next g) 0 [b1]) (g_next g + 1)) None [b1]
    end
  | OpReceive e q unconf ex h =>
    match find (fun s => sn_hash s =? h) (g_flight g) with
    | None => LReject
    | Some s =>
      let self := b_to (sn_block s) in
      match receive e q unconf ex (sn_depth s) (acct_or init g self) self (sn_block s) with
      | ROk st d sends =>
        LOk (mkLedger (assoc_set self d (g_acct g))
                (remove_sent h (g_flight g) ++ enlist (g_next g) (sn_depth s + 1) sends)
                (g_next g + zlen sends)) (Some st) sends
      | RNone _ => LReject
      | RPanic => LPanic
      end
    end
  end.

(** a history: rejected operations leave the ledger alone *)
Fixpoint lrun (init : S) (g : ledger) (ops : list op) : ledger :=
  match ops with
  | [] => g
  | o :: r => lrun init (match lstep init g o with LOk g' _ _ => g' | _ => g end) r
  end.

End Model.
Arguments ledger S : clear implicits. Arguments op S : clear implicits. Arguments rres S : clear implicits. Arguments lres S : clear implicits.
