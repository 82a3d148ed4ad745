(** Model of the exchange: orders, the matching engine, the settlement of matched
    orders into user funds, and the locking of funds at order placement
    (vm/contracts/dex, contracts_dex_fund.go, contracts_dex_trade.go).

    Amounts are Go byte slices holding a minimal big-endian big.Int; they are
    integers here.  The byte-slice comparisons of calculator.go:45-54 and bytes.Equal
    agree with integer comparison on minimal encodings.  Statistics kept beside the
    balances (VX mining, dividends, invitations, events) are not modelled. *)
From Coq Require Import ZArith List Bool Lia.
From Verif Require Import Lib DexFloat.
Import ListNotations.
Open Scope Z_scope.

(** calculator.go:13-15, SubBigIntAbs: Bytes() drops the sign. *)
Definition subabs (a b : Z) : Z := Z.abs (a - b).
(** calculator.go:33-39, MinBigInt. *)
Definition minz (a b : Z) : Z := if b <? a then b else a.

(** order.go:11-17 and 32-38: order status and order types. *)
Definition Pending := 0.
Definition PartialExecuted := 1.
Definition FullyExecuted := 2.
Definition Cancelled := 3.
Definition Limited := 0.
Definition Market := 1.
Definition PostOnly := 2.
Definition FillOrKill := 3.
Definition ImmediateOrCancel := 4.
(** order.go:19-30: reasons of a cancellation. *)
Definition cancelledByUser := 0.
Definition cancelledByMarket := 1.
Definition cancelledOnTimeout := 2.
Definition partialExecutedUserCancelled := 3.
Definition partialExecutedCancelledByMarket := 4.
Definition partialExecutedCancelledOnTimeout := 5.
Definition unknownCancelledOnTimeout := 6.
Definition cancelledByPostOnlyMatched := 7.
Definition cancelledByFillOrKillNotFilled := 8.
Definition cancelledByExceedThreshold := 9.
(** matcher.go:15-16 *)
Definition maxTxsCountPerTaker : Z := 100.
Definition timeoutSecond : Z := 30 * 24 * 3600.

(** The 22 bytes of an order id, read as a big-endian integer
    (utils.go:19-35, ComposeOrderId; 37-55, DeComposeOrderId): 3 bytes market, 1 byte
    side, 10 bytes price (complemented for buy orders), 5 bytes time, 3 bytes serial
    number.  Comparing two ids as byte strings of equal length is comparing the
    integers. *)
Local Notation p2 n := ltac:(let x := eval vm_compute in (2 ^ n) in exact x) (only parsing).
Definition price_max : Z := p2 80 - 1.
Definition price_key (side : bool) (p : Z) : Z := if side then p else price_max - p.
Definition compose_id (market : Z) (side : bool) (price time serial : Z) : Z :=
  (((market mod p2 24 * p2 8 + (if side then 1 else 0)) * p2 80 + price_key side price)
     * p2 40 + time mod p2 40) * p2 24 + serial mod p2 24.
Definition id_time (id : Z) : Z := Z.shiftr id 24 mod p2 40.
Definition id_side (id : Z) : bool := Z.shiftr id 144 mod p2 8 =? 1.
Definition id_price (id : Z) : Z := price_key (id_side id) (Z.shiftr id 64 mod p2 80).
Definition id_market (id : Z) : Z := Z.shiftr id 152 mod p2 24.

(** proto Order (order.go:40-42), the fields that matter here.  Side, price, market and
    time come from the id (order.go:83-93, RenderOrderById).  [o_agent] is -1 when
    unset.  RefundToken and RefundQuantity only appear in events and are left out. *)
Record order := mkO {
  o_id : Z; o_addr : Z; o_agent : Z; o_type : Z;
  o_qty : Z; o_amt : Z; o_lock : Z; o_thr : Z;
  o_tb : Z; o_to : Z; o_mb : Z; o_mo : Z;       (* taker and maker rates, base and operator *)
  o_status : Z; o_reason : Z;
  o_exq : Z; o_exa : Z; o_exb : Z; o_exo : Z    (* executed quantity, amount, base fee, operator fee *)
}.
Definition o_side (o : order) : bool := id_side (o_id o).
Definition o_price (o : order) : Z := id_price (o_id o).
Definition o_market (o : order) : Z := id_market (o_id o).
Definition o_time (o : order) : Z := id_time (o_id o).

Definition set_status (o : order) (st rs : Z) : order :=
  mkO (o_id o) (o_addr o) (o_agent o) (o_type o) (o_qty o) (o_amt o) (o_lock o) (o_thr o)
      (o_tb o) (o_to o) (o_mb o) (o_mo o) st rs (o_exq o) (o_exa o) (o_exb o) (o_exo o).
Definition set_exec (o : order) (st q a b f : Z) : order :=
  mkO (o_id o) (o_addr o) (o_agent o) (o_type o) (o_qty o) (o_amt o) (o_lock o) (o_thr o)
      (o_tb o) (o_to o) (o_mb o) (o_mo o) st (o_reason o) q a b f.

(** Market (proto MarketInfo): tokens and their decimals. *)
Record market := mkM { m_trade : Z; m_quote : Z; m_dtrade : Z; m_dquote : Z }.
Definition m_diff (m : market) : Z := m_dtrade m - m_dquote m.

(** Which upgrades are active, and the trade contract's clock. *)
Record dexenv := mkE { e_fee : bool; e_v11 : bool; e_v12 : bool }.

(** matcher.go:644-658, matchPrice. *)
Definition match_price (tk mk : order) : bool :=
  if (o_type tk =? Market) || (o_price tk =? o_price mk) then true
  else if o_side tk then o_price tk <=? o_price mk else o_price mk <=? o_price tk.

(** matcher.go:660-677, filterTimeout; [now] is GetTradeTimestamp. *)
Definition timed_out (e : dexenv) (now : Z) (o : order) : bool :=
  negb (now =? 0) && (o_time o + timeoutSecond <? now) && negb (e_v11 e).
Definition expire (o : order) : order :=
  set_status o Cancelled
    (if o_status o =? Pending then cancelledOnTimeout
     else if o_status o =? PartialExecuted then partialExecutedCancelledOnTimeout
     else unknownCancelledOnTimeout).

(** matcher.go:607-635, calculateExecutedFee: increment, new executed fee, leaved. *)
Definition executed_fee (amount rate : Z) (side : bool) (origin locked used : Z) : Z * Z * bool :=
  if rate =? 0 then (0, origin, true)
  else
    let inc := fee_for amount rate in
    if side then (inc, origin + inc, true)
    else if locked <=? used then (0, origin, false)
    else if locked <=? used + inc then
      (subabs locked used, origin + subabs locked used, false)
    else (inc, origin + inc, true).
(** matcher.go:597-605, CalculateFeeAndExecutedFee: (base, executed base, operator,
    executed operator). *)
Definition fees_of (e : dexenv) (o : order) (amount brate orate : Z) : Z * Z * Z * Z :=
  let '(inc, ex, leaved) :=
    executed_fee amount brate (o_side o) (o_exb o) (o_lock o) (o_exb o + o_exo o) in
  if leaved then
    let '(inco, exo, _) :=
      executed_fee amount orate (o_side o) (o_exo o) (o_lock o) (ex + o_exo o) in
    (inc, ex, inco, exo)
  else (inc, ex, 0, if e_fee e then o_exo o else 0).

(** matcher.go:483-489, calculateOrderAmount. *)
Definition order_amount (o : order) (q p diff : Z) : Z :=
  let a := raw_amount q p diff in
  if negb (o_side o) && (o_amt o <? o_exa o + a) then subabs (o_amt o) (o_exa o) else a.

(** matcher.go:504-517 updateOrderAfterUpgrade12, 518-531 updateOrderBeforeUpgrade12,
    and the dust tests of 534-565. *)
Definition dust_price (o : order) (q diff p : Z) : bool :=
  flt1 (raw_amount_f (subabs (subabs (o_qty o) (o_exq o)) q) p diff).
Definition dust_amount (o : order) (a diff p : Z) : bool :=
  flt1 (raw_qty_f (subabs (subabs (o_amt o) (o_exa o)) a) p diff).
Definition update_after (o : order) (q a b f diff p : Z) : order :=
  let full :=
    (subabs (o_qty o) (o_exq o) =? q)
    || ((o_type o =? Market) && negb (o_side o) && (subabs (o_amt o) (o_exa o) =? a))
    || (if o_type o =? Market then negb (o_side o) && dust_amount o a (- diff) p
        else dust_price o q diff (o_price o)) in
  set_exec o (if full then FullyExecuted else PartialExecuted) (o_exq o + q) (o_exa o + a) b f.
Definition update_before (o : order) (q a b f diff p : Z) : order :=
  let exa := o_exa o + a in
  let full :=
    (subabs (o_qty o) (o_exq o) =? q)
    || ((o_type o =? Market) && negb (o_side o) && (subabs (o_amt o) exa =? a))
    || dust_price o q diff (if o_type o =? Market then p else o_price o) in
  set_exec o (if full then FullyExecuted else PartialExecuted) (o_exq o + q) exa b f.

(** OrderTx (matcher.go:27-33). *)
Record tx := mkT {
  t_side : bool; t_taker : Z; t_maker : Z; t_price : Z; t_qty : Z; t_amt : Z;
  t_taddr : Z; t_maddr : Z;
  t_tfee : Z; t_tofee : Z; t_mfee : Z; t_mofee : Z
}.

(** matcher.go:417-451 (after upgrade 12) and 453-481 (before).  Transaction id, tokens
    and time of the transaction only matter in events. *)
Definition exec_qty (e : dexenv) (m : market) (tk mk : order) : Z :=
  let tq := subabs (o_qty tk) (o_exq tk) in
  let tq :=
    if e_v12 e && (o_type tk =? Market) && negb (o_side tk) then
      minz tq (raw_qty (subabs (o_amt tk) (o_exa tk)) (o_price mk) (- m_diff m))
    else tq in
  minz tq (subabs (o_qty mk) (o_exq mk)).
Definition calc_tx (e : dexenv) (m : market) (tk mk : order) : order * order * tx :=
  let q := exec_qty e m tk mk in
  let a := minz (order_amount tk q (o_price mk) (m_diff m)) (order_amount mk q (o_price mk) (m_diff m)) in
  let '(tf, txf, tof, txof) := fees_of e tk a (o_tb tk) (o_to tk) in
  let '(mf, mxf, mof, mxof) := fees_of e mk a (o_mb mk) (o_mo mk) in
  let upd := if e_v12 e then update_after else update_before in
  (upd tk q a txf txof (m_diff m) (o_price mk),
   upd mk q a mxf mxof (m_diff m) (o_price mk),
   mkT (o_side tk) (o_id tk) (o_id mk) (o_price mk) q a (o_addr tk) (o_addr mk) tf tof mf mof).

(** matcher.go:166-197, recursiveTakeOrder. *)
Fixpoint take (e : dexenv) (now : Z) (m : market) (tk : order) (makers : list order)
         (mods : list order) (txs : list tx) : order * list order * list tx :=
  match makers with
  | [] => (tk, mods, txs)
  | mk :: rest =>
    if timed_out e now mk then
      (if (o_status tk =? FullyExecuted) || (o_status tk =? Cancelled) then (tk, mods ++ [expire mk], txs)
       else take e now m tk rest (mods ++ [expire mk]) txs)
    else if match_price tk mk then
      (if o_type tk =? PostOnly then (set_status tk Cancelled cancelledByPostOnlyMatched, mods, txs)
       else
         let '(tk1, mk1, t) := calc_tx e m tk mk in
         let txs1 := txs ++ [t] in
         let tk2 := if (o_status tk1 =? PartialExecuted) && (maxTxsCountPerTaker <=? zlen txs1)
                    then set_status tk1 Cancelled partialExecutedCancelledByMarket else tk1 in
         let mods1 := mods ++ [mk1] in
         if (o_status tk2 =? FullyExecuted) || (o_status tk2 =? Cancelled) then (tk2, mods1, txs1)
         else take e now m tk2 rest mods1 txs1)
    else (tk, mods, txs)
  end.

(** proto AccountSettle per address and token (matcher.go:349-368, updateFundSettle). *)
Record settle := mkS { s_addr : Z; s_trade : bool; s_inc : Z; s_rel : Z; s_red : Z }.
Fixpoint add_settle (l : list settle) (s : settle) : list settle :=
  match l with
  | [] => [s]
  | x :: r =>
    if (s_addr x =? s_addr s) && Bool.eqb (s_trade x) (s_trade s)
    then mkS (s_addr x) (s_trade x) (s_inc x + s_inc s) (s_rel x + s_rel s) (s_red x + s_red s) :: r
    else x :: add_settle r s
  end.
(** matcher.go:370-384, updateFee: (address, base fee, operator fee). *)
Fixpoint add_fee (l : list (Z * Z * Z)) (a b o : Z) : list (Z * Z * Z) :=
  match l with
  | [] => [(a, b, o)]
  | (a', b', o') :: r => if a' =? a then (a', b' + b, o' + o) :: r else (a', b', o') :: add_fee r a b o
  end.

(** matcher.go:255-274, handleRefund. *)
Definition closed (o : order) : bool := (o_status o =? FullyExecuted) || (o_status o =? Cancelled).
Definition refund_of (o : order) : Z :=
  if o_side o then subabs (o_qty o) (o_exq o)
  else subabs (o_amt o) (o_exa o) + subabs (subabs (o_lock o) (o_exb o)) (o_exo o).
Definition refund (o : order) (l : list settle) : list settle :=
  if closed o && (0 <? refund_of o) then add_settle l (mkS (o_addr o) (o_side o) 0 (refund_of o) 0) else l.

(** The book: the storage of the trade contract, orders sorted by id
    (leveldb_book.go:14-20; matcher.go:390-407). *)
Fixpoint bput (o : order) (b : list order) : list order :=
  match b with
  | [] => [o]
  | x :: r => if o_id o <? o_id x then o :: b
              else if o_id o =? o_id x then o :: r
              else x :: bput o r
  end.
Definition bdel (id : Z) (b : list order) : list order := filter (fun o => negb (o_id o =? id)) b.
Definition bget (id : Z) (b : list order) : option order := find (fun o => o_id o =? id) b.
(** leveldb_book.go:45-51, getBookPrefix: orders of one market and side. *)
Definition makers_of (market : Z) (side : bool) (b : list order) : list order :=
  filter (fun o => (o_market o =? market) && Bool.eqb (o_side o) side) b.

(** matcher.go:225-241, checkMarketOrderAmtThreshold. *)
Definition over_threshold (o : order) : bool :=
  (o_type o =? Market) && (o_thr o <? o_exa o + o_exb o + o_exo o).
Definition undo (o : order) (rs : Z) : order := set_exec (set_status o Cancelled rs) Cancelled 0 0 0 0.
(** matcher.go:199-223, handleTakerRes. *)
Definition taker_res (tk : order) (b : list order) (l : list settle) : order * list order * list settle :=
  if over_threshold tk then
    let tk1 := undo tk cancelledByExceedThreshold in (tk1, b, refund tk1 l)
  else if (o_status tk =? PartialExecuted) || (o_status tk =? Pending) then
    let tk1 :=
      if (o_type tk =? Market) || (o_type tk =? ImmediateOrCancel) then set_status tk Cancelled cancelledByMarket
      else if o_type tk =? FillOrKill then undo tk cancelledByFillOrKillNotFilled
      else tk in
    if o_status tk1 =? Cancelled then (tk1, b, refund tk1 l) else (tk1, bput tk1 b, l)
  else (tk, b, refund tk l).

(** matcher.go:243-253, handleModifiedMakers. *)
Fixpoint handle_makers (ms : list order) (b : list order) (l : list settle) : list order * list settle :=
  match ms with
  | [] => (b, l)
  | o :: r => if closed o then handle_makers r (bdel (o_id o) b) (refund o l)
              else handle_makers r (bput o b) l
  end.

(** matcher.go:312-347, handleTxFundSettle. *)
Definition tx_settles (t : tx) (l : list settle) : list settle :=
  let tin := if t_side t then mkS (t_taddr t) false (subabs (t_amt t) (t_tfee t + t_tofee t)) 0 0
             else mkS (t_taddr t) true (t_qty t) 0 0 in
  let tout := if t_side t then mkS (t_taddr t) true 0 0 (t_qty t)
              else mkS (t_taddr t) false 0 0 (t_amt t + (t_tfee t + t_tofee t)) in
  let min := if t_side t then mkS (t_maddr t) true (t_qty t) 0 0
             else mkS (t_maddr t) false (subabs (t_amt t) (t_mfee t + t_mofee t)) 0 0 in
  let mout := if t_side t then mkS (t_maddr t) false 0 0 (t_amt t + (t_mfee t + t_mofee t))
              else mkS (t_maddr t) true 0 0 (t_qty t) in
  add_settle (add_settle (add_settle (add_settle l tin) tout) min) mout.
Definition tx_fees (t : tx) (f : list (Z * Z * Z)) : list (Z * Z * Z) :=
  add_fee (add_fee f (t_taddr t) (t_tfee t) (t_tofee t)) (t_maddr t) (t_mfee t) (t_mofee t).

(** matcher.go:144-164, doMatchTaker: final taker, book, settlements, fees and the
    transactions that are carried out. *)
Definition undone (o : order) : bool :=
  (o_reason o =? cancelledByFillOrKillNotFilled) || (o_reason o =? cancelledByExceedThreshold).
Definition do_match (e : dexenv) (now : Z) (m : market) (tk : order) (b : list order)
  : order * list order * list settle * list (Z * Z * Z) * list tx :=
  match makers_of (o_market tk) (negb (o_side tk)) b with
  | [] => let '(tk1, b1, l1) := taker_res tk b [] in (tk1, b1, l1, [], [])
  | makers =>
    let '(tk1, mods, txs) := take e now m tk makers [] [] in
    let '(tk2, b1, l1) := taker_res tk1 b [] in
    if undone tk2 then (tk2, b1, l1, [], [])
    else
      let '(b2, l2) := handle_makers mods b1 l1 in
      (tk2, b2, fold_left (fun l t => tx_settles t l) txs l2,
       fold_left (fun f t => tx_fees t f) txs [], txs)
  end.

(** Accounts of the fund contract: (address, token) -> (available, locked)
    (account.go:10-17; fund_storage.go:839-850, GetAccountByToken). *)
Notation accounts := (list ((Z * Z) * (Z * Z))).
Definition keyeq (a b : Z * Z) : bool := (fst a =? fst b) && (snd a =? snd b).
Fixpoint pget (k : Z * Z) (l : accounts) : option (Z * Z) :=
  match l with
  | [] => None
  | (k', v) :: r => if keyeq k k' then Some v else pget k r
  end.
Fixpoint pset (k : Z * Z) (v : Z * Z) (l : accounts) : accounts :=
  match l with
  | [] => [(k, v)]
  | (k', v') :: r => if keyeq k k' then (k', v) :: r else (k', v') :: pset k v r
  end.
Definition acct (k : Z * Z) (l : accounts) : Z * Z := match pget k l with Some v => v | None => (0, 0) end.

(** calculator.go:17-27, SafeSubBigInt: rest, amount actually taken, exceeded. *)
Definition safe_sub (a s : Z) : Z * Z * bool :=
  if a <? s then (0, a, true) else (subabs a s, s, false).
(** fund_settle.go:16-75, DoSettleFund for one account; None is the panic before the
    fee upgrade. *)
Definition settle_account (e : dexenv) (v : Z * Z) (s : settle) : option (Z * Z) :=
  let '(av, lk) := v in
  let r1 := if s_red s =? 0 then Some (av, lk)
            else let '(lk1, _, ex) := safe_sub lk (s_red s) in
                 if ex && negb (e_fee e) then None else Some (av, lk1) in
  match r1 with
  | None => None
  | Some (av, lk) =>
    let r2 := if s_rel s =? 0 then Some (av, lk)
              else let '(lk1, sub, ex) := safe_sub lk (s_rel s) in
                   if ex && negb (e_fee e) then None else Some (av + sub, lk1) in
    match r2 with
    | None => None
    | Some (av, lk) => Some (av + s_inc s, lk)
    end
  end.

(** A settlement message of the trade contract to the fund contract
    (contracts_dex_trade.go:339-402, handleSettleActions). *)
Record msg := mkG { g_m : market; g_set : list settle; g_fees : list (Z * Z * Z) }.
Definition s_token (m : market) (s : settle) : Z := if s_trade s then m_trade m else m_quote m.
(** contracts_dex_fund.go:274-299, DoReceive of SettleOrders: the accounts.  The entries
    are sorted by address before they are sent; each address and token occurs once, so
    their order does not matter. *)
Fixpoint settle_all (e : dexenv) (m : market) (l : list settle) (acc : accounts) : option accounts :=
  match l with
  | [] => Some acc
  | s :: r =>
    let k := (s_addr s, s_token m s) in
    match settle_account e (acct k acc) s with
    | None => None
    | Some v => settle_all e m r (pset k v acc)
    end
  end.
Definition base_fees (l : list (Z * Z * Z)) : Z := fold_right (fun f n => snd (fst f) + n) 0 l.
Definition oper_fees (l : list (Z * Z * Z)) : Z := fold_right (fun f n => snd f + n) 0 l.

(** Amounts per token. *)
Fixpoint tget (t : Z) (l : list (Z * Z)) : Z :=
  match l with [] => 0 | (t', v) :: r => if t =? t' then v else tget t r end.
Fixpoint tadd (t v : Z) (l : list (Z * Z)) : list (Z * Z) :=
  match l with
  | [] => [(t, v)]
  | (t', v') :: r => if t =? t' then (t', v' + v) :: r else (t', v') :: tadd t v r
  end.

(** Fund contract and trade contract together with the messages between them:
    balance of the fund contract on the ledger, user accounts, the dividend pool
    (fund_settle.go:82-153) and operator fees (fund_settle.go:223-265) per token, the
    clock and serial number of order ids, the book, the trade contract's clock, orders
    and settlements under way. *)
Record dex := mkD {
  d_bal : list (Z * Z); d_acc : accounts; d_div : list (Z * Z); d_oper : list (Z * Z);
  d_time : Z; d_stime : Z; d_serial : Z;
  d_book : list order; d_ttime : Z;
  d_orders : list order; d_msgs : list msg
}.
Definition dex0 : dex := mkD [] [] [] [] 0 0 (-1) [] 0 [] [].

Definition with_acc (st : dex) (acc : accounts) (bal : list (Z * Z)) : dex :=
  mkD bal acc (d_div st) (d_oper st) (d_time st) (d_stime st) (d_serial st)
      (d_book st) (d_ttime st) (d_orders st) (d_msgs st).

(** contracts_dex_fund.go:42-61, Deposit; fund_storage.go:1007-1026, DepositAccount. *)
Definition deposit (st : dex) (a t amt : Z) : dex :=
  if amt <=? 0 then st
  else let '(av, lk) := acct (a, t) (d_acc st) in
       with_acc st (pset (a, t) (av + amt, lk) (d_acc st)) (tadd t amt (d_bal st)).
(** contracts_dex_fund.go:82-130, Withdraw; fund_storage.go:886-896, ReduceAccount. *)
Definition withdraw (st : dex) (a t amt : Z) : dex :=
  if amt <=? 0 then st
  else match pget (a, t) (d_acc st) with
       | None => st
       | Some (av, lk) => if av <? amt then st
                          else with_acc st (pset (a, t) (av - amt, lk) (d_acc st)) (tadd t (- amt) (d_bal st))
       end.
(** fund_storage.go:2168-2185, SetDexTimestamp (the period bookkeeping left out). *)
Definition set_time (st : dex) (t : Z) : dex :=
  if d_time st <? t then
    mkD (d_bal st) (d_acc st) (d_div st) (d_oper st) t (d_stime st) (d_serial st)
        (d_book st) (d_ttime st) (d_orders st) (d_msgs st)
  else st.

(** matcher.go:36-38; fund_helper.go:383-403, RenderFeeRate.  [vip] is 2 for a super VIP,
    1 for a VIP, 0 otherwise; [stable] a stable market after its upgrade. *)
Definition BaseFeeRate : Z := 200.
Definition VipReduceFeeRate : Z := 100.
Definition MaxOperatorFeeRate : Z := 200.
Definition fee_rates (stable : bool) (vip : Z) (invited : bool) (topr mopr : Z) : Z * Z * Z * Z :=
  if stable then (0, 0, 0, 0)
  else
    let b := BaseFeeRate - (if vip =? 2 then BaseFeeRate else if vip =? 1 then VipReduceFeeRate else 0) in
    if invited then (b * 9 / 10, topr * 9 / 10, b * 9 / 10, mopr * 9 / 10) else (b, topr, b, mopr).
(** fund_helper.go:562-570, MaxTotalFeeRate. *)
Definition max_rate (tb tof mb mo : Z) : Z := if mb + mo <? tb + tof then tb + tof else mb + mo.

(** Parameters of PlaceOrder together with what the contract reads about sender and
    market.  [pl_price] is PriceToBytes of the price string; [pl_min] and [pl_thr] are
    the trade threshold and the market order threshold in units of the quote token. *)
Record place := mkP {
  pl_addr : Z; pl_agent : Z; pl_market : Z; pl_side : bool; pl_type : Z; pl_price : Z; pl_qty : Z;
  pl_stable : bool; pl_vip : Z; pl_invited : bool; pl_topr : Z; pl_mopr : Z; pl_min : Z; pl_thr : Z
}.
(** fund_storage.go:1728-1743, NewAndSaveOrderSerialNo (None saved: serial -1). *)
Definition next_serial (st : dex) : Z :=
  if (d_serial st =? -1) || negb (d_time st =? d_stime st) then 0 else d_serial st + 1.
(** fund_helper.go:255-268 PreCheckOrderParam; ValidPrice (526-544) accepts prices of at
    most 12 integer and 12 decimal digits, greater than zero. *)
Definition valid_price (p : Z) : bool :=
  (0 <? p) && (price_int p <? 10 ^ 12) && (price_dec p <? 10 ^ 12).
(** fund_helper.go:270-323 DoPlaceOrder, 325-371 RenderOrder, 420-466
    CheckAndLockFundForNewOrder, 469-476 RenderMarketBuyOrderAmountAndFee.  None: the
    request fails and nothing changes. *)
Definition order_for (e : dexenv) (m : market) (st : dex) (p : place) (av : Z) : option (order * Z) :=
  let '(tb, tof, mb, mo) := fee_rates (pl_stable p) (pl_vip p) (pl_invited p) (pl_topr p) (pl_mopr p) in
  let id := compose_id (pl_market p) (pl_side p) (pl_price p) (d_time st) (next_serial st) in
  let rate := max_rate tb tof mb mo in
  let mkorder amt lock thr :=
    mkO id (pl_addr p) (pl_agent p) (pl_type p) (pl_qty p) amt lock thr tb tof mb mo Pending 0 0 0 0 0 in
  if pl_type p =? Market then
    if pl_side p then
      (if av <? pl_qty p then None else Some (mkorder 0 0 (pl_thr p), pl_qty p))
    else if av <? pl_min p then None
    else
      let lock := if 0 <? rate then fee_for av (adjusted_rate rate) else 0 in
      Some (mkorder (subabs av lock) lock (pl_thr p), av)
  else
    let amt := raw_amount (pl_qty p) (pl_price p) (m_diff m) in
    let lock := if pl_side p then 0 else fee_for amt rate in
    if amt + lock <? pl_min p then None
    else
      let need := if pl_side p then pl_qty p else amt + lock in
      if av <? need then None else Some (mkorder amt lock 0, need).
Definition place_order (e : dexenv) (m : market) (st : dex) (p : place) : dex :=
  if (pl_qty p <=? 0) || (pl_type p <? 0) || (4 <? pl_type p)
     || (negb (pl_type p =? Market) && negb (valid_price (pl_price p)))
     || (negb (pl_type p =? Limited) && negb (e_v11 e)) || (d_time st =? 0) then st
  else
    let tok := if pl_side p then m_trade m else m_quote m in
    match pget (pl_addr p, tok) (d_acc st) with
    | None => st
    | Some (av, lk) =>
      match order_for e m st p av with
      | None => st
      | Some (o, need) =>
        mkD (d_bal st) (pset (pl_addr p, tok) (av - need, lk + need) (d_acc st)) (d_div st) (d_oper st)
            (d_time st) (d_time st) (next_serial st)
            (d_book st) (d_ttime st) (d_orders st ++ [o]) (d_msgs st)
      end
    end.

(** Sending the settlements (contracts_dex_trade.go:341-343: nothing is sent when there
    is nothing to settle). *)
Definition send (m : market) (l : list settle) (f : list (Z * Z * Z)) (msgs : list msg) : list msg :=
  match l, f with [], [] => msgs | _, _ => msgs ++ [mkG m l f] end.

Fixpoint drop_nth {A} (n : nat) (l : list A) : list A :=
  match l, n with
  | [], _ => []
  | _ :: r, O => r
  | x :: r, S n => x :: drop_nth n r
  end.

Section Markets.
(** Markets by id (trade_helper.go:77-81, GetMarketInfoById). *)
Context (mkt : Z -> option market).

(** contracts_dex_trade.go:50-72, receiving the n-th order under way; [h] is the first
    byte of the previous block's hash (trade_helper.go:123-128, TryUpdateTimestamp). *)
Definition recv_order (e : dexenv) (st : dex) (n : nat) (h : Z) : dex :=
  match nth_error (d_orders st) n with
  | None => st
  | Some tk =>
    match mkt (o_market tk) with
    | None => st
    | Some m =>
      let '(_, b, l, f, _) := do_match e (d_ttime st) m tk (d_book st) in
      mkD (d_bal st) (d_acc st) (d_div st) (d_oper st) (d_time st) (d_stime st) (d_serial st)
          b (if h <? 32 then o_time tk else d_ttime st) (drop_nth n (d_orders st)) (send m l f (d_msgs st))
    end
  end.

(** contracts_dex_trade.go:308-337 handleCancelOrderById; matcher.go:131-142
    CancelOrderById. *)
Definition cancel (st : dex) (id op : Z) : dex :=
  match mkt (id_market id) with
  | None => st
  | Some m =>
    match bget id (d_book st) with
    | None => st
    | Some o =>
      if negb (op =? o_addr o) && negb (op =? o_agent o) then st
      else if negb (o_status o =? Pending) && negb (o_status o =? PartialExecuted) then st
      else
        let o1 := set_status o Cancelled
                    (if o_status o =? Pending then cancelledByUser else partialExecutedUserCancelled) in
        mkD (d_bal st) (d_acc st) (d_div st) (d_oper st) (d_time st) (d_stime st) (d_serial st)
            (bdel id (d_book st)) (d_ttime st) (d_orders st) (send m (refund o1 []) [] (d_msgs st))
    end
  end.

(** trade_helper.go:28-75 CleanExpireOrders; contracts_dex_trade.go:170-190.  The ids
    must belong to one market. *)
Definition expired_of (e : dexenv) (st : dex) (ids : list Z) : list order :=
  flat_map (fun id => match bget id (d_book st) with
                      | Some o => if timed_out e (d_ttime st) o then [expire o] else []
                      | None => [] end) ids.
Definition clean_expired (e : dexenv) (st : dex) (ids : list Z) : dex :=
  match ids with
  | [] => st
  | id :: _ =>
    if e_v11 e || (d_ttime st =? 0) || (200 <? zlen ids)
       || negb (forallb (fun i => id_market i =? id_market id) ids) then st
    else
      match mkt (id_market id) with
      | None => st
      | Some m =>
        let '(b, l) := handle_makers (expired_of e st ids) (d_book st) [] in
        mkD (d_bal st) (d_acc st) (d_div st) (d_oper st) (d_time st) (d_stime st) (d_serial st)
            b (d_ttime st) (d_orders st) (send m l [] (d_msgs st))
      end
  end.

(** contracts_dex_fund.go:274-299, the fund contract receives the n-th settlement; a
    panic (before the fee upgrade) leaves everything as it was. *)
Definition recv_settle (e : dexenv) (st : dex) (n : nat) : dex :=
  match nth_error (d_msgs st) n with
  | None => st
  | Some g =>
    match settle_all e (g_m g) (g_set g) (d_acc st) with
    | None => st
    | Some acc =>
      mkD (d_bal st) acc
          (tadd (m_quote (g_m g)) (base_fees (g_fees g)) (d_div st))
          (tadd (m_quote (g_m g)) (oper_fees (g_fees g)) (d_oper st))
          (d_time st) (d_stime st) (d_serial st)
          (d_book st) (d_ttime st) (d_orders st) (drop_nth n (d_msgs st))
    end
  end.

Inductive op :=
| ODeposit (a t amt : Z) | OWithdraw (a t amt : Z) | OTime (t : Z)
| OPlace (p : place) | OMatch (n : nat) (h : Z) | OCancel (id op : Z)
| OExpire (ids : list Z) | OSettle (n : nat).

Definition dstep (st : dex) (x : dexenv * op) : dex :=
  let '(e, o) := x in
  match o with
  | ODeposit a t amt => deposit st a t amt
  | OWithdraw a t amt => withdraw st a t amt
  | OTime t => set_time st t
  | OPlace p => match mkt (pl_market p) with Some m => place_order e m st p | None => st end
  | OMatch n h => recv_order e st n h
  | OCancel id a => cancel st id a
  | OExpire ids => clean_expired e st ids
  | OSettle n => recv_settle e st n
  end.
Definition drun (st : dex) (l : list (dexenv * op)) : dex := fold_left dstep l st.
End Markets.
