(** Model of quota calculation: vm/quota/quota.go, vm/quota/params.go (tables in QuotaTables.v) and the
    price arithmetic of vm/util/quota.go. uint64 arithmetic wraps explicitly; big.Int is Z; the ledger
    (quotaDb, quota.go 60-66) is a record of the values it answers with. *)
From Verif Require Import Lib QuotaTables.

(** vm/quota/params.go 7-25 *)
Definition quota_limit_block : Z := 1000000.
Definition quota_for_section : Z := 280.
Definition section_len : Z := 3571.
Definition out_of_quota_block_time : Z := 75.
Definition qc_gap : Z := 21000 * 74.
Definition qc_index_min : Z := 51.
Definition qc_index_max : Z := 500.
Definition qc_division : Z := 1000000000000000000.

(** quotaConfig, quota.go 13-58 (the test-only constant function of isTest is not modelled) *)
Record qconf := mkQconf { stake_list : list Z; difficulty_list : list Z }.
Definition mainnet : qconf := mkQconf stake_mainnet difficulty_mainnet.
Definition testnet : qconf := mkQconf stake_testnet difficulty_testnet.

(** list[i]; out of range is a panic *)
Definition at_ (l : list Z) (i : Z) : option Z := if i <? 0 then None else nth_error l (Z.to_nat i).

(** getExactIndex 261-266 *)
Definition exact_index (x : Z) (l : list Z) (i : Z) : option Z :=
  if i =? 0 then Some i else
  match at_ l i with Some v => if v <=? x then Some i else Some (i - 1) | None => None end.
(** getIndexInBigIntList 246-259; [fuel] bounds the recursion depth, None is a panic or out of fuel *)
Fixpoint index_in (fuel : nat) (x : Z) (l : list Z) (left right : Z) : option Z :=
  if left =? right then exact_index x l left else
  match fuel with
  | O => None
  | S n =>
    let mid := (left + right + 1) / 2 in
    match at_ l mid with
    | None => None
    | Some v => if v =? x then Some mid else if x <? v then index_in n x l left (mid - 1) else index_in n x l mid right
    end
  end.
Definition search_fuel : nat := Z.to_nat section_len.
(** calcQuotaByIndex 231-236 *)
Definition quota_by_index (i : Z) : Z :=
  if (0 <=? i) && (i <=? section_len) then wrap64 (wrap64 i * quota_for_section) else 0.
(** calcStakeParam 341-348 *)
Definition stake_param (qc : Z) (congested : bool) (param : Z) : Z :=
  if negb congested then param else param * qc / qc_division.
(** calcStakeQuota 207-213, calcPoWQuota 223-229: the same code on two tables; a nil amount is 0 *)
Definition lookup_quota (table : list Z) (qc : Z) (congested : bool) (amount : Z) : option Z :=
  if amount <=? 0 then Some 0 else
  match index_in search_fuel (stake_param qc congested amount) table 0 section_len with
  | Some i => Some (quota_by_index i)
  | None => None
  end.
(** CalcQc 351-363; [upgraded]: IsDexUpgrade at the snapshot height. Returns ratio and congestion flag. *)
Definition calc_qc (upgraded : bool) (global : Z) : Z * bool :=
  if negb upgraded then (0, false) else
  let i := wrap64 (global + qc_gap - 1) / qc_gap in
  if i <? qc_index_min then (qc_division, false) else
  let i := if qc_index_max <=? i then qc_index_max else i in
  (nth (Z.to_nat (i - qc_index_min)) qc_mainnet 0, true).

(** getIndexByQuota 238-244 *)
Definition index_by_quota (q : Z) : option Z :=
  let i := wrap64 (q + quota_for_section - 1) / quota_for_section in
  if (section_len <? i) || (wrap64 (i * quota_for_section) <? q) then None else Some i.
(** calcStakeTargetParam 315-330; the loop runs at most [fuel] times, a division by zero panics: None *)
Fixpoint raise_target (fuel : nat) (qc : Z) (congested : bool) (target t : Z) : option Z :=
  if target <=? stake_param qc congested t then Some t else
  match fuel with O => None | S n => raise_target n qc congested target (t + 1) end.
Definition target_param (qc : Z) (congested : bool) (target : Z) : option Z :=
  if qc =? 0 then None else raise_target 2 qc congested target (target * qc_division / qc).
(** BitLen() <= 256 *)
Definition fits256 (x : Z) : bool := x <? two256.
Inductive qres := QOk (x : Z) | QLimit | QPanic.
(** CalcPoWDifficulty 280-294 with calcStakeTargetParamByQc 307-314 *)
Definition pow_difficulty (cf : qconf) (upgraded : bool) (global : Z) (required current : Z) : qres :=
  if quota_limit_block <? required then QLimit else
  if required <=? current then QOk 0 else
  match index_by_quota required with
  | None => QLimit
  | Some i =>
    match at_ (difficulty_list cf) i with
    | None => QPanic
    | Some d =>
      let '(qc, congested) := calc_qc upgraded global in
      if negb congested then QOk d else
      match target_param qc congested d with
      | None => QPanic
      | Some t => if fits256 t then QOk t else QLimit
      end
    end
  end.
(** CalcStakeAmountByQuota 297-305 *)
Definition max_quota : Z := section_len * quota_for_section.
Definition stake_amount_by_quota (cf : qconf) (q : Z) : qres :=
  if max_quota <? q then QLimit else if q =? 0 then QOk 0 else
  match at_ (stake_list cf) ((q + quota_for_section - 1) / quota_for_section) with Some x => QOk x | None => QPanic end.

(** ** Accumulated quota *)
(** types.QuotaInfo: block count, quota used minus proof of work (QuotaTotal), quota used *)
Record qinfo := mkQinfo { qi_count : Z; qi_total : Z; qi_used : Z }.
(** what the ledger answers for one account; isBlocked 132-154: the latest block of a contract is a failed
    receive confirmed fewer than 75 times *)
Record qdb := mkQdb {
  q_upgraded : bool; q_global : Z;            (* GetGlobalQuota().QuotaUsedTotal *)
  q_used : list qinfo;                        (* GetQuotaUsedList: per snapshot, the last one unconfirmed *)
  q_contract : bool; q_last_failed : option Z;(* confirmations of the latest block if it is a failed receive *)
  q_unconfirmed : list bool }.                (* GetUnconfirmedBlocks: for each, does it carry a PoW nonce (util.IsPoW) *)
(** CanPoW 269-277 *)
Definition can_pow (db : qdb) : bool := negb (existsb (fun b => b) (q_unconfirmed db)).
Definition is_blocked (db : qdb) : bool * Z :=
  if negb (q_contract db) then (false, 0) else
  match q_last_failed db with
  | Some n => if n <? out_of_quota_block_time then (true, out_of_quota_block_time - n) else (false, 0)
  | None => (false, 0)
  end.
(** the loop 167-178 *)
Fixpoint accumulate (stake : Z) (l : list qinfo) (acc : Z) : Z :=
  match l with
  | [] => acc
  | q :: r => let t := wrap64 (acc + stake) in
    accumulate stake r (if qi_total q <=? t then t - qi_total q else 0)
  end.
Record qout := mkQout { o_total : Z; o_stake : Z; o_addition : Z; o_snapshot : Z; o_avg : Z; o_blocked : bool; o_release : Z }.
Inductive qcalc := COk (o : qout) | CUnconfirmed (o : qout) | CPowTwice | CPanic.
Definition sum64 (l : list Z) : Z := fold_left (fun a x => wrap64 (a + x)) l 0.
(** calcQuotaTotal 155-205 *)
Definition quota_total (cf : qconf) (db : qdb) (stake difficulty : Z) : qcalc :=
  let '(blocked, release) := is_blocked db in
  let '(qc, congested) := calc_qc (q_upgraded db) (q_global db) in
  match lookup_quota (stake_list cf) qc congested stake, lookup_quota (difficulty_list cf) qc congested difficulty with
  | Some qs, Some qa =>
    let l := q_used db in
    let before := if 1 <? zlen l then accumulate qs (removelast l) 0 else 0 in
    let used := sum64 (map qi_used l) in
    let count := sum64 (map qi_count l) in
    let '(total, unconfirmed) := match rev l with [] => (before, 0) | q :: _ => (wrap64 (before + qs), qi_total q) end in
    let avg := if 0 <? count then used / count else 0 in
    if unconfirmed <=? total then
      if blocked then COk (mkQout 0 qs 0 total avg blocked release)
      else COk (mkQout (wrap64 (total - unconfirmed + qa)) qs qa total avg blocked release)
    else CUnconfirmed (mkQout 0 qs 0 total avg blocked release)
  | _, _ => CPanic
  end.
(** calcQuotaV3 122-131 *)
Definition calc_quota (cf : qconf) (db : qdb) (stake difficulty : Z) : qcalc :=
  if (0 <? difficulty) && negb (can_pow db) then CPowTwice else quota_total cf db stake difficulty.
(** GetQuotaForBlock 96-108 *)
Inductive bres := BOk (total addition : Z) | BErr | BPanic.
Definition quota_for_block (cf : qconf) (db : qdb) (stake difficulty : Z) : bres :=
  match calc_quota cf db stake difficulty with
  | COk o =>
    if quota_limit_block <? o_total o then
      BOk quota_limit_block (if quota_limit_block <? o_addition o then quota_limit_block else o_addition o)
    else BOk (o_total o) (o_addition o)
  | CUnconfirmed _ | CPowTwice => BErr
  | CPanic => BPanic
  end.
(** GetSnapshotCurrentQuota 81-87 *)
Definition snapshot_current (cf : qconf) (db : qdb) (stake : Z) : option Z :=
  match calc_quota cf db stake 0 with COk o | CUnconfirmed o => Some (o_snapshot o) | CPowTwice | CPanic => None end.
(** CheckQuota 111-120 *)
Definition check_quota (blocked : bool) (release current avg : Z) : bool * Z :=
  if blocked then (false, release) else if avg <=? current then (true, 0) else (false, 1).
(** CalcBlockQuotaUsed 69-78 *)
Definition block_quota_used (cf : qconf) (db : qdb) (is_pow : bool) (difficulty used : Z) : option Z :=
  if negb is_pow then Some used else
  let '(qc, congested) := calc_qc (q_upgraded db) (q_global db) in
  match lookup_quota (difficulty_list cf) qc congested difficulty with
  | Some p => Some (if p <? used then used - p else 0)
  | None => None
  end.

(** ** Price arithmetic, vm/util/quota.go *)
(** None is an error *)
Definition common_multiplier : Z := 10.
(** MultipleCost 18-30 *)
Definition multiple_cost (cost mult : Z) : option Z :=
  if mult <? common_multiplier then None else if mult =? common_multiplier then Some cost else
  if max_u64 / mult <? cost then None else Some (wrap64 (cost * mult) / 10).
(** UseQuota 33-39 *)
Definition use_quota (left cost : Z) : option Z := if left <? cost then None else Some (wrap64 (left - cost)).
(** UseQuotaWithFlag 42-47 *)
Definition use_quota_flag (left cost : Z) (flag : bool) : option Z := if flag then use_quota left cost else Some (wrap64 (left + cost)).
(** DataQuotaCost 69-78; [price] is TxDataQuota, a nonzero constant of the tables *)
Definition data_cost (len price : Z) : option Z :=
  if 0 <? len then if max_u64 / price <? len then None else Some (wrap64 (len * price)) else Some 0.
(** BlockGasCost 50-66 *)
Definition block_cost (len base snapshots price snapshot_price : Z) : option Z :=
  match data_cost len price with
  | None => None
  | Some d =>
    if wrap64 (max_u64 - base) <? d then None else
    let g := wrap64 (base + d) in
    if snapshots =? 0 then Some g else
    let c := wrap64 (snapshots * snapshot_price) in
    if wrap64 (max_u64 - g) <? c then None else Some (wrap64 (g + c))
  end.
(** helper.SafeAdd, common/helper/math_integer.go 12-14; RequestQuotaCost 81-91: on overflow the (nil) error of the data cost is returned *)
Definition request_cost (len base price : Z) : option Z :=
  match data_cost len price with
  | None => None
  | Some d => if wrap64 (max_u64 - base) <? d then Some 0 else Some (wrap64 (base + d))
  end.
(** CalcQuotaUsed 94-106; [out_of_quota]: the error was ErrOutOfQuota *)
Definition quota_used (use out_of_quota : bool) (total addition left : Z) : Z * Z :=
  if negb use then (0, 0) else if out_of_quota then (0, 0) else
  let u := wrap64 (total - left) in
  if u <? addition then (0, u) else (wrap64 (u - addition), u).
