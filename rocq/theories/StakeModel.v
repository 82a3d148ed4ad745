(** Model of staking for quota: vm/contracts/contracts_quota.go, vm/contracts/abi/abi_quota.go. Addresses, block hashes and ids
    are numbers. Keys of stake records (29 bytes), of credited amounts (21 bytes) and of ids (32 bytes) have different
    lengths, so they are three maps here. *)
From Verif Require Import Lib AssetModel.

(** stakeInfo and stakeInfoV2 as stored under (staker, index): abi_quota.go 41-43, 110-112, 267-280. [r_id] is None for the
    192 byte form; the other form has no delegate fields, which decode as zero *)
Record srec := mkR { r_staker : Z; r_index : Z; r_amount : Z; r_exp : Z; r_ben : Z; r_del : bool; r_daddr : Z; r_bid : Z; r_id : option Z }.
(** records in key order (address, then index, both fixed length big-endian); credited amounts; keys by id *)
Record sstate := mkS { s_recs : list srec; s_ben : Z -> option Z; s_ids : Z -> option (Z * Z) }.

Definition key (r : srec) : Z * Z := (r_staker r, r_index r).
Definition kltb (a b : Z * Z) : bool := (fst a <? fst b) || ((fst a =? fst b) && (snd a <? snd b)).
Definition keqb (a b : Z * Z) : bool := (fst a =? fst b) && (snd a =? snd b).
(** SetValue on a record key, GetStakeInfoByKey (abi_quota.go 240-249), SetValue nil *)
Fixpoint put (r : srec) (l : list srec) : list srec :=
  match l with
  | [] => [r]
  | x :: l' => if kltb (key r) (key x) then r :: x :: l' else if keqb (key r) (key x) then r :: l' else x :: put r l'
  end.
Definition get (k : Z * Z) (l : list srec) : option srec := find (fun r => keqb k (key r)) l.
Definition del (k : Z * Z) (l : list srec) : list srec := filter (fun r => negb (keqb k (key r))) l.

(** params.go 26, 37 *)
Definition stake_height_max : Z := 3600 * 24 * 365.
Definition stake_min : Z := 134 * 10 ^ 18.

(** the decoded calls: Pledge/Stake, CancelPledge/CancelStake, AgentPledge/DelegateStake, AgentCancelPledge/
    CancelDelegateStake, StakeForQuota (None) / StakeForQuotaWithCallback (Some height), CancelQuotaStaking(WithCallback).
    All are active together after the Earth upgrade, contracts.go 68-75, 101-104, 155-158, 219-222 *)
Inductive scall :=
| SStake (ben : Z)
| SCancel (ben amt : Z)
| SDelegate (staker ben bid height : Z)
| SCancelDelegate (staker ben amt bid : Z)
| SStake3 (ben : Z) (height : option Z)
| SCancel3 (id : Z).

(** DoSend: 41-52, 138-151, 221-235, 302-315, 392-410, 483-493; [sh]: nodeConfig.params.StakeHeight *)
Definition s_send (sh tok amount : Z) (c : scall) : bool :=
  match c with
  | SStake _ => negb (negb (tok =? vite) || (amount <? stake_min))
  | SCancel _ amt => negb (0 <? amount) && negb (amt <? stake_min)
  | SDelegate _ _ _ h => negb (negb (tok =? vite) || (amount <? stake_min)) && negb ((h <? sh) || (stake_height_max <? h))
  | SCancelDelegate _ _ amt _ => negb (0 <? amount) && negb (amt <? stake_min)
  | SStake3 _ None => negb (negb (tok =? vite) || (amount <? stake_min))
  | SStake3 _ (Some h) => negb (negb (tok =? vite) || (amount <? stake_min)) && negb ((h <? sh) || (stake_height_max <? h))
  | SCancel3 _ => negb (0 <? amount)
  end.

(** getStakeInfo 83-109: the first record of the staker in index order that matches, or the next free key *)
Definition matches (staker ben : Z) (dlg : bool) (daddr bid : Z) (r : srec) : bool :=
  (r_staker r =? staker) && ((r_ben r =? ben) && Bool.eqb (r_del r) dlg && (r_daddr r =? daddr) && (r_bid r =? bid)).
Definition max_index (staker : Z) (l : list srec) : Z :=
  fold_left (fun m r => if r_staker r =? staker then Z.max m (r_index r) else m) l 0.
(** getNextStakeInfoKey 544-566 *)
Definition next_key (staker height : Z) (l : list srec) : Z * Z :=
  let m := max_index staker l in (staker, if m <? height then height else (m + 1) mod two64).
(** 111-117 *)
Definition expiration (now h : Z) : Z := (now + h) mod two64.
Definition not_due (now : Z) (r : srec) : bool := now <? r_exp r.

(** the credited amount: read and written back in each DoReceive, e.g. 67-79 and 169-187 *)
Definition ben_add (b : Z -> option Z) (a amount : Z) : Z -> option Z :=
  upd b a (Some (pack (match b a with Some v => v | None => 0 end + amount))).
Definition ben_sub (b : Z -> option Z) (a amount : Z) : option (Z -> option Z) :=
  match b a with
  | None => None
  | Some v => if v <? amount then None else Some (upd b a (if v - amount =? 0 then None else Some (pack (v - amount))))
  end.

(** DoReceive: 53-81, 153-197, 236-277, 317-363, 411-452, 495-542. [height]: height of the receiving block; [now]: height of
    its snapshot; [hash]: hash of the request. The result is the new state and the amount sent back to the caller; None: the
    call fails and is refunded. Callback data is not modelled. *)
Definition s_receive (sh height now : Z) (s : sstate) (caller amount hash : Z) (c : scall) : option (sstate * Z) :=
  match c with
  | SStake ben =>
    let '(k, a) := match find (matches caller ben false 0 0) (s_recs s) with Some r => (key r, r_amount r) | None => (next_key caller height (s_recs s), 0) end in
    Some (mkS (put (mkR (fst k) (snd k) (pack (a + amount)) (expiration now sh) ben false 0 0 None) (s_recs s)) (ben_add (s_ben s) ben amount) (s_ids s), 0)
  | SCancel ben amt =>
    match find (matches caller ben false 0 0) (s_recs s) with
    | None => None
    | Some r =>
      if not_due now r || (r_amount r <? amt) || (match r_id r with Some _ => true | None => false end) then None else
      let a := r_amount r - amt in
      if negb (a =? 0) && (a <? stake_min) then None else
      match ben_sub (s_ben s) ben amt with
      | None => None
      | Some b =>
        Some (mkS (if a =? 0 then del (key r) (s_recs s) else put (mkR (r_staker r) (r_index r) (pack a) (r_exp r) (r_ben r) false 0 0 None) (s_recs s)) b (s_ids s), amt)
      end
    end
  | SDelegate staker ben bid h =>
    let '(k, a, e) := match find (matches staker ben true caller bid) (s_recs s) with
                      | Some r => (key r, r_amount r, r_exp r) | None => (next_key staker height (s_recs s), 0, 0) end in
    Some (mkS (put (mkR (fst k) (snd k) (pack (a + amount)) (Z.max e (expiration now h)) ben true caller bid None) (s_recs s)) (ben_add (s_ben s) ben amount) (s_ids s), 0)
  | SCancelDelegate staker ben amt bid =>
    match find (matches staker ben true caller bid) (s_recs s) with
    | None => None
    | Some r =>
      if not_due now r || (r_amount r <? amt) || (match r_id r with Some _ => true | None => false end) then None else
      let a := r_amount r - amt in
      if negb (a =? 0) && (a <? stake_min) then None else
      match ben_sub (s_ben s) ben amt with
      | None => None
      | Some b =>
        Some (mkS (if a =? 0 then del (key r) (s_recs s) else put (mkR (r_staker r) (r_index r) (pack a) (r_exp r) (r_ben r) true (r_daddr r) bid None) (s_recs s)) b (s_ids s), amt)
      end
    end
  | SStake3 ben h =>
    let k := next_key caller height (s_recs s) in
    Some (mkS (put (mkR (fst k) (snd k) (pack amount) (expiration now (match h with Some x => x | None => sh end)) ben false 0 0 (Some hash)) (s_recs s))
              (ben_add (s_ben s) ben amount) (upd (s_ids s) hash (Some k)), 0)
  | SCancel3 id =>
    match s_ids s id with
    | None => None
    | Some k =>
      match get k (s_recs s) with
      | None => None
      | Some r =>
        if negb (fst k =? caller) || not_due now r then None else
        match ben_sub (s_ben s) (r_ben r) (r_amount r) with
        | None => None
        | Some b => Some (mkS (del k (s_recs s)) b (upd (s_ids s) id None), r_amount r)
        end
      end
    end
  end.

(** ** The contract among the accounts *)
(** [v_bal]: the VITE of the contract; [v_out]: all VITE elsewhere, in accounts or in transit; [v_height]: height of the
    contract's last block; [v_now]: height of the last snapshot it referred to *)
Record sworld := mkV { v_st : sstate; v_bal : Z; v_out : Z; v_height : Z; v_now : Z }.
(** receiving a request: vm.go receiveCall for built-in contracts. The amount is added; when DoReceive fails or the contract
    cannot pay, all is undone and amount and token go back *)
Definition s_step (sh now : Z) (w : sworld) (caller tok amount hash : Z) (c : scall) : sworld * bool :=
  let h := v_height w + 1 in
  let vin := if tok =? vite then amount else 0 in
  match s_receive sh h now (v_st w) caller amount hash c with
  | None => (mkV (v_st w) (v_bal w) (v_out w) h now, false)
  | Some (s, p) => if v_bal w + vin <? p then (mkV (v_st w) (v_bal w) (v_out w) h now, false)
                   else (mkV s (v_bal w + vin - p) (v_out w - vin + p) h now, true)
  end.
(** GetStakeBeneficialAmount, abi_quota.go 200-214 *)
Definition credit (w : sworld) (a : Z) : Z := match s_ben (v_st w) a with Some v => v | None => 0 end.
(** GetStakeInfoList, abi_quota.go 136-167: the records of a staker that are not delegated, and their sum *)
Definition stake_list (w : sworld) (staker : Z) : list srec * Z :=
  fold_left (fun acc r => if (r_staker r =? staker) && (0 <? r_amount r) && negb (r_del r) then (fst acc ++ [r], snd acc + r_amount r) else acc) (s_recs (v_st w)) ([], 0).
(** newGenesisQuotaContractBlocks, ledger/chain/genesis/account_block.go 229-251, for the lists of each staker *)
Definition genesis_recs (staker : Z) (l : list (Z * Z * Z)) : list srec :=
  map (fun e => let '(i, (a, x, b)) := e in mkR staker (Z.of_nat i) (pack a) x b false 0 0 None) (combine (seq 0 (length l)) l).
