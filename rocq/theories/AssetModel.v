(** Model of the asset contract: vm/contracts/contracts_asset.go, vm/contracts/abi/abi_asset.go. Addresses and token ids are
    numbers. Keys of token infos (10 bytes), owner lists (21 bytes) and next indexes (32 bytes, the hash of the symbol) have
    different lengths, so they are three maps here; symbols stand for their hashes. *)
From Verif Require Import Lib.

Definition upd {A} (f : Z -> A) (k : Z) (v : A) : Z -> A := fun x => if x =? k then v else f x.
(** types.TokenInfo as stored by PackVariable, abi_asset.go 36 *)
Record tinfo := mkT { t_name : list Z; t_symbol : list Z; t_total : Z; t_dec : Z; t_owner : Z; t_re : bool; t_max : Z; t_ob : bool; t_index : Z }.
Record astate := mkA {
  a_info : Z -> option tinfo;            (* GetTokenByID, abi_asset.go 153-166 *)
  a_next : list Z -> Z;                  (* next index of a symbol; 0 when absent, contracts_asset.go 100-107 *)
  a_own : Z -> list Z }.                 (* the ids stored under an owner, abi_asset.go 130-137 *)

(** packing a uint256: vm/abi/numbers.go U256, common/helper/math_big.go 25-27 *)
Definition pack (x : Z) : Z := x mod two256.
Definition s_vite : list Z := [86; 73; 84; 69].
Definition s_vcp : list Z := [86; 67; 80].
Definition s_vx : list Z := [86; 88].
(** params.go 21-24, 38 *)
Definition name_max : Z := 40.
Definition symbol_max : Z := 10.
Definition index_max : Z := 1000.
Definition issue_fee : Z := 1000 * 10 ^ 18.
Definition vite : Z := 0.   (* the id of the VITE token *)

(** the decoded parameters of the calls; [name_ok], [symbol_ok]: the regular expressions of 73-78 match. [tid] is the id
    the receiving block gives the token (newTokenID 146-151) *)
Inductive acall :=
| CIssue (re : bool) (name symbol : list Z) (name_ok symbol_ok : bool) (total dec maxs : Z) (ob : bool) (tid : Z)
| CReissue (t amt to : Z)
| CBurn
| CBurn2
| CTransfer (t owner : Z)
| CDisable (t : Z)
| CGetInfo (t : Z).

(** checkToken 59-90; [earth]: IsEarthUpgrade at the sender's snapshot height *)
Definition check_token (earth re : bool) (name symbol : list Z) (name_ok symbol_ok : bool) (total dec maxs : Z) (ob : bool) : bool :=
  negb ((two256 - 1 <? total) || (zlen name =? 0) || (name_max <? zlen name) || (zlen symbol =? 0) || (symbol_max <? zlen symbol)) &&
  negb (negb earth && ((total <=? 0) || (total <? 10 ^ dec))) &&
  negb (earth && negb re && (total <=? 0)) &&
  name_ok && symbol_ok &&
  negb (zlist_eqb symbol s_vite || zlist_eqb symbol s_vcp || zlist_eqb symbol s_vx) &&
  (if re then negb ((maxs <? total) || (two256 - 1 <? maxs)) else negb ((0 <? maxs) || ob)).
(** GetFee and DoSend of each method: 20-25 and 35-56, 169-180, 232-238, 283-288, 311-325, 374-385, 435-450 *)
Definition do_send (earth : bool) (caller amount : Z) (c : acall) : bool :=
  match c with
  | CIssue re name symbol no so total dec maxs ob _ => negb (0 <? amount) && check_token earth re name symbol no so total dec maxs ob
  | CReissue _ amt _ => negb ((amt <=? 0) || (0 <? amount))
  | CBurn => negb (amount <=? 0)
  | CBurn2 => false
  | CTransfer _ owner => negb (0 <? amount) && negb (owner =? caller)
  | CDisable _ => negb (0 <? amount)
  | CGetInfo _ => negb (0 <? amount)
  end.
Definition fee (c : acall) : Z := match c with CIssue _ _ _ _ _ _ _ _ _ _ => issue_fee | _ => 0 end.
(** DeleteTokenID, abi_asset.go 140-150: the first occurrence *)
Fixpoint delete_id (l : list Z) (t : Z) : list Z := match l with [] => [] | x :: r => if x =? t then r else x :: delete_id r t end.

(** a block sent by the contract: receiver, token, amount, and whether it is a reward (created, not taken from the contract) *)
Record asend := mkAs { as_to : Z; as_token : Z; as_amount : Z; as_reward : bool }.
(** DoReceive of each method; [bal]: the contract's balance of the token of the request, [tok]; [earth]: at the receiving
    block. None: the call fails and is refunded by the VM. Logs are not modelled. *)
Definition do_receive (earth : bool) (s : astate) (bal caller tok amount : Z) (c : acall) : option (astate * Z * list asend) :=
  match c with
  | CIssue re name symbol _ _ total dec maxs ob tid =>                                  (* 91-144 *)
    match a_info s tid with
    | Some _ => None
    | None =>
      let i := a_next s symbol in
      if i =? index_max then None else
      Some (mkA (upd (a_info s) tid (Some (mkT name symbol (pack total) dec caller re (pack maxs) ob i)))
                (fun x => if zlist_eqb x symbol then (i + 1) mod 2 ^ 16 else a_next s x)
                (upd (a_own s) caller (a_own s caller ++ [tid])),
            bal, [mkAs caller tid total true])
    end
  | CReissue t amt to =>                                                                (* 181-214 *)
    match a_info s t with
    | None => None
    | Some i =>
      if negb (t_re i) || negb (t_owner i =? caller) || (t_max i - t_total i <? amt) then None else
      Some (mkA (upd (a_info s) t (Some (mkT (t_name i) (t_symbol i) (pack (t_total i + amt)) (t_dec i) (t_owner i) (t_re i) (pack (t_max i)) (t_ob i) (t_index i))))
                (a_next s) (a_own s), bal, [mkAs to t amt true])
    end
  | CBurn =>                                                                            (* 239-264 *)
    match a_info s tok with
    | None => None
    | Some i =>
      if (negb earth && negb (t_re i)) || (t_ob i && negb (t_owner i =? caller)) then None else
      if bal <? amount then None else
      Some (mkA (upd (a_info s) tok (Some (mkT (t_name i) (t_symbol i) (pack (t_total i - amount)) (t_dec i) (t_owner i) (t_re i) (pack (t_max i)) (t_ob i) (t_index i))))
                (a_next s) (a_own s), bal - amount, [])
    end
  | CBurn2 => Some (s, bal, [])                                                         (* 291-293 *)
  | CTransfer t owner =>                                                                (* 326-356 *)
    match a_info s t with
    | None => None
    | Some i =>
      if negb (t_re i) || negb (t_owner i =? caller) then None else
      let own := upd (a_own s) caller (delete_id (a_own s caller) t) in
      Some (mkA (upd (a_info s) t (Some (mkT (t_name i) (t_symbol i) (pack (t_total i)) (t_dec i) owner (t_re i) (pack (t_max i)) (t_ob i) (t_index i))))
                (a_next s) (upd own owner (own owner ++ [t])), bal, [])
    end
  | CDisable t =>                                                                       (* 386-409 *)
    match a_info s t with
    | None => None
    | Some i =>
      if negb (t_re i) || negb (t_owner i =? caller) then None else
      Some (mkA (upd (a_info s) t (Some (mkT (t_name i) (t_symbol i) (pack (t_total i)) (t_dec i) (t_owner i) false 0 false (t_index i))))
                (a_next s) (a_own s), bal, [])
    end
  | CGetInfo _ => Some (s, bal, [mkAs caller vite 0 false])                             (* 452-481 *)
  end.

(** ** The contract among the accounts *)
(** [w_bal]: balances of the contract; [w_out]: for each token everything the other accounts hold or that is in transit;
    [w_fees]: VITE destroyed as fees *)
Record world := mkW { w_st : astate; w_bal : Z -> Z; w_out : Z -> Z; w_fees : Z }.
(** a call that passed DoSend is received: vm.go receiveCall for built-in contracts (the request's amount is added to the
    contract; a failure is refunded with amount and fee; blocks sent take the amount from the contract unless they are
    rewards, vm.go sendReward) *)
Definition pay (o : asend) (w : world) : world :=
  mkW (w_st w) (if as_reward o then w_bal w else upd (w_bal w) (as_token o) (w_bal w (as_token o) - as_amount o))
      (upd (w_out w) (as_token o) (w_out w (as_token o) + as_amount o)) (w_fees w).
Definition receive (earth : bool) (w : world) (caller tok amount : Z) (c : acall) : world * bool :=
  match do_receive earth (w_st w) (w_bal w tok + amount) caller tok amount c with
  | None => (w, false)
  | Some (s, b, outs) =>
    let out1 := upd (w_out w) tok (w_out w tok - amount) in
    (fold_left (fun w o => pay o w) outs (mkW s (upd (w_bal w) tok b) (upd out1 vite (out1 vite - fee c)) (w_fees w + fee c)), true)
  end.
(** GetTokenMapByOwner, abi_asset.go 198-215: the tokens listed for an owner *)
Definition tokens_of (s : astate) (owner : Z) : list (Z * option tinfo) := map (fun t => (t, a_info s t)) (a_own s owner).
(** newGenesisAssetContractBlocks, ledger/chain/genesis/account_block.go 159-199: infos in a fixed order, no owner lists *)
Fixpoint genesis (l : list (Z * tinfo)) (s : astate) : astate :=
  match l with
  | [] => s
  | (t, i) :: r =>
    let n := a_next s (t_symbol i) in
    genesis r (mkA (upd (a_info s) t (Some (mkT (t_name i) (t_symbol i) (pack (t_total i)) (t_dec i) (t_owner i) (t_re i) (pack (t_max i)) (t_ob i) n)))
                   (fun x => if zlist_eqb x (t_symbol i) then (n + 1) mod 2 ^ 16 else a_next s x) (a_own s))
  end.
Definition empty_state : astate := mkA (fun _ => None) (fun _ => 0) (fun _ => []).
