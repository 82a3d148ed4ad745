(** The governance contract: registration of block producers, their deposits, addresses and rewards, and votes
    (vm/contracts/contracts_governance.go, vm/contracts/abi/abi_gonvernance.go, vm/util/consensus_reader.go).
    Addresses are numbers, names are their bytes. The keys of groups (11 bytes), registrations (30), past names of addresses (31),
    votes (32) and lists of names (21) have different lengths, so they are separate maps here (abi_gonvernance.go:77-157). The key of a registration
    holds a truncated hash of the name; the model uses the name. Only the snapshot group is modelled: it is the only group of the genesis
    configurations that the contract accepts registrations for (contracts_governance.go:56), and no method creates a group. *)
From Verif Require Import Lib SchedModel StatsModel.

Definition vite : Z := 0.   (* the id of the VITE token *)
Definition zin (x : Z) (l : list Z) : bool := existsb (Z.eqb x) l.
Notation name := (list Z).
(** common/types/contracts.go:35-49 (Registration, IsActive). *)
Record reg : Type := { r_name : name; r_prod : Z; r_wd : Z; r_owner : Z; r_amount : Z; r_exp : Z; r_rt : Z; r_rv : Z; r_his : list Z }.
Definition is_active (r : reg) : bool := r_rv r =? 0.
(** What the contract stores. An absent value is the empty string. *)
Record gstate : Type := { g_regs : list reg; g_his : Z -> name; g_names : Z -> list Z; g_votes : Z -> name }.
(** abi_gonvernance.go:351-366 (GetRegistration). *)
Fixpoint get_reg (n : name) (l : list reg) : option reg :=
  match l with [] => None | r :: q => if zlist_eqb (r_name r) n then Some r else get_reg n q end.
Fixpoint put_reg (r : reg) (l : list reg) : list reg :=
  match l with [] => [r] | x :: q => if zlist_eqb (r_name x) (r_name r) then r :: q else x :: put_reg r q end.
(** Storing a registration. Before the Earth upgrade the withdraw address is not stored, and reading gives the owner
    (abi_gonvernance.go:368-381, UnpackRegistration). *)
Definition stored (earth : bool) (r : reg) : reg :=
  if earth then r else {| r_name := r_name r; r_prod := r_prod r; r_wd := r_owner r; r_owner := r_owner r; r_amount := r_amount r; r_exp := r_exp r; r_rt := r_rt r; r_rv := r_rv r; r_his := r_his r |}.
Definition upd {A} (f : Z -> A) (k : Z) (v : A) : Z -> A := fun x => if x =? k then v else f x.

(** ** Names *)
(** contracts_governance.go:55-65 (checkRegisterAndVoteParam): the language of the regular expression ^([0-9a-zA-Z_.]+[ ]?)*[0-9a-zA-Z_.]$, written out:
    words of allowed characters separated by single spaces; params.go:19 (at most 40 bytes). *)
Definition char_ok (c : Z) : bool := ((48 <=? c) && (c <=? 57)) || ((97 <=? c) && (c <=? 122)) || ((65 <=? c) && (c <=? 90)) || (c =? 95) || (c =? 46).
Fixpoint words_ok (l : list Z) : bool :=
  match l with [] => false | [c] => char_ok c | c :: q => char_ok c && match q with 32 :: r => words_ok r | _ => words_ok q end end.
Definition name_ok (n : name) : bool := negb (zlen n =? 0) && (zlen n <=? 40) && words_ok n.

(** ** The list of names kept for a withdraw address *)
Definition comma : Z := 44.
Fixpoint starts (p v : list Z) : bool := match p, v with [], _ => true | x :: p', y :: v' => (x =? y) && starts p' v' | _, [] => false end.
(** strings.Index: the position of the first occurrence. *)
Fixpoint index_of (p v : list Z) : option nat :=
  if starts p v then Some O else match v with [] => None | _ :: v' => option_map S (index_of p v') end.
(** contracts_governance.go:186-194 (addWithdrawRewardAddress). *)
Definition add_name (m : Z -> list Z) (a : Z) (n : name) : Z -> list Z :=
  upd m a (match m a with [] => n | v => v ++ [comma] ++ n end).
(** contracts_governance.go:195-208 (deleteWithdrawRewardAddress): equal, prefix, suffix, middle. *)
Definition del_name (m : Z -> list Z) (a : Z) (n : name) : Z -> list Z :=
  let v := m a in
  if zlist_eqb v n then upd m a []
  else if starts (n ++ [comma]) v then upd m a (skipn (S (length n)) v)
  else if starts (rev ([comma] ++ n)) (rev v) then upd m a (firstn (length v - length n - 1) v)
  else match index_of ([comma] ++ n ++ [comma]) v with
       | Some (S i) => upd m a (firstn (S i) v ++ skipn (S i + length n + 1) v)
       | _ => m
       end.
(** contracts_governance.go:163-184 (saveWithdrawRewardAddress). *)
Definition save_name (m : Z -> list Z) (old : option Z) (new owner : Z) (n : name) : Z -> list Z :=
  match old with
  | None => if new =? owner then m else add_name m new n
  | Some o =>
      if o =? new then m
      else if o =? owner then add_name m new n
      else if new =? owner then del_name m o n
      else add_name (del_name m o n) new n
  end.
(** strings.Split by commas. *)
Fixpoint split_names (v : list Z) : list name :=
  match v with
  | [] => [[]]
  | c :: r => if c =? comma then [] :: split_names r else match split_names r with w :: ws => (c :: w) :: ws | [] => [[c]] end
  end.
(** abi_gonvernance.go:324-350 (GetRegistrationListByRewardWithdrawAddr). *)
Definition paying_to (s : gstate) (a : Z) : list reg :=
  match g_names s a with
  | [] => []
  | v => flat_map (fun n => match get_reg n (g_regs s) with Some r => [r] | None => [] end) (split_names v)
  end.

(** ** Rewards *)
(** params.go:25, 31-36. *)
Definition reward_limit : Z := 3600.
Definition stake_pre : Z := 500000 * 10 ^ 18.
Definition stake_main : Z := 1000000 * 10 ^ 18.
Definition reward_per_block : Z := 951293759512937595.

(** One producer's and a day's statistics: ledger/consensus/core/sbp_reader.go:25-40 (SbpStats, DayStats). *)
Record sbp : Type := { sb_votes : Z; sb_num : Z; sb_exp : Z }.
Record detail : Type := { d_index : Z; d_stats : list (name * sbp); d_total : Z; d_votesum : Z }.
(** consensus_snapshot.go:174-184: which name an address has produced for; of several registrations the last one counts. *)
Definition name_of (regs : list reg) (a : Z) : name := fold_left (fun acc r => if zin a (r_his r) then r_name r else acc) regs [].
(** consensus_snapshot.go:202-206: adding to the statistics of a name, if it is among them. *)
Definition add_sbp (n : name) (e f : Z) (l : list (name * sbp)) : list (name * sbp) :=
  map (fun x => if zlist_eqb (fst x) n then (fst x, {| sb_votes := sb_votes (snd x); sb_num := wrap64 (sb_num (snd x) + f); sb_exp := wrap64 (sb_exp (snd x) + e) |}) else x) l.
(** consensus_snapshot.go:194-211. *)
Definition day_detail (regs : list reg) (i : Z) (p : point) (v : votes) : detail :=
  let st := fold_left (fun acc x => (add_sbp (name_of regs (fst x)) (fst (snd x)) (snd (snd x)) (fst acc), wrap64 (snd acc + snd (snd x))))
              (p_sbps p) (map (fun y => (fst y, {| sb_votes := snd y; sb_num := 0; sb_exp := 0 |})) (v_details v), 0) in
  {| d_index := i; d_stats := fst st; d_total := snd st; d_votesum := v_total v |}.
(** consensus_snapshot.go:140-214 (DayStats) for [n] days from day [i]. [days]: the statistics of the days with blocks, as StatsModel.day_points returns them. *)
Fixpoint day_stats (days : Z -> option point) (regs : list reg) (i : Z) (n : nat) : list detail :=
  match n with
  | O => []
  | S k => match days i with
           | Some p => match p_votes p with Some v => [day_detail regs i p v] | None => [] end
           | None => []
           end ++ day_stats days regs (i + 1) k
  end.

(** contracts_governance.go:607-645 (calcRewardByDayDetail): the vote reward and the block reward. *)
Fixpoint get_sbp (n : name) (l : list (name * sbp)) : option sbp := match l with [] => None | x :: r => if zlist_eqb (fst x) n then Some (snd x) else get_sbp n r end.
Definition day_reward (d : detail) (n : name) (stake : Z) : Z * Z :=
  match get_sbp n (d_stats d) with
  | None => (0, 0)
  | Some s =>
      if sb_exp s =? 0 then (0, 0)
      else (Z.quot (Z.quot (Z.quot ((sb_votes s + stake) * d_total d * 50 * reward_per_block * sb_num s) (zlen (d_stats d) * stake + d_votesum d)) (sb_exp s)) 100,
            Z.quot (sb_num s * 50 * reward_per_block) 100)
  end.
(** contracts_governance.go:514-533 (getSnapshotGroupStakeAmount). [fork]: the day of the Leaf upgrade. *)
Definition stake_of (leaf : bool) (fork i : Z) : Z := if negb leaf then stake_pre else if i <=? fork then stake_pre else stake_main.
(** contracts_governance.go:495-505: the sum over days. *)
Definition sum_rewards (leaf : bool) (fork : Z) (n : name) (ds : list detail) : Z :=
  fold_left (fun acc d => acc + (fst (day_reward d n (stake_of leaf fork (d_index d))) + snd (day_reward d n (stake_of leaf fork (d_index d))))) ds 0.

Section Gov.
Variable g : group.                      (* the snapshot group: its genesis time *)
Variable days : Z -> option point.       (* the statistics of each day *)
Variable fork stake_height : Z.          (* the day of the Leaf upgrade; the lock of a deposit in snapshot blocks (StakeHeight) *)

(** consensus_reader.go:117-127: days of times in seconds. *)
Definition time_idx (t : Z) : Z := time2index (day_index g) (t * sec).
Definition start_time (i : Z) : Z := unix (fst (index2time (day_index g) i)).
Definition end_time (i : Z) : Z := unix (snd (index2time (day_index g) i)).
Definition genesis_time : Z := unix (g_genesis g).
(** consensus_reader.go:49-59 (GetIndexByStartTime). *)
Definition by_start (t : Z) : Z * Z * bool :=
  if t <? 0 then (0, 0, true)
  else if t <=? genesis_time then (0, genesis_time, false)
  else let i := wrap64 (time_idx (t - 1) + 1) in (i, start_time i, false).
(** consensus_reader.go:72-82 (GetIndexByEndTime). *)
Definition by_end (t : Z) : Z * Z * bool :=
  if t <? genesis_time then (0, genesis_time, true)
  else let i := time_idx t in if i =? 0 then (0, genesis_time, true) else (i - 1, end_time (i - 1), false).

(** What a request meets. [e_height], [e_time]: the snapshot block that confirmed it (GlobalStatus().SnapshotBlock()); [e_leaf], [e_earth]: the upgrades
    at the newest snapshot block; [e_earth_c]: the Earth upgrade at the confirming one. [e_panic]: the calculation of a reward panics. *)
Record env : Type := { e_caller : Z; e_amount : Z; e_token : Z; e_height : Z; e_time : Z; e_leaf : bool; e_earth : bool; e_earth_c : bool; e_panic : bool }.

(** contracts_governance.go:467-507 (calcReward): end time, total reward and whether no more will come. [regs]: the registrations at the newest snapshot. *)
Definition calc (e : env) (regs : list reg) (o : reg) : Z * option Z * bool :=
  match by_start (r_rt o) with
  | (_, _, true) => (0, None, true)
  | (si, _, false) =>
      let limit := e_time e - reward_limit in
      let '(ei, et, within, drained) :=
        if is_active o then (by_end limit, false)
        else if snd (fst (by_end (r_rv o))) <=? limit then (by_end (r_rv o), true) else (by_end limit, false) in
      if within || (ei <? si) then (et, Some 0, drained)
      else (et, Some (sum_rewards (e_leaf e) fork (r_name o) (day_stats days regs si (Z.to_nat (ei - si + 1)))), drained)
  end.
(** contracts_governance.go:456-465 (CalcReward): a panic is recovered; the error assigned is a local one, so the results are all zero. *)
Definition calc_reward (e : env) (regs : list reg) (o : reg) : Z * option Z * bool := if e_panic e then (0, None, false) else calc e regs o.
(** contracts_governance.go:420-434 (checkRewardDrained, RewardDrained). *)
Definition drained_of (e : env) (regs : list reg) (o : reg) : bool :=
  let '(_, rw, d) := calc_reward e regs o in d && match rw with None => true | Some x => x =? 0 end.

(** ** Requests *)
Inductive call : Type :=
| CRegister (wd : option Z) (n : name) (prod : Z)     (* RegisterV3 with a withdraw address, or Register/RegisterV2 *)
| CRevoke (n : name)
| CWithdraw (n : name) (to : Z)
| CUpdateProd (n : name) (prod : Z)
| CUpdateWd (n : name) (wd : Z)
| CVote (n : name)
| CCancelVote.
(** DoSend: contracts_governance.go:36-53, 227-247, 327-347, 665-685, 759-775, 820-842, 884-903. Votes of contracts before the Stem upgrade are refused too; not modelled. *)
Definition do_send (amount : Z) (c : call) : bool :=
  match c with
  | CRegister _ n _ => name_ok n
  | CRevoke n | CUpdateProd n _ | CUpdateWd n _ | CVote n => (amount =? 0) && name_ok n
  | CWithdraw _ _ | CCancelVote => amount =? 0
  end.
(** What a call sends: a payment in VITE or a request to issue VITE. *)
Inductive out : Type := Nothing | Pay (to amount : Z) | Mint (n : name) (to amount : Z).

(** contracts_governance.go:106-123 and 699-714: an address belongs to one name. The result: the list of addresses and past names after. *)
Definition claim (s : gstate) (a : Z) (n : name) (his : list Z) : option (list Z * (Z -> name)) :=
  match g_his s a with [] => Some (his ++ [a], upd (g_his s) a n) | m => if zlist_eqb m n then Some (his, g_his s) else None end.

(** DoReceive: contracts_governance.go:67-161, 248-307, 348-418, 686-741, 776-801, 843-865, 904-913. *)
Definition receive (e : env) (snap : list reg) (s : gstate) (c : call) : option (gstate * out) :=
  match c with
  | CRegister wd n prod =>
      let w := match wd with Some x => x | None => e_caller e end in
      if negb (e_amount e =? (if e_leaf e then stake_main else stake_pre)) || negb (e_token e =? vite) then None
      else
        let old := get_reg n (g_regs s) in
        if match old with Some o => is_active o || negb (r_owner o =? e_caller e) || negb (drained_of e snap o) | None => false end then None
        else
          match claim s prod n (match old with Some o => r_his o | None => [] end) with
          | None => None
          | Some (his, hm) =>
              let r := {| r_name := n; r_prod := prod; r_wd := w; r_owner := e_caller e; r_amount := e_amount e;
                          r_exp := wrap64 (e_height e + stake_height); r_rt := e_time e; r_rv := 0; r_his := his |} in
              Some ({| g_regs := put_reg (stored (e_earth e) r) (g_regs s); g_his := hm;
                       g_names := if e_earth e then save_name (g_names s) (option_map r_wd old) w (e_caller e) n else g_names s; g_votes := g_votes s |}, Nothing)
          end
  | CRevoke n =>
      match get_reg n (g_regs s) with
      | None => None
      | Some o =>
          if negb (is_active o) || negb (r_owner o =? e_caller e) || (e_height e <? r_exp o) then None
          else
            let r := {| r_name := r_name o; r_prod := r_prod o; r_wd := r_wd o; r_owner := r_owner o; r_amount := 0; r_exp := 0;
                        r_rt := if drained_of e snap o then -1 else r_rt o; r_rv := e_time e; r_his := r_his o |} in
            Some ({| g_regs := put_reg (stored (e_earth_c e) r) (g_regs s); g_his := g_his s; g_names := g_names s; g_votes := g_votes s |},
                  if 0 <? r_amount o then Pay (e_caller e) (r_amount o) else Nothing)
      end
  | CWithdraw n to =>
      match get_reg n (g_regs s) with
      | None => None
      | Some o =>
          if (r_rt o =? -1) || (negb (e_caller e =? r_owner o) && negb (e_caller e =? r_wd o)) then None
          else
            let '(et, rw, drained) := calc_reward e snap o in
            let et' := if drained then -1 else et in
            if et' =? r_rt o then Some (s, Nothing)
            else
              let r := {| r_name := r_name o; r_prod := r_prod o; r_wd := r_wd o; r_owner := r_owner o; r_amount := r_amount o; r_exp := r_exp o;
                          r_rt := et'; r_rv := r_rv o; r_his := r_his o |} in
              Some ({| g_regs := put_reg (stored (e_earth e) r) (g_regs s); g_his := g_his s; g_names := g_names s; g_votes := g_votes s |},
                    match rw with Some x => if 0 <? x then Mint n to x else Nothing | None => Nothing end)
      end
  | CUpdateProd n prod =>
      match get_reg n (g_regs s) with
      | None => None
      | Some o =>
          if negb (is_active o) || negb (r_owner o =? e_caller e) || (r_prod o =? prod) then None
          else
            match claim s prod n (r_his o) with
            | None => None
            | Some (his, hm) =>
                let r := {| r_name := r_name o; r_prod := prod; r_wd := r_wd o; r_owner := r_owner o; r_amount := r_amount o; r_exp := r_exp o;
                            r_rt := r_rt o; r_rv := r_rv o; r_his := his |} in
                Some ({| g_regs := put_reg (stored (e_earth e) r) (g_regs s); g_his := hm; g_names := g_names s; g_votes := g_votes s |}, Nothing)
            end
      end
  | CUpdateWd n wd =>
      match get_reg n (g_regs s) with
      | None => None
      | Some o =>
          if negb (is_active o) || negb (r_owner o =? e_caller e) || (r_wd o =? wd) then None
          else
            let r := {| r_name := r_name o; r_prod := r_prod o; r_wd := wd; r_owner := r_owner o; r_amount := r_amount o; r_exp := r_exp o;
                        r_rt := r_rt o; r_rv := r_rv o; r_his := r_his o |} in
            Some ({| g_regs := put_reg r (g_regs s); g_his := g_his s; g_names := save_name (g_names s) (Some (r_wd o)) wd (r_owner o) (r_name o); g_votes := g_votes s |}, Nothing)
      end
  | CVote n =>
      match get_reg n (g_regs s) with
      | Some o => if is_active o then Some ({| g_regs := g_regs s; g_his := g_his s; g_names := g_names s; g_votes := upd (g_votes s) (e_caller e) n |}, Nothing) else None
      | None => None
      end
  | CCancelVote => Some ({| g_regs := g_regs s; g_his := g_his s; g_names := g_names s; g_votes := upd (g_votes s) (e_caller e) [] |}, Nothing)
  end.

(** ** The contract among the accounts *)
(** [w_snap]: the registrations at the newest snapshot; [w_bal]: the VITE of the contract; [w_time]: the time of the last request's confirming snapshot;
    [w_earth]: whether the newest snapshot was after the Earth upgrade then; [w_mints]: all requests to issue VITE so far, with the registration they were for. *)
Record world : Type := { w_st : gstate; w_snap : list reg; w_bal : Z; w_time : Z; w_earth : bool; w_mints : list (name * Z) }.
(** RegisterV3 and UpdateSBPRewardWithdrawAddress exist from the Earth upgrade on (contracts.go:204-210, by the newest snapshot height: vm.go:453, 530). *)
Definition exists_method (e : env) (c : call) : bool := match c with CRegister (Some _) _ _ | CUpdateWd _ _ => e_earth e | _ => true end.
Definition amount_of (e : env) : Z := if e_token e =? vite then e_amount e else 0.
(** Receiving a request: vm/vm.go:530-575 (receiveCall of a built-in contract). The amount is added; when DoReceive fails or the contract cannot pay, everything is
    undone and the amount goes back. *)
Definition request (w : world) (e : env) (c : call) : world * out :=
  let refused := ({| w_st := w_st w; w_snap := w_snap w; w_bal := w_bal w; w_time := e_time e; w_earth := e_earth e; w_mints := w_mints w |}, Nothing) in
  match receive e (w_snap w) (w_st w) c with
  | None => refused
  | Some (s, o) =>
      let paid := match o with Pay _ x => x | _ => 0 end in
      if w_bal w + amount_of e <? paid then refused
      else ({| w_st := s; w_snap := w_snap w; w_bal := w_bal w + amount_of e - paid; w_time := e_time e; w_earth := e_earth e;
               w_mints := match o with Mint n _ x => w_mints w ++ [(n, x)] | _ => w_mints w end |}, o)
  end.
Inductive op : Type :=
| ORequest (e : env) (c : call)
| OSnapshot.                         (* the newest account blocks get into a snapshot *)
Definition w_step (w : world) (x : op) : world :=
  match x with
  | ORequest e c => if do_send (e_amount e) c && exists_method e c then fst (request w e c) else w
  | OSnapshot => {| w_st := w_st w; w_snap := g_regs (w_st w); w_bal := w_bal w; w_time := w_time w; w_earth := w_earth w; w_mints := w_mints w |}
  end.
End Gov.
