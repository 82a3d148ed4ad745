(** What the exchange holds back for seven days before it is available again: VX unlocked from the
    dividends and cancelled mining stakes (vm/contracts/dex/{fund_storage,fund_finish_pendings,
    fund_stake,fund_settle}.go and vm/contracts/contracts_dex_fund.go).
    A period is a day.  Amounts stored as bytes are numbers; an amount of zero is stored as no bytes.
    Stakes of the old version (before the Earth upgrade), the records by which mined VX are shared,
    events and errors of decoding are left out. *)
From Verif Require Import Lib.
Import ListNotations.
Open Scope Z_scope.

(** fund_storage.go:98, 107, 108, 110 *)
Definition ten_vx : Z := 10 * 10 ^ 18.
Definition one_vx : Z := 10 ^ 18.
Definition schedule_periods : Z := 7.
Definition min_stake : Z := 134 * 10 ^ 18.

(** Records by user (or by stake id). *)
Fixpoint get {A} (u : Z) (l : list (Z * A)) : option A := match l with [] => None | (v, x) :: r => if v =? u then Some x else get u r end.
Fixpoint put {A} (u : Z) (x : A) (l : list (Z * A)) : list (Z * A) :=
  match l with [] => [(u, x)] | (v, y) :: r => if v =? u then (u, x) :: r else (v, y) :: put u x r end.
Fixpoint del {A} (u : Z) (l : list (Z * A)) : list (Z * A) :=
  match l with [] => [] | (v, y) :: r => if v =? u then del u r else (v, y) :: del u r end.

(** The account of a user for one token (dexproto.Account): Available, VxLocked and what is held
    back, VxUnlocking for VX and CancellingStake for VITE.  What orders lock is left out. *)
Record acct := Acct { a_avail : Z; a_locked : Z; a_held : Z }.
Notation accts := (list (Z * acct)).

(** What a query of the account shows, nothing if there is none: GetFund, fund_storage.go:876-880 *)
Definition fld (f : acct -> Z) (u : Z) (l : accts) : Z := match get u l with Some x => f x | None => 0 end.
(** updateFund: fund_storage.go:961-982; without an account for the token it fails. *)
Definition update (u : Z) (f : acct -> option acct) (l : accts) : option accts :=
  match get u l with
  | Some x => match f x with Some y => Some (put u y l) | None => None end
  | None => None
  end.
(** DepositAccount: fund_storage.go:1007-1026 *)
Definition deposit (u a : Z) (l : accts) : accts :=
  put u (match get u l with Some x => Acct (a_avail x + a) (a_locked x) (a_held x) | None => Acct a 0 0 end) l.
(** LockMinedVx: fund_storage.go:1028-1048 *)
Definition lock_mined (u a : Z) (l : accts) : accts :=
  put u (match get u l with Some x => Acct (a_avail x) (a_locked x + a) (a_held x) | None => Acct 0 a 0 end) l.
(** ReduceAccount: fund_storage.go:886-896 *)
Definition reduce (u a : Z) : accts -> option accts :=
  update u (fun x => if a_avail x <? a then None else Some (Acct (a_avail x - a) (a_locked x) (a_held x))).
(** LockVxForDividend: fund_storage.go:898-909 *)
Definition lock_vx (u a : Z) : accts -> option accts :=
  update u (fun x => if a_avail x <? a then None else Some (Acct (a_avail x - a) (a_locked x + a) (a_held x))).
(** ScheduleVxUnlockForDividend: fund_storage.go:911-926 *)
Definition schedule_unlock (u a : Z) : accts -> option accts :=
  update u (fun x => if a_locked x <? a then None
                     else let left := a_locked x - a in
                          if negb (left =? 0) && (left <? ten_vx) then None
                          else Some (Acct (a_avail x) left (a_held x + a))).
(** ScheduleCancelStake: fund_storage.go:941-946 *)
Definition schedule_cancel (u a : Z) : accts -> option accts :=
  update u (fun x => Some (Acct (a_avail x) (a_locked x) (a_held x + a))).
(** FinishVxUnlockForDividend and FinishCancelStake: fund_storage.go:928-939, 948-959 *)
Definition finish (u a : Z) : accts -> option accts :=
  update u (fun x => if a_held x <? a then None else Some (Acct (a_avail x + a) (a_locked x) (a_held x - a))).

(** The amounts held back of one user by day, oldest first: VxUnlocks, CancelStakes. *)
Notation pendings := (list (Z * Z)).
(** AddVxUnlock and AddCancelStake: fund_storage.go:2371-2389, 2409-2427; an empty list is not
    stored, so the list read always has a last entry. *)
Fixpoint add_pending (d a : Z) (l : pendings) : pendings :=
  match l with
  | [] => [(d, a)]
  | [(e, b)] => if e =? d then [(e, b + a)] else [(e, b); (d, a)]
  | x :: r => x :: add_pending d a r
  end.
(** The loop over the entries in DoFinishVxUnlock and DoFinishCancelMiningStake:
    fund_finish_pendings.go:41-50, 91-100 (PeriodId+uint64(SchedulePeriods) <= periodId, uint64). *)
Fixpoint due (p : Z) (l : pendings) : Z * pendings :=
  match l with
  | (d, a) :: r => if wrap64 (d + schedule_periods) <=? p then (a + fst (due p r), snd (due p r)) else (0, l)
  | [] => (0, [])
  end.
(** UpdateVxUnlocks and UpdateCancelStakes: fund_storage.go:2391-2397, 2429-2435 *)
Definition save (u : Z) (r : pendings) (l : list (Z * pendings)) : list (Z * pendings) := match r with [] => del u l | _ => put u r l end.
(** The loop over the users: fund_finish_pendings.go:22-59, 72-111; [todo]: what the iterator still
    has to yield (the records as they were at the start; each is changed only when it is visited). *)
Fixpoint release (p : Z) (todo : list (Z * pendings)) (recs : list (Z * pendings)) (l : accts) : option (list (Z * pendings) * accts) :=
  match todo with
  | [] => Some (recs, l)
  | (u, r) :: t =>
      if (length (snd (due p r)) <? length r)%nat then
        match finish u (fst (due p r)) l with
        | Some l' => release p t (save u (snd (due p r)) recs) l'
        | None => None
        end
      else release p t recs l
  end.

(** The accounts of a token with the amounts held back, and the last job. *)
Record book := Book { b_accts : accts; b_recs : list (Z * pendings); b_last : Z }.
(** AddVxUnlock, AddCancelStake *)
Definition note (u d a : Z) (l : list (Z * pendings)) : list (Z * pendings) :=
  put u (add_pending d a (match get u l with Some r => r | None => [] end)) l.
Definition set_accts (b : book) (l : accts) : book := Book l (b_recs b) (b_last b).
(** MethodDexFundTriggerPeriodJob.DoReceive for these two jobs: contracts_dex_fund.go:335-357,
    402-403.  [None] is an error, which takes all changes of the receive block back. *)
Definition job (earth : bool) (cur p : Z) (b : book) : option book :=
  if cur <=? p then None
  else if (0 <? b_last b) && negb (p =? wrap64 (b_last b + 1)) then None
  else if earth then match release p (b_recs b) (b_recs b) (b_accts b) with
                     | Some (recs, l) => Some (Book l recs p)
                     | None => None
                     end
  else Some (Book (b_accts b) (b_recs b) p).

(** GetVxUnlocks and GetCancelStakes: fund_storage.go:2365-2369, 2403-2407 *)
Definition listed (u : Z) (b : book) : pendings := match get u (b_recs b) with Some r => r | None => [] end.

(** DelegateStakeInfo: owner, amount, and whether the stake is confirmed. *)
Record stake := Stake { k_owner : Z; k_amount : Z; k_there : bool }.
(** [s_mining]: MiningStakedV2Amount by user; [s_auto]: IsAutoLockMinedVx. *)
Record state := State { s_cur : Z; s_earth : bool; s_vx : book; s_vite : book; s_stakes : list (Z * stake); s_mining : list (Z * Z); s_auto : list Z }.
Definition init : state := State 0 false (Book [] [] 0) (Book [] [] 0) [] [] [].

Inductive token := VX | VITE.
(** The operations. [OIn]: deposits, dividends, settled trades, failed stakes and all else that adds
    to what is available; [OOut]: withdrawals, orders, fees; [OMined]: VX mined for a user;
    [OStaked] and [OCancelled]: the answers of the quota contract to a stake and to a cancellation. *)
Inductive op :=
| OPeriod (p : Z) | OEarth
| OIn (t : token) (u a : Z) | OOut (t : token) (u a : Z)
| OAuto (u : Z) (on : bool) | OMined (u a : Z) | OLock (u a : Z) | OUnlock (u a : Z)
| OJob (t : token) (p : Z)
| OStake (u i a : Z) | OStaked (i : Z) (ok : bool) | OCancelled (i : Z).

Definition bk (t : token) (s : state) : book := match t with VX => s_vx s | VITE => s_vite s end.
Definition set_bk (t : token) (b : book) (s : state) : state :=
  match t with
  | VX => State (s_cur s) (s_earth s) b (s_vite s) (s_stakes s) (s_mining s) (s_auto s)
  | VITE => State (s_cur s) (s_earth s) (s_vx s) b (s_stakes s) (s_mining s) (s_auto s)
  end.
Definition set_stakes (k : list (Z * stake)) (m : list (Z * Z)) (s : state) : state := State (s_cur s) (s_earth s) (s_vx s) (s_vite s) k m (s_auto s).
Definition mining (u : Z) (s : state) : Z := match get u (s_mining s) with Some a => a | None => 0 end.
Definition on_accts (t : token) (f : accts -> option accts) (s : state) : option state :=
  match f (b_accts (bk t s)) with Some l => Some (set_bk t (set_accts (bk t s) l) s) | None => None end.

(** [None]: refused, nothing changes. *)
Definition step (s : state) (o : op) : option state :=
  match o with
  (* the day, from the time of the confirming snapshot block: fund_storage.go:1484-1490 *)
  | OPeriod p => if (s_cur s <=? p) && (p <? 2 ^ 63) then Some (State p (s_earth s) (s_vx s) (s_vite s) (s_stakes s) (s_mining s) (s_auto s)) else None
  | OEarth => Some (State (s_cur s) true (s_vx s) (s_vite s) (s_stakes s) (s_mining s) (s_auto s))
  (* contracts_dex_fund.go:42-62 *)
  | OIn t u a => if a <=? 0 then None else on_accts t (fun l => Some (deposit u a l)) s
  (* contracts_dex_fund.go:82-126 *)
  | OOut t u a => if a <=? 0 then None else on_accts t (reduce u a) s
  (* SetAutoLockMinedVx, IsAutoLockMinedVx: fund_storage.go:1376-1386 *)
  | OAuto u on => Some (State (s_cur s) (s_earth s) (s_vx s) (s_vite s) (s_stakes s) (s_mining s)
                              (if on then u :: s_auto s else filter (fun v => negb (v =? u)) (s_auto s)))
  (* OnVxMined: fund_settle.go:294-307 *)
  | OMined u a => if a <=? 0 then None
                  else on_accts VX (fun l => Some (if s_earth s && existsb (fun v => v =? u) (s_auto s) then lock_mined u a l else deposit u a l)) s
  (* MethodDexFundLockVxForDividend, known since Earth: contracts_dex_fund.go:1736-1771, contracts.go:212 *)
  | OLock u a => if negb (s_earth s) || (a <? one_vx) then None else on_accts VX (lock_vx u a) s
  | OUnlock u a =>
      if negb (s_earth s) || (a <? one_vx) then None
      else match schedule_unlock u a (b_accts (s_vx s)) with
           | Some l => Some (set_bk VX (Book l (note u (s_cur s) a (b_recs (s_vx s))) (b_last (s_vx s))) s)
           | None => None
           end
  | OJob t p => match job (s_earth s) (s_cur s) p (bk t s) with Some b => Some (set_bk t b s) | None => None end
  (* MethodDexFundStakeForMining and HandleStakeAction: contracts_dex_fund.go:422-450,
     fund_stake.go:15-38, 96-122; the id is the hash of the block sent, which is new. *)
  | OStake u id a =>
      if negb (s_earth s) || (a <? min_stake) then None
      else match get id (s_stakes s), reduce u a (b_accts (s_vite s)) with
           | None, Some l => Some (set_stakes (put id (Stake u a false) (s_stakes s)) (s_mining s) (set_bk VITE (set_accts (s_vite s) l) s))
           | _, _ => None
           end
  (* MethodDexFundDelegateStakeCallbackV2.DoReceive: contracts_dex_fund.go:823-896.  The quota
     contract answers each request once, and its stake method (contracts_quota.go:411-451) returns no
     error, so that [ok = false] does not occur; lines 878-881 would refuse it, as their test of the
     amount is the wrong way round. *)
  | OStaked id ok =>
      match get id (s_stakes s) with
      | Some (Stake u a false) => if ok then Some (set_stakes (put id (Stake u a true) (s_stakes s)) (put u (mining u s + a) (s_mining s)) s) else None
      | _ => None
      end
  (* MethodDexFundCancelDelegateStakeCallbackV2.DoReceive: contracts_dex_fund.go:924-1001, and
     OnCancelMiningStakeSuccessV2: fund_stake.go:177-180.  The quota contract returns a stake it
     holds once.  The error of ScheduleCancelStake is dropped (line 995). *)
  | OCancelled id =>
      match get id (s_stakes s) with
      | Some (Stake u a true) =>
          let left := mining u s - a in
          if left <? 0 then None
          else Some (set_stakes (del id (s_stakes s)) (if left =? 0 then del u (s_mining s) else put u left (s_mining s))
                      (set_bk VITE (Book (match schedule_cancel u a (b_accts (s_vite s)) with Some l => l | None => b_accts (s_vite s) end)
                                         (note u (s_cur s) a (b_recs (s_vite s))) (b_last (s_vite s))) s))
      | _ => None
      end
  end.

(** A history: the state and the accepted operations with their days. *)
Fixpoint run (s : state) (ops : list op) : state * list (Z * op) :=
  match ops with
  | [] => (s, [])
  | o :: r => match step s o with
              | Some s' => let q := run s' r in (fst q, (s_cur s, o) :: snd q)
              | None => run s r
              end
  end.
