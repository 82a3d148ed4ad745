(** The fees of the exchange and their distribution to the holders of VX
    (vm/contracts/dex/{fund_settle,fund_dividend,fund_storage}.go).
    A period is a day.  Amounts stored as bytes are numbers; an amount of zero is stored as no bytes.
    The parts of the records that serve the mining of VX are left out, as are events and errors of decoding. *)
From Verif Require Import Lib DexFloat.
Import ListNotations.
Open Scope Z_scope.

(** fund_storage.go:98 (10 VX), interfaces/core/const.go ViteTokenId *)
Definition threshold : Z := 10 * 10 ^ 18.
Definition vite : Z := 0x5649544520544F4B454E.
(** matcher.go:40 PerPeriodDividendRate: one percent *)
Definition per_period : Z := 1000.
(** IsValidVxAmountForDividend: fund_storage.go:1476-1482 *)
Definition valid (a : Z) : bool := threshold <=? a.

(** * VX of a user, or of all, by period: VxFunds, oldest first *)
Definition funds := list (Z * Z).
Definition newest (f : funds) : option (Z * Z) := match rev f with [] => None | e :: _ => Some e end.
Definition set_newest (f : funds) (p a : Z) : funds := removelast f ++ [(p, a)].
(** DoSettleVxFunds, the record of the user and the change of the sum: fund_settle.go:319-364.
    [now]: the amount after the change, [change]: the change. *)
Definition settle_user (f : funds) (p now change : Z) : funds * Z :=
  match newest f with
  | None => if valid now then ([(p, now)], now) else (f, 0)
  | Some (q, old) =>
      if q =? p then
        if valid now then (set_newest f p now, if valid old then change else now)
        else (if (1 <? zlen f) then set_newest f p now else [], if valid old then - old else 0)
      else
        if valid now then (f ++ [(p, now)], if valid old then change else now)
        else if valid old then (f ++ [(p, now)], - old) else (f, 0)
  end.
(** DoSettleVxFunds, the sum: fund_settle.go:372-394; [None] is an error. *)
Definition settle_sum (f : funds) (p change : Z) : option funds :=
  if change =? 0 then Some f
  else match newest f with
       | None => if 0 <? change then Some [(p, change)] else None
       | Some (q, old) =>
           if old + change <? 0 then None
           else if q =? p then Some (set_newest f p (old + change)) else Some (f ++ [(p, old + change)])
       end.
(** MatchVxFundsByPeriod: fund_storage.go:1318-1344; the loop that finds the last entry up to [p]. *)
Fixpoint drop_old (p : Z) (f : funds) : funds :=
  match f with
  | x :: ((y :: _) as r) => if fst y <=? p then drop_old p r else f
  | _ => f
  end.
Definition match_funds (f : funds) (p : Z) : option (Z * funds) :=
  match drop_old p f with
  | (q, a) :: r => if (q <=? p) && negb (a =? 0)
                   then Some (a, match r with (q', _) :: _ => if q' =? p + 1 then r else (q, a) :: r | [] => (q, a) :: r end)
                   else None
  | [] => None
  end.
(** CheckUserVxFundsCanBeDelete: fund_storage.go:1346-1348 *)
Definition deletable (f : funds) : bool := match f with [(_, a)] => negb (valid a) | _ => false end.

(** * The users, in the order of their addresses as the iterator has them *)
Definition users := list (Z * funds).
Fixpoint uget (u : Z) (l : users) : funds := match l with [] => [] | (v, f) :: r => if v =? u then f else uget u r end.
Fixpoint uput (u : Z) (f : funds) (l : users) : users :=
  match l with [] => [(u, f)] | (v, g) :: r => if u <? v then (u, f) :: l else if v =? u then (u, f) :: r else (v, g) :: uput u f r end.
(** SaveVxFunds and DeleteVxFunds: fund_settle.go:366-370 *)
Definition uset (u : Z) (f : funds) (l : users) : users := match f with [] => filter (fun e => negb (fst e =? u)) l | _ => uput u f l end.

(** * Fees of a period: DexFeesByPeriod *)
(** FeeForDividend: token, pool and NotRoll *)
Record pool := Pool { p_token : Z; p_amount : Z; p_whole : bool }.
Record fees := Fees { f_period : Z; f_pools : list pool; f_divided : bool; f_mined : bool; f_last : Z }.
(** splitDividendPool: fund_settle.go:406-415 *)
Definition part (l : pool) : Z := if p_whole l then p_amount l else fee_for (p_amount l) per_period.
Definition rest (l : pool) : Z := if p_whole l then 0 else p_amount l - fee_for (p_amount l) per_period.

(** [d_bal]: what counts for dividends, VxLocked since the Earth upgrade, Available and Locked before
    it (fund_settle.go:398-404); [d_fees]: newest first; [d_paid]: credited dividends; [d_roll]:
    lastDexFeesPeriodId; [d_job]: the last period of the dividend job. *)
Record dex := Dex { d_cur : Z; d_earth : bool; d_bal : list (Z * Z); d_users : users; d_sum : funds; d_fees : list fees; d_roll : Z; d_job : Z;
                    d_paid : list (Z * Z * Z); d_burned : Z }.
Definition fees_at (l : list fees) (p : Z) : option fees := find (fun r => f_period r =? p) l.
Definition fees_del (l : list fees) (p : Z) : list fees := filter (fun r => negb (f_period r =? p)) l.
Definition fees_set (l : list fees) (r : fees) : list fees := map (fun x => if f_period x =? f_period r then r else x) l.
Definition bal (l : list (Z * Z)) (u : Z) : Z := match find (fun e => fst e =? u) l with Some e => snd e | None => 0 end.

(** RollAndGentNewDexFeesByPeriod: fund_storage.go:1152-1179; [None]: it panics.  The new record is
    stored right after, by doRollPeriod (2186-2189) or SettleFeesWithTokenId. *)
Definition roll (d : dex) (p : Z) : option fees :=
  if 0 <? d_roll d then
    match fees_at (d_fees d) (d_roll d) with
    | None => None
    | Some r => Some (Fees p (map (fun l => Pool (p_token l) (Z.abs (rest l)) ((p_token l =? vite) && d_earth d)) (f_pools r)) false false (d_roll d))
    end
  else Some (Fees p [Pool vite 0 false] false false 0).
Definition set_fees (d : dex) (l : list fees) (p : Z) : dex := Dex (d_cur d) (d_earth d) (d_bal d) (d_users d) (d_sum d) l p (d_job d) (d_paid d) (d_burned d).
(** SetDexTimestamp: fund_storage.go:2168-2184, when the period changes *)
Definition new_period (d : dex) (p : Z) : option dex :=
  match roll d p with
  | None => None
  | Some r => Some (Dex p (d_earth d) (d_bal d) (d_users d) (d_sum d) (r :: d_fees d) p (d_job d) (d_paid d) (d_burned d))
  end.
(** SettleFeesWithTokenId, the fees for dividends: fund_settle.go:82-145 *)
Fixpoint add_fee (t a : Z) (l : list pool) : list pool :=
  match l with [] => [Pool t a false] | x :: r => if p_token x =? t then Pool t (p_amount x + a) (p_whole x) :: r else x :: add_fee t a r end.
Definition settle_fees (d : dex) (t a : Z) : option dex :=
  match fees_at (d_fees d) (d_cur d) with
  | Some r => Some (set_fees d (fees_set (d_fees d) (Fees (f_period r) (add_fee t a (f_pools r)) (f_divided r) (f_mined r) (f_last r))) (d_roll d))
  | None => match roll d (d_cur d) with
            | None => None
            | Some r => Some (set_fees d (Fees (f_period r) (add_fee t a (f_pools r)) (f_divided r) (f_mined r) (f_last r) :: d_fees d) (d_cur d))
            end
  end.
(** DoSettleVxFunds: fund_settle.go:308-396 *)
Definition settle_vx (d : dex) (u change : Z) : option dex :=
  let now := bal (d_bal d) u + change in
  let '(f, c) := settle_user (uget u (d_users d)) (d_cur d) now change in
  match settle_sum (d_sum d) (d_cur d) c with
  | None => None
  | Some s => Some (Dex (d_cur d) (d_earth d) ((u, now) :: d_bal d) (uset u f (d_users d)) s (d_fees d) (d_roll d) (d_job d) (d_paid d) (d_burned d))
  end.

(** * The dividend job *)
(** GetNotFinishDividendDexFeesByPeriodMap: fund_storage.go:1109-1136 *)
Fixpoint unfinished (fuel : nat) (l : list fees) (p : Z) (found : bool) : list fees :=
  match fuel with
  | O => []
  | S n =>
      match fees_at l p with
      | None => if (0 <? p) && negb found then unfinished n l (p - 1) false else []
      | Some r => if f_divided r then [] else r :: (if f_last r =? 0 then [] else unfinished n l (f_last r) true)
      end
  end.
(** MarkDexFeesFinishDividend: fund_storage.go:1143-1150 *)
Definition mark_divided (l : list fees) (r : fees) : list fees :=
  if f_mined r then fees_del l (f_period r) else fees_set l (Fees (f_period r) (f_pools r) true (f_mined r) (f_last r)).
(** feeSumMap: fund_dividend.go:40-59 *)
Fixpoint sum_in (t a : Z) (m : list (Z * Z)) : list (Z * Z) :=
  match m with [] => [(t, a)] | (s, b) :: r => if s =? t then (s, b + a) :: r else (s, b) :: sum_in t a r end.
Definition sums (l : list fees) : list (Z * Z) := fold_left (fun m r => fold_left (fun m x => sum_in (p_token x) (part x) m) (f_pools r) m) l [].
(** DivideByProportion: fund_dividend.go:194-207; the share, what is left, what was divided, finished *)
Definition share_of (total mine amount : Z) : Z := fround (fmul (fint amount) (fquo (fint mine) (fint total))).
Definition divide (total mine done amount left : Z) : Z * Z * Z * bool :=
  let left' := left - share_of total mine amount in
  if (left' <=? 0) || (total <=? done + mine) then (left, 0, done + mine, true) else (share_of total mine amount, left', done + mine, false).
(** A token in the job: feeSumWithTokens, feeSumLeavedMap, dividedVxAmtMap *)
Record item := Item { i_token : Z; i_amount : Z; i_left : Z; i_done : Z; i_over : bool }.
Definition serve (total mine u : Z) (i : item) : item * list (Z * Z * Z) :=
  if i_over i then (i, [])
  else let '(s, l, n, o) := divide total mine (i_done i) (i_amount i) (i_left i) in (Item (i_token i) (i_amount i) l n o, [(u, i_token i, s)]).
Definition serve_all (total mine u : Z) (is : list item) : list item * list (Z * Z * Z) :=
  (map (fun i => fst (serve total mine u i)) is, flat_map (fun i => snd (serve total mine u i)) is).
(** The loop over the users: fund_dividend.go:76-143 *)
Fixpoint walk (total p : Z) (is : list item) (l : users) : users * list (Z * Z * Z) :=
  if forallb i_over is then (l, [])
  else match l with
       | [] => ([], [])
       | (u, f) :: r =>
           match match_funds f p with
           | None => let '(r', pays) := walk total p is r in ((u, f) :: r', pays)
           | Some (a, f') =>
               let keep := if deletable f' then [] else [(u, f')] in
               if valid a then let '(is', out) := serve_all total a u is in let '(r', pays) := walk total p is' r in (keep ++ r', out ++ pays)
               else let '(r', pays) := walk total p is r in (keep ++ r', pays)
           end
       end.
(** tryBurnVite: fund_dividend.go:209-235: what is burned, and the tokens left *)
Definition burn (earth : bool) (m : list (Z * Z)) : Z * list (Z * Z) :=
  if earth then
    match find (fun e => fst e =? vite) m with
    | Some (_, a) => if a =? 0 then (0, m) else (a, filter (fun e => negb (fst e =? vite)) m)
    | None => (0, m)
    end
  else (0, m).
(** DoFeesDividend: fund_dividend.go:14-145, and the job's own record: contracts_dex_fund.go:402 *)
Definition divide_fees (d : dex) (p : Z) : dex :=
  let skip := Dex (d_cur d) (d_earth d) (d_bal d) (d_users d) (d_sum d) (d_fees d) (d_roll d) p (d_paid d) (d_burned d) in
  match unfinished (Datatypes.S (Z.to_nat p)) (d_fees d) p false with
  | [] => skip
  | todo =>
      match match_funds (d_sum d) p with
      | None => skip
      | Some (total, sum') =>
          let fs := fold_left mark_divided todo (d_fees d) in
          let '(b, m) := burn (d_earth d) (sums todo) in
          let '(us, pays) := walk total p (map (fun e => Item (fst e) (snd e) (snd e) 0 false) m) (d_users d) in
          Dex (d_cur d) (d_earth d) (d_bal d) us sum' fs (d_roll d) p (d_paid d ++ pays) (d_burned d + b)
      end
  end.
(** MarkDexFeesFinishMine and markFormerDexFeesFinishMine, the fee mining job's effect on the records:
    fund_storage.go:1181-1197, fund_mine.go:29-44 *)
Fixpoint mark_mined (fuel : nat) (l : list fees) (p : Z) : list fees :=
  match fuel with
  | O => l
  | S n =>
      match fees_at l p with
      | None => l
      | Some r =>
          let l' := if f_divided r then fees_del l p else fees_set l (Fees (f_period r) (f_pools r) (f_divided r) true (f_last r)) in
          if 0 <? f_last r then mark_mined n l' (f_last r) else l'
      end
  end.

Inductive op := OPeriod (p : Z) | OFee (t a : Z) | OVx (u change : Z) | ODivide (p : Z) | OMine (p : Z) | OEarth.
(** The upgrade Earth changes the amounts that count and the keys of their records: fund_storage.go:1392-1406. *)
Definition step (d : dex) (o : op) : option dex :=
  match o with
  | OPeriod p => new_period d p
  | OFee t a => settle_fees d t a
  | OVx u c => settle_vx d u c
  | ODivide p => Some (divide_fees d p)
  | OMine p => Some (set_fees d (mark_mined (length (d_fees d)) (d_fees d) p) (d_roll d))
  | OEarth => Some (Dex (d_cur d) true [] [] [] (d_fees d) (d_roll d) (d_job d) (d_paid d) (d_burned d))
  end.
Definition start : dex := Dex 0 false [] [] [] [] 0 0 [] 0.
(** What the methods let through: a period of a newer time; jobs of a past period, the dividend job of
    the one after its last (contracts_dex_fund.go:333-338).  Period 0, the day of the genesis, is left out:
    see [first_day_refuted]. *)
Definition allowed (d : dex) (o : op) : Prop :=
  match o with
  | OPeriod p => 1 <= p /\ d_cur d < p
  | OFee _ a => 1 <= d_cur d /\ 0 <= a
  | OVx u c => 1 <= d_cur d /\ 0 <= bal (d_bal d) u + c
  | ODivide p => 1 <= p < d_cur d /\ (0 < d_job d -> p = d_job d + 1)
  | OMine p => 1 <= p < d_cur d
  | OEarth => d_earth d = false
  end.
Inductive run : list op -> dex -> Prop :=
| R_start : run [] start
| R_step ops d o d' : run ops d -> allowed d o -> step d o = Some d' -> run (ops ++ [o]) d'.
