(** Election of block producers: ledger/consensus/core/vote_algo.go, core/consensus.go, core/state_reader.go.
    [None] stands for a Go panic (slice bounds). Names are byte strings, addresses are numbers, balances are [Z] (big.Int).
    Vote.Type is only logged (consensus_snapshot.go:312-319) and is left out. Dead code (findSeedTmp, filterRand, checkValid) is left out. *)
From Verif Require Import Lib VmModel VmDbModel SchedModel.

(** core/consensus.go:18-23 *)
Record cand : Type := { c_name : list Z; c_addr : Z; c_bal : Z }.

(** core/consensus.go:29-37, ByBalance.Less: higher balance first, then the smaller name (Go compares strings bytewise) *)
Definition less_bal (a b : cand) : bool := if c_bal a =? c_bal b then bltb (c_name a) (c_name b) else c_bal b <? c_bal a.

(** One sorting algorithm (insertion sort), used to run the model in examples *)
Section Sort.
  Context {A : Type} (less : A -> A -> bool).
  Fixpoint insert (x : A) (l : list A) : list A := match l with [] => [x] | y :: r => if less y x then y :: insert x r else x :: l end.
  Fixpoint isort (l : list A) : list A := match l with [] => [] | x :: r => insert x (isort r) end.
End Sort.

(** types.ConsensusGroupInfo (NodeCount, RandCount, RandRank are uint8) and GroupInfo.seed, core/group.go:19-36: the group id as a number *)
Record egroup : Type := { e_nodes : nat; e_rand : nat; e_rank : nat; e_seed : Z }.

(** Go slice expression l[lo:hi] *)
Definition slice {A} (l : list A) (lo hi : nat) : option (list A) :=
  if (lo <=? hi)%nat && (hi <=? length l)%nat then Some (firstn (hi - lo) (skipn lo l)) else None.

Section Algo.
(** [sort less l]: sort.Sort, which is not stable and whose algorithm changed between Go releases; only what it promises is
    assumed of it (ElectSpec.v, [sorts]) *)
Context (sort : (cand -> cand -> bool) -> list cand -> list cand).
(** [intn seed i]: the (i+1)-th answer of rand.New(rand.NewSource(seed)) when asked for Intn(1), Intn(2), … in turn *)
Context (intn : Z -> nat -> nat).

(** core/vote_algo.go:127-139, FilterSimple. groupA is cut out of [votes] before [votes] is sorted in place, so it holds the
    first NodeCount candidates of the sorted slice. *)
Definition filter_simple (g : egroup) (votes : list cand) : option (list cand * list cand) :=
  if (length votes <=? e_nodes g)%nat then Some (votes, [])
  else let s := sort less_bal votes in
    match slice s 0 (e_nodes g), (if (length s <=? e_rank g)%nat then slice s (e_nodes g) (length s) else slice s (e_nodes g) (e_rank g)) with
    | Some a, Some b => Some (a, b)
    | _, _ => None
    end.

(** core/vote_algo.go:73-89, findSeed. SeedInfo.seeds is a uint64; Int64() keeps the low 64 bits. *)
Definition find_seed (g : egroup) (votes : list cand) (height seeds : Z) : Z :=
  if seeds =? 0 then wrap_i64 (fold_left (fun s v => s + c_bal v) votes 0 + height + e_seed g)
  else wrap_i64 (seeds + height + e_seed g).

(** math/rand (Rand).Perm of a generator made by rand.New(rand.NewSource(seed)): step [i] draws Intn(i+1). A fresh generator asked
    for Intn(1), Intn(2), … gives answers that depend on the seed and the step only: the parameter [intn]. *)
Fixpoint set_nth {A} (k : nat) (x : A) (l : list A) : list A :=
  match l, k with [] , _ => [] | _ :: r, O => x :: r | y :: r, S k' => y :: set_nth k' x r end.
Definition perm_step (m : list nat) (i j : nat) : list nat :=
  if (j =? i)%nat then m ++ [i] else set_nth j i m ++ [nth j m O].
Fixpoint perm_loop (draw : nat -> nat) (n i : nat) (m : list nat) : list nat :=
  match n with O => m | S n' => perm_loop draw n' (S i) (perm_step m i (draw i)) end.
Definition perm (draw : nat -> nat) (n : nat) : list nat := perm_loop draw n O [].

(** for _, v := range arr { result = append(result, l[v]) } *)
Fixpoint pick {A} (l : list A) (ix : list nat) : option (list A) :=
  match ix with
  | [] => Some []
  | i :: r => match nth_error l i, pick l r with Some x, Some xs => Some (x :: xs) | _, _ => None end
  end.

(** core/vote_algo.go:91-101, ShuffleVotes *)
Definition shuffle (g : egroup) (votes : list cand) (height seeds : Z) : option (list cand) :=
  pick votes (perm (intn (find_seed g votes height seeds)) (length votes)).

(** core/vote_algo.go:141-149, calRandCnt *)
Definition rand_cnt (total num : nat) : nat := if (num <? total / 3)%nat then num else (total / 3)%nat.

(** core/vote_algo.go:189-235, filterRandV2; [wrap_i64 (seed + 1)]: int64 addition *)
Definition filter_rand (g : egroup) (a b : list cand) (height seeds : Z) : option (list cand) :=
  match b with
  | [] => Some a
  | _ =>
    let total := e_nodes g in
    let a := sort less_bal a in let b := sort less_bal b in
    let len := (length a + length b)%nat in
    let seed := find_seed g (a ++ b) height seeds in
    let rc := rand_cnt total (e_rand g) in
    let top := (total - rc)%nat in
    if Z.of_nat rc * Z.of_nat total <? Z.of_nat top * (Z.of_nat len - Z.of_nat total) then
      match slice (perm (intn seed) total) 0 top, slice (perm (intn (wrap_i64 (seed + 1))) (len - total)) 0 rc with
      | Some f, Some s => match pick a f, pick b s with Some x, Some y => Some (x ++ y) | _, _ => None end
      | _, _ => None
      end
    else
      match slice (perm (intn seed) len) 0 total with
      | Some arr => pick (a ++ b) arr   (* an index v >= total is groupB[v - total]: groupA has [total] members *)
      | None => None
      end
  end.

(** successRate[v.Addr], -1 when missing (core/vote_algo.go:254-257, 280-283) *)
Definition rate_of (rates : list (Z * Z)) (c : cand) : Z := match assoc (c_addr c) rates with Some r => r | None => -1 end.
(** int32 subtraction *)
Definition wrap_i32 (x : Z) : Z := (x + 2 ^ 31) mod 2 ^ 32 - 2 ^ 31.
(** core/vote_algo.go:362-374, BySuccessRate.Less *)
Definition less_rate (rates : list (Z * Z)) (a b : cand) : bool :=
  let r0 := wrap_i32 (rate_of rates b - rate_of rates a) in
  if r0 =? 0 then less_bal a b else r0 <? 0.

(** core/vote_algo.go:376-378, Line *)
Definition line : Z := 800000.

(** core/vote_algo.go:289-299: the first two of the sorted group B above the line; returns (improvementGroupB, groupB1) *)
Fixpoint split_b (rates : list (Z * Z)) (k : nat) (l : list cand) : list cand * list cand :=
  match l with
  | [] => ([], [])
  | v :: r =>
    match k with
    | O => let '(i, b) := split_b rates O r in (i, v :: b)
    | S k' => if line <? rate_of rates v then let '(i, b) := split_b rates k' r in (v :: i, b)
              else let '(i, b) := split_b rates k r in (i, v :: b)
    end
  end.

(** core/vote_algo.go:302-314, one round of the exchange loop for [i]: deleteGroupA[lenA-i] and improvementGroupB[i-1] change places *)
Definition swap_at (d imp : list cand) (i : nat) : list cand * list cand :=
  match nth_error d (length d - i), nth_error imp (i - 1) with
  | Some x, Some y => (set_nth (length d - i) y d, set_nth (i - 1) x imp)
  | _, _ => (d, imp)
  end.
(** the loop; obsoletedNum is 2 *)
Definition exchange (d imp : list cand) : list cand * list cand :=
  if (length d <? 1)%nat || (length imp <? 1)%nat then (d, imp)
  else let '(d1, i1) := swap_at d imp 1 in
    if (length d1 <? 2)%nat || (length i1 <? 2)%nat then (d1, i1) else swap_at d1 i1 2.

(** core/vote_algo.go:236-336, filterBySuccessRate. [len successRate] counts the addresses of the map. *)
Definition filter_rate (a b : list cand) (rates : list (Z * Z)) : option (list cand * list cand) :=
  match b with
  | [] => Some (a, b)
  | _ =>
    if (length rates <? 2)%nat then Some (a, b) else
    let sa := sort (less_rate rates) a in
    if (length sa <? 2)%nat then None else                     (* successRateGroupA[len-2:] is out of range *)
    let keep := firstn (length sa - 2) sa in
    let low := fun v => (0 <=? rate_of rates v) && (rate_of rates v <? line) in
    let tmps := skipn (length sa - 2) sa in
    let a1 := keep ++ filter (fun v => negb (low v)) tmps in
    let del := filter low tmps in
    let '(imp, b1) := split_b rates 2 (sort (less_rate rates) b) in
    let '(del', imp') := exchange del imp in
    Some (a1 ++ del', b1 ++ imp')
  end.

(** core/vote_algo.go:103-125, FilterVotes; NewVoteAlgoContext (24-30) turns a nil map into an empty one, so the nil test always passes *)
Definition filter_votes (g : egroup) (votes : list cand) (height seeds : Z) (rates : list (Z * Z)) : option (list cand) :=
  match filter_simple g votes with
  | None => None
  | Some (a, b) =>
    match b with
    | [] => Some (sort less_bal a)
    | _ =>
      match filter_rate a b rates with
      | None => None
      | Some (a', b') => option_map (sort less_bal) (filter_rand g a' b' height seeds)
      end
    end
  end.

(** consensus_snapshot.go:275-326, 334-388 and consensus_contract_dpos.go:64-92 after the inputs are read: filter, shuffle, take the addresses
    (core/utils.go:5-11) *)
Definition elect (g : egroup) (votes : list cand) (height seeds : Z) (rates : list (Z * Z)) : option (list cand) :=
  match filter_votes g votes height seeds rates with
  | Some v => shuffle g v height seeds
  | None => None
  end.
End Algo.

(** core/state_reader.go:48-67, voteCompleting: the accounts whose vote is this name; GetConfirmedBalanceList returns a map keyed by
    account, so an account listed twice counts once ([nodup]). *)
Definition vote_total (balance : Z -> Z) (votes : list (Z * list Z)) (n : list Z) : Z :=
  fold_right Z.add 0 (map balance (nodup Z.eq_dec (map fst (filter (fun v => zlist_eqb (snd v) n) votes)))).
(** core/state_reader.go:20-47, CalVotes: [regs] are the registrations (name, producing address), [votes] the vote records *)
Definition cal_votes (balance : Z -> Z) (regs : list (list Z * Z)) (votes : list (Z * list Z)) : list cand :=
  map (fun r => {| c_name := fst r; c_addr := snd r; c_bal := vote_total balance votes (fst r) |}) regs.
