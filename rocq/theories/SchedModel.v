(** Time slots: rounds, the block schedule of a round and the search for the snapshot block before a time.
    Times are nanoseconds. Go's time.Time has a wider range than the int64 nanoseconds of a Duration: an instant is any integer,
    a difference of instants saturates and a product of Durations wraps, as in Go. *)
From Verif Require Import Lib.

Definition sec : Z := 1000000000.
(** Go int64 arithmetic: a product of Durations wraps (time.Duration is an int64). *)
Definition wrap_i64 (x : Z) : Z := (x + 2 ^ 63) mod two64 - 2 ^ 63.
(** time.Time.Sub saturates at the largest and smallest Duration. *)
Definition sat_i64 (x : Z) : Z := Z.max (- 2 ^ 63) (Z.min (2 ^ 63 - 1) x).

(** ledger/consensus/core/time_index.go:12-16: the start of the first interval and the length of each. *)
Record time_index : Type := { ti_genesis : Z; ti_interval : Z }.

(** ledger/consensus/core/time_index.go:18-22 (Index2Time). *)
Definition index2time (x : time_index) (i : Z) : Z * Z :=
  (ti_genesis x + wrap_i64 (ti_interval x * wrap_i64 i), ti_genesis x + wrap_i64 (ti_interval x * wrap_i64 (wrap64 (i + 1)))).
(** ledger/consensus/core/time_index.go:23-27 (Time2Index).
    Duration.Seconds() goes through float64; it is exact on whole seconds. On other instants the model truncates, which the code
    does up to float rounding within a microsecond below the next second. *)
Definition time2index (x : time_index) (t : Z) : Z :=
  wrap64 (Z.quot (sat_i64 (t - ti_genesis x)) sec) / wrap64 (Z.quot (ti_interval x) sec).

(** The parameters of a consensus group used for scheduling: common/types/contracts.go:7-24 (NodeCount uint8, Interval int64,
    PerCount int64, Repeat uint16, CheckLevel uint8). *)
Record group : Type := { g_genesis : Z; g_nodes : Z; g_interval : Z; g_per : Z; g_repeat : Z; g_level : Z }.

(** ledger/consensus/core/group.go:39-41 (planInterval): seconds per round. *)
Definition plan_interval (g : group) : Z := wrap64 (wrap64 (wrap64 (g_interval g * g_nodes g) * g_per g) * g_repeat g).
(** ledger/consensus/core/group.go:27-37 (NewGroupInfo). *)
Definition group_index (g : group) : time_index := {| ti_genesis := g_genesis g; ti_interval := wrap_i64 (sec * wrap_i64 (plan_interval g)) |}.

(** One planned slot: ledger/consensus/core/group.go:11-16 (MemberPlan); an address is a number. *)
Record slot : Type := { sl_start : Z; sl_end : Z; sl_member : Z }.

(** ledger/consensus/core/group.go:67-72: the [n] consecutive slots of one member, and the time after them. *)
Fixpoint plan_member (g : group) (n : nat) (s m : Z) : list slot * Z :=
  match n with
  | O => ([], s)
  | S k =>
      let e := s + wrap_i64 (g_interval g * sec) in
      let r := plan_member g k e m in
      ({| sl_start := s; sl_end := e; sl_member := m |} :: fst r, snd r)
  end.
(** ledger/consensus/core/group.go:66-73: all members once. *)
Fixpoint plan_members (g : group) (ms : list Z) (s : Z) : list slot * Z :=
  match ms with
  | [] => ([], s)
  | m :: r =>
      let a := plan_member g (Z.to_nat (g_per g)) s m in
      let b := plan_members g r (snd a) in
      (fst a ++ fst b, snd b)
  end.
(** ledger/consensus/core/group.go:65-77: the members repeated, with the time of unfilled seats left idle. *)
Fixpoint plan_repeat (g : group) (n : nat) (ms : list Z) (s : Z) : list slot :=
  match n with
  | O => []
  | S k =>
      let a := plan_members g ms s in
      let s' := if zlen ms <? g_nodes g then snd a + wrap_i64 (wrap_i64 (wrap_i64 (g_interval g * g_per g) * (g_nodes g - zlen ms)) * sec) else snd a in
      fst a ++ plan_repeat g k ms s'
  end.
(** ledger/consensus/core/group.go:57-79 (GenPlanByAddress). *)
Definition gen_plan (g : group) (i : Z) (ms : list Z) : list slot :=
  if g_nodes g <? zlen ms then [] else plan_repeat g (Z.to_nat (g_repeat g)) ms (fst (index2time (group_index g) i)).

(** ledger/consensus/consensus_snapshot.go:430-442 (snapshotCs.verifyProducer): some slot of the plan starts at [t] and is the producer's. *)
Definition plan_has (plan : list slot) (a t : Z) : bool := existsb (fun s => (sl_member s =? a) && (sl_start s =? t)) plan.

(** ** The snapshot block before a time *)
(** The timestamps of the snapshot chain by height; height 1 is the genesis block.
    ledger/chain/snapshot_block.go:80-113 (GetSnapshotHeaderByHeight), reading an intact chain. *)
Definition at_height (ts : list Z) (h : Z) : option Z := if h <=? 0 then None else nth_error ts (Z.to_nat (h - 1)).

(** time.Time.Unix of an instant: whole seconds, rounded down. *)
Definition unix (t : Z) : Z := t / sec.

(** Result of the lookup: the height found, no such block, an error, or still searching when the fuel is used up. *)
Inductive found : Type := Found (h : Z) | Nobody | Failed | Searching.

(** Go's sort.Search(n, f) on [lo, hi): smallest index where [f] holds. [fuel] bounds the number of halvings. *)
Fixpoint go_search (fuel : nat) (f : Z -> bool) (lo hi : Z) : Z :=
  match fuel with
  | O => lo
  | S k => if lo <? hi then let m := (lo + hi) / 2 in if f m then go_search k f lo m else go_search k f (m + 1) hi else lo
  end.
(** ledger/chain/snapshot_block.go:786-823 (binarySearchBeforeTime), for heights that exist: the error path of lines 802-805, taken
    when a block vanishes during the search, is not modelled. *)
Definition binary_before (ts : list Z) (lo hi t : Z) : found :=
  let n := hi - lo + 1 in
  let i := go_search (Z.to_nat n) (fun i => match at_height ts (lo + i) with Some x => t <=? x | None => true end) 0 n in
  if n <=? i then Nobody else Found (lo + i - 1).
(** ledger/chain/snapshot_block.go:331-368: narrowing down to a block on each side of [t]; [None] while searching. *)
Fixpoint bracket (fuel : nat) (ts : list Z) (t est : Z) (hi lo : option Z) : option (option (Z * Z)) :=
  match hi, lo with
  | Some h, Some l => Some (Some (h, l))
  | _, _ =>
      match fuel with
      | O => None
      | S k =>
          match at_height ts est with
          | None => Some None
          | Some x =>
              if t <=? x then
                let gap := let d := unix x - unix t in if d <=? 0 then 1 else d in
                if est <=? gap then Some (Some (est, 1)) else bracket k ts t (est - gap) (Some est) lo
              else
                let est' := est + (unix t - unix x) in
                bracket k ts t est' (if zlen ts <? est' then Some (zlen ts) else hi) (Some est)
          end
      end
  end.
(** ledger/chain/snapshot_block.go:307-381 (GetSnapshotHeaderBeforeTime). [fuel] bounds the loop of lines 331-368; running out of it
    is reported as [Searching], never as an answer. *)
Definition header_before (fuel : nat) (ts : list Z) (t : Z) : found :=
  match at_height ts 1, at_height ts (zlen ts) with
  | Some g, Some l =>
      if t <=? g then Nobody
      else if l <? t then Found (zlen ts)
      else
        let gap := unix l - unix t in
        let est := if gap <? zlen ts then zlen ts - gap else 1 in
        match bracket fuel ts t est None None with
        | None => Searching
        | Some None => Failed
        | Some (Some (h, lo)) => if h =? lo + 1 then Found lo else binary_before ts lo h t
        end
  | _, _ => Failed
  end.

(** ** Elections and producer checks *)
(** ledger/consensus/consensus_snapshot.go:394-400 (genSnapshotProofTimeIndx): the votes of round [i] are counted at this time. *)
Definition proof_time (g : group) (i : Z) : Z := if i <? 2 then g_genesis g + sec else snd (index2time (group_index g) (i - 2)).
(** A snapshot block as far as scheduling goes: hash, time, producer. *)
Record sblock : Type := { b_hash : Z; b_time : Z; b_producer : Z }.
Definition times (c : list sblock) : list Z := map b_time c.
(** ledger/chain/snapshot_block.go: the header at a height. *)
Definition block_at (c : list sblock) (h : Z) : option sblock := if h <=? 0 then None else nth_error c (Z.to_nat (h - 1)).
(** Enough for the loop on chains timed in whole seconds (proved in SchedProofs). *)
Definition search_fuel : nat := 6.

Section Elect.
(** The members elected by the state at a snapshot block: snapshotCs.calVotes, consensus_snapshot.go:275-326. The state at a block
    hash is immutable, so the result is a function of the hash (the election itself is modelled in ElectModel). *)
Variable elected : Z -> list Z.
(** ledger/consensus/consensus_snapshot.go:255-273 (ElectionIndex); [None] is an error. *)
Definition election (g : group) (c : list sblock) (i : Z) : option (list slot) :=
  match header_before search_fuel (times c) (proof_time g i) with
  | Found h => match block_at c h with Some b => Some (gen_plan g i (elected (b_hash b))) | None => None end
  | _ => None
  end.
(** ledger/consensus/consensus_snapshot.go:422-428 (VerifyProducer) with 250-253 (ElectionTime); an error is a rejection. *)
Definition verify_producer (g : group) (c : list sblock) (a t : Z) : bool :=
  match election g c (time2index (group_index g) t) with Some p => plan_has p a t | None => false end.
(** ledger/verifier/snapshot_verifier.go:145-149 and 163-176: a block extends the chain when its time is later than the head's and
    its producer is scheduled then. Hash, signature and content checks are not part of this model. *)
Definition accepts (g : group) (c : list sblock) (b : sblock) : bool :=
  match block_at c (zlen c) with
  | Some l => (b_time l <? b_time b) && verify_producer g c (b_producer b) (b_time b)
  | None => false
  end.

(** ledger/consensus/consensus_contract_dpos.go:95-103 (contractDposCs.GenProofTime). *)
Definition contract_proof_time (g : group) (i : Z) : Z :=
  let s := fst (index2time (group_index g) i) - 75 * sec in if s <? g_genesis g then g_genesis g + sec else s.
(** ledger/consensus/consensus_contract_dpos.go:48-62 (electionAddrsIndex). *)
Definition contract_elected (g : group) (c : list sblock) (i : Z) : option (list Z) :=
  match header_before search_fuel (times c) (contract_proof_time g i) with
  | Found h => match block_at c h with Some b => Some (elected (b_hash b)) | None => None end
  | _ => None
  end.
(** ledger/consensus/consensus_contract_dpos.go:130-156 and 167-180 (VerifyAccountProducer, VerifyAccountProducerLevel1, verifyProducer)
    for a block by [a] when the chain's head is the last block of [c]. With a level other than 1 the last loop can never return true. *)
Definition verify_contract_producer (g : group) (c : list sblock) (a : Z) : bool :=
  match block_at c (zlen c) with
  | None => false
  | Some l =>
      match contract_elected g c (time2index (group_index g) (b_time l)) with
      | None => false
      | Some ms =>
          if g_level g =? 1 then existsb (fun m => m =? a) ms
          else existsb (fun s => (sl_member s =? a) && (g_level g =? 1)) (gen_plan g (time2index (group_index g) (b_time l)) ms)
      end
  end.
End Elect.
