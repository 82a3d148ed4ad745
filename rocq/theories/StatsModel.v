(** Block production statistics per round, hour and day, with the caches they are kept in. *)
From Verif Require Import Lib SchedModel.
From Verif Require VmModel.
(** Go maps are association lists without duplicate keys. *)
Notation get := VmModel.assoc.
Notation put := VmModel.assoc_set.

Definition wrap32 (x : Z) : Z := x mod 2 ^ 32.
(** ledger/consensus/cdb/point.go:19-22 (VoteContent): votes per name (its bytes) and their total. *)
Record votes : Type := { v_details : list (list Z * Z); v_total : Z }.
(** ledger/consensus/cdb/point.go:48-54 (Point). A Content (lines 14-17) is the pair of expected and factual numbers. *)
Record point : Type := { p_prev : Z; p_hash : Z; p_sbps : list (Z * (Z * Z)); p_votes : option votes }.
(** ledger/consensus/cdb/point.go:173-179 (NewEmptyPoint) and 170-172 (IsEmpty). *)
Definition empty_point (h : Z) : point := {| p_prev := h; p_hash := h; p_sbps := []; p_votes := None |}.
Definition is_empty (p : point) : bool := p_hash p =? p_prev p.
(** ledger/consensus/cdb/point.go:28-31 and 43-46 (Merge, AddNum) on a map entry, absent entries being inserted:
    cdb/point.go:187-194 and consensus_point_array.go:302-318. *)
Definition add_num (m : list (Z * (Z * Z))) (a e f : Z) : list (Z * (Z * Z)) :=
  match get a m with None => put a (e, f) m | Some (e0, f0) => put a (wrap32 (e0 + e), wrap32 (f0 + f)) m end.
(** ledger/consensus/cdb/point.go:181-196 (mergeMap). *)
Definition merge_map (m1 m2 : list (Z * (Z * Z))) : list (Z * (Z * Z)) := fold_left (fun m x => add_num m (fst x) (fst (snd x)) (snd (snd x))) m2 m1.
(** ledger/consensus/cdb/point.go:138-153 (LeftAppend); [None] is the hash mismatch error. *)
Definition left_append (p q : point) : option point :=
  if p_hash q =? p_prev p then Some {| p_prev := p_prev q; p_hash := p_hash p; p_sbps := merge_map (p_sbps p) (p_sbps q); p_votes := p_votes p |} else None.

(** What a node holds: the snapshot chain, the LRU cache of round points (consensus_point_array.go:171-179) and the two stores of
    hour and day points (consensus_point_array.go:56-68, cdb/consensus.go). Storing and reading back a point through its protobuf
    encoding (cdb/point.go:61-137) is taken to return the point. *)
Record node : Type := { n_chain : list sblock; n_rounds : list (Z * point); n_hours : list (Z * point); n_days : list (Z * point) }.
Definition set_rounds (s : node) x : node := {| n_chain := n_chain s; n_rounds := x; n_hours := n_hours s; n_days := n_days s |}.
Definition set_hours (s : node) x : node := {| n_chain := n_chain s; n_rounds := n_rounds s; n_hours := x; n_days := n_days s |}.
Definition set_days (s : node) x : node := {| n_chain := n_chain s; n_rounds := n_rounds s; n_hours := n_hours s; n_days := x |}.
Definition del (k : Z) (l : list (Z * point)) : list (Z * point) := filter (fun x => negb (fst x =? k)) l.

(** Go block lookup by hash: the height of the block with the hash. *)
Fixpoint height_from (n : Z) (c : list sblock) (h : Z) : option Z :=
  match c with [] => None | b :: r => if b_hash b =? h then Some n else height_from (n + 1) r h end.
Definition height_of (c : list sblock) (h : Z) : option Z := height_from 1 c h.
Definition hash_at (c : list sblock) (h : Z) : Z := match block_at c h with Some b => b_hash b | None => 0 end.

(** ledger/chain/snapshot_block.go:383-417 (GetSnapshotHeadersAfterOrEqualTime without a producer): the headers above the last block before
    [t] and up to height [e], highest first, with the height below them. *)
Definition headers_after (c : list sblock) (e t : Z) : option (list sblock * Z) :=
  match header_before search_fuel (times c) t with
  | Found h => Some (if e <=? h then [] else rev (firstn (Z.to_nat (e - h)) (skipn (Z.to_nat h) c)), h)
  | Nobody => Some (if e <=? 1 then [] else rev (firstn (Z.to_nat (e - 1)) (skipn 1 c)), 1)
  | _ => None
  end.
(** ledger/chain/snapshot_block.go:406-413: the same with a producer. The loop appends nothing to the result. *)
Definition headers_after_by (c : list sblock) (e t a : Z) : option (list sblock) :=
  match headers_after c e t with
  | Some (l, _) => Some (fold_left (fun r b => if b_producer b =? a then r ++ [] else r) l [])
  | None => None
  end.
(** ledger/consensus/rollback_proof.go:24-40 (ProofEmpty): no block of the chain in [s, e). *)
Definition proof_empty (c : list sblock) (s e : Z) : option bool :=
  match header_before search_fuel (times c) e with
  | Found h => match block_at c h with Some b => if b_time b <? e then Some (b_time b <? s) else None | None => None end
  | _ => None
  end.
(** ledger/consensus/rollback_proof.go:42-51 (ProofHash). *)
Definition proof_hash (c : list sblock) (t : Z) : option Z :=
  match header_before search_fuel (times c) t with Found h => option_map b_hash (block_at c h) | _ => None end.

(** ledger/consensus/consensus_point_array.go:294-320 (genPeriodPoint). [prev] is the hash before the oldest of [bs] (its PrevHash). *)
Definition gen_point (proof prev : Z) (bs : list sblock) (plan : list slot) : option point :=
  match bs with
  | [] => None
  | b :: _ =>
      if proof =? b_hash b then
        Some {| p_prev := prev; p_hash := b_hash b; p_votes := None;
                p_sbps := fold_left (fun m s => add_num m (sl_member s) 1 0) plan (fold_left (fun m x => add_num m (b_producer x) 0 1) bs []) |}
      else None
  end.

Section Stats.
Variable elected : Z -> list Z.
Variable g : group.
(** The votes counted at a block: snapshotCs.dayVoteStat (consensus_snapshot.go:216-235), a function of the block's hash. *)
Variable votes_of : Z -> votes.

(** Intervals of a round, an hour and a day: consensus_point_array.go:32, 44 and 186. *)
Definition round_index : time_index := {| ti_genesis := g_genesis g; ti_interval := wrap_i64 (sec * wrap_i64 (plan_interval g)) |}.
Definition hour_index : time_index := {| ti_genesis := g_genesis g; ti_interval := 3600 * sec |}.
Definition day_index : time_index := {| ti_genesis := g_genesis g; ti_interval := 24 * (3600 * sec) |}.

(** ledger/consensus/consensus_point_array.go:254-292 (getByIndexWithProofFromChain). *)
Definition round_from_chain (c : list sblock) (i proof : Z) : option point :=
  let st := fst (index2time (group_index g) i) in
  match height_of c proof with
  | None => None
  | Some e =>
      match block_at c e with
      | None => None
      | Some b =>
          if b_time b <? st then Some (empty_point proof)
          else
            match headers_after c e st with
            | None => None
            | Some ([], _) => Some (empty_point proof)
            | Some (bs, h) => match election elected g c i with None => None | Some plan => gen_point proof (hash_at c h) bs plan end
            end
      end
  end.
(** ledger/consensus/consensus_point_array.go:190-237 (periodLinkedArray.GetByIndexWithProof and getByIndexWithProofFromDb). *)
Definition round_get (s : node) (i proof : Z) : option point * node :=
  let c := n_chain s in
  if hash_at c 1 =? proof then (Some (empty_point proof), s)
  else
    let compute := match round_from_chain c i proof with Some p => (Some p, set_rounds s (put i p (n_rounds s))) | None => (None, s) end in
    match get i (n_rounds s) with
    | Some p => if proof =? p_hash p then (Some p, s) else compute
    | None =>
        match proof_empty c (fst (index2time round_index i)) (snd (index2time round_index i)) with
        | None => (None, s)
        | Some true => (Some (empty_point proof), s)
        | Some false => compute
        end
    end.

(** ledger/consensus/consensus_point_array.go:135-152: the loop merging the points of the lower level, newest first; [n] of them, ending
    with the one before [i]. *)
Fixpoint merge_down (lower : node -> Z -> Z -> option point * node) (n : nat) (i tmp : Z) (r : point) (s : node) : option point * node :=
  match n with
  | O => (Some r, s)
  | S k =>
      match lower s (i - 1) tmp with
      | (None, s') => (None, s')
      | (Some p, s') =>
          if is_empty p then merge_down lower k (i - 1) tmp r s'
          else match left_append r p with None => (None, s') | Some r' => merge_down lower k (i - 1) (p_prev p) r' s' end
      end
  end.
(** ledger/consensus/consensus_point_array.go:135-163 (getByIndexWithProofFromKernel). *)
Definition from_kernel (lower : node -> Z -> Z -> option point * node) (rate : Z) (extra : option (Z -> votes)) (s : node) (i proof : Z) : option point * node :=
  let start := wrap64 (i * rate) in
  match merge_down lower (Z.to_nat rate) (wrap64 (start + rate)) proof (empty_point proof) s with
  | (None, s') => (None, s')
  | (Some r, s') =>
      (Some (match extra with
             | Some f => if is_empty r then r else {| p_prev := p_prev r; p_hash := p_hash r; p_sbps := p_sbps r; p_votes := Some (f proof) |}
             | None => r
             end), s')
  end.
(** ledger/consensus/consensus_point_array.go:79-132 (linkedArray.GetByIndexWithProof and getByIndexWithProofFromDb) for one of the two stores. *)
Definition linked_get (lower : node -> Z -> Z -> option point * node) (rate : Z) (extra : option (Z -> votes)) (ix : time_index)
    (sel : node -> list (Z * point)) (upd : node -> list (Z * point) -> node) (s : node) (i proof : Z) : option point * node :=
  let compute (exists_ : bool) :=
    match from_kernel lower rate extra s i proof with
    | (None, s') => (None, s')
    | (Some p, s') => (Some p, upd s' (if exists_ && is_empty p then del i (sel s') else put i p (sel s')))
    end in
  match get i (sel s) with
  | Some p => if proof =? p_hash p then (Some p, s) else compute true
  | None =>
      match proof_empty (n_chain s) (fst (index2time ix i)) (snd (index2time ix i)) with
      | None => (None, s)
      | Some true => (Some (empty_point proof), s)
      | Some false => compute false
      end
  end.
(** ledger/consensus/consensus_point_array.go:18-47 (newDayLinkedArray, newHourLinkedArray). *)
Definition hour_rate : Z := (3600 * sec) / wrap_i64 (wrap_i64 (plan_interval g) * sec).
Definition hour_get : node -> Z -> Z -> option point * node := linked_get round_get hour_rate None hour_index n_hours set_hours.
Definition day_get : node -> Z -> Z -> option point * node := linked_get hour_get 24 (Some votes_of) day_index n_days set_days.
(** ledger/consensus/consensus_point_array.go:70-77 and 239-247 (GetByIndex). *)
Definition by_index (ix : time_index) (f : node -> Z -> Z -> option point * node) (s : node) (i : Z) : option point * node :=
  match proof_hash (n_chain s) (snd (index2time ix i)) with None => (None, s) | Some h => f s i h end.
Definition round_at := by_index round_index round_get.
Definition hour_at := by_index hour_index hour_get.
Definition day_at := by_index day_index day_get.

(** ledger/consensus/consensus_snapshot.go:145-167 (DayStats): the points of [n] days ending with day [i], newest first; a day of its own
    is looked up by time, the ones before it by the hash the newer one ends at. *)
Fixpoint day_points (n : nat) (i : Z) (proof : option Z) (s : node) : option (list (Z * point)) * node :=
  match n with
  | O => (Some [], s)
  | S k =>
      match (match proof with None => day_at s i | Some h => day_get s i h end) with
      | (None, s') => (None, s')
      | (Some p, s') =>
          if is_empty p then day_points k (i - 1) proof s'
          else match day_points k (i - 1) (Some (p_prev p)) s' with
               | (None, s'') => (None, s'')
               | (Some l, s'') => (Some ((i, p) :: l), s'')
               end
      end
  end.

(** ledger/consensus/cdb/point.go:33-42 (Rate): factual over expected blocks in millionths; the product is an uint32, the result an int32. *)
Definition rate (x : Z * Z) : Z :=
  if fst x =? 0 then -1 else if snd x =? 0 then 0 else (wrap32 (snd x * 1000000) / fst x + 2 ^ 31) mod 2 ^ 32 - 2 ^ 31.
(** ledger/consensus/chain_rw.go:306-344 (GetSuccessRateByHour): the 48 (chain_rw.go:418-421) rounds ending with round [i], merged, as rates. [n] rounds to go. *)
Fixpoint rate_rounds (n : nat) (i : Z) (proof : option Z) (m : list (Z * (Z * Z))) (s : node) : option (list (Z * (Z * Z))) * node :=
  match n with
  | O => (Some m, s)
  | S k =>
      if i <? 0 then (Some m, s)
      else
        match (match proof with None => round_at s i | Some h => round_get s i h end) with
        | (None, s') => (None, s')
        | (Some p, s') => rate_rounds k (i - 1) (Some (p_prev p)) (merge_map m (p_sbps p)) s'
        end
  end.
Definition success_rates (s : node) (i : Z) : option (list (Z * Z)) * node :=
  match rate_rounds 48 i None [] s with
  | (None, s') => (None, s')
  | (Some m, s') => (Some (map (fun x => (fst x, rate (snd x))) m), s')
  end.

(** *** Everything that can happen to a node *)
Inductive op : Type :=
| OAppend (b : sblock)            (* a verified block is added to the chain *)
| ORollback (n : nat)             (* the newest blocks are rolled back, keeping [n] *)
| OEvict (keep : Z -> bool)       (* the LRU cache drops entries (golang-lru, consensus_point_array.go:182) *)
| ORound (i : Z) | OHour (i : Z) | ODay (i : Z) | ODays (n : nat) (i : Z) | ORates (i : Z).  (* queries *)
Definition n_step (s : node) (o : op) : node :=
  match o with
  | OAppend b => if accepts elected g (n_chain s) b then {| n_chain := n_chain s ++ [b]; n_rounds := n_rounds s; n_hours := n_hours s; n_days := n_days s |} else s
  | ORollback n => {| n_chain := firstn (S n) (n_chain s); n_rounds := n_rounds s; n_hours := n_hours s; n_days := n_days s |}
  | OEvict keep => set_rounds s (filter (fun x => keep (fst x)) (n_rounds s))
  | ORound i => snd (round_at s i)
  | OHour i => snd (hour_at s i)
  | ODay i => snd (day_at s i)
  | ODays n i => snd (day_points n i None s)
  | ORates i => snd (success_rates s i)
  end.
End Stats.
