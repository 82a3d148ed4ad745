(** Random seeds: commitments in snapshot blocks, their revelation, its verification, and the
    seed handed to contracts.

    A chain is the list of its snapshot headers from genesis (height 1) on.  Reads of the
    databases do not fail.  Hashes are lists of 32 bytes, addresses are numbers, times are
    nanoseconds.  The hash function, the election and the account chains are parameters. *)
From Coq Require Import ZArith List Bool Lia.
From Verif Require Import Lib VmModel WireModel.
Import ListNotations.
Open Scope Z_scope.

(** The fields of a snapshot block that matter here: interfaces/core/snapshot_block.go:121-140.
    [hd_commit] is SeedHash, a pointer; [hd_producer] is Producer(), the address of the key. *)
Record header := Hd { hd_hash : list Z; hd_prev : list Z; hd_time : Z; hd_seed : Z;
                      hd_commit : option (list Z); hd_producer : Z }.
(** time.Time.Unix. *)
Definition unix (t : Z) : Z := t / 1000000000.
(** GetSnapshotHeaderByHeight: ledger/chain/snapshot_block.go:80-113 (cache and file agree). *)
Definition header_at (c : list header) (h : Z) : option header :=
  if h <? 1 then None else nth_error c (Z.to_nat (h - 1)).
(** GetSnapshotHeightByHash: ledger/chain/snapshot_block.go:45-60.  Zero when unknown. *)
Fixpoint height_from (h : Z) (c : list header) (hash : list Z) : Z :=
  match c with
  | [] => 0
  | x :: r => if zlist_eqb (hd_hash x) hash then h else height_from (h + 1) r hash
  end.
Definition height_of (c : list header) (hash : list Z) : Z := height_from 1 c hash.
(** The heights visited by "for h := head; h >= tail; h--". *)
Definition down (head tail : Z) : list Z := map (fun i => head - Z.of_nat i) (seq 0 (Z.to_nat (head - tail + 1))).
(** The lowest height looked at: ledger/chain/snapshot_block.go:469,480-483 and 618-622. *)
Definition tail_height (head : Z) : Z := if 600 <? head then head - 600 else 1.

(** GetRandomSeed: ledger/chain/snapshot_block.go:468-529. *)
Fixpoint random_loop (c : list header) (n : Z) (hs : list Z) (count acc : Z) (producers : list Z)
    (prev : option (list Z)) : Z :=
  match hs with
  | [] => acc
  | h :: r =>
      if negb (count <? n) then acc
      else match header_at c h with
           | None => 0
           | Some x =>
               if match prev with Some p => negb (zlist_eqb (hd_hash x) p) | None => false end then 0
               else if hd_seed x <=? 0 then random_loop c n r count acc producers (Some (hd_prev x))
               else if existsb (Z.eqb (hd_producer x)) producers
                    then random_loop c n r count acc producers (Some (hd_prev x))
                    else random_loop c n r (count + 1) (wrap64 (acc + hd_seed x)) (hd_producer x :: producers) (Some (hd_prev x))
           end
  end.
Definition random_seed (c : list header) (hash : list Z) (n : Z) : Z :=
  let head := height_of c hash in
  random_loop c n (down head (tail_height head)) 0 0 [] None.

(** GetSeed: ledger/chain/snapshot_block.go:605-613, with LeftPadBytes and BytesToU64:
    common/helper/common.go:69-78,130-135.  Both operands have 32 bytes. *)
Definition xor_bytes (a b : list Z) : list Z := map (fun p => Z.lxor (fst p) (snd p)) (combine a b).
Definition bytes_to_u64 (d : list Z) : Z := if zlen d <? 8 then 0 else be_val (firstn 8 d).
Definition get_seed (c : list header) (limit : list Z) (from : list Z) : Z :=
  bytes_to_u64 (xor_bytes (left_pad 32 (big_bytes (random_seed c limit 25))) from).

(** GetSnapshotBlockByContractMeta: ledger/chain/snapshot_block.go:533-556.  [times] is the
    contract's SendConfirmedTimes (no contract: 0), [first] the height of the snapshot block
    confirming the send, if any.  inl is the error. *)
Definition send_confirmed (c : list header) (times : Z) (first : option Z) : unit + option Z :=
  if times =? 0 then inr None
  else match first with
       | None => inl tt
       | Some f => match header_at c (f + times - 1) with Some _ => inr (Some (f + times - 1)) | None => inl tt end
       end.
(** GetSeedConfirmedSnapshotBlock: ledger/chain/snapshot_block.go:558-603.  The counter is a
    uint8. *)
Fixpoint confirm_loop (c : list header) (times : Z) (hs : list Z) (count : Z) : option Z :=
  match hs with
  | [] => None
  | h :: r =>
      match header_at c h with
      | None => None
      | Some x =>
          let count' := if 0 <? hd_seed x then (count + 1) mod 256 else count in
          if count' =? times then Some h else confirm_loop c times r count'
      end
  end.
Definition up (first last : Z) : list Z := map (fun i => first + Z.of_nat i) (seq 0 (Z.to_nat (last - first + 1))).
Definition seed_confirmed (c : list header) (times : Z) (first : option Z) : unit + option Z :=
  if times =? 0 then inr None
  else match first with
       | None => inl tt
       | Some f => match confirm_loop c times (up f (zlen c)) 0 with Some h => inr (Some h) | None => inl tt end
       end.
(** The snapshot block a contract's receive is bound to: ledger/generator/generator.go:126-152,
    after the Seed upgrade. *)
Definition limit_height (c : list header) (send_times seed_times : Z) (first : option Z) : unit + option Z :=
  match send_confirmed c send_times first with
  | inl e => inl e
  | inr a =>
      match seed_confirmed c seed_times first with
      | inl e => inl e
      | inr b =>
          match a, b with
          | None, _ => inr b
          | Some _, None => inr a
          | Some x, Some y => if x <? y then inr b else inr a
          end
      end
  end.

Section Hash.
(** crypto.Hash256. *)
Context (H : list Z -> list Z).
(** ComputeSeedHash: interfaces/core/snapshot_block.go:142-160. *)
Definition seed_hash (seed : Z) (prev : list Z) (time : Z) : list Z :=
  H (be_bytes 8 seed ++ prev ++ be_bytes 8 (wrap64 (unix time))).

(** GetLastUnpublishedSeedSnapshotHeader: ledger/chain/snapshot_block.go:615-668. *)
Fixpoint unpublished_loop (c : list header) (producer before : Z) (hs : list Z) (seeds : list Z) : option header :=
  match hs with
  | [] => None
  | h :: r =>
      match header_at c h with
      | None => None
      | Some x =>
          if negb (hd_producer x =? producer) then unpublished_loop c producer before r seeds
          else match hd_commit x with
               | None => unpublished_loop c producer before r seeds
               | Some k =>
                   if negb (hd_time x <? before) then unpublished_loop c producer before r (hd_seed x :: seeds)
                   else if existsb (fun s => zlist_eqb (seed_hash s (hd_prev x) (hd_time x)) k) seeds
                        then unpublished_loop c producer before r (hd_seed x :: seeds)
                        else Some x
               end
      end
  end.
Definition last_unpublished (c : list header) (producer before : Z) : option header :=
  unpublished_loop c producer before (down (zlen c) (tail_height (zlen c))) [].

(** The election of the round of a time: the slots (producer and time) and the round's start,
    or an error.  ElectionTime: ledger/consensus/consensus_snapshot.go. *)
Context (election : Z -> option (list (Z * Z) * Z)).
(** verifyProducer: ledger/consensus/consensus_snapshot.go:430-442. *)
Definition verify_slot (t addr : Z) (plans : list (Z * Z)) : bool :=
  existsb (fun p => (fst p =? addr) && (snd p =? t)) plans.
(** verifyProducerAndSeed: ledger/consensus/consensus_snapshot.go:444-469.  None is an error. *)
Definition verify_producer_and_seed (c : list header) (b : header) : option bool :=
  match election (hd_time b) with
  | None => None
  | Some (plans, stime) =>
      if negb (verify_slot (hd_time b) (hd_producer b) plans) then Some false
      else if hd_seed b =? 0 then Some true
      else match last_unpublished c (hd_producer b) stime with
           | None => None
           | Some x =>
               match hd_commit x with
               | None => None
               | Some k => if zlist_eqb (seed_hash (hd_seed b) (hd_prev x) (hd_time x)) k then Some true else None
               end
           end
  end.
(** VerifySnapshotProducer: ledger/consensus/consensus_impl.go:14-17, and VerifyProducer:
    ledger/consensus/consensus_snapshot.go:422-428.  The first result is dropped. *)
Definition verify_snapshot_producer (c : list header) (b : header) : option bool :=
  let _ := verify_producer_and_seed c b in
  match election (hd_time b) with
  | None => None
  | Some (plans, _) => Some (verify_slot (hd_time b) (hd_producer b) plans)
  end.

(** ledger/verifier: the three results. *)
Inductive verdict := VPending | VFail | VSuccess.
(** getLastSeedBlock: ledger/verifier/snapshot_verifier.go:181-197.  Everything is commented
    out. *)
Definition verifier_last_seed_block (c : list header) (b : header) : option header := None.
(** verifySelf: ledger/verifier/snapshot_verifier.go:76-104.  None is success. *)
Definition verify_self (genesis : list Z) (c : list header) (height : Z) (b : header) : option verdict :=
  if (height =? 1) && negb (zlist_eqb (hd_hash b) genesis) then Some VFail
  else if negb (hd_seed b =? 0) &&
          match verifier_last_seed_block c b with
          | Some x => match hd_commit x with
                      | Some k => negb (zlist_eqb (seed_hash (hd_seed b) (hd_prev x) (hd_time x)) k)
                      | None => true
                      end
          | None => false
          end
       then Some VPending
  else if negb (zlen c =? height - 1) then Some VPending
  else if negb (zlist_eqb (hd_hash (last c (Hd [] [] 0 0 None 0))) (hd_prev b)) then Some VPending
  else None.
(** verifyAccounts: ledger/verifier/snapshot_verifier.go:106-132.  [acc addr height] is the
    hash of that account block, if there is one. *)
Fixpoint verify_accounts (acc : Z -> Z -> option (list Z)) (content : list (Z * (Z * list Z))) (pending : bool) : verdict :=
  match content with
  | [] => if pending then VPending else VSuccess
  | (addr, (h, hash)) :: r =>
      match acc addr h with
      | None => verify_accounts acc r true
      | Some k => if zlist_eqb k hash then verify_accounts acc r pending else VFail
      end
  end.
(** VerifyReferred: ledger/verifier/snapshot_verifier.go:134-177. *)
Definition verify_referred (genesis : list Z) (acc : Z -> Z -> option (list Z)) (c : list header) (height : Z)
    (content : list (Z * (Z * list Z))) (b : header) : verdict :=
  match verify_self genesis c height b with
  | Some v => v
  | None =>
      if negb (hd_time (last c (Hd [] [] 0 0 None 0)) <? hd_time b) then VFail
      else match verify_accounts acc content false with
           | VPending => VPending
           | VFail => VFail
           | VSuccess =>
               if height =? 1 then VSuccess
               else match verify_snapshot_producer c b with
                    | Some true => VSuccess
                    | _ => VFail
                    end
           end
  end.

(** The seed part of generateSnapshot: producer/tools.go:25-50 with getLastSeedBlock:
    producer/tools.go:83-93.  [seed] is the fresh seed, [cached k] the seed stored for a
    commitment (producer/worker.go:112-135), zero when there is none.  Result: SeedHash and
    Seed of the new block. *)
Definition produce_seed (c : list header) (producer time period : Z) (seed : Z) (cached : option (list Z) -> Z) : option (list Z) * Z :=
  let prev := hd_hash (last c (Hd [] [] 0 0 None 0)) in
  match last_unpublished c producer period with
  | Some x =>
      if hd_time x <? period then (Some (seed_hash seed prev time), cached (hd_commit x))
      else (None, 0)
  | None => (Some (seed_hash seed prev time), 0)
  end.
End Hash.
