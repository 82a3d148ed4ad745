(** Model of the write path to disk: leveldb batches (common/db/xleveldb/batch.go), the store of a ledger database
    (ledger/chain/db/{store,write,flush,rollback,unconfirmed_batch}.go) and the flusher that moves several databases to disk
    together (ledger/chain/flusher/flusher.go). *)
From Verif Require Import Lib.

Notation bytes := (list Z) (only parsing).
(** ** Batches: batch.go *)
(** a record of a batch: Put, Delete (118-127) *)
Inductive wop := WPut (k v : bytes) | WDel (k : bytes).
Definition wkey (o : wop) : bytes := match o with WPut k _ => k | WDel k => k end.
(** the content of a leveldb database *)
Definition kv := bytes -> option bytes.
(** leveldb's Write and Replay (146-156): the records in order *)
Definition apply1 (d : kv) (o : wop) : kv := fun k =>
  if zlist_eqb k (wkey o) then match o with WPut _ v => Some v | WDel _ => None end else d k.
Definition apply (ops : list wop) (d : kv) : kv := fold_left apply1 ops d.

(** encoding/binary PutUvarint (Go standard library); ten bytes hold any uint64 *)
Fixpoint put_uvarint (fuel : nat) (x : Z) : bytes :=
  match fuel with
  | O => [x]
  | S f => if x <? 128 then [x] else (x mod 128 + 128) :: put_uvarint f (x / 128)
  end.
Definition uvarint_bytes (x : Z) : bytes := put_uvarint 9 x.
(** encoding/binary Uvarint: value and what follows; None stands for n <= 0 *)
Fixpoint uvarint (fuel : nat) (i : nat) (acc : Z) (l : bytes) : option (Z * bytes) :=
  match l, fuel with
  | b :: r, S f =>
    if b <? 128 then if (i =? 9)%nat && (1 <? b) then None else Some (acc + b * 128 ^ Z.of_nat i, r)
    else uvarint f (S i) (acc + (b - 128) * 128 ^ Z.of_nat i) r
  | _, _ => None
  end.
(** appendRec 89-113 *)
Definition enc_op (o : wop) : bytes :=
  match o with
  | WPut k v => 1 :: uvarint_bytes (zlen k) ++ k ++ uvarint_bytes (zlen v) ++ v
  | WDel k => 0 :: uvarint_bytes (zlen k) ++ k
  end.
(** Dump 133-135 *)
Definition dump (ops : list wop) : bytes := concat (map enc_op ops).
(** one length-prefixed slice of decodeBatch; lengths above the data are rejected as in 260-265 (int(x) turning negative
    for x >= 2^63 is not modelled) *)
Definition take_slice (l : bytes) : option (bytes * bytes) :=
  match uvarint 10 0 0 l with
  | None => None
  | Some (x, r) => if zlen r <? x then None else Some (firstn (Z.to_nat x) r, skipn (Z.to_nat x) r)
  end.
(** decodeBatch 250-290; [fuel] only for termination *)
Fixpoint decode (fuel : nat) (l : bytes) : option (list wop) :=
  match l, fuel with
  | [], _ => Some []
  | _, O => None
  | t :: r, S f =>
    if 1 <? t then None else
    match take_slice r with
    | None => None
    | Some (k, r1) =>
      if t =? 1 then
        match take_slice r1 with
        | None => None
        | Some (v, r2) => match decode f r2 with Some ops => Some (WPut k v :: ops) | None => None end
        end
      else match decode f r1 with Some ops => Some (WDel k :: ops) | None => None end
    end
  end.
(** Load 141-143 *)
Definition load (l : bytes) : option (list wop) := decode (length l) l.

(** ** A store: store.go 18-34 *)
(** [st_unc]: UnconfirmedBatchs, unconfirmed_batch.go 11-15; an element whose hash was put again keeps its place in the list
    but can no longer be found (None) *)
Record store := mkStore {
  st_disk : kv;
  st_mem : list wop;                        (* memDb: every record since the last AfterCommit, in order *)
  st_snap : list wop;                       (* snapshotBatch *)
  st_flush : option (list wop);             (* flushingBatch *)
  st_unc : list (option Z * list wop) }.
(** NewStoreWithDb 47-64 *)
Definition open_store (d : kv) : store := mkStore d [] [] None [].
(** Get 74-86: the in-memory database first, then the disk *)
Definition get (s : store) : kv := apply (st_mem s) (st_disk s).

Definition is_hash (h : Z) (e : option Z * list wop) : bool := match fst e with Some x => x =? h | None => false end.
(** unconfirmed_batch.go Put 41-47 *)
Definition unc_put (h : Z) (b : list wop) (l : list (option Z * list wop)) :=
  map (fun e => if is_hash h e then (None, snd e) else e) l ++ [(Some h, b)].
(** Get 31-39 *)
Definition unc_get (h : Z) (l : list (option Z * list wop)) : option (list wop) :=
  match find (is_hash h) l with Some e => Some (snd e) | None => None end.
(** Remove 49-57 *)
Definition unc_rm (h : Z) (l : list (option Z * list wop)) := filter (fun e => negb (is_hash h e)) l.
(** All 67-76 *)
Definition unc_all (l : list (option Z * list wop)) : list wop := concat (map snd l).

(** WriteDirectly, write.go 11-15 *)
Definition write_direct (s : store) (b : list wop) : store :=
  mkStore (st_disk s) (st_mem s ++ b) (st_snap s ++ b) (st_flush s) (st_unc s).
(** WriteAccountBlockByHash, write.go 21-28 *)
Definition write_block (s : store) (h : Z) (b : list wop) : store :=
  mkStore (st_disk s) (st_mem s ++ b) (st_snap s) (st_flush s) (unc_put h b (st_unc s)).
(** WriteSnapshotByHash, write.go 43-63; None: panic *)
Fixpoint confirm_batches (hs : list Z) (snap : list wop) (u : list (option Z * list wop)) : option (list wop * list (option Z * list wop)) :=
  match hs with
  | [] => Some (snap, u)
  | h :: r => match unc_get h u with None => None | Some b => confirm_batches r (snap ++ b) (unc_rm h u) end
  end.
Definition write_snapshot (s : store) (b : list wop) (hs : list Z) : option store :=
  match confirm_batches hs (st_snap s) (st_unc s) with
  | None => None
  | Some (snap, u) => Some (mkStore (st_disk s) (st_mem s ++ b) (snap ++ b) (st_flush s) u)
  end.
(** RollbackAccountBlockByHash, rollback.go 21-30 *)
Definition rollback_blocks (s : store) (b : list wop) (hs : list Z) : store :=
  mkStore (st_disk s) (st_mem s ++ b) (st_snap s) (st_flush s) (fold_left (fun u h => unc_rm h u) hs (st_unc s)).
(** RollbackSnapshot, rollback.go 32-45 *)
Definition rollback_snapshot (s : store) (b : list wop) : store :=
  mkStore (st_disk s) (st_mem s ++ b) (st_snap s ++ unc_all (st_unc s) ++ b) (st_flush s) [].

(** Prepare, flush.go 22-30; None: panic *)
Definition prepare (s : store) : option store :=
  match st_flush s with
  | Some _ => None
  | None => Some (mkStore (st_disk s) (st_mem s) [] (Some (st_snap s)) (st_unc s))
  end.
Definition flushing (s : store) : list wop := match st_flush s with Some b => b | None => [] end.
(** CancelPrepare 33-43 *)
Definition cancel (s : store) : store :=
  mkStore (st_disk s) (st_mem s) (flushing s ++ st_snap s) None (st_unc s).
(** Commit 49-54: leveldb writes a batch as a whole *)
Definition commit (s : store) : store :=
  mkStore (apply (flushing s) (st_disk s)) (st_mem s) (st_snap s) (st_flush s) (st_unc s).
(** AfterCommit 71-89 *)
Definition after_commit (s : store) : store :=
  mkStore (st_disk s) (st_snap s ++ unc_all (st_unc s)) (st_snap s) None (st_unc s).
(** PatchRedoLog 56-68; None: error *)
Definition patch (s : store) (l : bytes) : option store :=
  match load l with
  | None => None
  | Some ops => Some (mkStore (apply ops (st_disk s)) (st_mem s) (st_snap s) (st_flush s) (st_unc s))
  end.
(** Flusher.flush, flusher.go 205-256, for a single store; [wrote], [synced]: whether writing and syncing the redo log succeed. None: panic *)
Definition flush_once (wrote synced : bool) (s : store) : option store :=
  match prepare s with
  | None => None
  | Some s1 => if negb wrote then Some s1 else if negb synced then Some (cancel s1) else Some (after_commit (commit s1))
  end.
(** a restart: nothing but the disk survives *)
Definition restart (s : store) : store := open_store (st_disk s).

(** ** The redo log: flusher.go *)
Definition hash_size : nat := 32.
(** writeRedoLog 376-430: for each store with something to write its id, the length as uint32 and the log; then the flag *)
Definition enc_entry (e : bytes * bytes) : bytes := fst e ++ be_bytes 4 (zlen (snd e) mod 2 ^ 32) ++ snd e.
Definition entries_of (stores : list (bytes * bytes)) : list (bytes * bytes) :=
  filter (fun e => 0 <? zlen (snd e) mod 2 ^ 32) stores.
Definition enc_log (flag : bytes) (stores : list (bytes * bytes)) : bytes :=
  concat (map enc_entry (entries_of stores)) ++ flag.
(** loadRedo 269-343. [ids]: the ids of the stores (idMap). Result: None for an error, otherwise the entries and whether the
    flag was found. The three states of the loop are one iteration here: an incomplete entry ends the loop (296-298); the id
    of an incomplete entry is looked up all the same. *)
Fixpoint scan (fuel : nat) (flag : bytes) (ids : list bytes) (l : bytes) : option (list (bytes * bytes) * bool) :=
  match fuel with
  | O => Some ([], false)
  | S f =>
    if (length l <? hash_size)%nat then Some ([], false) else
    let id := firstn hash_size l in
    let r := skipn hash_size l in
    if zlist_eqb id flag then
      match scan f flag ids r with Some (es, _) => Some (es, true) | None => None end
    else if negb (existsb (zlist_eqb id) ids) then None else
    if (length r <? 4)%nat then Some ([], false) else
    let n := Z.to_nat (be_val (firstn 4 r)) in
    let r' := skipn 4 r in
    if (length r' <? n)%nat then Some ([], false) else
    match scan f flag ids (skipn n r') with Some (es, b) => Some ((id, firstn n r') :: es, b) | None => None end
  end.
(** the entries to redo; [] also for an error or a log without flag (Recover 161-165 clears the log in both cases) *)
Definition load_redo (flag : bytes) (ids : list bytes) (l : bytes) : list (bytes * bytes) :=
  match scan (S (length l)) flag ids l with Some (es, true) => es | _ => [] end.

(** ** The flusher over several databases *)
(** [D]: content of a database on disk; [dpatch l d]: PatchRedoLog, which writes the same as Commit. [torn l d d']: d' is
    what the disk holds while such a write is under way. Stores are known by position; [ids] gives their ids. *)
Section Flusher.
Context {D : Type} (dpatch : bytes -> D -> D) (torn : bytes -> D -> D -> Prop) (flag : bytes) (ids : list bytes).
Inductive phase :=
| Idle                                      (* between flushes *)
| Logging (logs : list bytes)               (* prepared; the redo log is being written *)
| Committing (logs : list bytes) (todo : list nat)  (* the redo log is complete and synced; positions not yet committed *)
| Down                                      (* the process is gone *)
| Redoing (es rest : list (bytes * bytes)).  (* Recover: entries loaded, entries still to patch *)
(** [fs_gen]: the flushes that are finished, as lists of (id, log), and [fs_begun]: the logs of every flush that was prepared;
    neither is part of the program *)
Record fstate := mkF { fs_disks : list D; fs_log : bytes; fs_phase : phase; fs_gen : list (list (bytes * bytes)); fs_begun : list (list bytes) }.
Definition set_nth {A} (n : nat) (x : A) (l : list A) : list A := firstn n l ++ match skipn n l with [] => [] | _ :: r => x :: r end.
(** position of the store with this id; NewFlusher 83-86 builds idMap *)
Fixpoint pos_of (id : bytes) (l : list bytes) (i : nat) : option nat :=
  match l with [] => None | x :: r => if zlist_eqb id x then Some i else pos_of id r (S i) end.
Definition full_log (logs : list bytes) : bytes := enc_log flag (combine ids logs).
(** the steps of flush 205-256, Recover 157-173 and of crashes *)
Inductive fstep : fstate -> fstate -> Prop :=
| fs_prepare ds lg g bg logs : length logs = length ids -> Forall (fun l => zlen l < 2 ^ 32) logs ->
    fstep (mkF ds lg Idle g bg) (mkF ds [] (Logging logs) g (bg ++ [logs]))                     (* prepare 359-374, cleanRedoLog 377-380 *)
| fs_write ds lg g bg logs n : lg = firstn n (full_log logs) ->
    fstep (mkF ds lg (Logging logs) g bg) (mkF ds (firstn (S n) (full_log logs)) (Logging logs) g bg)   (* writeRedoLog 382-430 *)
| fs_synced ds lg g bg logs : lg = full_log logs ->
    fstep (mkF ds lg (Logging logs) g bg) (mkF ds lg (Committing logs (seq 0 (length ids))) g bg)       (* syncRedoLog 432-437 *)
| fs_cancel ds lg g bg logs : fstep (mkF ds lg (Logging logs) g bg) (mkF ds [] Idle g bg)                  (* syncRedoLog 439-456 *)
| fs_commit ds lg g bg logs a i b d : nth_error ds i = Some d ->
    fstep (mkF ds lg (Committing logs (a ++ i :: b)) g bg)
          (mkF (set_nth i (dpatch (nth i logs []) d) ds) lg (Committing logs (a ++ b)) g bg)         (* commit 459-477, in any order *)
| fs_torn ds lg g bg logs a i b d d' : nth_error ds i = Some d -> torn (nth i logs []) d d' ->
    fstep (mkF ds lg (Committing logs (a ++ i :: b)) g bg) (mkF (set_nth i d' ds) lg (Committing logs (a ++ i :: b)) g bg)
| fs_commit_failed ds lg g bg logs todo :
    fstep (mkF ds lg (Committing logs todo) g bg)
          (mkF ds lg (Redoing (load_redo flag ids lg) (load_redo flag ids lg)) g bg)              (* flush 242-252, commitRedo 258-267 *)
| fs_finish ds lg g bg logs : fstep (mkF ds lg (Committing logs []) g bg) (mkF ds [] Idle (g ++ [entries_of (combine ids logs)]) bg)
| fs_crash ds lg g bg p : fstep (mkF ds lg p g bg) (mkF ds lg Down g bg)
| fs_load ds lg g bg : fstep (mkF ds lg Down g bg) (mkF ds lg (Redoing (load_redo flag ids lg) (load_redo flag ids lg)) g bg)
| fs_redo ds lg g bg es id l r i d : pos_of id ids 0 = Some i -> nth_error ds i = Some d ->
    fstep (mkF ds lg (Redoing es ((id, l) :: r)) g bg) (mkF (set_nth i (dpatch l d) ds) lg (Redoing es r) g bg)   (* redo 501-511 *)
| fs_redo_torn ds lg g bg es id l r i d d' : pos_of id ids 0 = Some i -> nth_error ds i = Some d -> torn l d d' ->
    fstep (mkF ds lg (Redoing es ((id, l) :: r)) g bg) (mkF (set_nth i d' ds) lg (Redoing es ((id, l) :: r)) g bg)
| fs_recovered ds lg g bg es : fstep (mkF ds lg (Redoing es []) g bg) (mkF ds [] Idle (match es with [] => g | _ => g ++ [es] end) bg).
End Flusher.

(** ** The block files: ledger/chain/block/flush.go and file_manager.go *)
(** Every file but the last is full, so the files are one string of bytes here; a location (file id from 1, offset) is the
    position (id - 1) * fileSize + offset in it. *)
Definition location_pos (size : Z) (l : bytes) : nat :=           (* DeserializeLocation, ledger/chain/utils/conversion.go 18-20 *)
  Z.to_nat ((be_val (firstn 8 l) - 1) * size + be_val (firstn 4 (skipn 8 l))).
(** writing [w] at position [s] of a file; a gap is filled with zeros *)
Definition overwrite (s : nat) (w d : bytes) : bytes :=
  match w with [] => d | _ => firstn s d ++ repeat 0 (s - length d) ++ w ++ skipn (s + length w) d end.
(** BlockDB.PatchRedoLog flush.go 131-136 and Commit 103-105: FileManager.Flush, file_manager.go 94-154: write the data from the
    start location to the target location, then cut everything above the target (prevFlushLocation is the end of the files) *)
Definition file_start (size : Z) (l : bytes) : nat := location_pos size (firstn 12 l).
Definition file_target (size : Z) (l : bytes) : nat := location_pos size (firstn 12 (skipn 12 l)).
Definition file_data (size : Z) (l : bytes) : bytes := firstn (file_target size l - file_start size l) (skipn 24 l).
Definition file_patch (size : Z) (l d : bytes) : bytes :=
  if (length l <? 24)%nat then d else firstn (file_target size l) (overwrite (file_start size l) (file_data size l) d).
(** during such a write: some of the data has been written, or all of it and some of the files above the target are gone *)
Definition file_torn (size : Z) (l d d' : bytes) : Prop :=
  (24 <= length l)%nat /\
  ((exists n, d' = overwrite (file_start size l) (firstn n (file_data size l)) d) \/
   (exists m, (file_target size l <= m)%nat /\ d' = firstn m (overwrite (file_start size l) (file_data size l) d))).

(** ** Losing power *)
(** Commit and PatchRedoLog call leveldb's Write with nil options (flush.go 50 and 63), that is without Sync: when the power
    fails, a database keeps a prefix of the writes it was given. [power_loss ids gens ds0 ds']: possible disks after a power
    failure when the flushes [gens] were finished. *)
Definition power_loss (ids : list bytes) (gens : list (list (bytes * bytes))) (ds0 ds' : list kv) : Prop :=
  length ds' = length ds0 /\
  forall i id d0 d', nth_error ids i = Some id -> nth_error ds0 i = Some d0 -> nth_error ds' i = Some d' -> exists n,
  d' = fold_left (fun d e => if zlist_eqb (fst e) id then match load (snd e) with Some ops => apply ops d | None => d end else d)
         (concat (firstn n gens)) d0.
