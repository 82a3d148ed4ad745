(** The block files: a directory of files of fixed size that blocks are appended to, with the
    files not yet on disk kept in memory (ledger/chain/file_manager and ledger/chain/block).
    One thread at a time; errors of the operating system are not modelled, and writes reach the
    disk in the order they are made.  Sizes and offsets are not bounded by 64 bits. *)
From Verif Require Import Lib.
Import ListNotations.

(** Location: ledger/chain/file_manager/location.go:9-12, Compare: 21-35. *)
Record loc := Loc { l_id : Z; l_off : Z }.
Definition loc_lt (a b : loc) : bool := (l_id a <? l_id b) || ((l_id a =? l_id b) && (l_off a <? l_off b)).

(** fileCacheItem: fd_manager.go:17-27.  Whether FileWriter is set stands for the open file. *)
Record item := Item { i_id : Z; i_buf : list Z; i_len : Z; i_writer : bool }.
(** The directory. *)
Definition disk := list (Z * list Z).
Fixpoint dget (d : disk) (id : Z) : option (list Z) :=
  match d with [] => None | (x, b) :: r => if x =? id then Some b else dget r id end.
Fixpoint ddel (d : disk) (id : Z) : disk :=
  match d with [] => [] | (x, b) :: r => if x =? id then ddel r id else (x, b) :: ddel r id end.
Definition dset (d : disk) (id : Z) (b : list Z) : disk := (id, b) :: ddel d id.
(** What is done to the directory: os.Create, Seek and Write, os.Remove, Truncate. *)
Inductive dop := DCreate (id : Z) | DWrite (id off : Z) (b : list Z) | DRemove (id : Z) | DTrunc (id n : Z).
Definition grown (b : list Z) (n : nat) : list Z := firstn n b ++ repeat 0 (n - length b)%nat.
Definition dapply (d : disk) (o : dop) : disk :=
  match o with
  | DCreate id => dset d id []
  | DWrite id off b =>
      match b, dget d id with
      | [], _ | _, None => d
      | _, Some f => dset d id (grown f (Z.to_nat off) ++ b ++ skipn (Z.to_nat off + length b) f)
      end
  | DRemove id => ddel d id
  | DTrunc id n => match dget d id with Some f => dset d id (grown f (Z.to_nat n)) | None => d end
  end.
Definition dapply_all (d : disk) (os : list dop) : disk := fold_left dapply os d.

(** FileManager and fdManager: file_manager.go:13-22, fd_manager.go:29-47.  [f_items] is the file
    cache, newest first; its first item is the one written to.  [f_fly] is what BlockDB keeps
    between Prepare and AfterCommit: block_db.go:35-37. *)
Record fstate := FState {
  f_items : list item; f_disk : disk; f_next : loc; f_prev : loc; f_fly : option (loc * loc * list Z) }.

Section Files.
(** The size of a file, ten million bytes or so, and the number of files cached, ten
    (block_db.go:22, 51). *)
Context (fs cl : Z).

(** LatestLocation: fd_manager.go:88-91. *)
Definition latest (s : fstate) : loc :=
  match f_items s with it :: _ => Loc (i_id it) (i_len it) | [] => Loc 0 0 end.
(** The cache items that are dropped and the one that is used again: fd_manager.go:289-309;
    oldest first. *)
Fixpoint drop_stale (n : Z) (old : list item) : list item :=
  match old with
  | [] => []
  | it :: r => if (cl <? zlen old) && (i_id it <? n) then drop_stale n r else old
  end.
Definition reuse (n : Z) (old : list item) : list item * list Z :=
  match old with
  | it :: r => if (cl <=? zlen old) && (i_id it <? n) then (r, i_buf it) else (old, repeat 0 (Z.to_nat fs))
  | [] => ([], repeat 0 (Z.to_nat fs))
  end.
(** resetWriteFd without a write file: fd_manager.go:256-346.  The cache is looked at only at its
    newest item, as no older one is asked for (BlkProofs.v).  None is an error. *)
Definition open_file (items : list item) (d : disk) (next : option loc) (l : loc) : option (list item) :=
  let load :=
    let file := if 0 <? l_off l then dget d (l_id l) else Some [] in
    let '(old, buf) := match next with
                       | Some n => reuse (l_id n) (drop_stale (l_id n) (rev items))
                       | None => (rev items, repeat 0 (Z.to_nat fs))
                       end in
    match file with
    | None => None
    | Some f =>
        if (length f <? Z.to_nat (l_off l))%nat || (fs <? l_off l) then None
        else Some (Item (l_id l) (firstn (Z.to_nat (l_off l)) f ++ skipn (Z.to_nat (l_off l)) buf) (l_off l) (0 <? l_off l) :: rev old)
    end in
  match items with
  | it :: r => if i_id it =? l_id l then Some (Item (i_id it) (i_buf it) (l_off l) (i_writer it) :: r) else load
  | [] => load
  end.
Definition with_items (s : fstate) (its : list item) : fstate :=
  FState its (f_disk s) (f_next s) (f_prev s) (f_fly s).
(** CreateNextFd: fd_manager.go:207-224. *)
Definition create_next (s : fstate) : option fstate :=
  match open_file (f_items s) (f_disk s) (Some (f_next s)) (Loc (l_id (latest s) + 1) 0) with
  | Some its => Some (with_items s its)
  | None => None
  end.
(** fileDescription.Write: fd.go:52-83. *)
Definition fd_write (it : item) (b : list Z) : item * nat :=
  if fs <=? i_len it then (it, O)
  else
    let n := Nat.min (Z.to_nat (fs - i_len it)) (length b) in
    let p := Z.to_nat (i_len it) in
    (Item (i_id it) (firstn p (i_buf it) ++ firstn n b ++ skipn (p + n) (i_buf it)) (i_len it + Z.of_nat n) (i_writer it), n).
(** FileManager.Write: file_manager.go:57-74, with write: 294-311. *)
Fixpoint write_loop (fuel : nat) (s : fstate) (b : list Z) : option fstate :=
  match b with
  | [] => Some s
  | _ =>
      match fuel, f_items s with
      | S f, it :: r =>
          let (it', n) := fd_write it b in
          let s1 := with_items s (it' :: r) in
          if (n <? length b)%nat then
            match create_next s1 with Some s2 => write_loop f s2 (skipn n b) | None => None end
          else write_loop f s1 (skipn n b)
      | _, _ => None
      end
  end.
Definition fm_write (s : fstate) (b : list Z) : option (loc * fstate) :=
  match write_loop (2 * length b + 2) s b with Some s' => Some (latest s, s') | None => None end.
(** The loop of fdManager.DeleteTo: fd_manager.go:153-175.  None is the panic at line 161. *)
Fixpoint pop (n : nat) (its : list item) : option (list item) :=
  match n with O => Some its | S m => match its with [] => None | _ :: r => pop m r end end.
(** FileManager.DeleteTo: file_manager.go:76-92; fdManager.DeleteTo: fd_manager.go:149-183. *)
Definition delete_to (s : fstate) (l : loc) : option fstate :=
  if negb (loc_lt l (latest s)) then Some s
  else
    match pop (Z.to_nat (l_id (latest s) - l_id l)) (f_items s) with
    | None => None
    | Some its =>
        match open_file its (f_disk s) (Some (f_next s)) l with
        | None => None
        | Some its' => Some (FState its' (f_disk s) (if loc_lt l (f_next s) then l else f_next s) (f_prev s) (f_fly s))
        end
    end.
(** GetFd: fd_manager.go:93-117, with getCacheItem: 405-429. *)
Inductive fd := FNone | FItem (it : item) | FFile (f : option (list Z)).
Definition get_fd (s : fstate) (id : Z) : fd :=
  if l_id (latest s) <? id then FNone
  else match find (fun it => i_id it =? id) (f_items s) with
       | Some it => FItem it
       | None => FFile (dget (f_disk s) id)
       end.
(** ReadAt: fd.go:38-50, readAt: 134-174, and os.File.ReadAt.  What was read, and whether all of
    it; a missing file is a nil pointer. *)
Inductive rd := RPanic | REof (b : list Z) | ROk (b : list Z).
Definition cut (b : list Z) (off n : Z) : rd :=
  let r := firstn (Z.to_nat n) (skipn (Z.to_nat off) b) in
  if (length r <? Z.to_nat n)%nat then REof r else ROk r.
Definition read_at (f : fd) (off n : Z) : rd :=
  match f with
  | FItem it => if i_len it <? off then REof [] else cut (firstn (Z.to_nat (i_len it)) (i_buf it)) off n
  | FFile (Some b) => cut b off n
  | _ => RPanic
  end.
(** ReadRaw: file_manager.go:183-223.  A negative length is a panic. *)
Inductive rr := Panic | Eof | Done (l : loc) (b : list Z).
Fixpoint read_raw (fuel : nat) (s : fstate) (l : loc) (n : Z) : rr :=
  if n <=? 0 then Done l []
  else
    match fuel with
    | O => Panic
    | S f =>
        let size := Z.min n (fs - l_off l) in
        match get_fd s (l_id l) with
        | FNone => Eof
        | x =>
            if size <? 0 then Panic
            else match read_at x (l_off l) size with
                 | RPanic => Panic
                 | REof _ => Eof
                 | ROk b =>
                     let l' := if fs <=? l_off l + size then Loc (l_id l + 1) 0 else Loc (l_id l) (l_off l + size) in
                     match read_raw f s l' (n - size) with
                     | Done e r => Done e (b ++ r)
                     | x => x
                     end
                 end
        end
    end.
Definition read (s : fstate) (l : loc) (n : Z) : rr := read_raw (2 * Z.to_nat n + 2) s l n.
(** FileManager.Read: file_manager.go:167-181. *)
Definition fm_read (s : fstate) (l : loc) : rr :=
  match read s l 4 with
  | Done l' h => read s l' (be_val h)
  | x => x
  end.
(** GetNextLocation: file_manager.go:155-165, and block_db.go:275-284. *)
Definition next_location (s : fstate) (l : loc) : option loc :=
  match read s l 4 with
  | Done _ h => let o := l_off l + be_val h + 4 in Some (Loc (l_id l + o / fs) (o mod fs))
  | _ => None
  end.
(** ReadRange: file_manager.go:225-262, readFile: 285-292.  The pieces handed to the parser; None
    is an error or a panic. *)
Fixpoint read_range (fuel : nat) (s : fstate) (l e : loc) : option (list (list Z)) :=
  if l_id e <? l_id l then Some []
  else
    match fuel with
    | O => None
    | S f =>
        let to := if l_id l =? l_id e then l_off e else fs in
        match get_fd s (l_id l) with
        | FNone => None
        | x =>
            if to <? l_off l then None
            else match read_at x (l_off l) (to - l_off l) with
                 | ROk b => match read_range f s (Loc (l_id l + 1) 0) e with
                            | Some r => Some (b :: r)
                            | None => None
                            end
                 | _ => None
                 end
        end
    end.
Definition range (s : fstate) (l e : loc) : option (list (list Z)) :=
  read_range (Z.to_nat (l_id e - l_id l) + 1) s l e.
(** Prepare: ledger/chain/block/flush.go:51-71 (62-65 panic). *)
Definition prepare (s : fstate) : option fstate :=
  match range s (f_next s) (latest s) with
  | Some ps => Some (FState (f_items s) (f_disk s) (latest s) (f_prev s) (Some (f_next s, latest s, concat ps)))
  | None => None
  end.
(** CancelPrepare: flush.go:76-88. *)
Definition cancel (s : fstate) : fstate :=
  match f_fly s with
  | Some (a, _, _) => FState (f_items s) (f_disk s) (if loc_lt a (f_next s) then a else f_next s) (f_prev s) None
  | None => s
  end.
(** The loop of Flush: file_manager.go:96-137, with GetTmpFlushFd: fd_manager.go:118-140 and
    fileDescription.Flush: fd.go:85-126.  The changes of the directory and the cache afterwards;
    None is an error. *)
Definition opened (its : list item) (id : Z) : list item :=
  map (fun it => if i_id it =? id then Item (i_id it) (i_buf it) (i_len it) true else it) its.
Fixpoint flush_loop (fuel : nat) (s : fstate) (l t : loc) (b : list Z) : option (list dop * fstate) :=
  if negb (loc_lt l t) then Some ([], s)
  else
    match fuel with
    | O => None
    | S f =>
        let n := (if l_id l =? l_id t then l_off t else fs) - l_off l in
        let w := DWrite (l_id l) (l_off l) (firstn (Z.to_nat n) b) in
        let go := fun os s' =>
          let l' := if fs <=? l_off l + n then Loc (l_id l + 1) 0 else Loc (l_id l) (l_off l + n) in
          match flush_loop f s' l' t (skipn (Z.to_nat n) b) with
          | Some (r, s'') => Some (os ++ r, s'')
          | None => None
          end in
        if (n <? 0) || (zlen b <? n) then None
        else match get_fd s (l_id l) with
             | FNone => go (match dget (f_disk s) (l_id l) with Some _ => [w] | None => [DCreate (l_id l); w] end) s
             | FItem it => go (if i_writer it then [w] else [DCreate (l_id l); w]) (with_items s (opened (f_items s) (l_id l)))
             | FFile _ => None
             end
    end.
(** DiskDelete: fd_manager.go:185-205. *)
Fixpoint removals (n : nat) (hi : Z) : list dop :=
  match n with O => [] | S m => DRemove hi :: removals m (hi - 1) end.
Definition disk_delete (hi lo : loc) : list dop :=
  removals (Z.to_nat (l_id hi - l_id lo)) (l_id hi) ++ [DTrunc (l_id lo) (l_off lo)].
(** Flush: file_manager.go:94-154. *)
Definition flush (s : fstate) (a t : loc) (b : list Z) : option (list dop * fstate) :=
  match flush_loop (Z.to_nat (l_id t - l_id a) + 2) s a t b with
  | None => None
  | Some (os, s') =>
      let all := os ++ (if loc_lt t (f_prev s) then disk_delete (f_prev s) t else []) in
      Some (all, FState (f_items s') (dapply_all (f_disk s) all) (f_next s) t (f_fly s))
  end.
(** Commit and AfterCommit: flush.go:103-115. *)
Definition commit (s : fstate) : option fstate :=
  match f_fly s with
  | Some (a, t, b) =>
      match flush s a t b with
      | Some (_, s') => Some (FState (f_items s') (f_disk s') (f_next s') (f_prev s') None)
      | None => None
      end
  | None => None
  end.
(** A crash in the middle of a commit: [k] changes were made and [j] bytes of the next one. *)
Definition crashed (d : disk) (os : list dop) (k j : nat) : disk :=
  dapply_all d (firstn k os ++ match nth_error os k with Some (DWrite id off b) => [DWrite id off (firstn j b)] | _ => [] end).
(** NewFileManager: file_manager.go:24-40, newFdManager: fd_manager.go:73-83 and
    loadLatestLocation: 353-388. *)
Definition last_id (d : disk) : Z := fold_right (fun e m => Z.max (fst e) m) 0 d.
Definition disk_end (d : disk) : loc :=
  match dget d (last_id d) with Some f => Loc (last_id d) (zlen f) | None => Loc 1 0 end.
Definition start (d : disk) : option fstate :=
  match open_file [] d None (disk_end d) with
  | Some its => Some (FState its d (disk_end d) (disk_end d) None)
  | None => None
  end.
(** BeforeRecover and PatchRedoLog: flush.go:117-136. *)
Definition recover (d : disk) (a t : loc) (b : list Z) : option fstate :=
  match start d with
  | None => None
  | Some s =>
      match delete_to s a with
      | None => None
      | Some s1 =>
          match fm_write s1 b with
          | None => None
          | Some (_, s2) => match flush s2 a t b with Some (_, s3) => Some s3 | None => None end
          end
      end
  end.
End Files.

(** * Blocks *)
(** makeWriteBytes: ledger/chain/block/buffer.go:9-18; [body] is the compressed block. *)
Definition unit_ := (Z * list Z)%type.
Definition frame (u : unit_) : list Z := be_bytes 4 (zlen (snd u) + 1) ++ fst u :: snd u.
(** blockFileParser: block_parser.go:23-38.  [p_head] is the part of blockSizeBuffer read so far;
    blockBufferPointer is the length of blockBuffer. *)
Record parser := Parser { p_head : list Z; p_size : Z; p_type : Z; p_buf : list Z }.
Definition parser0 : parser := Parser [] 0 0 [].
(** Write: block_parser.go:67-139.  What is sent to the channel; the fuel is the number of bytes
    and steps that read none. *)
Fixpoint feed (fuel : nat) (p : parser) (b : list Z) : parser * list unit_ :=
  match b, fuel with
  | [], _ | _, O => (p, [])
  | x :: r, S f =>
      if (length (p_head p) <? 4)%nat then
        let n := Nat.min (4 - length (p_head p)) (length b) in
        let h := p_head p ++ firstn n b in
        feed f (Parser h (if (4 <=? length h)%nat then (be_val h - 1) mod 2 ^ 32 else p_size p) (p_type p) (p_buf p)) (skipn n b)
      else if p_type p =? 0 then feed f (Parser (p_head p) (p_size p) x (p_buf p)) r
      else
        let n := Z.to_nat (p_size p - zlen (p_buf p)) in
        if (length b <? n)%nat then (Parser (p_head p) (p_size p) (p_type p) (p_buf p ++ b), [])
        else let (q, us) := feed f (Parser [] (p_size p) 0 []) (skipn n b) in
             (q, (p_type p, p_buf p ++ firstn n b) :: us)
  end.
Definition feed_all (p : parser) (bs : list (list Z)) : parser * list unit_ :=
  fold_left (fun a b => let (q, us) := feed (2 * length b + 2) (fst a) b in (q, snd a ++ us)) bs (p, []).
(** The grouping of ReadRange and PrepareRollback (block_db.go:230-270, 296-333): the account blocks
    before a snapshot block and it; what comes after the last one. *)
Fixpoint group (us : list unit_) (acc : list (list Z)) : list (list (list Z) * option (list Z)) :=
  match us with
  | [] => match acc with [] => [] | _ => [(acc, None)] end
  | (t, b) :: r =>
      if t =? 2 then (acc, Some b) :: group r []
      else if t =? 1 then group r (acc ++ [b])
      else group r acc
  end.
Section Blocks.
Context (fs : Z).
(** ReadRange: block_db.go:202-273; [e] None is the end.  The bytes of the block at [e] are read
    with Read and handed over with their length (lines 212-221), whatever came out.  maxLocation:
    356-363. *)
Definition max_location (s : fstate) (e : option loc) : loc :=
  match e with Some x => if loc_lt (latest s) x then latest s else x | None => latest s end.
Definition read_blocks (s : fstate) (l : loc) (e : option loc) : option (list (list (list Z) * option (list Z))) :=
  let t := max_location s e in
  match range fs s l t with
  | None => None
  | Some ps =>
      let b := match fm_read fs s t with Done _ b => b | _ => [] end in
      Some (group (snd (feed_all parser0 (ps ++ [be_bytes 4 (zlen b); b]))) [])
  end.
(** PrepareRollback: block_db.go:286-341. *)
Definition blocks_from (s : fstate) (l : loc) : option (list (list (list Z) * option (list Z))) :=
  match range fs s l (latest s) with
  | None => None
  | Some ps => Some (group (snd (feed_all parser0 ps)) [])
  end.
Context (cl : Z).
(** Write: block_db.go:80-110, the blocks of a chunk one after the other with the snapshot block
    last; serialising and compressing them are not modelled. *)
Fixpoint write_units (s : fstate) (us : list unit_) : option (list loc * fstate) :=
  match us with
  | [] => Some ([], s)
  | u :: r =>
      match fm_write fs cl s (frame u) with
      | Some (l, s') => match write_units s' r with Some (ls, s'') => Some (l :: ls, s'') | None => None end
      | None => None
      end
  end.
Definition write_chunk (s : fstate) (abs : list (list Z)) (sb : list Z) : option (list loc * fstate) :=
  write_units s (map (fun b => (1, b)) abs ++ [(2, sb)]).
(** ReadChunk: block_db.go:176-200, with ReadUnit: 147-174. *)
Fixpoint read_chunk (fuel : nat) (s : fstate) (l : loc) (acc : list (list Z)) : option (list (list Z) * list Z * loc) :=
  match fuel with
  | O => None
  | S f =>
      match fm_read fs s l with
      | Done l' (t :: b) => if t =? 2 then Some (acc, b, l') else if t =? 1 then read_chunk f s l' (acc ++ [b]) else None
      | _ => None
      end
  end.
End Blocks.
