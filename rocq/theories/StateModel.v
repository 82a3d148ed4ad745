(** The world state behind the chain: balances, storage, code, contract settings, logs and call
    depths, kept for the newest block and, for balances and storage, for every snapshot height,
    with the redo log that lets recent snapshots be taken back: ledger/chain/state.

    Addresses, token ids, storage keys and hashes are numbers; storage keys are ordered as the
    byte strings they stand for (HistProps.v shows that the byte keys of the database sort that
    way).  A LevelDB batch is the list of its puts and deletes.  The store
    (ledger/chain/db) is two maps: [mem] is what reads see, [disk] is what the disk holds once
    everything confirmed has been flushed; the Flush area models how it gets there.  Errors of
    the store are not modelled.  The redo log is written with encoding/gob; here it is stored
    as it is.  The round cache (round_cache.go) is not modelled. *)
Require Import Coq.Lists.List Coq.ZArith.ZArith Coq.Bool.Bool Coq.micromega.Lia Coq.Sorting.Permutation.
Require Import Verif.Lib.
Import ListNotations.
Local Open Scope Z_scope.

(** Database keys: ledger/chain/utils/generate_key.go:83-206.  SGid is the contract list key as
    Write makes it, SGidSwapped as WriteByRedo does. *)
Inductive skey :=
| SStor (a k : Z) | SBal (a t : Z) | SCode (a : Z) | SMeta (a : Z) | SLog (h : Z) | SDepth (h : Z)
| SGid (g a : Z) | SGidSwapped (a g : Z)
| SHStor (a k n : Z) | SHBal (a t n : Z).
Definition skey_eq_dec (x y : skey) : {x = y} + {x <> y}.
Proof. decide equality; apply Z.eq_dec. Defined.
(** Values are byte strings, or numbers where the code stores a number's bytes. *)
Inductive sval := VB (b : list Z) | VN (n : Z).

(** Finite maps. *)
Definition sdb := list (skey * sval).
Fixpoint sget (d : sdb) (k : skey) : option sval :=
  match d with [] => None | (k', v) :: r => if skey_eq_dec k' k then Some v else sget r k end.
Fixpoint sdrop (d : sdb) (k : skey) : sdb :=
  match d with [] => [] | (k', v) :: r => if skey_eq_dec k' k then sdrop r k else (k', v) :: sdrop r k end.
Definition batch := list (skey * option sval).
Definition sput1 (d : sdb) (o : skey * option sval) : sdb :=
  match snd o with Some v => (fst o, v) :: sdrop d (fst o) | None => sdrop d (fst o) end.
Definition sapply (d : sdb) (b : batch) : sdb := fold_left sput1 b d.
Section Assoc.
Context {V : Type}.
Fixpoint zget (m : list (Z * V)) (k : Z) : option V :=
  match m with [] => None | (k', v) :: r => if k' =? k then Some v else zget r k end.
Definition zdel (m : list (Z * V)) (k : Z) : list (Z * V) := filter (fun p => negb (fst p =? k)) m.
Definition zset (m : list (Z * V)) (k : Z) (v : V) : list (Z * V) := (k, v) :: zdel m k.
End Assoc.
Definition pmem (x : Z * Z) (l : list (Z * Z)) : bool := existsb (fun y => (fst y =? fst x) && (snd y =? snd x)) l.

(** LogItem: ledger/chain/state/redo.go:18-26.  A contract's meta is its group and the bytes. *)
Record item := Item {
  it_storage : list (Z * list Z);
  it_bal : list (Z * Z);
  it_code : list Z;
  it_meta : list (Z * (Z * list Z));
  it_log : list (Z * list Z);
  it_depth : list (Z * Z);
  it_height : Z }.
Definition slog := list (Z * list item).
Definition log_of (l : slog) (a : Z) : list item := match zget l a with Some x => x | None => [] end.

(** interfaces.VmAccountBlock: an account block and what its execution left unsaved in its
    virtual machine database.  [ab_creates] is the address a contract creating send block
    creates, [ab_sends] the inner send blocks of a receive block with theirs, [ab_depth] the
    call depth of the received block. *)
Record ablock := ABlock {
  ab_hash : Z; ab_addr : Z; ab_height : Z;
  ab_creates : option Z;
  ab_receive : bool;
  ab_sends : list (Z * option Z);
  ab_loghash : option Z;
  ab_loglist : list Z;
  ab_storage : list (Z * list Z);
  ab_bal : list (Z * Z);
  ab_code : option (list Z);
  ab_meta : list (Z * (Z * list Z));
  ab_depth : Z }.
Definition from (a : Z) (b : ablock) : bool := ab_addr b =? a.

(** RedoCache and Redo: ledger/chain/state/redo_cache.go:9-15 and redo.go:59-69; StateDB:
    ledger/chain/state/state_db.go:25-46. *)
Record sstate := SState {
  s_mem : sdb;                    (* Store.memDb over the disk *)
  s_disk : sdb;                   (* the disk and Store.snapshotBatch *)
  s_pending : list (Z * batch);   (* Store.unconfirmedBatchs *)
  s_cache : sdb;                  (* StateDB.cache *)
  s_rcache : list (Z * slog);     (* RedoCache.snapshotLogMap *)
  s_rcur : Z;                     (* RedoCache.currentHeight *)
  s_rstore : list (Z * slog) }.   (* Redo.store *)

Section State.
(** canWriteVmLog: ledger/chain/state/write.go:282-290. *)
Context (logs_kept : Z -> bool).
(** shouldCacheContractData: ledger/chain/state/state_db.go:370-372. *)
Context (cached : Z -> bool).
(** types.BuiltinContracts: common/types/address.go:41. *)
Context (builtin : Z -> bool).
(** The order in which Go walks a map. *)
Context (ord : forall A, list A -> list A).

(** writeBalance, deleteBalance, writeContractMeta, deleteContractMeta, writeHistoryKey and
    deleteHistoryKey (write.go:255-280, delete.go:632-655) change the cache with the batch: the
    cache changes that belong to a batch. *)
Definition cache_ops (b : batch) : batch :=
  flat_map (fun o => match fst o with
    | SBal _ _ | SMeta _ => [o]
    | SHStor a k _ => if cached a then [(SStor a k, snd o)] else []
    | _ => []
    end) b.

(** * The redo log *)
(** RedoCache.Get and Redo.QueryLog: redo_cache.go:39-45, redo.go:199-223. *)
Definition query_log (s : sstate) (h : Z) : slog * bool :=
  match zget (s_rcache s) h with
  | Some l => (l, true)
  | None =>
      match zget (s_rstore s) h with
      | Some l => (l, true)
      | None => ([], match zget (s_rstore s) (h - 1) with Some _ => true | None => false end)
      end
  end.
(** HasRedo: redo.go:180-197. *)
Definition has_redo (s : sstate) (h : Z) : bool :=
  match zget (s_rcache s) h with
  | Some _ => true
  | None => match zget (s_rstore s) h with
            | Some _ => true
            | None => match zget (s_rstore s) (h - 1) with Some _ => true | None => false end
            end
  end.
(** SetCurrent: redo_cache.go:64-80, called by SetCurrentSnapshot: redo.go:225-227. *)
Definition set_current (c : list (Z * slog)) (h : Z) (l : slog) : list (Z * slog) :=
  let c' := zset c h l in
  if (12 <? zlen c') && (12 <? h) then filter (fun p => h - 12 <? fst p) c' else c'.
(** RedoCache.Delete: redo_cache.go:47-55, without currentHeight, which is set right after. *)
Definition forget (c : list (Z * slog)) (h : Z) : list (Z * slog) := zdel c h.
(** AddLog: redo_cache.go:82-87. *)
Definition add_log (s : sstate) (a : Z) (i : item) : list (Z * slog) :=
  let cur := match zget (s_rcache s) (s_rcur s) with Some l => l | None => [] end in
  zset (s_rcache s) (s_rcur s) (zset cur a (log_of cur a ++ [i])).
(** The log list split where the confirmed part ends: redo.go:138-148. *)
Fixpoint drop_above (h : Z) (l : list item) : list item :=
  match l with [] => [] | i :: r => if it_height i <=? h then l else drop_above h r end.
Definition confirmed_part (h : Z) (l : list item) : list item := rev (drop_above h (rev l)).
(** Redo.InsertSnapshotBlock: redo.go:120-178.  [cur] is the confirmed log, [next] what stays.
    None is the panic at line 136. *)
Fixpoint split_log (conf : list ablock) (cur next : slog) : option (slog * slog) :=
  match conf with
  | [] => Some (cur, next)
  | b :: r =>
      match zget cur (ab_addr b) with
      | Some _ => split_log r cur next
      | None =>
          match zget next (ab_addr b) with
          | None => None
          | Some l =>
              let p := confirmed_part (ab_height b) l in
              match p with
              | [] => split_log r cur next
              | _ => split_log r (zset cur (ab_addr b) p)
                       (if (length l <=? length p)%nat then zdel next (ab_addr b)
                        else zset next (ab_addr b) (skipn (length p) l))
              end
          end
      end
  end.
Definition redo_insert (s : sstate) (h : Z) (conf : list ablock) : option (list (Z * slog) * Z * list (Z * slog)) :=
  let next := match zget (s_rcache s) (s_rcur s) with Some l => l | None => [] end in
  match (match next with [] => Some ([], next) | _ => split_log (rev conf) [] next end) with
  | None => None
  | Some (cur, next') =>
      let store := zset (s_rstore s) h cur in
      let store' := if 1200 <? h then zdel store (h - 1200) else store in
      Some (set_current (zset (s_rcache s) h cur) (h + 1) next', h + 1, store')
  end.
(** deleteRedoLog: redo.go:249-284.  The items taken off, and the log without them. *)
Definition delete_redo_log (l : slog) (a h : Z) : list item * slog :=
  match zget l a with
  | None => ([], l)
  | Some [] => ([], l)
  | Some ((i :: _) as items) =>
      if h <=? it_height i then (items, zdel l a)
      else if it_height (last items i) <? h then ([], l)
      else let keep := confirmed_part (h - 1) items in
           (skipn (length keep) items, match keep with [] => zdel l a | _ => zset l a keep end)
  end.
(** parseRedoLog: redo.go:286-309, for one address. *)
Definition kv_map (l : list item) : list (Z * list Z) :=
  fold_left (fun m p => zset m (fst p) (snd p)) (flat_map it_storage l) [].
Definition bal_map (l : list item) : list (Z * Z) :=
  fold_left (fun m p => zset m (fst p) (snd p)) (flat_map it_bal l) [].

(** * Writing *)
Definition put_bytes (k : skey) (v : list Z) : skey * option sval :=
  (k, match v with [] => None | _ => Some (VB v) end).
(** The redo log of a block: Write, write.go:26-118. *)
Definition item_of (b : ablock) : item := {|
  it_storage := ab_storage b;
  it_bal := ab_bal b;
  it_code := match ab_code b with Some c => c | None => [] end;
  it_meta := ab_meta b;
  it_log := match ab_loghash b with
            | Some h => if logs_kept (ab_addr b) then [(h, ab_loglist b)] else []
            | None => []
            end;
  it_depth := if ab_receive b then map (fun p => (fst p, (ab_depth b + 1) mod 65536)) (ab_sends b) else [];
  it_height := ab_height b |}.
(** The batch of a block: Write, write.go:16-115. *)
Definition write_batch (b : ablock) : batch :=
  map (fun p => put_bytes (SStor (ab_addr b) (fst p)) (snd p)) (ab_storage b) ++
  map (fun p => (SBal (ab_addr b) (fst p), Some (VN (snd p)))) (ab_bal b) ++
  match ab_code b with Some c => [(SCode (ab_addr b), Some (VB c))] | None => [] end ++
  flat_map (fun p => [(SMeta (fst p), Some (VB (snd (snd p)))); (SGid (fst (snd p)) (fst p), Some (VB []))]) (ab_meta b) ++
  map (fun p => (SLog (fst p), Some (VB (snd p)))) (it_log (item_of b)) ++
  map (fun p => (SDepth (fst p), Some (VN (snd p)))) (it_depth (item_of b)).
(** Write: write.go:16-125, and WriteAccountBlock: ledger/chain/db/write.go:17-28. *)
Definition write (s : sstate) (b : ablock) : sstate :=
  let bt := write_batch b in
  {| s_mem := sapply (s_mem s) bt; s_disk := s_disk s; s_pending := s_pending s ++ [(ab_hash b, bt)];
     s_cache := sapply (s_cache s) (cache_ops bt);
     s_rcache := add_log s (ab_addr b) (item_of b); s_rcur := s_rcur s; s_rstore := s_rstore s |}.
(** WriteByRedo: write.go:127-187. *)
Definition redo_batch (a : Z) (i : item) : batch :=
  map (fun p => put_bytes (SStor a (fst p)) (snd p)) (it_storage i) ++
  map (fun p => (SBal a (fst p), Some (VN (snd p)))) (it_bal i) ++
  match it_code i with [] => [] | c => [(SCode a, Some (VB c))] end ++
  flat_map (fun p => [(SMeta (fst p), Some (VB (snd (snd p)))); (SGidSwapped (fst p) (fst (snd p)), Some (VB []))]) (it_meta i) ++
  map (fun p => (SLog (fst p), Some (VB (snd p)))) (it_log i) ++
  map (fun p => (SDepth (fst p), Some (VN (snd p)))) (it_depth i).
Definition write_by_redo (s : sstate) (hash a : Z) (i : item) : sstate :=
  let bt := redo_batch a i in
  {| s_mem := sapply (s_mem s) bt; s_disk := s_disk s; s_pending := s_pending s ++ [(hash, bt)];
     s_cache := sapply (s_cache s) (cache_ops bt);
     s_rcache := s_rcache s; s_rcur := s_rcur s; s_rstore := s_rstore s |}.
(** WriteSnapshotByHash: ledger/chain/db/write.go:43-65.  None is the panic at line 52. *)
Fixpoint take_pending (p : list (Z * batch)) (hs : list Z) : option (batch * list (Z * batch)) :=
  match hs with
  | [] => Some ([], p)
  | h :: r =>
      match zget p h with
      | None => None
      | Some b => match take_pending (zdel p h) r with
                  | Some (bs, p') => Some (b ++ bs, p')
                  | None => None
                  end
      end
  end.
(** StateDB.InsertSnapshotBlock: write.go:189-253. *)
Definition history_batch (h : Z) (l : slog) : batch :=
  flat_map (fun p => map (fun q => (SHStor (fst p) (fst q) h, Some (VB (snd q)))) (ord _ (kv_map (snd p)))) (ord _ l) ++
  flat_map (fun p => map (fun q => (SHBal (fst p) (fst q) h, Some (VN (snd q)))) (ord _ (bal_map (snd p)))) (ord _ l).
Definition insert_snapshot (s : sstate) (h : Z) (conf : list ablock) : option sstate :=
  match redo_insert s h conf with
  | None => None
  | Some (rc, cur, rs) =>
      let l := fst (query_log {| s_mem := s_mem s; s_disk := s_disk s; s_pending := s_pending s; s_cache := s_cache s;
                                 s_rcache := rc; s_rcur := cur; s_rstore := rs |} h) in
      let bt := history_batch h l in
      match take_pending (s_pending s) (map ab_hash conf) with
      | None => None
      | Some (bs, p) =>
          Some {| s_mem := sapply (s_mem s) bt; s_disk := sapply (s_disk s) (bs ++ bt); s_pending := p;
                  s_cache := sapply (s_cache s) (cache_ops bt);
                  s_rcache := rc; s_rcur := cur; s_rstore := rs |}
      end
  end.

(** * Reading the state of a snapshot *)
(** The newest of the stored heights up to [n]: the seeks of GetSnapshotValue (state_db.go:317-325),
    getSnapshotBalanceList (state_db.go:400-416) and recoverLatestIndexToSnapshot
    (delete.go:358-361).  HistProps.v shows that the seeks among byte keys find this entry. *)
Fixpoint newest_upto (f : Z -> option sval) (n : nat) : option sval :=
  match f (Z.of_nat n) with
  | Some v => Some v
  | None => match n with O => None | S m => newest_upto f m end
  end.
Definition floor_stor (d : sdb) (a k n : Z) : option sval :=
  if n <? 0 then None else newest_upto (fun h => sget d (SHStor a k h)) (Z.to_nat n).
Definition floor_bal (d : sdb) (a t n : Z) : option sval :=
  if n <? 0 then None else newest_upto (fun h => sget d (SHBal a t h)) (Z.to_nat n).
Definition bytes_of (v : option sval) : list Z := match v with Some (VB b) => b | _ => [] end.
Definition num_of (v : option sval) : Z := match v with Some (VN n) => n | _ => 0 end.
(** GetSnapshotValue: state_db.go:311-332, with getValueInCache: cache.go:100-109.  [top] is the
    height of the newest snapshot block. *)
Definition snapshot_value (use_cache : bool) (s : sstate) (top n a k : Z) : list Z :=
  if use_cache && cached a && (n =? top) then bytes_of (sget (s_cache s) (SStor a k))
  else bytes_of (floor_stor (s_mem s) a k n).
(** getSnapshotBalanceList: state_db.go:374-420, for one address; None is left out. *)
Definition snapshot_balance (s : sstate) (n a t : Z) : option Z :=
  match floor_bal (s_mem s) a t n with Some (VN v) => Some v | _ => None end.

(** * Reading the newest state *)
(** GetStorageValue: state_db.go:128-134; GetBalance: state_db.go:136-145 with getValue:
    cache.go:84-98; GetCode: state_db.go:168-175; GetContractMeta: state_db.go:178-193;
    GetVmLogList: state_db.go:251-263; GetCallDepth: state_db.go:265-276. *)
Definition get_storage (s : sstate) (a k : Z) : list Z := bytes_of (sget (s_mem s) (SStor a k)).
Definition get_balance (s : sstate) (a t : Z) : Z :=
  match sget (s_cache s) (SBal a t) with Some v => num_of (Some v) | None => num_of (sget (s_mem s) (SBal a t)) end.
Definition get_code (s : sstate) (a : Z) : list Z := bytes_of (sget (s_mem s) (SCode a)).
Definition get_meta (s : sstate) (a : Z) : list Z := bytes_of (sget (s_cache s) (SMeta a)).
Definition get_log (s : sstate) (h : Z) : list Z := bytes_of (sget (s_mem s) (SLog h)).
Definition get_depth (s : sstate) (h : Z) : Z := num_of (sget (s_mem s) (SDepth h)).
(** GetBalanceMap: state_db.go:147-166. *)
Definition get_balances (s : sstate) (a : Z) : list (Z * Z) :=
  flat_map (fun e => match e with (SBal a' t, VN v) => if a' =? a then [(t, v)] else [] | _ => [] end) (s_mem s).
(** GetContractList: state_db.go:231-249.  The swapped keys lie under other group ids. *)
Definition get_contracts (s : sstate) (g : Z) : list Z :=
  flat_map (fun e => match fst e with SGid g' a => if g' =? g then [a] else [] | _ => [] end) (s_mem s).

(** * Taking back *)
(** rollbackByRedo: delete.go:197-305.  [hist] is the height of the snapshot, None for
    unconfirmed blocks.  The key and token sets are lists. *)
Definition undo_item (hist : option Z) (a : Z) (i : item) : batch :=
  map (fun p => (match hist with Some n => SHStor a (fst p) n | None => SStor a (fst p) end, None)) (it_storage i) ++
  map (fun p => (match hist with Some n => SHBal a (fst p) n | None => SBal a (fst p) end, None)) (it_bal i) ++
  map (fun p => (SMeta (fst p), None)) (it_meta i) ++
  match it_code i with [] => [] | _ => [(SCode a, None)] end ++
  map (fun p => (SLog (fst p), None)) (it_log i) ++
  map (fun p => (SDepth (fst p), None)) (it_depth i).
Definition undo_log (hist : option Z) (l : slog) : batch :=
  flat_map (fun p => flat_map (undo_item hist (fst p)) (snd p)) (ord _ l).
Definition keys_of (l : slog) : list (Z * Z) :=
  flat_map (fun p => flat_map (fun i => map (fun q => (fst p, fst q)) (it_storage i)) (snd p)) l.
Definition toks_of (l : slog) : list (Z * Z) :=
  flat_map (fun p => flat_map (fun i => map (fun q => (fst p, fst q)) (it_bal i)) (snd p)) l.
(** recoverLatestIndexToSnapshot: delete.go:308-374. *)
Definition recover_keys (use_cache : bool) (s : sstate) (top n : Z) (ks : list (Z * Z)) : batch :=
  map (fun p => put_bytes (SStor (fst p) (snd p)) (snapshot_value use_cache s top n (fst p) (snd p))) (ord _ ks).
Definition recover_toks (s : sstate) (n : Z) (ts : list (Z * Z)) : batch :=
  map (fun p => (SBal (fst p) (snd p), floor_bal (s_mem s) (fst p) (snd p) n)) (ord _ ts).
(** recoverLatestIndexByRedo: delete.go:376-401. *)
Definition replay_item (a : Z) (i : item) : batch :=
  map (fun p => put_bytes (SStor a (fst p)) (snd p)) (it_storage i) ++
  map (fun p => (SBal a (fst p), Some (VN (snd p)))) (it_bal i).
Definition replay (addrs : list Z) (l : slog) : batch := flat_map (fun a => flat_map (replay_item a) (log_of l a)) (ord _ addrs).

(** RollbackAccountBlocks: delete.go:142-195 and ledger/chain/db/rollback.go:10-18.  The loop
    over the blocks: delete.go:160-170. *)
Fixpoint take_logs (bs : list ablock) (l taken : slog) : slog * slog :=
  match bs with
  | [] => (l, taken)
  | b :: r =>
      match zget taken (ab_addr b) with
      | Some _ => take_logs r l taken
      | None => let (d, l') := delete_redo_log l (ab_addr b) (ab_height b) in
                take_logs r l' (zset taken (ab_addr b) d)
      end
  end.
Definition rollback_accounts (s : sstate) (top : Z) (bs : list ablock) : option sstate :=
  let (l, has) := query_log s (top + 1) in
  if negb has then None
  else
    let (l', taken) := take_logs bs l [] in
    let addrs := map fst taken in
    let back := fun ks0 kept : list (Z * Z) => filter (fun p => negb (pmem p kept)) ks0 in
    let left := filter (fun p => existsb (Z.eqb (fst p)) addrs) l' in
    let bt := undo_log None taken ++ replay addrs l' ++
              recover_keys true s top top (back (keys_of taken) (keys_of left)) ++
              recover_toks s top (back (toks_of taken) (toks_of left)) in
    Some {| s_mem := sapply (s_mem s) bt; s_disk := s_disk s;
            s_pending := fold_left zdel (map ab_hash bs) (s_pending s);
            s_cache := sapply (s_cache s) (cache_ops bt);
            s_rcache := set_current (s_rcache s) (top + 1) l'; s_rcur := top + 1; s_rstore := s_rstore s |}.

(** ledger.SnapshotChunk: the blocks a snapshot block confirmed, and its height; None for the
    unconfirmed blocks that come last. *)
Definition chunk := (option Z * list ablock)%type.
(** The loop over the chunks with the redo log at hand: delete.go:43-72. *)
Fixpoint undo_chunks (s : sstate) (h : Z) (cs : list chunk) : batch * list (Z * Z) * list (Z * Z) :=
  match cs with
  | [] => ([], [], [])
  | (hist, _) :: r =>
      let l := fst (query_log s h) in
      let '(bt, ks, ts) := undo_chunks s (h + 1) r in
      (undo_log hist l ++ bt, keys_of l ++ ks, toks_of l ++ ts)
  end.
(** rollbackAccountBlock: delete.go:403-428. *)
Definition undo_block (b : ablock) : batch :=
  (if ab_height b <=? 1 then [(SCode (ab_addr b), None)] else []) ++
  match ab_creates b with Some c => [(SMeta c, None)] | None => [] end ++
  match ab_loghash b with Some h => [(SLog h, None)] | None => [] end ++
  flat_map (fun p => (SDepth (fst p), None) :: match snd p with Some c => [(SMeta c, None)] | None => [] end) (ab_sends b).
(** The history keys of an address in the order of the database. *)
Fixpoint zinsert (k : Z) (l : list Z) : list Z :=
  match l with [] => [k] | x :: r => if k =? x then l else if k <? x then k :: l else x :: zinsert k r end.
Definition hist_keys (d : sdb) (a : Z) : list Z :=
  fold_right zinsert [] (flat_map (fun e => match fst e with SHStor a' k _ => if a' =? a then [k] else [] | _ => [] end) d).
Definition hist_toks (d : sdb) (a : Z) : list Z :=
  fold_right zinsert [] (flat_map (fun e => match fst e with SHBal a' k _ => if a' =? a then [k] else [] | _ => [] end) d).
Definition stor_heights (d : sdb) (a k : Z) : list Z :=
  flat_map (fun e => match fst e with SHStor a' k' n => if (a' =? a) && (k' =? k) then [n] else [] | _ => [] end) d.
Definition bal_heights (d : sdb) (a k : Z) : list Z :=
  flat_map (fun e => match fst e with SHBal a' k' n => if (a' =? a) && (k' =? k) then [n] else [] | _ => [] end) d.
(** recoverStorageToSnapshot: delete.go:451-537.  The iterator stands on the first entry of each
    key in turn; [before] tells whether some entry of the address lies before the position
    sought, that is whether Prev succeeds: if not, Key is nil and the loop is left (lines
    485-488).  The result is what is done for the visited keys and the keys not struck off the
    unconfirmed set. *)
Fixpoint recover_stor_loop (d : sdb) (a n : Z) (before : bool) (ks : list Z) (unconf : list Z) : batch * list Z :=
  match ks with
  | [] => ([], unconf)
  | k :: r =>
      let unconf' := filter (fun x => negb (x =? k)) unconf in
      if before || existsb (fun h => h <=? n) (stor_heights d a k) then
        let (bt, u) := recover_stor_loop d a n true r unconf' in
        (put_bytes (SStor a k) (bytes_of (floor_stor d a k n)) ::
         map (fun h => (SHStor a k h, None)) (filter (fun h => n <? h) (stor_heights d a k)) ++ bt, u)
      else ([], unconf')
  end.
Definition recover_stor (d : sdb) (a n : Z) (unconf : list Z) : batch :=
  let (bt, u) := recover_stor_loop d a n false (hist_keys d a) unconf in
  bt ++ map (fun k => (SStor a k, None)) (ord _ u).
(** recoverBalanceToSnapshot: delete.go:539-619. *)
Fixpoint recover_bal_loop (d : sdb) (a n : Z) (ks : list Z) (unconf : list Z) : batch * list Z :=
  match ks with
  | [] => ([], unconf)
  | k :: r =>
      let (bt, u) := recover_bal_loop d a n r (filter (fun x => negb (x =? k)) unconf) in
      ((SBal a k, floor_bal d a k n) ::
       map (fun h => (SHBal a k h, None)) (filter (fun h => n <? h) (bal_heights d a k)) ++ bt, u)
  end.
Definition recover_bal (d : sdb) (a n : Z) (unconf : list Z) : batch :=
  let (bt, u) := recover_bal_loop d a n (hist_toks d a) unconf in
  bt ++ map (fun k => (SBal a k, None)) (ord _ u).
(** recoverToSnapshot: delete.go:430-449. *)
Definition recover_to_snapshot (d : sdb) (n : Z) (l : slog) (addrs : list Z) : batch :=
  flat_map (fun a => recover_stor d a n (map fst (kv_map (log_of l a))) ++ recover_bal d a n (map fst (bal_map (log_of l a)))) (ord _ addrs).
(** initSnapshotValueCache: cache.go:49-68. *)
Definition fill_snapshot_cache (d : sdb) (c : sdb) : sdb :=
  sapply c (flat_map (fun e => match fst e with SStor a _ => if builtin a then [(fst e, Some (snd e))] else [] | _ => [] end) d).
(** Redo.Rollback: redo.go:234-247. *)
Definition chunk_heights (cs : list chunk) : list Z := flat_map (fun c : chunk => match fst c with Some h => [h] | None => [] end) cs.
(** The recovery of unconfirmed blocks: delete.go:127-135.  None is an index out of range. *)
Fixpoint rewrite_blocks (s : sstate) (l : slog) (bs : list ablock) : option sstate :=
  match bs with
  | [] => Some s
  | b :: r =>
      match log_of l (ab_addr b) with
      | [] => None
      | (i :: _) as items =>
          let x := ab_height b - it_height i in
          if x <? 0 then None
          else match nth_error items (Z.to_nat x) with
               | None => None
               | Some i' => rewrite_blocks (write_by_redo s (ab_hash b) (ab_addr b) i') l r
               end
      end
  end.
(** RollbackSnapshotBlocks: delete.go:19-140, with RollbackSnapshot: ledger/chain/db/rollback.go:32-45.
    [n] is the height that stays, [top] the newest height before. *)
Definition rollback_snapshots (s : sstate) (n : Z) (cs : list chunk) (back : list ablock) : option sstate :=
  let (l, has) := query_log s (n + 1) in
  let bt :=
    if has then
      let '(bt, ks, ts) := undo_chunks s (n + 1) cs in
      bt ++ recover_keys false s n n ks ++ recover_toks s n ts
    else
      let old := match last cs (Some 0, []) with
                 | (None, _) => fst (query_log s (n + zlen cs))
                 | _ => []
                 end in
      let blocks := flat_map snd cs in
      flat_map undo_block blocks ++ recover_to_snapshot (s_mem s) n old (map ab_addr blocks) in
  let mem := sapply (s_mem s) bt in
  let hs := chunk_heights cs in
  rewrite_blocks
    {| s_mem := mem; s_disk := sapply (s_disk s) (flat_map snd (s_pending s) ++ bt); s_pending := [];
       s_cache := fill_snapshot_cache mem (sapply (s_cache s) (cache_ops bt));
       s_rcache := set_current (fold_left forget hs (s_rcache s)) (n + 1) l; s_rcur := n + 1;
       s_rstore := fold_left zdel hs (s_rstore s) |} l back.

(** * The chain around it *)
(** The state database with the blocks of the chain: what each snapshot block confirmed, and
    the unconfirmed blocks in the order they came. *)
Record world := World { w_s : sstate; w_segs : list (list ablock); w_unc : list ablock }.
Definition top_of (w : world) : Z := zlen (w_segs w).
(** NewStateDB on an empty disk and Init: state_db.go:48-100, redo.go:97-110, redo_cache.go:23-30. *)
Definition empty_world : world :=
  {| w_s := {| s_mem := []; s_disk := []; s_pending := []; s_cache := []; s_rcache := [(1, [])]; s_rcur := 1; s_rstore := [] |};
     w_segs := []; w_unc := [] |}.
Definition without (bs from : list ablock) : list ablock :=
  filter (fun b => negb (existsb (fun x => ab_hash x =? ab_hash b) bs)) from.
Inductive op :=
| OWrite (b : ablock)            (* an account block is inserted *)
| OSnap (conf : list ablock)     (* a snapshot block confirming these is inserted *)
| ODelAcc (bs : list ablock)     (* unconfirmed blocks are deleted *)
| ODelSnap (n : Z)               (* snapshot blocks above height n are deleted *)
| ORestart.                      (* everything confirmed is flushed; the node restarts *)
(** deleteSnapshotBlocksToHeight: ledger/chain/delete.go:74-208. *)
Fixpoint number (h : Z) (segs : list (list ablock)) : list chunk :=
  match segs with [] => [] | x :: r => (Some h, x) :: number (h + 1) r end.
Definition delete_snapshots (w : world) (n : Z) : option world :=
  let cs := number (n + 1) (skipn (Z.to_nat n) (w_segs w)) ++ match w_unc w with [] => [] | u => [(None, u)] end in
  let back := if has_redo (w_s w) (n + 1) then snd (hd (None, []) cs) else [] in
  match rollback_snapshots (w_s w) n cs back with
  | None => None
  | Some s => Some {| w_s := s; w_segs := firstn (Z.to_nat n) (w_segs w); w_unc := back |}
  end.
(** A new process on the flushed disk: NewStateDB and Init, state_db.go:48-100, with
    initContractMetaCache: cache.go:70-81. *)
Definition restart (w : world) : world :=
  let d := s_disk (w_s w) in
  {| w_s := {| s_mem := d; s_disk := d; s_pending := [];
               s_cache := sapply (fill_snapshot_cache d [])
                 (flat_map (fun e => match fst e with SMeta _ => [(fst e, Some (snd e))] | _ => [] end) d);
               s_rcache := [(top_of w + 1, [])]; s_rcur := top_of w + 1; s_rstore := s_rstore (w_s w) |};
     w_segs := w_segs w; w_unc := [] |}.
Definition step (w : world) (o : op) : option world :=
  match o with
  | OWrite b => Some {| w_s := write (w_s w) b; w_segs := w_segs w; w_unc := w_unc w ++ [b] |}
  | OSnap conf =>
      match insert_snapshot (w_s w) (top_of w + 1) conf with
      | None => None
      | Some s => Some {| w_s := s; w_segs := w_segs w ++ [conf]; w_unc := without conf (w_unc w) |}
      end
  | ODelAcc bs =>
      match rollback_accounts (w_s w) (top_of w) bs with
      | None => None
      | Some s => Some {| w_s := s; w_segs := w_segs w; w_unc := without bs (w_unc w) |}
      end
  | ODelSnap n => delete_snapshots w n
  | ORestart => Some (restart w)
  end.
End State.
