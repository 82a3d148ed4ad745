(** Reading the state of a snapshot block from the byte keys of the store: the history keys
    (ledger/chain/utils/generate_key.go, keys_state_db.go), the seeks of GetSnapshotValue and
    getSnapshotBalanceList (ledger/chain/state/state_db.go) and the iterator over the storage of
    a contract as of a snapshot height (ledger/chain/state/iteration.go).  The store is a sorted
    list of keys and values with a cursor, as in VmDbModel; its errors are not modelled. *)
From Verif Require Import Lib VmDbModel.

(** CreateHistoryStorageValueKey: generate_key.go:118-130 with KeyRefill, HeightRefill
    (keys_state_db.go:103-110); the prefix byte is StorageHistoryKeyPrefix, key_prefix.go:36.
    An address is 21 bytes. *)
Definition stor_stem (a k : bytes) : bytes := 2 :: a ++ enc_key k.
Definition stor_key (a k : bytes) (n : Z) : bytes := stor_stem a k ++ be_bytes 8 n.
(** CreateHistoryBalanceKey: generate_key.go:148-155; key_prefix.go:40.  A token id is 10 bytes. *)
Definition bal_stem (a t : bytes) : bytes := 4 :: a ++ t.
Definition bal_key (a t : bytes) (n : Z) : bytes := bal_stem a t ++ be_bytes 8 n.

(** GetSnapshotValue without the cache: state_db.go:317-332. *)
Definition value_at (db : list kv) (n : Z) (a k : bytes) : bytes :=
  let lo := stor_key a k 0 in
  let hi := stor_key a k (wrap64 (n + 1)) in
  match c_here (c_last (c_start (filter (fun x => negb (bltb (fst x) lo) && bltb (fst x) hi) db))) with
  | Some x => snd x
  | None => []
  end.
(** getSnapshotBalanceList for one address: state_db.go:384-419, with Construct and
    EqualAddressAndTokenId (keys_state_db.go:155-162, 176-179). None is left out of the map. *)
Definition balance_at (db : list kv) (n : Z) (a t : bytes) : option bytes :=
  let c := c_prev (c_seek (bal_key a t (wrap64 (n + 1))) (c_start (filter (fun x => in_range [4] (fst x)) db))) in
  match c_here c with
  | Some x =>
      if (length (fst x) =? 40)%nat && zlist_eqb (firstn 21 (skipn 1 (fst x))) a && zlist_eqb (firstn 10 (skipn 22 (fst x))) t
      then Some (snd x) else None
  | None => None
  end.

(** snapshotStorageIterator: iteration.go:107-125. *)
Record sit := mkSit { si_cur : cur; si_ok : bool; si_last : bytes }.
Definition stem (k : bytes) : bytes := firstn (length k - 8) k.
Definition height_of (k : bytes) : Z := be_val (skipn (length k - 8) k).
(** setCorrectPointer: 217-244, isBeforeOrEqualHeight: 246-248.  Appending the height writes into
    the key that is handed in, which is lastKey; see [land]. *)
Definition set_pointer (n : Z) (key : bytes) (c : cur) : cur * bool :=
  let c1 := c_seek (stem key ++ be_bytes 8 n) c in
  match c_here c1 with
  | Some e =>
      if zlist_eqb (stem (fst e)) (stem key) && (height_of (fst e) <=? n) then (c1, true)
      else
        let c2 := c_prev c1 in
        (c2, match c_here c2 with Some e' => zlist_eqb (stem (fst e')) (stem key) | None => false end)
  | None =>
      let c2 := c_last c1 in
      (c2, match c_here c2 with Some e' => zlist_eqb (stem (fst e')) (stem key) | None => false end)
  end.
(** setLastKey, then setCorrectPointer(lastKey): 133-135, 156-158, 208-210. *)
Definition land (n : Z) (e : kv) (c : cur) : sit * bool :=
  let r := set_pointer n (fst e) c in
  (mkSit (fst r) true (stem (fst e) ++ be_bytes 8 n), snd r).
(** step: 180-215.  The loop moves to another stem each time, so it ends before the fuel, the
    number of entries and one, does (HistProofs.v). *)
Fixpoint si_loop (fuel : nat) (n : Z) (nx : bool) (s : sit) : sit :=
  match fuel with
  | O => s
  | S f =>
      if negb (si_ok s) then s
      else
        let turn := stem (si_last s) ++ be_bytes 8 (if nx then max_u64 else 0) in
        let last := match si_last s with [] => [] | _ => turn end in
        let c :=
          match si_last s with
          | [] => if nx then c_next (si_cur s) else c_prev (si_cur s)
          | _ =>
              let c1 := c_seek turn (si_cur s) in
              if nx then c1 else match c_here c1 with Some _ => c_prev c1 | None => c1 end
          end in
        match c_here c with
        | None => mkSit c false last
        | Some e =>
            let r := land n e c in
            if snd r then fst r else si_loop f n nx (fst r)
        end
  end.
Definition si_step (n : Z) (nx : bool) (s : sit) : sit := si_loop (S (length (c_all (si_cur s)))) n nx s.
(** Last: 127-141. *)
Definition si_to_last (n : Z) (s : sit) : sit :=
  let c := c_last (si_cur s) in
  match c_here c with
  | None => mkSit c false (si_last s)
  | Some e => let r := land n e c in if snd r then fst r else si_step n false (fst r)
  end.
(** Seek: 150-164, called by stateStorageIterator.Seek (67-75) with the key at height 0. *)
Definition si_seek (n : Z) (a k : bytes) (s : sit) : sit :=
  let c := c_seek (stor_key a k 0) (si_cur s) in
  match c_here c with
  | None => mkSit c false (si_last s)
  | Some e => let r := land n e c in if snd r then fst r else si_step n true (fst r)
  end.
(** NewRawSnapshotStorageIteratorByHeight: 39-43, with CreateHistoryStorageValueKeyPrefix
    (generate_key.go:108-116). *)
Definition si_new (db : list kv) (a prefix : bytes) : sit :=
  mkSit (c_start (filter (fun x => in_range (2 :: a ++ prefix) (fst x)) db)) true [].
(** stateStorageIterator.Key, Value: 81-94. *)
Definition si_entry (s : sit) : option kv :=
  match c_here (si_cur s) with
  | Some e => Some (dec_key (skipn 22 (fst e)), snd e)
  | None => None
  end.
