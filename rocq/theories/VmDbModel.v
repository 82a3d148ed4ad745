(** Model of contract storage during one execution: vm_db/unsaved.go, storage.go, balance.go,
    state.go, storage_iterator.go; the merging iterator common/db/merged_iterator.go; and the key
    encoding of the committed storage (ledger/chain/utils/keys_state_db.go, generate_key.go,
    ledger/chain/state/iteration.go). Keys and values are byte strings. The sorted stores of
    leveldb (memdb and the on-disk one) are taken as given: sorted lists with a cursor. *)
From Verif Require Import Lib.

Definition bytes := list Z.
(** comparer.DefaultComparer: bytes.Compare *)
Fixpoint bltb (a b : bytes) : bool :=
  match a, b with
  | _, [] => false
  | [], _ :: _ => true
  | x :: a', y :: b' => if x <? y then true else if y <? x then false else bltb a' b'
  end.
Definition kv := (bytes * bytes)%type.

(** ** Sorted stores and cursors *)
(** memdb.DB.Put: one entry per key, sorted *)
Fixpoint mput (k v : bytes) (l : list kv) : list kv :=
  match l with
  | [] => [(k, v)]
  | (k', v') :: r => if bltb k k' then (k, v) :: l else if zlist_eqb k k' then (k, v) :: r else (k', v') :: mput k v r
  end.
Fixpoint mget (k : bytes) (l : list kv) : option bytes :=
  match l with [] => None | (k', v) :: r => if zlist_eqb k k' then Some v else mget k r end.

(** util.BytesPrefix, common/db/xleveldb/util/range.go 20-32: the limit is the prefix with its last
    byte below 255 incremented and the rest cut off *)
Fixpoint limit_of (rev_prefix : bytes) : option bytes :=
  match rev_prefix with
  | [] => None
  | c :: r => if c <? 255 then Some (rev (c + 1 :: r)) else limit_of r
  end.
Definition in_range (prefix k : bytes) : bool :=
  negb (bltb k prefix) && (match limit_of (rev prefix) with Some l => bltb k l | None => true end).

(** a cursor on a sorted list: what was passed (nearest first), the current entry, what follows.
    common/db/xleveldb/memdb/memdb.go 60-153, common/db/xleveldb/db_iter.go *)
Record cur := mkCur { c_behind : list kv; c_here : option kv; c_ahead : list kv }.
Definition c_start (l : list kv) : cur := mkCur [] None l.
Definition push (h : option kv) (l : list kv) : list kv := match h with Some x => x :: l | None => l end.
Definition c_next (c : cur) : cur :=
  match c_ahead c with
  | [] => mkCur (push (c_here c) (c_behind c)) None []
  | x :: r => mkCur (push (c_here c) (c_behind c)) (Some x) r
  end.
Definition c_prev (c : cur) : cur :=
  match c_behind c with
  | [] => mkCur [] None (push (c_here c) (c_ahead c))
  | x :: r => mkCur r (Some x) (push (c_here c) (c_ahead c))
  end.
Definition c_all (c : cur) : list kv := rev (c_behind c) ++ push (c_here c) (c_ahead c).
Definition c_last (c : cur) : cur :=
  match rev (c_all c) with [] => mkCur [] None [] | x :: r => mkCur r (Some x) [] end.
Fixpoint seek_loop (k : bytes) (behind ahead : list kv) : cur :=
  match ahead with
  | [] => mkCur behind None []
  | x :: r => if bltb (fst x) k then seek_loop k (x :: behind) r else mkCur behind (Some x) r
  end.
Definition c_seek (k : bytes) (c : cur) : cur := seek_loop k [] (c_all c).

(** ** MergedIterator over two iterators (its only use, vm_db/storage_iterator.go 9-21) *)
Inductive istat := AtHead | InMiddle | AtTail.                     (* merged_iterator.go 12-16 *)
Record slot := mkSlot { s_cur : cur; s_key : option bytes; s_stat : istat }.
Record mi := mkMi {
  m_del : bytes -> bool; m_a : slot; m_b : slot;
  m_index : Z;                          (* -1: no current entry *)
  m_prev : bytes;                       (* prevKey; nil and empty are not told apart by bytes.Equal *)
  m_fwd : bool }.                       (* directionToNext *)

(** merged_iterator.go 37-46: index is the zero value *)
Definition mi_new (del : bytes -> bool) (a b : list kv) : mi :=
  mkMi del (mkSlot (c_start a) None AtHead) (mkSlot (c_start b) None AtHead) 0 [] true.
(** 48-58 *)
Definition slot_reset (s : slot) : slot := mkSlot (s_cur s) None InMiddle.
Definition mi_reset (m : mi) : mi := mkMi (m_del m) (slot_reset (m_a m)) (slot_reset (m_b m)) (-1) [] (m_fwd m).

(** the inner loop 185-214: move on until an entry that is neither deleted nor the previous key *)
Fixpoint adv_fwd (bad : bytes -> bool) (behind : list kv) (ahead : list kv) : cur :=
  match ahead with
  | [] => mkCur behind None []
  | x :: r => if bad (fst x) then adv_fwd bad (x :: behind) r else mkCur behind (Some x) r
  end.
Fixpoint adv_bwd (bad : bytes -> bool) (behind : list kv) (ahead : list kv) : cur :=
  match behind with
  | [] => mkCur [] None ahead
  | x :: r => if bad (fst x) then adv_bwd bad r (x :: ahead) else mkCur r (Some x) ahead
  end.
Definition settle (bad : bytes -> bool) (next : bool) (s : slot) : slot :=
  let move c := if next then adv_fwd bad (push (c_here c) (c_behind c)) (c_ahead c)
                else adv_bwd bad (c_behind c) (push (c_here c) (c_ahead c)) in
  let settled c := match c_here c with
    | Some x => mkSlot c (Some (fst x)) (s_stat s)
    | None => mkSlot c None (if next then AtTail else AtHead) end in
  match s_key s with
  | Some k => if bad k then settled (move (s_cur s)) else s
  | None => settled (move (s_cur s))
  end.
(** 178-183: exhausted iterators are skipped *)
Definition exhausted (next : bool) (s : slot) : bool :=
  match s_stat s with AtTail => next | AtHead => negb next | InMiddle => false end.
Definition clear_key (s : slot) : slot := mkSlot (s_cur s) None (s_stat s).
(** 216-222: is the key of slot [i] a better choice than [fit] *)
Definition better (next : bool) (k fit : bytes) : bool :=
  (if next then bltb k fit else bltb fit k) || (match fit with [] => true | _ => false end).
Definition candidate (next : bool) (s : slot) : option bytes := if exhausted next s then None else s_key s.

(** step, 164-235 (errors of the underlying iterators are not modelled) *)
Definition mi_step (next : bool) (m : mi) : mi * bool :=
  let m := if Bool.eqb (m_fwd m) next then m else mi_reset m in
  let a := if m_index m =? 0 then clear_key (m_a m) else m_a m in
  let b := if m_index m =? 1 then clear_key (m_b m) else m_b m in
  let bad k := m_del m k || zlist_eqb k (m_prev m) in
  let run s := if exhausted next s then s else settle bad next s in
  (* a slot that becomes exhausted in this very step has no key *)
  let a' := run a in let b' := run b in
  let ka := if exhausted next a then None else s_key a' in
  let kb := if exhausted next b then None else s_key b' in
  let '(fit, i) := match ka with Some k => (k, 0) | None => ([], -1) end in
  let '(fit, i) := match kb with Some k => if better next k fit then (k, 1) else (fit, i) | None => (fit, i) end in
  if i <? 0 then (mkMi (m_del m) a' b' (-1) [] (m_fwd m), false)
  else (mkMi (m_del m) a' b' i fit (m_fwd m), true).
(** 80-85 *)
Definition mi_next := mi_step true.
Definition mi_prev := mi_step false.
(** Last, 60-79 *)
Definition slot_last (s : slot) : slot :=
  let c := c_last (s_cur s) in
  match c_here c with
  | Some x => mkSlot c (Some (fst x)) AtTail
  | None => mkSlot c None AtHead
  end.
Definition mi_last (m : mi) : mi * bool :=
  let m := mi_reset m in
  mi_prev (mkMi (m_del m) (slot_last (m_a m)) (slot_last (m_b m)) (-1) [] false).
(** Seek, 88-137. The chain's iterator seeks the encoded key (iteration.go 67-75, which panics on keys
    longer than 32 bytes); the encoding keeps the order (VmDbProofs.enc_order), so the model seeks
    among the decoded keys *)
Definition slot_seek (del : bytes -> bool) (k : bytes) (s : slot) : slot :=
  let c := c_seek k (s_cur s) in
  let c := match c_here c with
    | Some x => if del (fst x) then adv_fwd del (x :: c_behind c) (c_ahead c) else c
    | None => c end in
  match c_here c with
  | Some x => mkSlot c (Some (fst x)) InMiddle
  | None => mkSlot c None AtTail
  end.
Definition mi_seek (k : bytes) (m : mi) : mi * bool :=
  let m := mi_reset m in
  let a := slot_seek (m_del m) k (m_a m) in
  let b := slot_seek (m_del m) k (m_b m) in
  let '(fit, i) := match s_key a with Some k => (k, 0) | None => ([], -1) end in
  let '(fit, i) := match s_key b with Some k => if better true k fit then (k, 1) else (fit, i) | None => (fit, i) end in
  if i <? 0 then (mkMi (m_del m) a b (-1) [] true, false) else (mkMi (m_del m) a b i fit true, true).
(** Key, Value: 139-152 *)
Definition mi_key (m : mi) : option bytes :=
  if m_index m =? 0 then s_key (m_a m) else if m_index m =? 1 then s_key (m_b m) else None.
Definition mi_value (m : mi) : bytes :=
  match mi_key m with
  | Some (_ :: _) =>
    match c_here (s_cur (if m_index m =? 0 then m_a m else m_b m)) with Some x => snd x | None => [] end
  | _ => []
  end.

(** ** The committed storage of one account *)
(** StorageKey without the common head (prefix byte, address): the key padded to 32 bytes, then its
    length; keys_state_db.go 18-29, 63-66, generate_key.go 95-106 *)
Definition enc_key (k : bytes) : bytes := k ++ repeat 0 (32 - length k)%nat ++ [zlen k].
(** stateStorageIterator.Key, ledger/chain/state/iteration.go 81-90 *)
Definition dec_key (e : bytes) : bytes := firstn (Z.to_nat (nth 32 e 0)) e.
(** iteration.go 16-19: the entries of the account whose stored key is in the range of the prefix;
    the head common to all keys of the account is left out *)
Definition chain_entries (committed : list kv) (prefix : bytes) : list kv :=
  map (fun x => (dec_key (fst x), snd x))
    (filter (fun x => in_range prefix (fst x)) (map (fun x => (enc_key (fst x), snd x)) committed)).

(** ** Unsaved writes (vm_db/unsaved.go) *)
Record unsaved := mkUns {
  u_storage : list kv;                 (* the memdb *)
  u_deleted : list bytes;              (* deletedKeys *)
  u_dirty : bool; u_cache : list kv;   (* storageDirty, storageCache *)
  u_balance : list (Z * Z) }.
Definition u_new : unsaved := mkUns [] [] false [] [].             (* 34-47 *)
(** 49-62; the set [keys], only used as a capacity hint, is not modelled *)
Definition u_reset (u : unsaved) : unsaved := mkUns [] [] false [] [].
Definition is_nil (v : bytes) : bool := match v with [] => true | _ => false end.
Definition bin (k : bytes) (l : list bytes) : bool := existsb (zlist_eqb k) l.
Definition bremove (k : bytes) (l : list bytes) : list bytes := filter (fun x => negb (zlist_eqb k x)) l.
(** 95-107 *)
Definition u_set (k v : bytes) (u : unsaved) : unsaved :=
  mkUns (mput k v (u_storage u))
    (if is_nil v then k :: bremove k (u_deleted u) else bremove k (u_deleted u))
    true (u_cache u) (u_balance u).
(** 109-119 *)
Definition u_get (k : bytes) (u : unsaved) : option bytes :=
  match mget k (u_storage u) with
  | Some v => Some v
  | None => if bin k (u_deleted u) then Some [] else None
  end.
(** 64-77 *)
Definition u_get_storage (u : unsaved) : unsaved * list kv :=
  if u_dirty u then (mkUns (u_storage u) (u_deleted u) false (u_storage u) (u_balance u), u_storage u)
  else (u, u_cache u).
(** 121-128 *)
Definition u_set_balance (t a : Z) (u : unsaved) : unsaved :=
  mkUns (u_storage u) (u_deleted u) (u_dirty u) (u_cache u) ((t, a) :: u_balance u).
Fixpoint zget (t : Z) (l : list (Z * Z)) : option Z :=
  match l with [] => None | (t', a) :: r => if t =? t' then Some a else zget t r end.

(** ** vmDb: the chain's storage and balances underneath *)
Record vmdb := mkVdb { v_uns : unsaved; v_chain : list kv; v_chain_bal : list (Z * Z) }.
(** vm_db/storage.go 5-10; the value of an absent key is nil *)
Definition v_get_original (k : bytes) (d : vmdb) : bytes :=
  match mget k (v_chain d) with Some v => v | None => [] end.
Definition v_get (k : bytes) (d : vmdb) : bytes :=
  match u_get k (v_uns d) with Some v => v | None => v_get_original k d end.
(** storage.go 15-21 *)
Definition v_set (k v : bytes) (d : vmdb) : option vmdb :=
  if 32 <? zlen k then None else Some (mkVdb (u_set k v (v_uns d)) (v_chain d) (v_chain_bal d)).
(** state.go 30-32 *)
Definition v_reset (d : vmdb) : vmdb := mkVdb (u_reset (v_uns d)) (v_chain d) (v_chain_bal d).
(** storage.go 23-25 *)
Definition v_unsaved (d : vmdb) : vmdb * list kv :=
  let '(u, l) := u_get_storage (v_uns d) in (mkVdb u (v_chain d) (v_chain_bal d), l).
(** balance.go 9-21 *)
Definition v_balance (t : Z) (d : vmdb) : Z :=
  match zget t (u_balance (v_uns d)) with Some a => a
  | None => match zget t (v_chain_bal d) with Some a => a | None => 0 end end.
Definition v_set_balance (t a : Z) (d : vmdb) : vmdb := mkVdb (u_set_balance t a (v_uns d)) (v_chain d) (v_chain_bal d).
(** storage_iterator.go 9-21, unsaved.go 150-152 *)
Definition v_iter (prefix : bytes) (d : vmdb) : mi :=
  mi_new (fun k => bin k (u_deleted (v_uns d)))
    (filter (fun x => in_range prefix (fst x)) (u_storage (v_uns d)))
    (chain_entries (v_chain d) prefix).

(** an execution: writes, resets and reads of the write set (which fill the cache) *)
Inductive vop := VSet (k v : bytes) | VReset | VUnsaved | VSetBalance (t a : Z).
Definition vstep (d : vmdb) (o : vop) : vmdb :=
  match o with
  | VSet k v => match v_set k v d with Some d' => d' | None => d end
  | VReset => v_reset d
  | VUnsaved => fst (v_unsaved d)
  | VSetBalance t a => v_set_balance t a d
  end.
Definition vrun (d : vmdb) (ops : list vop) : vmdb := fold_left vstep ops d.
