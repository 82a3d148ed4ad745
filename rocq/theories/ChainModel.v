(** Model of the account chain: acceptance of account blocks (ledger/verifier/account_verifier.go),
    the index database (ledger/chain/index/insert.go, delete.go, account_block.go, onroad.go), the
    pool of unconfirmed blocks (ledger/chain/cache/unconfirmed_pool.go), confirmation by snapshot
    blocks (ledger/chain/insert.go 48-152, unconfirmed.go 65-165) and the two kinds of rollback
    (ledger/chain/delete.go, unconfirmed.go 194-237). Hashes and addresses are integers. *)
From Verif Require Import Lib.

(** interfaces/core/account_block.go 20-27, 418-441: a block sends, receives or is a genesis block *)
Inductive kind := Send (to : Z) | Recv (from : Z) (err : bool) | Genesis.
(** the fields of AccountBlock the chain index uses; [k_subs] is SendBlockList: hash and addressee *)
Record blk := mkBlk { k_addr : Z; k_hash : Z; k_height : Z; k_prev : Z; k_kind : kind; k_subs : list (Z * Z) }.

Definition is_send (b : blk) : bool := match k_kind b with Send _ => true | _ => false end.
(** blocks other than genesis that close a send block *)
Definition recv_from (b : blk) : option Z := match k_kind b with Recv f _ => Some f | _ => None end.

(** ** The index database: one key-value store (ledger/chain/utils/generate_key.go 8-28, 45-51);
    a batch takes effect atomically *)
Inductive key := KHash (h : Z) | KHeight (a n : Z) | KRecv (h : Z) | KRoad (a h : Z).
Inductive val := VAddrHeight (a n : Z) | VHash (h : Z) | VUnreceived | VEmpty.
Definition key_eqb (x y : key) : bool :=
  match x, y with
  | KHash a, KHash b => a =? b
  | KHeight a n, KHeight b m => (a =? b) && (n =? m)
  | KRecv a, KRecv b => a =? b
  | KRoad a h, KRoad b k => (a =? b) && (h =? k)
  | _, _ => false
  end.
Definition store := list (key * val).
Fixpoint get (s : store) (k : key) : option val :=
  match s with [] => None | (k', v) :: r => if key_eqb k k' then Some v else get r k end.
Definition del (s : store) (k : key) : store := filter (fun p => negb (key_eqb k (fst p))) s.
Definition put (s : store) (k : key) (v : val) : store := (k, v) :: del s k.

(** ledger/chain/index/insert.go 62-119. HasAccount/createAccount, the caches and the block
    file locations are not modelled. *)
Definition insert_sub (a n : Z) (s : store) (x : Z * Z) : store :=
  let s := put s (KRecv (fst x)) VUnreceived in
  let s := put s (KHash (fst x)) (VAddrHeight a n) in
  put s (KRoad (snd x) (fst x)) VEmpty.
Definition insert_block (s : store) (b : blk) : store :=
  let a := k_addr b in let n := k_height b in
  let s := put s (KHash (k_hash b)) (VAddrHeight a n) in
  let s := put s (KHeight a n) (VHash (k_hash b)) in
  let s := match k_kind b with
    | Genesis => s
    | Recv f _ => del (put s (KRecv f) (VHash (k_hash b))) (KRoad a f)
    | Send t => put (put s (KRecv (k_hash b)) VUnreceived) (KRoad t (k_hash b)) VEmpty
    end in
  fold_left (insert_sub a n) (k_subs b) s.

(** ledger/chain/index/delete.go 52-68, 82-129: [m] is the map of opened send blocks *)
Definition mdel (m : list (Z * Z)) (h : Z) : list (Z * Z) := filter (fun p => negb (fst p =? h)) m.
Definition mput (m : list (Z * Z)) (h a : Z) : list (Z * Z) := (h, a) :: mdel m h.
Definition mhas (m : list (Z * Z)) (h : Z) : bool := existsb (fun p => fst p =? h) m.

Definition delete_subs (sm : store * list (Z * Z)) (l : list (Z * Z)) : store * list (Z * Z) :=
  fold_left (fun sm x => (del (fst sm) (KHash (fst x)), mput (snd sm) (fst x) (snd x))) l sm.
Definition delete_block (sm : store * list (Z * Z)) (b : blk) : store * list (Z * Z) :=
  let '(s, m) := sm in
  let s := del s (KHash (k_hash b)) in
  let s := del s (KHeight (k_addr b) (k_height b)) in
  match k_kind b with
  | Send t => (s, mput m (k_hash b) t)
  | Recv f _ =>
    let sm := if mhas m f then (del s (KRecv f), mdel m f)
              else (put (put s (KRoad (k_addr b) f) VEmpty) (KRecv f) VUnreceived, m) in
    delete_subs sm (k_subs b)
  | Genesis =>   (* FromBlockHash of a genesis block is the zero hash *)
    let sm := if mhas m 0 then (del s (KRecv 0), mdel m 0)
              else (put (put s (KRoad (k_addr b) 0) VEmpty) (KRecv 0) VUnreceived, m) in
    delete_subs sm (k_subs b)
  end.
(** the final loop runs over a Go map in any order; the keys are distinct *)
Definition close_sends (s : store) (m : list (Z * Z)) : store :=
  fold_left (fun s p => del (del s (KRoad (snd p) (fst p))) (KRecv (fst p))) m s.
Definition rollback_index (s : store) (bs : list blk) : store :=
  let '(s, m) := fold_left delete_block bs (s, []) in close_sends s m.

(** ** The chain *)
(** confirmed blocks by snapshot block (oldest first), unconfirmed blocks in insertion order, index *)
Record chain := mkChain { c_chunks : list (list blk); c_unconf : list blk; c_db : store }.
Definition confirmed (c : chain) : list blk := concat (c_chunks c).
Definition blocks (c : chain) : list blk := confirmed c ++ c_unconf c.

(** ledger/chain/account_block.go 33-63: block files and caches are one list *)
Definition block_at (c : chain) (a n : Z) : option blk :=
  find (fun b => (k_addr b =? a) && (k_height b =? n)) (blocks c).
(** index/account_block.go 16-40, account_block.go 292-323 (the cache is not modelled): the greatest height key of the address *)
Definition latest_height (s : store) (a : Z) : Z :=
  fold_left (fun m p => match fst p with KHeight a' n => if (a' =? a) && (m <? n) then n else m | _ => m end) s 0.
Definition latest (c : chain) (a : Z) : option blk :=
  let n := latest_height (c_db c) a in if n <=? 0 then None else block_at c a n.
(** account_block.go 82-126, 373-384: addressee of the block found. A receive block asked for by its
    own hash is returned as it is; its addressee is the zero address, and the machine does not
    execute it as a send: [None]. *)
Definition get_send (c : chain) (h : Z) : option Z :=
  match get (c_db c) (KHash h) with
  | Some (VAddrHeight a n) =>
    match block_at c a n with
    | Some b =>
      match k_kind b with
      | Send t => Some t
      | _ => if k_hash b =? h then None
             else match find (fun p => fst p =? h) (k_subs b) with Some p => Some (snd p) | None => None end
      end
    | None => None
    end
  | _ => None
  end.
(** index/account_block.go 212-226 *)
Definition is_received (c : chain) (h : Z) : bool :=
  match get (c_db c) (KRecv h) with Some (VHash _) => true | _ => false end.

(** account_verifier.go 137-200 (previous block, referenced send, not yet received), 349-361 (only
    the addressee receives). The machine re-runs the block on a copy and compares the hashes
    (379-412, 414-473): the copy of account_block.go 67-104 appends the copied SendBlockList to the
    original one, so a send block that carries such a list is never confirmed; and a block of the
    genesis type comes back as a receive (vm.go 833-835). [others] stands for all further checks
    (signature, producer, proof of work, quota, execution result), which can only reject. *)
Definition accept (c : chain) (others : bool) (b : blk) : bool :=
  others &&
  (match latest c (k_addr b) with
   | None => (k_height b =? 1) && (k_prev b =? 0)
   | Some l => (k_height b =? k_height l + 1) && (k_prev b =? k_hash l)
   end) &&
  (match k_kind b with
   | Send _ => Nat.eqb (length (k_subs b ++ k_subs b)) (length (k_subs b))
   | Recv f _ => negb (f =? 0) && match get_send c f with
                 | Some t => (t =? k_addr b) && negb (is_received c f)
                 | None => false end
   | Genesis => false
   end).
(** ledger/chain/insert.go 13-46 *)
Definition insert (c : chain) (b : blk) : chain :=
  mkChain (c_chunks c) (c_unconf c ++ [b]) (insert_block (c_db c) b).

(** unconfirmed.go 194-237 *)
Definition zin (x : Z) (l : list Z) : bool := existsb (Z.eqb x) l.
Definition sub_hashes (b : blk) : list Z := map fst (k_subs b).
Fixpoint deps_loop (addrs hashes : list Z) (bs : list blk) : list blk :=
  match bs with
  | [] => []
  | b :: r =>
    if zin (k_addr b) addrs then
      b :: deps_loop addrs ((if is_send b then [k_hash b] else []) ++ sub_hashes b ++ hashes) r
    else match recv_from b with
    | Some f => if zin f hashes then b :: deps_loop (k_addr b :: addrs) (sub_hashes b ++ hashes) r
                else deps_loop addrs hashes r
    | None => deps_loop addrs hashes r
    end
  end.
Definition compute_deps (bs : list blk) : list blk :=
  match bs with
  | [] => []
  | b :: r => b :: deps_loop [k_addr b] (k_hash b :: sub_hashes b) r
  end.

(** unconfirmed_pool.go 48-70 *)
Definition blk_in (b : blk) (l : list blk) : bool := existsb (fun x => k_hash x =? k_hash b) l.
Definition minus (l d : list blk) : list blk := filter (fun b => negb (blk_in b d)) l.
(** delete.go 267-309; the events and the state database are not modelled *)
Definition delete_blocks (c : chain) (d : list blk) : chain :=
  mkChain (c_chunks c) (minus (c_unconf c) d) (rollback_index (c_db c) d).
Fixpoint from_first (p : blk -> bool) (l : list blk) : list blk :=
  match l with [] => [] | b :: r => if p b then l else from_first p r end.
(** delete.go 224-265; [p] finds the block by hash, or by address and height *)
Definition delete_account_blocks (c : chain) (p : blk -> bool) : option chain :=
  match from_first p (c_unconf c) with
  | [] => None
  | plan => Some (delete_blocks c (compute_deps plan))
  end.

(** insert.go 70-94: the unconfirmed blocks up to the heights of the snapshot content; fails when
    some of the content is missing. [sc]: address -> height. *)
Fixpoint assocz (k : Z) (l : list (Z * Z)) : option Z :=
  match l with [] => None | (k', v) :: r => if k =? k' then Some v else assocz k r end.
Fixpoint to_confirm (sc : list (Z * Z)) (lack : Z) (bs : list blk) : option (list blk) :=
  match bs with
  | [] => None
  | b :: r =>
    let '(take, lack) := match assocz (k_addr b) sc with
      | Some n => if k_height b <? n then (true, lack) else if k_height b =? n then (true, lack - 1) else (false, lack)
      | None => (false, lack) end in
    if lack <=? 0 then Some (if take : bool then [b] else [])
    else match to_confirm sc lack r with
         | Some l => Some (if take then b :: l else l) | None => None end
  end.
(** unconfirmed.go 65-165: [bad] stands for the consensus and quota checks of a block, [all] for an
    upgrade height or a failing consensus check *)
Fixpoint filter_loop (bad : blk -> bool) (addrs hashes : list Z) (bs : list blk) : list blk :=
  match bs with
  | [] => []
  | b :: r =>
    let invalid := zin (k_addr b) addrs
      || (match k_kind b with Recv f err => err || zin f hashes | _ => false end) || bad b in
    if invalid then
      b :: filter_loop bad (k_addr b :: addrs) ((if is_send b then [k_hash b] else []) ++ sub_hashes b ++ hashes) r
    else filter_loop bad addrs hashes r
  end.
Definition filter_unconfirmed (all : bool) (bad : blk -> bool) (bs : list blk) : list blk :=
  if all then bs else filter_loop bad [] [] bs.
(** insert.go 48-68, 96-152 *)
Definition insert_snapshot (c : chain) (sc : list (Z * Z)) (all : bool) (bad : blk -> bool) : option chain :=
  match (if zlen sc <=? 0 then Some [] else to_confirm sc (zlen sc) (c_unconf c)) with
  | None => None
  | Some bs =>
    let c := mkChain (c_chunks c ++ [bs]) (minus (c_unconf c) bs) (c_db c) in
    match filter_unconfirmed all bad (c_unconf c) with
    | [] => Some c
    | d => Some (delete_blocks c d)
    end
  end.

(** delete.go 75-211, index/delete.go 24-43, cache/snapshot_block.go 35-86; DeleteSnapshotBlocksToHeight
    (delete.go 30-74) repeats it in steps of at most 120 snapshot blocks: remove the snapshot blocks from number [n] on (the first, the genesis
    snapshot, stays); when redo logs exist the account blocks of the first removed snapshot become
    unconfirmed again, everything later is removed *)
Definition delete_snapshots (c : chain) (n : nat) (redo : bool) : option chain :=
  match n, skipn n (c_chunks c) with
  | O, _ => None
  | _, [] => None
  | _, first :: rest =>
    let removed := first ++ concat rest ++ c_unconf c in
    let again := if redo then first else [] in
    Some (mkChain (firstn n (c_chunks c)) again
            (fold_left insert_block again (rollback_index (c_db c) removed)))
  end.

Inductive cop :=
| CInsert (others : bool) (b : blk)
| CDelete (p : blk -> bool)
| CSnapshot (sc : list (Z * Z)) (all : bool) (bad : blk -> bool)
| CDeleteSnapshots (n : nat) (redo : bool).
Definition cstep (c : chain) (o : cop) : option chain :=
  match o with
  | CInsert others b => if accept c others b then Some (insert c b) else None
  | CDelete p => delete_account_blocks c p
  | CSnapshot sc all bad => insert_snapshot c sc all bad
  | CDeleteSnapshots n redo => delete_snapshots c n redo
  end.
