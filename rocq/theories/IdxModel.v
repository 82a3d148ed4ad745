(** The index of the chain (ledger/chain/index): from hashes to blocks, from sends to their receives,
    what waits at an account, which snapshot block confirmed a block.
    Addresses, hashes, heights and locations in files are numbers; a key is its prefix with the parts
    it is made of (chain/utils/generate_key.go:9-76).  Errors of the database are not modelled.  The
    store (chain/db) is the one of FlushModel, with typed keys and a flush in one step. *)
From Verif Require Import Lib.
From Verif Require RoadModel.
Import ListNotations.
Notation get := RoadModel.get.
Notation put := RoadModel.put.
Notation del := RoadModel.del.

(** * Blocks: interfaces/core/account_block.go:18-80, snapshot_block.go *)
Record send := Send { s_hash : Z; s_to : Z; s_create : bool }.
(** [from] is missing for the receive blocks of the genesis. *)
Inductive blk :=
| BSend (addr height : Z) (s : send)
| BRecv (addr height hash : Z) (from : option Z) (subs : list send).
Definition b_addr (b : blk) : Z := match b with BSend a _ _ | BRecv a _ _ _ _ => a end.
Definition b_height (b : blk) : Z := match b with BSend _ h _ | BRecv _ h _ _ _ => h end.
Definition b_hash (b : blk) : Z := match b with BSend _ _ s => s_hash s | BRecv _ _ h _ _ => h end.
Record sb := Sb { sb_hash : Z; sb_height : Z; sb_content : list (Z * Z) }.

(** * Keys and values *)
Inductive key :=
| KHash (h : Z) | KBlock (a n : Z) | KRecv (h : Z) | KConf (a n : Z) | KRoad (a h : Z) | KSb (h : Z) | KSbAt (n : Z) | KAddr (a : Z) | KId (i : Z).
Inductive val :=
| VAt (a n : Z) | VHash (h : Z) | VLoc (h l : Z) | VOpen | VBy (h : Z) | VNil | VNum (n : Z) | VAcc (a : Z).
Definition keq (x y : key) : bool :=
  match x, y with
  | KHash a, KHash b | KRecv a, KRecv b | KSb a, KSb b | KSbAt a, KSbAt b | KAddr a, KAddr b | KId a, KId b => a =? b
  | KBlock a n, KBlock b m | KConf a n, KConf b m | KRoad a n, KRoad b m => (a =? b) && (n =? m)
  | _, _ => false
  end.
Definition db := list (key * val).
Inductive wop := WPut (k : key) (v : val) | WDel (k : key).
Definition wkey (o : wop) : key := match o with WPut k _ | WDel k => k end.
Definition apply1 (d : db) (o : wop) : db := match o with WPut k v => put keq d k v | WDel k => del keq d k end.
Definition apply (ops : list wop) (d : db) : db := fold_left apply1 ops d.

(** * The store: FlushModel.store *)
Record store := Store { st_disk : db; st_mem : list wop; st_snap : list wop; st_unc : list (Z * list wop) }.
Definition view (s : store) : db := apply (st_mem s) (st_disk s).
Definition unc_get (h : Z) (l : list (Z * list wop)) : list wop := match find (fun e => fst e =? h) l with Some e => snd e | None => [] end.
Definition unc_rm (h : Z) (l : list (Z * list wop)) : list (Z * list wop) := filter (fun e => negb (fst e =? h)) l.
Definition unc_all (l : list (Z * list wop)) : list wop := concat (map snd l).
(** WriteAccountBlock, WriteSnapshot: chain/db/write.go:17-63 *)
Definition write_block (s : store) (h : Z) (b : list wop) : store := Store (st_disk s) (st_mem s ++ b) (st_snap s) (st_unc s ++ [(h, b)]).
Definition write_snapshot (s : store) (b : list wop) (hs : list Z) : store :=
  Store (st_disk s) (st_mem s ++ b) (st_snap s ++ flat_map (fun h => unc_get h (st_unc s)) hs ++ b) (fold_left (fun u h => unc_rm h u) hs (st_unc s)).
(** RollbackAccountBlocks, RollbackSnapshot: chain/db/rollback.go:8-45 *)
Definition rollback_blocks (s : store) (b : list wop) (hs : list Z) : store := Store (st_disk s) (st_mem s ++ b) (st_snap s) (fold_left (fun u h => unc_rm h u) hs (st_unc s)).
Definition rollback_snapshot (s : store) (b : list wop) : store := Store (st_disk s) (st_mem s ++ b) (st_snap s ++ unc_all (st_unc s) ++ b) [].
(** Prepare, Commit and AfterCommit: chain/db/flush.go:22-89 *)
Definition flush_store (s : store) : store := Store (apply (st_snap s) (st_disk s)) (unc_all (st_unc s)) [] (st_unc s).

(** * The index: index_db.go:15-40 *)
(** [i_cache]: bigcache; [i_confirm]: sendCreateBlockHashCache; [i_accounts]: accountCache. *)
Record idx := Idx { i_store : store; i_cache : db; i_confirm : list (Z * Z); i_accounts : list Z; i_latest : Z }.
Definition has (d : db) (k : key) : bool := match get keq d k with Some _ => true | None => false end.
(** HasAccount: account.go:13-26 *)
Definition has_account (x : idx) (a : Z) : bool := existsb (Z.eqb a) (i_accounts x) || has (view (i_store x)) (KAddr a).
(** insertAccountBlock: insert.go:59-117; createAccount: account.go:76-82 *)
Definition create_ops (x : idx) (a : Z) : list wop :=
  if has_account x a then [] else [WPut (KAddr a) (VNum (i_latest x + 1)); WPut (KId (i_latest x + 1)) (VAcc a)].
Definition sub_ops (a n : Z) (s : send) : list wop := [WPut (KRecv (s_hash s)) VOpen; WPut (KHash (s_hash s)) (VAt a n); WPut (KRoad (s_to s) (s_hash s)) VNil].
Definition insert_ops (b : blk) : list wop :=
  [WPut (KHash (b_hash b)) (VAt (b_addr b) (b_height b)); WPut (KBlock (b_addr b) (b_height b)) (VHash (b_hash b))] ++
  match b with
  | BSend a n s => [WPut (KRecv (s_hash s)) VOpen; WPut (KRoad (s_to s) (s_hash s)) VNil]
  | BRecv a n h from subs =>
      match from with Some f => [WPut (KRecv f) (VBy h); WDel (KRoad a f)] | None => [] end ++ flat_map (sub_ops a n) subs
  end.
(** insertConfirmCache for the creations of contracts: insert.go:96-98, 111-114 *)
Definition creates (b : blk) : list Z :=
  match b with BSend _ _ s => if s_create s then [s_hash s] else [] | BRecv _ _ _ _ subs => map s_hash (filter s_create subs) end.
Definition remember (h n : Z) (l : list (Z * Z)) : list (Z * Z) := put Z.eqb l h n.
(** Which writes also go to the cache: insert.go:119-163, delete.go:130-163; the address and height
    of a new block is the only put that does not. *)
Definition cached (o : wop) : bool :=
  match o with
  | WPut (KBlock _ _) (VHash _) => false
  | WPut (KRoad _ _) _ | WDel (KRoad _ _) | WPut (KConf _ _) _ | WDel (KConf _ _) | WPut (KAddr _) _ | WPut (KId _) _ | WDel (KAddr _) | WDel (KId _) => false
  | _ => true
  end.
(** InsertAccountBlock: insert.go:14-23; HasAccount remembers the accounts it finds. *)
Definition insert (x : idx) (b : blk) : idx :=
  let ops := create_ops x (b_addr b) ++ insert_ops b in
  Idx (write_block (i_store x) (b_hash b) ops) (apply (filter cached ops) (i_cache x)) (fold_left (fun l h => remember h 0 l) (creates b) (i_confirm x))
      (if has_account x (b_addr b) then b_addr b :: i_accounts x else i_accounts x)
      (if has_account x (b_addr b) then i_latest x else i_latest x + 1).
(** InsertSnapshotBlock: insert.go:27-57; [loc] and [locs] are the locations of the blocks. *)
Definition snapshot_ops (s : sb) (bs : list blk) (loc : Z) (locs : Z -> Z) : list wop :=
  [WPut (KSb (sb_hash s)) (VNum (sb_height s)); WPut (KSbAt (sb_height s)) (VLoc (sb_hash s) loc)] ++
  map (fun c => WPut (KConf (fst c) (snd c)) (VNum (sb_height s))) (sb_content s) ++
  map (fun b => WPut (KBlock (b_addr b) (b_height b)) (VLoc (b_hash b) (locs (b_hash b)))) bs.
Definition top_create (b : blk) : bool := match b with BSend _ _ s => s_create s | BRecv _ _ _ _ _ => false end.
Definition snapshot (x : idx) (s : sb) (bs : list blk) (loc : Z) (locs : Z -> Z) : idx :=
  let ops := snapshot_ops s bs loc locs in
  Idx (write_snapshot (i_store x) ops (map b_hash bs)) (apply (filter cached ops) (i_cache x))
      (fold_left (fun l b => if top_create b then remember (b_hash b) (sb_height s) l else l) bs (i_confirm x)) (i_accounts x) (i_latest x).
(** rollback, deleteAccountBlocks, deleteSnapshotBlock: delete.go:53-128; the chunks as one list of
    account blocks and snapshot blocks; [open] is openSendBlock.  The order of its entries, and of the
    content of a snapshot block, does not matter: the keys differ. *)
Inductive item := IBlock (b : blk) | ISnap (s : sb).
Definition open_t := list (Z * Z).
Definition undo (o : open_t) (i : item) : list wop * open_t :=
  match i with
  | ISnap s => (WDel (KSb (sb_hash s)) :: WDel (KSbAt (sb_height s)) :: map (fun c => WDel (KConf (fst c) (snd c))) (sb_content s), o)
  | IBlock b =>
      let ops := [WDel (KHash (b_hash b)); WDel (KBlock (b_addr b) (b_height b))] in
      match b with
      | BSend _ _ s => (ops, put Z.eqb o (s_hash s) (s_to s))
      | BRecv a _ _ from subs =>
          let f := match from with Some f => f | None => 0 end in
          let '(ops1, o1) := match get Z.eqb o f with
                             | Some _ => ([WDel (KRecv f)], del Z.eqb o f)
                             | None => ([WPut (KRoad a f) VNil; WPut (KRecv f) VOpen], o)
                             end in
          (ops ++ ops1 ++ map (fun s => WDel (KHash (s_hash s))) subs, fold_left (fun o s => put Z.eqb o (s_hash s) (s_to s)) subs o1)
      end
  end.
Fixpoint undo_all (o : open_t) (is : list item) : list wop * open_t :=
  match is with
  | [] => ([], o)
  | i :: r => let '(ops, o1) := undo o i in let '(ops2, o2) := undo_all o1 r in (ops ++ ops2, o2)
  end.
Definition rollback_ops (is : list item) : list wop :=
  let '(ops, o) := undo_all [] is in ops ++ flat_map (fun e => [WDel (KRoad (snd e) (fst e)); WDel (KRecv (fst e))]) o.
Definition item_creates (i : item) : list Z := match i with IBlock b => creates b | ISnap _ => [] end.
Definition forget (l : list (Z * Z)) (hs : list Z) : list (Z * Z) := fold_left (fun l h => del Z.eqb l h) hs l.
(** RollbackAccountBlocks: delete.go:10-22 *)
Definition delete (x : idx) (bs : list blk) : idx :=
  let ops := rollback_ops (map IBlock bs) in
  Idx (rollback_blocks (i_store x) ops (map b_hash bs)) (apply (filter cached ops) (i_cache x)) (forget (i_confirm x) (flat_map creates bs)) (i_accounts x) (i_latest x).
(** RollbackSnapshotBlocks: delete.go:24-44 *)
Definition rollback (x : idx) (is : list item) (again : list blk) : idx :=
  let ops := rollback_ops is in
  fold_left insert again
    (Idx (rollback_snapshot (i_store x) ops) (apply (filter cached ops) (i_cache x)) (forget (i_confirm x) (flat_map item_creates is)) (i_accounts x) (i_latest x)).
Definition flush (x : idx) : idx := Idx (flush_store (i_store x)) (i_cache x) (i_confirm x) (i_accounts x) (i_latest x).

(** * Queries *)
(** getValue: cache.go:57-73 *)
Definition get_value (x : idx) (k : key) : option val := match get keq (i_cache x) k with Some v => Some v | None => get keq (view (i_store x)) k end.
(** GetAddrHeightByHash: account_block.go:227-248; IsAccountBlockExisted: 12-14 *)
Definition addr_height (x : idx) (h : Z) : option (Z * Z) := match get_value x (KHash h) with Some (VAt a n) => Some (a, n) | _ => None end.
Definition existed (x : idx) (h : Z) : bool := has (view (i_store x)) (KHash h).
(** GetAccountBlockLocationByHeight and GetAccountBlockLocationByHash: account_block.go:43-82; only once confirmed *)
Definition by_height (x : idx) (a n : Z) : option (Z * Z) := match get_value x (KBlock a n) with Some (VLoc h l) => Some (h, l) | _ => None end.
Definition by_hash (x : idx) (h : Z) : option Z := match addr_height x h with Some (a, n) => option_map snd (by_height x a n) | None => None end.
(** GetReceivedBySend, IsReceived: account_block.go:192-225 *)
Definition received_by (x : idx) (s : Z) : option Z := match get_value x (KRecv s) with Some (VBy r) => Some r | _ => None end.
Definition is_received (x : idx) (s : Z) : bool := match get_value x (KRecv s) with Some (VBy _) => true | _ => false end.
(** GetSnapshotBlockHeight, GetSnapshotBlockByHeight: snapshot_block.go:18-28, 61-78 *)
Definition sb_height_of (x : idx) (h : Z) : Z := match get_value x (KSb h) with Some (VNum n) => n | _ => 0 end.
Definition sb_at (x : idx) (n : Z) : option (Z * Z) := match get_value x (KSbAt n) with Some (VLoc h l) => Some (h, l) | _ => None end.
(** An iterator: the keys of a kind in order *)
Fixpoint place (x : Z * val) (l : list (Z * val)) : list (Z * val) :=
  match l with [] => [x] | y :: r => if fst x <=? fst y then x :: l else y :: place x r end.
Definition walk (f : key -> option Z) (d : db) : list (Z * val) :=
  fold_right place [] (flat_map (fun e => match f (fst e) with Some i => [(i, snd e)] | None => [] end) d).
(** GetOnRoadHashList: onroad.go:87-115; the loop takes the entries from [size * num] to before [size * (num + 1)] *)
Definition road_of (a : Z) (k : key) : option Z := match k with KRoad b h => if b =? a then Some h else None | _ => None end.
Fixpoint page (lo hi i : Z) (l : list Z) : list Z :=
  match l with
  | [] => []
  | x :: r => if lo <=? i then if hi <=? i then [] else x :: page lo hi (i + 1) r else page lo hi (i + 1) r
  end.
Definition road_page (x : idx) (a num size : Z) : list Z := page (size * num) (size * (num + 1)) 0 (map fst (walk (road_of a) (view (i_store x)))).
(** GetLatestAccountBlock: account_block.go:16-41 *)
Definition block_of (a : Z) (k : key) : option Z := match k with KBlock b n => if (b =? a) && (1 <=? n) && (n <? max_u64) then Some n else None | _ => None end.
Definition latest (x : idx) (a : Z) : Z * option Z :=
  match rev (walk (block_of a) (view (i_store x))) with
  | [] => (0, None)
  | (n, v) :: _ => (n, match v with VLoc _ l => Some l | _ => None end)
  end.
(** GetConfirmHeightByHash: account_block.go:158-190 *)
Definition conf_from (a n : Z) (k : key) : option Z := match k with KConf b m => if (b =? a) && (n <=? m) && (m <? max_u64) then Some m else None | _ => None end.
Definition confirm_slow (x : idx) (h : Z) : Z :=
  match addr_height x h with
  | None => 0
  | Some (a, n) => match walk (conf_from a n) (view (i_store x)) with (_, VNum m) :: _ => m | _ => 0 end
  end.
Definition confirm_height (x : idx) (h : Z) : Z := match get Z.eqb (i_confirm x) h with Some n => n | None => confirm_slow x h end.
(** LoadRange: onroad.go:13-52, the requests at one account *)
Definition load (x : idx) (a : Z) : list (Z * Z * Z) :=
  flat_map (fun h => match addr_height x h with Some (c, n) => [(c, n, h)] | None => [] end) (map fst (walk (road_of a) (view (i_store x)))).
(** GetAccountId: account.go:28-39; IterateAccounts: 59-74, as a set *)
Definition account_id (x : idx) (a : Z) : Z := match get keq (view (i_store x)) (KAddr a) with Some (VNum n) => n | _ => 0 end.
(** A start: NewIndexDB, queryLatestAccountId and initCache: index_db.go:30-55, account.go:84-101,
    cache.go:39-55; [made]: the creations of the contracts of the state database. *)
Definition id_of (k : key) : option Z := match k with KId i => if (1 <=? i) && (i <? max_u64) then Some i else None | _ => None end.
Definition open_idx (d : db) (made : list Z) : idx :=
  let x := Idx (Store d [] [] []) [] [] [] (match rev (walk id_of d) with [] => 0 | (i, _) :: _ => i end) in
  fold_left (fun x h => Idx (i_store x) (i_cache x) (remember h (confirm_height x h) (i_confirm x)) (i_accounts x) (i_latest x)) made x.

(** * The chain around it *)
(** A chunk of the block files: the blocks a snapshot block confirms, with their locations. *)
Record seg := Seg { g_blocks : list blk; g_sb : sb; g_loc : Z; g_locs : Z -> Z }.
(** [w_log]: the block files; [w_unc]: the unconfirmed blocks, chain/cache; [w_saved]: what a start finds. *)
Record world := World { w_idx : idx; w_log : list seg; w_unc : list blk; w_saved : list seg }.
(** The blocks a snapshot block confirms, up to the heights in its content: getBlocksToBeConfirmed,
    chain/insert.go:70-94; once it met all heights no block below them follows. *)
Definition confirms (c : list (Z * Z)) (b : blk) : bool := existsb (fun e => (fst e =? b_addr b) && (b_height b <=? snd e)) c.
Definition items (gs : list seg) (u : list blk) : list item := flat_map (fun g => map IBlock (g_blocks g) ++ [ISnap (g_sb g)]) gs ++ map IBlock u.
Definition without (bs cs : list blk) : list blk := filter (fun b => negb (existsb (fun c => b_hash c =? b_hash b) cs)) bs.
(** deleteSnapshotBlocksToHeight: chain/delete.go:75-211; the last [n] snapshot blocks; [redo]: whether
    the redo log still has the first of them, in which case its account blocks become unconfirmed. *)
Definition roll (w : world) (n : nat) (redo : bool) : world :=
  let keep := firstn (length (w_log w) - n) (w_log w) in
  let gone := skipn (length (w_log w) - n) (w_log w) in
  let again := if redo then match gone with g :: _ => g_blocks g | [] => [] end else [] in
  World (rollback (w_idx w) (items gone (w_unc w)) again) keep again (w_saved w).
(** insertSnapshotBlock: chain/insert.go:96-190 *)
Definition snap (w : world) (s : sb) (loc : Z) (locs : Z -> Z) : world :=
  let bs := filter (confirms (sb_content s)) (w_unc w) in
  World (snapshot (w_idx w) s bs loc locs) (w_log w ++ [Seg bs s loc locs]) (filter (fun b => negb (confirms (sb_content s) b)) (w_unc w)) (w_saved w).
