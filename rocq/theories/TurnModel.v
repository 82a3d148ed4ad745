(** The requests waiting at contracts: the pool a node keeps to find and to verify the request a
    contract has to receive next (ledger/onroad/pool, ledger/onroad/chain_events.go, utils.go).
    Addresses, hashes and heights are numbers.  Errors of the database are not modelled; [None] is a
    panic.  Everything runs under the locks of the pool, one call at a time; that an entry disappears
    between reading the first entries and completing them (contract_pool.go:287-395) is left out. *)
From Verif Require Import Lib.
From Verif Require RoadModel.
From Coq Require Import Permutation.
Import ListNotations.
(** Maps as association lists. *)
Notation get := RoadModel.get.
Notation put := RoadModel.put.
Notation del := RoadModel.del.

(** * Blocks: interfaces/core/account_block.go:30-80, as far as they matter here *)
(** A send block, of an account or in the list of a receive block of a contract. *)
Record send := Send { s_hash : Z; s_to : Z }.
Inductive blk :=
| BSend (addr height : Z) (s : send)
| BRecv (addr height hash from : Z) (subs : list send).
Definition b_addr (b : blk) : Z := match b with BSend a _ _ | BRecv a _ _ _ _ => a end.
Definition b_height (b : blk) : Z := match b with BSend _ h _ | BRecv _ h _ _ _ => h end.
Definition b_hash (b : blk) : Z := match b with BSend _ _ s => s_hash s | BRecv _ _ h _ _ => h end.
Definition b_subs (b : blk) : list send := match b with BSend _ _ _ => [] | BRecv _ _ _ _ subs => subs end.
(** What ExcludePairTrades hands on: send blocks, with the address and the height they carry, and
    receive blocks.  Sends inside receive blocks carry no height. *)
Inductive ent := ESend (addr height : Z) (s : send) | ERecv (addr from : Z).
Definition e_owner (e : ent) : Z := match e with ESend _ _ s => s_to s | ERecv a _ => a end.
Definition e_key (e : ent) : Z := match e with ESend _ _ s => s_hash s | ERecv _ f => f end.
Definition is_send (e : ent) : bool := match e with ESend _ _ _ => true | ERecv _ _ => false end.

(** * The pool *)
(** Keys: to, from, height and hash, chain/utils/generate_key.go:53-60; the index is missing while it
    is not known: pool/storage.go:13-20, 171-183.  Both as numbers; the bytes sort the same way. *)
Definition key := ((Z * Z) * (Z * Z))%type.
Definition keq (a b : key) : bool := RoadModel.keq (fst a) (fst b) && RoadModel.keq (snd a) (snd b).
Definition db := list (key * option Z).
Record tx := Tx { t_key : key; t_index : option Z }.
Definition t_to (t : tx) : Z := fst (fst (t_key t)).
Definition t_from (t : tx) : Z := snd (fst (t_key t)).
Definition t_height (t : tx) : Z := fst (snd (t_key t)).
Definition t_hash (t : tx) : Z := snd (snd (t_key t)).
(** Database and callers: storage.go:39-44; the contracts with a callerCache: contract_pool.go:18-20. *)
Record pool := Pool { p_db : db; p_callers : list Z; p_known : list Z }.
Definition mem (x : Z) (l : list Z) : bool := existsb (Z.eqb x) l.
Definition with_ (x : Z) (l : list Z) : list Z := if mem x l then l else x :: l.
Definition minus (x : Z) (l : list Z) : list Z := filter (fun y => negb (y =? x)) l.

(** The order of an iterator over the database. *)
Definition before (a b : tx) : bool := (t_height a <? t_height b) || ((t_height a =? t_height b) && (t_hash a <=? t_hash b)).
Fixpoint place (t : tx) (l : list tx) : list tx :=
  match l with [] => [t] | x :: r => if before t x then t :: l else x :: place t r end.
Definition iterate (d : db) (to from : Z) : list tx :=
  fold_right place [] (map (fun e => Tx (fst e) (snd e)) (filter (fun e => (fst (fst (fst e)) =? to) && (snd (fst (fst e)) =? from)) d)).
(** getFirstOnroadTx: storage.go:133-163; [init] is initHeight. *)
Fixpoint same_height (init : Z) (l : list tx) : list tx :=
  match l with
  | [] => []
  | t :: r => let init' := if init =? 0 then t_height t else init in
              if t_height t =? init' then t :: same_height init' r else []
  end.
Definition first_txs (d : db) (to from : Z) : list tx := same_height 0 (iterate d to from).
(** insertOnRoadTx: storage.go:61-70, addTx and insertOnRoad: contract_pool.go:409-413, 197-208. *)
Definition insert_tx (p : pool) (t : tx) : pool :=
  Pool (put keq (p_db p) (t_key t) (t_index t)) (with_ (t_from t) (p_callers p)) (with_ (t_to t) (p_known p)).
(** deleteOnRoadTx: storage.go:73-91, rmTx and deleteOnRoad: contract_pool.go:415-420, 210-221. *)
Definition delete_tx (p : pool) (t : tx) : option pool :=
  if mem (t_to t) (p_known p) then
    let d := del keq (p_db p) (t_key t) in
    Some (Pool d (match first_txs d (t_to t) (t_from t) with [] => minus (t_from t) (p_callers p) | _ => p_callers p end) (p_known p))
  else None.

Section Turn.
(** IsContractAddr and IsGenesisAccountBlock; whether a contract belongs to the group the node keeps
    a pool for (manager.go:25, 71-76); the orders in which maps are walked, at each call. *)
Context (contract genesis pooled : Z -> bool) (ord : Z -> forall A : Type, list A -> list A).

(** ExcludePairTrades: utils.go:14-71. *)
Definition parts (b : blk) : list ent :=
  match b with
  | BSend a h s => [ESend a h s]
  | BRecv a _ h f subs => if genesis h then [] else ERecv a f :: (if contract a then map (ESend a 0) subs else [])
  end.
Definition pair_off (m : list (Z * ent)) (e : ent) : list (Z * ent) :=
  match get Z.eqb m (e_key e) with
  | Some v => if Bool.eqb (is_send v) (is_send e) then put Z.eqb m (e_key e) e else del Z.eqb m (e_key e)
  | None => put Z.eqb m (e_key e) e
  end.
Definition unpaired (z : Z) (bs : list blk) : list ent := ord z _ (map snd (fold_left pair_off (flat_map parts bs) [])).
Definition by_owner (es : list ent) : list (Z * list ent) :=
  map (fun a => (a, filter (fun e => e_owner e =? a) es)) (nodup Z.eq_dec (map e_owner es)).

(** GetCompleteBlockByHash: chain/account_block.go:82-113; the hash of a send inside a receive block
    leads to the receive block (chain/index/insert.go:104-106). *)
Definition holds (h : Z) (b : blk) : bool := (b_hash b =? h) || existsb (fun s => s_hash s =? h) (b_subs b).
Definition complete (chain : list blk) (h : Z) : option blk := find (holds h) chain.
(** GetAccountBlockByHash with rsBlockToSBlock: chain/account_block.go:115-126, 373-384; the address,
    the receiver (0 for a receive block) and the height of the block. *)
Definition by_hash (chain : list blk) (h : Z) : option (Z * Z * Z) :=
  match complete chain h with
  | None => None
  | Some (BSend a n s) => Some (a, s_to s, n)
  | Some (BRecv a n x _ subs) =>
      if x =? h then Some (a, 0, n)
      else match find (fun s => s_hash s =? h) subs with Some s => Some (a, s_to s, 0) | None => None end
  end.
(** The position of a send in the list; the hashes differ. *)
Fixpoint position (l : list send) (h : Z) : option Z :=
  match l with
  | [] => None
  | s :: r => if s_hash s =? h then Some 0 else match position r h with Some i => Some (i + 1) | None => None end
  end.
(** LedgerBlockToOnRoad: pool/types.go:139-190. *)
Definition on_road (chain : list blk) (e : ent) : option tx :=
  match (match e with
         | ESend a n s => Some (a, s_to s, n, s_hash s, Some 0)
         | ERecv _ f => match by_hash chain f with Some (a, to, n) => Some (a, to, n, f, None) | None => None end
         end) with
  | None => None
  | Some (a, to, n, h, i) =>
      if contract a then
        match complete chain h with
        | None => None
        | Some b => Some (Tx ((to, a), (b_height b, h)) (match position (b_subs b) h with Some k => Some k | None => i end))
        end
      else Some (Tx ((to, a), (n, h)) (Some 0))
  end.
Fixpoint all_some {A B} (f : A -> option B) (l : list A) : option (list B) :=
  match l with
  | [] => Some []
  | x :: r => match f x, all_some f r with Some y, Some t => Some (y :: t) | _, _ => None end
  end.
(** InsertAccountBlocks ([add] = true) and DeleteAccountBlocks of the pool: contract_pool.go:133-195,
    with ledgerBlockListToOnRoad: 223-245.  The entries are handled caller by caller and sorted;
    any order of the entries is allowed here. *)
Definition act (add : bool) (p : pool) (x : bool * tx) : option pool :=
  if Bool.eqb (fst x) add then Some (insert_tx p (snd x)) else delete_tx p (snd x).
Fixpoint acts (add : bool) (p : pool) (l : list (bool * tx)) : option pool :=
  match l with [] => Some p | x :: r => match act add p x with Some p' => acts add p' r | None => None end end.
Definition pool_blocks (z : Z) (add : bool) (chain : list blk) (p : pool) (es : list ent) : option pool :=
  match all_some (fun e => match on_road chain e with Some t => Some (is_send e, t) | None => None end) es with
  | None => None
  | Some l => acts add p (ord z _ l)
  end.
(** The loops of InsertAccountBlocks, PrepareDeleteAccountBlocks and PrepareDeleteSnapshotBlocks of the
    manager: chain_events.go:37-69, 78-102, 141-165.  A contract of another group ends the loop. *)
Fixpoint groups (z : Z) (add : bool) (chain : list blk) (p : pool) (gs : list (Z * list ent)) : option pool :=
  match gs with
  | [] => Some p
  | (a, es) :: r =>
      if negb (contract a) then groups z add chain p r
      else if negb (pooled a) then Some p
      else match pool_blocks z add chain p es with Some p' => groups z add chain p' r | None => None end
  end.
Definition handle (z : Z) (add : bool) (chain : list blk) (p : pool) (bs : list blk) : option pool :=
  groups z add chain p (ord (z + 1) _ (by_owner (unpaired z bs))).

(** The chain, oldest first, and the pool. *)
Record world := World { w_chain : list blk; w_pool : pool }.
Definition without (bs cs : list blk) : list blk := filter (fun b => negb (existsb (fun c => b_hash c =? b_hash b) cs)) bs.
(** InsertAccountBlock: chain/insert.go:13-46; the event comes after the block is written. *)
Definition insert (z : Z) (w : world) (b : blk) : option world :=
  match handle z true (w_chain w ++ [b]) (w_pool w) [b] with Some p => Some (World (w_chain w ++ [b]) p) | None => None end.
(** deleteAccountBlocks and deleteSnapshotBlocksToHeight: chain/delete.go:267-309, 75-211; the event
    comes before the blocks are deleted. *)
Definition delete (z : Z) (w : world) (bs : list blk) : option world :=
  match handle z false (w_chain w) (w_pool w) bs with Some p => Some (World (without (w_chain w) bs) p) | None => None end.
(** A start: the database is emptied (chain/chain.go:233-243) and filled from the on-road entries of
    the index, LoadRange: chain/index/onroad.go:13-52, loadOnRoad and initAdd: contract_pool.go:41-72,
    274-286.  That the index holds just the sends not received is not modelled here. *)
Definition sends_of (b : blk) : list send := match b with BSend _ _ s => [s] | BRecv _ _ _ _ subs => subs end.
Definition taken (chain : list blk) : list Z := flat_map (fun b => match b with BRecv _ _ _ f _ => [f] | _ => [] end) chain.
Definition indexed (chain : list blk) : list send :=
  filter (fun s => contract (s_to s) && pooled (s_to s) && negb (mem (s_hash s) (taken chain))) (flat_map sends_of chain).
Definition init_add (chain : list blk) (p : pool) (s : send) : pool :=
  match complete chain (s_hash s) with
  | None => p
  | Some b => insert_tx p (Tx ((s_to s, b_addr b), (b_height b, s_hash s)) (if contract (b_addr b) then None else Some 0))
  end.
Definition restart (z : Z) (w : world) : world :=
  World (w_chain w) (fold_left (init_add (w_chain w)) (ord z _ (indexed (w_chain w))) (Pool [] [] [])).

(** lazyUpdateFrontTx: contract_pool.go:353-395, updateFromIndex: storage.go:93-105; None is a panic, an inner None an error. *)
Definition dirty (t : tx) : bool := match t_index t with None => true | _ => false end.
Definition fill (subs : list send) (t : tx) : tx :=
  if dirty t then match position subs (t_hash t) with Some i => Tx (t_key t) (Some i) | None => t end else t.
(** minTx: types.go:36-57. *)
Fixpoint min_from (m : tx) (l : list tx) : option tx :=
  match l with
  | [] => Some m
  | t :: r => match t_index t, t_index m with
              | Some i, Some j => min_from (if i <? j then t else m) r
              | _, _ => None
              end
  end.
Definition min_tx (l : list tx) : option tx :=
  match l with [] => None | t :: r => if dirty t then None else min_from t r end.
Definition lazy (chain : list blk) (p : pool) (l : list tx) : option (pool * option tx) :=
  match filter dirty l with
  | [] => Some (p, min_tx l)
  | t :: _ =>
      match complete chain (t_hash t) with
      | None => None
      | Some b =>
          if contract (b_addr b) then
            let l' := map (fill (b_subs b)) l in
            let p' := Pool (fold_left (fun d t => put keq d (t_key t) (t_index t)) (filter (fun t => negb (dirty t)) (map (fill (b_subs b)) (filter dirty l))) (p_db p)) (p_callers p) (p_known p) in
            Some (p', if existsb dirty l' then None else min_tx l')
          else Some (p, None)
      end
  end.
(** IsFrontOnRoadOfCaller: contract_pool.go:74-92; false also for the errors. *)
Definition is_front (w : world) (to from h : Z) : option (world * bool) :=
  if mem to (p_known (w_pool w)) then
    match lazy (w_chain w) (w_pool w) (first_txs (p_db (w_pool w)) to from) with
    | None => None
    | Some (p, None) => Some (World (w_chain w) p, false)
    | Some (p, Some t) => Some (World (w_chain w) p, t_hash t =? h)
    end
  else Some (w, false).
(** GetFrontOnRoadBlocksByAddr: contract_pool.go:94-123, with getAndLazyUpdateFrontTxOfAllCallers and
    getFrontTxOfAllCallers: 287-322, GetAllFirstOnroadTx: storage.go:107-131.  The blocks are given by their hashes. *)
Fixpoint all_lazy (chain : list blk) (p : pool) (ls : list (list tx)) : option (pool * list tx) :=
  match ls with
  | [] => Some (p, [])
  | l :: r =>
      match lazy chain p l with
      | None => None
      | Some (p1, o) =>
          match all_lazy chain p1 r with
          | None => None
          | Some (p2, ts) => Some (p2, match o with Some t => t :: ts | None => ts end)
          end
      end
  end.
Definition fronts (z : Z) (w : world) (to : Z) : option (world * list Z) :=
  if mem to (p_known (w_pool w)) then
    let ls := filter (fun l => match l with [] => false | _ => true end) (map (first_txs (p_db (w_pool w)) to) (ord z _ (p_callers (w_pool w)))) in
    match all_lazy (w_chain w) (w_pool w) ls with
    | None => None
    | Some (p, ts) => Some (World (w_chain w) p, filter (fun h => match by_hash (w_chain w) h with Some _ => true | None => false end) (map t_hash ts))
    end
  else Some (w, []).
End Turn.
