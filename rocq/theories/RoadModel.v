(** The summary of what an account has still to receive: number and total amount per token, kept by
    a plugin of the chain (ledger/chain/plugins/onroad_info.go, plugins.go).
    Addresses, token ids and hashes are numbers.  Errors of the database are not modelled, nor is
    the form in which an entry is stored (onroad_info.go:610-642); Go maps are association lists,
    and the orders in which they are walked are a parameter. *)
From Verif Require Import Lib.
From Coq Require Import Permutation.
Import ListNotations.

(** * Maps *)
Section Map.
Context {K V : Type} (eqb : K -> K -> bool).
Fixpoint get (m : list (K * V)) (k : K) : option V :=
  match m with [] => None | (x, v) :: r => if eqb x k then Some v else get r k end.
Fixpoint del (m : list (K * V)) (k : K) : list (K * V) :=
  match m with [] => [] | (x, v) :: r => if eqb x k then del r k else (x, v) :: del r k end.
Definition put (m : list (K * V)) (k : K) (v : V) : list (K * V) := (k, v) :: del m k.
End Map.
Definition keq (a b : Z * Z) : bool := (fst a =? fst b) && (snd a =? snd b).

(** * Blocks: interfaces/core/account_block.go:30-80, as far as they matter here *)
(** A send block, of an account or in the list of a receive block of a contract. *)
Record send := Send { s_hash : Z; s_to : Z; s_tok : Z; s_amt : Z }.
Inductive blk :=
| BSend (addr : Z) (s : send)
| BRecv (addr hash from : Z) (subs : list send).
Definition b_addr (b : blk) : Z := match b with BSend a _ | BRecv a _ _ _ => a end.
Definition b_hash (b : blk) : Z := match b with BSend _ s => s_hash s | BRecv _ h _ _ => h end.
(** The account whose summary a block changes: onroad_info.go:377-382, 400-405. *)
Definition b_owner (b : blk) : Z := match b with BSend _ s => s_to s | BRecv a _ _ _ => a end.
(** What excludePairTrades and aggregateBlocks look at. *)
Inductive ent := ESend (s : send) | ERecv (addr from : Z).
Definition e_owner (e : ent) : Z := match e with ESend s => s_to s | ERecv a _ => a end.
Definition e_key (e : ent) : Z := match e with ESend s => s_hash s | ERecv _ f => f end.
Definition is_send (e : ent) : bool := match e with ESend _ => true | ERecv _ _ => false end.
(** aggregateBlocks looks at a block alone, not at the sends it contains. *)
Definition alone (b : blk) : ent := match b with BSend _ s => ESend s | BRecv a _ f _ => ERecv a f end.

Section Road.
(** IsContractAddr and IsGenesisAccountBlock, and the order in which a map is walked. *)
Context (contract genesis : Z -> bool) (ord : forall A : Type, list A -> list A).

(** The blocks excludePairTrades goes through: onroad_info.go:646-681. *)
Definition parts (b : blk) : list ent :=
  match b with
  | BSend _ s => [ESend s]
  | BRecv a h f subs => if genesis h then [] else ERecv a f :: (if contract a then map ESend subs else [])
  end.
(** The map of a block and its counterpart: 648-653, 662-667, 674-679. *)
Definition pair_off (m : list (Z * ent)) (e : ent) : list (Z * ent) :=
  match get Z.eqb m (e_key e) with
  | Some v => if Bool.eqb (is_send v) (is_send e) then put Z.eqb m (e_key e) e else del Z.eqb m (e_key e)
  | None => put Z.eqb m (e_key e) e
  end.
(** excludePairTrades: 644-701; the blocks left, by account. *)
Definition unpaired (bs : list blk) : list ent := ord _ (map snd (fold_left pair_off (flat_map parts bs) [])).
Definition by_owner (es : list ent) : list (Z * list ent) :=
  map (fun a => (a, filter (fun e => e_owner e =? a) es)) (nodup Z.eq_dec (map e_owner es)).

(** GetAccountBlockByHash for a send block: chain/account_block.go:115-126; the chain holds it
    alone or in a receive block. *)
Definition sends (bs : list blk) : list send := flat_map (fun b => match b with BSend _ s => [s] | BRecv _ _ _ subs => subs end) bs.
Definition look (chain : list blk) (h : Z) : option send := find (fun s => s_hash s =? h) (sends chain).
(** aggregateBlocks: onroad_info.go:569-608.  None is an error. *)
Definition bump (m : list (Z * (Z * Z))) (t a n : Z) : list (Z * (Z * Z)) :=
  let '(x, y) := match get Z.eqb m t with Some v => v | None => (0, 0) end in put Z.eqb m t (x + a, y + n).
Fixpoint aggregate (chain : list blk) (es : list ent) (m : list (Z * (Z * Z))) : option (list (Z * (Z * Z))) :=
  match es with
  | [] => Some m
  | ESend s :: r => aggregate chain r (bump m (s_tok s) (s_amt s) 1)
  | ERecv _ f :: r =>
      match look chain f with
      | Some s => aggregate chain r (bump m (s_tok s) (- s_amt s) (-1))
      | None => None
      end
  end.

(** The stored entries: token and account to amount and number. *)
Definition store := list ((Z * Z) * (Z * Z)).
Definition change := ((Z * Z) * option (Z * Z))%type.
Definition apply (st : store) (c : change) : store :=
  match snd c with Some v => put keq st (fst c) v | None => del keq st (fst c) end.
(** The inner loop of flushWriteBySnapshotLine (427-458, [sg] = 1) and flushDeleteBySnapshotLine
    (474-504, [sg] = -1). *)
Definition conflict (a n : Z) : bool := (a <? 0) || (n <? 0) || ((0 <? a) && (n =? 0)).
Definition settle (sg : Z) (st : store) (addr : Z) (x : Z * (Z * Z)) : list change :=
  let '(t, (a, n)) := x in
  let '(a0, n0) := match get keq st (addr, t) with Some v => v | None => (0, 0) end in
  let a1 := a0 + sg * a in
  let n1 := n0 + sg * n in
  if conflict a1 n1 then []
  else if n1 =? 0 then [((addr, t), None)]
  else [((addr, t), Some (a1, n1 mod two64))].
(** flushWriteBySnapshotLine: 418-464, flushDeleteBySnapshotLine: 466-510.  All entries are read
    before the batch is written. *)
Definition flushed (sg : Z) (chain : list blk) (bs : list blk) (st : store) : store :=
  let changes := flat_map (fun g => match aggregate chain (snd g) [] with
                                    | Some m => flat_map (settle sg st (fst g)) (ord _ m)
                                    | None => []
                                    end) (ord _ (by_owner (unpaired bs))) in
  fold_left apply changes st.

(** The blocks not yet confirmed, by account and hash: onroad_info.go:31.  Accounts without blocks
    are not kept apart from accounts without a map. *)
Definition cache := list ((Z * Z) * blk).
(** addUnconfirmed: 372-393; removeUnconfirmed: 395-416. *)
Definition remember (c : cache) (b : blk) : cache :=
  match get keq c (b_owner b, b_hash b) with Some _ => c | None => put keq c (b_owner b, b_hash b) b end.
Definition forget (c : cache) (b : blk) : cache := del keq c (b_owner b, b_hash b).

(** The chain, oldest first: the account blocks of each snapshot block, the ones not yet confirmed;
    and what the plugin keeps. *)
Record world := World { w_done : list (list blk); w_open : list blk; w_store : store; w_cache : cache }.
Definition chain_of (w : world) : list blk := concat (w_done w) ++ w_open w.
Definition without (bs cs : list blk) : list blk := filter (fun b => negb (existsb (fun c => b_hash c =? b_hash b) cs)) bs.
(** InsertAccountBlock: onroad_info.go:172-181, plugins.go:194-211. *)
Definition insert (w : world) (b : blk) : world :=
  World (w_done w) (w_open w ++ [b]) (w_store w) (remember (w_cache w) b).
(** DeleteAccountBlocks: onroad_info.go:183-190; deleteAccountBlocks: chain/delete.go:267-309. *)
Definition remove (w : world) (bs : list blk) : world :=
  World (w_done w) (without (w_open w) bs) (w_store w) (fold_left forget bs (w_cache w)).
(** InsertSnapshotBlock: onroad_info.go:94-105; insertSnapshotBlock: chain/insert.go:96-152. *)
Definition snapshot (w : world) (bs : list blk) : world :=
  World (w_done w ++ [bs]) (without (w_open w) bs) (flushed 1 (chain_of w) bs (w_store w)) (fold_left forget bs (w_cache w)).
(** The blocks RemoveNewUnconfirmed takes out of the store: onroad_info.go:148-160.  The map is
    asked for the account of the block, also for a send block. *)
Definition fresh (c : cache) (b : blk) : bool := match get keq c (b_addr b, b_hash b) with Some _ => false | None => true end.
(** deleteSnapshotBlocksToHeight: chain/delete.go:75-211, DeleteSnapshotBlocks and
    RemoveNewUnconfirmed: onroad_info.go:107-170, plugins.go:248-293.  All snapshot blocks but the
    first [k] go; with a redo log the blocks of the first one to go stay, unconfirmed. *)
Definition rollback (w : world) (k : nat) (redo : bool) : world :=
  let gone := skipn k (w_done w) in
  let kept := match gone with c :: _ => if redo then c else [] | [] => [] end in
  let real := concat (if redo then tl gone else gone) in
  let st1 := flushed (-1) (chain_of w) real (w_store w) in
  let left := World (firstn k (w_done w)) kept st1 (w_cache w) in
  let st2 := flushed (-1) (chain_of left) (filter (fresh (w_cache w)) kept) st1 in
  World (firstn k (w_done w)) kept st2 (fold_left remember kept []).
(** RebuildData: plugins.go:77-173, from an empty store; the chunks come from GetSubLedger. *)
Definition rebuild (w : world) : store := fold_left (fun st bs => flushed 1 (chain_of w) bs st) (w_done w) [].

(** GetAccountInfo: onroad_info.go:298-355, with readOnRoadInfo: 512-534 and getUnconfirmed: 357-370.
    None is the error of line 330 or of aggregateBlocks.  The result is the map of tokens and the total number. *)
Definition entries (st : store) (a : Z) : list (Z * (Z * Z)) :=
  map (fun e => (snd (fst e), snd e)) (filter (fun e => fst (fst e) =? a) st).
Fixpoint add_open (l : list (Z * (Z * Z))) (m : list (Z * (Z * Z))) : option (list (Z * (Z * Z))) :=
  match l with
  | [] => Some m
  | (t, (a, n)) :: r =>
      let '(a0, n0) := match get Z.eqb m t with Some v => v | None => (0, 0) end in
      if conflict (a0 + a) (n0 + n) then None
      else if n0 + n =? 0 then add_open r (del Z.eqb m t)
      else add_open r (put Z.eqb m t (a0 + a, (n0 + n) mod two64))
  end.
Definition total (m : list (Z * (Z * Z))) : Z := fold_left (fun x e => (x + snd (snd e)) mod two64) m 0.
Definition info (w : world) (a : Z) : option (list (Z * (Z * Z)) * Z) :=
  let mine := map (fun e => alone (snd e)) (filter (fun e => fst (fst e) =? a) (w_cache w)) in
  match aggregate (chain_of w) (ord _ mine) [] with
  | None => None
  | Some u => match add_open (ord _ u) (entries (w_store w) a) with
              | Some m => Some (m, total (ord _ m))
              | None => None
              end
  end.
End Road.
