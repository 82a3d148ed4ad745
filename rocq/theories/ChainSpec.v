(** What a user expects of the account chains, in terms of the blocks alone: no index, no caches. *)
From Verif Require Import Lib ChainModel.

(** the send blocks a block brings along, with their addressees; the hashes it occupies *)
Definition sends_of (b : blk) : list (Z * Z) :=
  match k_kind b with Send t => (k_hash b, t) :: k_subs b | _ => k_subs b end.
Definition hashes_of (b : blk) : list Z := k_hash b :: map fst (k_subs b).
Definition receives (b : blk) : list Z := match k_kind b with Recv f _ => [f] | _ => [] end.
Definition place (b : blk) : Z * Z := (k_addr b, k_height b).

(** [follows x b]: b is the next block after x on the same account chain.
    [feeds x b]: b receives a send block of x that is addressed to b's account. *)
Definition follows (x b : blk) : Prop :=
  k_addr x = k_addr b /\ k_height b = k_height x + 1 /\ k_prev b = k_hash x.
Definition feeds (x b : blk) : Prop := exists f e, k_kind b = Recv f e /\ In (f, k_addr b) (sends_of x).
Definition needs (x b : blk) : Prop := follows x b \/ feeds x b.
(** b cannot stay when x goes: among the blocks [l], b is reached from x through blocks that need
    the one before *)
Inductive dependent (l : list blk) (x : blk) : blk -> Prop :=
| dep_self : In x l -> dependent l x x
| dep_next y b : dependent l x y -> needs y b -> In b l -> dependent l x b.

(** everything [b] refers to is among [l] *)
Definition grounded (l : list blk) (b : blk) : Prop :=
  (k_height b = 1 /\ k_prev b = 0 \/ exists x, In x l /\ follows x b) /\
  (forall f e, k_kind b = Recv f e -> exists x, In x l /\ In (f, k_addr b) (sends_of x)).

(** ** Collision freedom of block hashes, the cryptographic assumption: [U] is the set of blocks
    anybody ever computes. No hash occurs in two different blocks or twice in one. *)
Definition no_collision (U : blk -> Prop) : Prop :=
  (forall b, U b -> NoDup (hashes_of b)) /\
  (forall b b' h, U b -> U b' -> In h (hashes_of b) -> In h (hashes_of b') -> b = b').

(** Confirming a block confirms the send block it receives, unless that is confirmed already:
    what [sc] (address -> height) has to satisfy with respect to the unconfirmed blocks. *)
Definition covers (sc : list (Z * Z)) (b : blk) : Prop :=
  exists n, assocz (k_addr b) sc = Some n /\ k_height b <= n.
Definition closed_content (c : chain) (sc : list (Z * Z)) : Prop :=
  forall x b, In x (c_unconf c) -> In b (c_unconf c) -> feeds x b -> covers sc b -> covers sc x.

(** ** Histories: a genesis, then any operations *)
Definition genesis_ok (g : list blk) : Prop :=
  NoDup (flat_map hashes_of g) /\
  (forall b, In b g -> k_kind b = Genesis /\ k_height b = 1 /\ k_prev b = 0) /\
  NoDup (map k_addr g).
Definition genesis_chain (g : list blk) : chain := mkChain [g] [] (fold_left insert_block g []).

Definition op_ok (U : blk -> Prop) (c : chain) (o : cop) : Prop :=
  match o with
  | CInsert _ b => U b
  | CSnapshot sc _ _ => closed_content c sc
  | _ => True
  end.
Inductive reach (U : blk -> Prop) (g : list blk) : chain -> Prop :=
| reach_start : (forall b, In b g -> U b) -> reach U g (genesis_chain g)
| reach_step c o c' : reach U g c -> op_ok U c o -> cstep c o = Some c' -> reach U g c'.
(** the same without the condition on snapshot contents: what the code really admits *)
Inductive reach_any (U : blk -> Prop) (g : list blk) : chain -> Prop :=
| reach_any_start : (forall b, In b g -> U b) -> reach_any U g (genesis_chain g)
| reach_any_step c o c' : reach_any U g c ->
    match o with CInsert _ b => U b | _ => True end -> cstep c o = Some c' -> reach_any U g c'.

(** ** What the index must say, read off the blocks *)
Definition sent (l : list blk) (h t : Z) : Prop := exists b, In b l /\ In (h, t) (sends_of b).
Definition received (l : list blk) (h : Z) : Prop := exists b, In b l /\ In h (receives b).
Definition means (l : list blk) (k : key) (v : val) : Prop :=
  match k, v with
  | KHash h, VAddrHeight a n => exists b, In b l /\ In h (hashes_of b) /\ place b = (a, n)
  | KHeight a n, VHash h => exists b, In b l /\ place b = (a, n) /\ k_hash b = h
  | KRecv h, VHash r => exists b, In b l /\ In h (receives b) /\ k_hash b = r
  | KRecv h, VUnreceived => (exists t, sent l h t) /\ ~ received l h
  | KRoad a h, VEmpty => sent l h a /\ ~ received l h
  | _, _ => False
  end.
Definition exact (s : store) (l : list blk) : Prop := forall k v, get s k = Some v <-> means l k v.
