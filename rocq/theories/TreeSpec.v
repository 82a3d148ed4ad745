(** * The candidate tree: what is claimed

    Nothing here mentions how a branch stores its blocks. *)
From Coq Require Import ZArith List Bool Lia.
From Verif Require Import Lib TreeModel.
Import ListNotations.
Local Open Scope Z_scope.

(** Hashes tell blocks apart and commit to the previous block: [U] is the set
    of all blocks that ever appear. *)
Definition honest (U : knot -> Prop) : Prop :=
  (forall a b, U a -> U b -> k_hash a = k_hash b -> a = b) /\
  (forall a b, U a -> U b -> k_prev b = k_hash a -> k_height b = k_height a + 1).

(** A list of blocks, oldest first, is a chain: heights go up by one and every
    block names the hash of the one before. *)
Definition chain (l : list knot) : Prop :=
  forall p a b q, l = p ++ a :: b :: q -> k_prev b = k_hash a /\ k_height b = k_height a + 1.

(** Reading a branch from height [a], [n] heights *)
Fixpoint heights (a : Z) (n : nat) : list Z := match n with O => [] | S m => a :: heights (a + 1) m end.
Fixpoint all_some {A} (l : list (option A)) : option (list A) :=
  match l with
  | [] => Some []
  | Some a :: r => match all_some r with Some s => Some (a :: s) | None => None end
  | None :: _ => None
  end.
Definition first_height (t : tree) : Z := match t_disk t with k :: _ => k_height k | [] => 0 end.
(** The chain a branch stands for: its block at every height from the ledger's
    first to its own head, as GetKnot(height, true) returns them *)
Definition chain_of (t : tree) (x : Z) : option (list knot) :=
  match bget t x with
  | None => None
  | Some b => all_some (map (fun h => get_knot t (Node x) h true)
                            (heights (first_height t) (Z.to_nat (b_head b - first_height t + 1))))
  end.

(** A branch the callers can name: in the tree's list, or its main branch *)
Definition present (t : tree) (x : Z) : Prop := In x (t_list t) \/ x = t_main t.

(** What the pool makes sure of before each operation *)
Definition allowed (U : knot -> Prop) (t : tree) (o : op) : Prop :=
  match o with
  | OAdd x k => present t x /\ U k /\ exists b, bget t x = Some b /\ k_prev k = b_headX b
  | OFork x h => present t x /\ exists b, bget t x = Some b /\ first_height t <= h <= b_head b /\
                                          (x = t_main t \/ b_tail b < h)
  | OSwitch x => present t x
  | OEmpty order => forall x, In x order <-> In x (t_list t)
  | OPrune _ _ _ => True
  | OAdvance k => U k /\ k_prev k = k_hash (disk_head t)
  | ORollback n => (n < length (t_disk t))%nat
  end.
(** A history: operations one after the other, each allowed where it is made.
    A refused switch is part of it, with what it has changed. *)
Inductive history (U : knot -> Prop) : tree -> list op -> tree -> Prop :=
| h_nil t : history U t [] t
| h_cons t o t' l t2 : allowed U t o -> state_of (apply_op o t) = Some t' -> history U t' l t2 -> history U t (o :: l) t2.
(** A ledger to start from *)
Definition ledger (U : knot -> Prop) (d : list knot) : Prop := d <> [] /\ chain d /\ Forall U d.
