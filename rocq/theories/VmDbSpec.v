(** What the storage properties mean, without reference to the iterator or the unsaved buffer. *)
From Verif Require Import Lib VmDbModel.
From Coq Require Import Sorted.

(** Dictionary order of byte strings. *)
Definition before (a b : bytes) : Prop :=
  (exists x r, b = a ++ x :: r) \/
  (exists p x y ra rb, a = p ++ x :: ra /\ b = p ++ y :: rb /\ x < y).
Definition has_prefix (p k : bytes) : Prop := exists r, k = p ++ r.
Definition ascending (l : list kv) : Prop := StronglySorted (fun x y => before (fst x) (fst y)) l.
Definition descending (l : list kv) : Prop := StronglySorted (fun x y => before (fst y) (fst x)) l.

(** The committed storage of an account: one value per key, none empty, keys of at most 32 bytes. *)
Definition committed_ok (c : list kv) : Prop :=
  ascending c /\ Forall (fun x => bytes_ok (fst x) /\ zlen (fst x) <= 32 /\ snd x <> []) c.
Definition committed_value (c : list kv) (k : bytes) (v : bytes) : Prop :=
  In (k, v) c \/ ((forall v', ~ In (k, v') c) /\ v = []).

(** [v] was the last write to [k] and no reset came after it. *)
Definition last_write (ops : list vop) (k v : bytes) : Prop :=
  exists pre post, ops = pre ++ VSet k v :: post /\ ~ In VReset post /\ forall v', ~ In (VSet k v') post.
Definition not_written (ops : list vop) (k : bytes) : Prop :=
  forall pre post v, ops = pre ++ VSet k v :: post -> In VReset post.
Definition last_balance (ops : list vop) (t a : Z) : Prop :=
  exists pre post, ops = pre ++ VSetBalance t a :: post /\ ~ In VReset post /\ forall a', ~ In (VSetBalance t a') post.

Definition start (committed : list kv) (balances : list (Z * Z)) : vmdb := mkVdb u_new committed balances.

(** Using an iterator: step until it reports the end. *)
Fixpoint drain (stp : mi -> mi * bool) (fuel : nat) (m : mi) : list kv :=
  match fuel with
  | O => []
  | S n => let '(m', ok) := stp m in
    if ok then match mi_key m' with Some k => (k, mi_value m') :: drain stp n m' | None => [] end else []
  end.
(** the current entry and then everything after it *)
Definition drain_from (stp : mi -> mi * bool) (fuel : nat) (r : mi * bool) : list kv :=
  if snd r then match mi_key (fst r) with
    | Some k => (k, mi_value (fst r)) :: drain stp fuel (fst r) | None => [] end
  else [].
(** any use of an iterator *)
Inductive iop := INext | IPrev | ILast | ISeek (k : bytes).
Definition istep (m : mi) (o : iop) : mi :=
  fst (match o with INext => mi_next m | IPrev => mi_prev m | ILast => mi_last m | ISeek k => mi_seek k m end).
