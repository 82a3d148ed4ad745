(** What a reader of the block pool relies on, without levels, buckets or workers. *)
From Coq Require Import ZArith List Bool Permutation.
From Verif Require Import Lib BatchModel.
Import ListNotations.
Open Scope Z_scope.

(** Everything a block names: predecessor and send block of an account block, the
    account blocks and the previous snapshot block of a snapshot block. *)
Definition needs (x : item) : list Z :=
  i_refs x ++ match i_owner x, i_snap x with None, Some s => [s] | _, _ => [] end.

(** [r] was on the chain already when [x] was put into the batch. *)
Definition was_on_chain (ops : list add_op) (x : item) (r : Z) : Prop :=
  exists o, In o ops /\ op_x o = x /\ (op_exA o r = true \/ op_exS o r = true).

(** In the order of insertion [out], every block comes after everything it names. *)
Definition in_order (ops : list add_op) (out : list item) : Prop :=
  forall t1 x t2, out = t1 ++ x :: t2 ->
  forall r, In r (needs x) ->
    was_on_chain ops x r \/ exists y, In y t1 /\ In r (i_keys y).

(** The requests that succeeded, in the order they were made. *)
Fixpoint accepted (b : batch) (l : list add_op) : list item :=
  match l with
  | [] => []
  | o :: r => match add b o with
              | Added b1 => op_x o :: accepted b1 r
              | Failed b1 => accepted b1 r
              | Panic => []
              end
  end.

Definition finished (x : exec) : Prop := x_todo x = [] /\ x_run x = None.
