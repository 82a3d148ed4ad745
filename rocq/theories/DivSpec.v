(** What the holders of VX are due, read off the history of operations. *)
From Verif Require Import Lib DivModel.
Import ListNotations.

(** The day after some operations, and what a user held at the end of a day: all changes made up to
    then, of the kind that counts (everything starts anew with the Earth upgrade). *)
Definition day (ops : list op) : Z := fold_left (fun c o => match o with OPeriod p => p | _ => c end) ops 0.
Fixpoint held_from (c : Z) (ops : list op) (u q : Z) (h : Z) : Z :=
  match ops with
  | [] => h
  | OPeriod p :: r => held_from p r u q h
  | OVx v x :: r => held_from c r u q (if (v =? u) && (c <=? q) then h + x else h)
  | OEarth :: r => held_from c r u q 0
  | _ :: r => held_from c r u q h
  end.
Definition held (ops : list op) (u q : Z) : Z := held_from 0 ops u q 0.
(** Ten VX are needed for a dividend. *)
Definition counts (a : Z) : Z := if threshold <=? a then a else 0.
(** Fees of a token taken in, dividends paid and pools still to be divided. *)
Fixpoint collected (t : Z) (ops : list op) : Z := match ops with [] => 0 | OFee s a :: r => (if s =? t then a else 0) + collected t r | _ :: r => collected t r end.
Fixpoint paid (t : Z) (l : list (Z * Z * Z)) : Z := match l with [] => 0 | (_, s, a) :: r => (if s =? t then a else 0) + paid t r end.
Fixpoint in_pools (t : Z) (f : pool -> Z) (l : list pool) : Z := match l with [] => 0 | x :: r => (if p_token x =? t then f x else 0) + in_pools t f r end.
(** Of older periods what is to be divided is left, the rest has moved on to the newest. *)
Fixpoint waiting (t : Z) (l : list fees) : Z := match l with [] => 0 | r :: l => (if f_divided r then 0 else in_pools t part (f_pools r)) + waiting t l end.
Definition pooled (t : Z) (l : list fees) : Z := match l with [] => 0 | r :: l => in_pools t p_amount (f_pools r) + waiting t l end.
