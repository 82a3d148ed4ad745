(** What the election promises, said without the election code. *)
From Verif Require Import Lib VmModel VmDbModel VmDbSpec ElectModel.
From Coq Require Import Permutation Sorting.Sorted.

(** [a] is ahead of [b]: more votes, or as many and the smaller name *)
Definition ahead (a b : cand) : Prop := c_bal b < c_bal a \/ c_bal a = c_bal b /\ before (c_name a) (c_name b).

(** [r] lists the candidates [votes] from best to worst *)
Definition ranking (votes r : list cand) : Prop := Permutation r votes /\ StronglySorted ahead r.

(** What a sorting routine promises: a rearrangement in which no element is less than an earlier one, when [less] is a strict order on the elements *)
Definition strict_order {A} (less : A -> A -> bool) (l : list A) : Prop :=
  (forall x, In x l -> less x x = false) /\
  (forall x y z, In x l -> In y l -> In z l -> less x y = true -> less y z = true -> less x z = true) /\
  (forall x y z, In x l -> In y l -> In z l -> less x y = false -> less y z = false -> less x z = false).
Definition sorts (sort : (cand -> cand -> bool) -> list cand -> list cand) : Prop :=
  forall less l, Permutation (sort less l) l /\ (strict_order less l -> StronglySorted (fun x y => less y x = false) (sort less l)).

(** Intn(i+1) answers at most i *)
Definition draws (intn : Z -> nat -> nat) : Prop := forall s i, (intn s i <= i)%nat.

(** a success-rate table: one rate per address, at least -1 and at most a million *)
Definition rates_ok (rates : list (Z * Z)) : Prop := NoDup (map fst rates) /\ Forall (fun x => -1 <= snd x <= 1000000) rates.
(** the rate of an address; -1 when there is none *)
Definition rate_in (rates : list (Z * Z)) (a r : Z) : Prop := In (a, r) rates \/ r = -1 /\ ~ In a (map fst rates).
(** two tables with the same content *)
Definition same_rates (r r' : list (Z * Z)) : Prop := forall x, In x r <-> In x r'.

(** total of a list *)
Definition total (l : list Z) : Z := fold_right Z.add 0 l.
