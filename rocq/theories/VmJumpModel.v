(** Model of vm/destination.go 10-69: the jump-destination bitmap. *)
From Verif Require Import Lib.

Definition PUSH1 : Z := 96.    (* vm/opcodes.go, 0x60 *)
Definition PUSH32 : Z := 127.  (* vm/opcodes.go, 0x7f *)
Definition JUMPDEST : Z := 91. (* vm/opcodes.go, 0x5b *)

(** Go slice index: [None] is an index-out-of-range panic. *)
Definition zget (l : list Z) (i : Z) : option Z :=
  if i <? 0 then None else nth_error l (Z.to_nat i).
(** Go slice element update; [None] is an index-out-of-range panic. *)
Fixpoint upd (l : list Z) (n : nat) (v : Z) : option (list Z) :=
  match l, n with
  | [], _ => None
  | _ :: r, O => Some (v :: r)
  | x :: r, S k => option_map (cons x) (upd r k v)
  end.
Definition zset (l : list Z) (i v : Z) : option (list Z) :=
  if i <? 0 then None else upd l (Z.to_nat i) v.

Definition obind {A B} (o : option A) (f : A -> option B) : option B :=
  match o with Some a => f a | None => None end.

(** [l[i] |= m] on a byte slice *)
Definition or_at (l : list Z) (i m : Z) : option (list Z) :=
  obind (zget l i) (fun b => zset l i (Z.lor b m)).

(** vm/destination.go 13-15 *)
Definition bv_set (bits : list Z) (pos : Z) : option (list Z) :=
  or_at bits (pos / 8) (Z.shiftr 128 (pos mod 8)).

(** vm/destination.go 17-20; [^x] on a byte is 255 - x *)
Definition bv_set8 (bits : list Z) (pos : Z) : option (list Z) :=
  obind (or_at bits (pos / 8) (Z.shiftr 255 (pos mod 8))) (fun bits' =>
  or_at bits' (pos / 8 + 1) (255 - Z.shiftr 255 (pos mod 8))).

(** vm/destination.go 22-25 *)
Definition code_segment (bits : list Z) (pos : Z) : option bool :=
  option_map (fun b => Z.land b (Z.shiftr 128 (pos mod 8)) =? 0) (zget bits (pos / 8)).

(** vm/destination.go 56-59: the loop marking whole groups of eight *)
Fixpoint mark8 (k : nat) (bits : list Z) (pc : Z) : option (list Z * Z) :=
  match k with
  | O => Some (bits, pc)
  | S k' => obind (bv_set8 bits pc) (fun b => mark8 k' b (pc + 8))
  end.
(** vm/destination.go 60-63: the loop marking the rest one by one *)
Fixpoint mark1 (k : nat) (bits : list Z) (pc : Z) : option (list Z * Z) :=
  match k with
  | O => Some (bits, pc)
  | S k' => obind (bv_set bits pc) (fun b => mark1 k' b (pc + 1))
  end.

(** vm/destination.go 50-67: the scan. [fuel] is the code length; the loop
    advances by at least one per round so it cannot run out (proved). *)
Fixpoint bitmap_loop (fuel : nat) (code bits : list Z) (pc : Z) : option (list Z) :=
  match fuel with
  | O => Some bits
  | S f =>
    if pc <? zlen code then
      obind (zget code pc) (fun op =>
      if (PUSH1 <=? op) && (op <=? PUSH32) then
        let numbits := op - PUSH1 + 1 in
        obind (mark8 (Z.to_nat (numbits / 8)) bits (pc + 1)) (fun '(b1, pc1) =>
        obind (mark1 (Z.to_nat (numbits mod 8)) b1 pc1) (fun '(b2, pc2) =>
        bitmap_loop f code b2 pc2))
      else bitmap_loop f code bits (pc + 1))
    else Some bits
  end.

(** vm/destination.go 44-69 *)
Definition code_bitmap (code : list Z) : option (list Z) :=
  bitmap_loop (length code) code (repeat 0 (Z.to_nat (zlen code / 8 + 1 + 4))) 0.

(** vm/destination.go 27-42. The cache by code address is not modelled: the
    bitmap is recomputed. [dest.Uint64()] is the low 64 bits. [None] is a panic. *)
Definition jump_has (code : list Z) (dest : Z) : option bool :=
  let udest := dest mod two64 in
  if (2 ^ 62 <=? dest) || (zlen code <=? udest) then Some false
  else
    obind (code_bitmap code) (fun m =>
    obind (zget code udest) (fun op =>
    obind (code_segment m udest) (fun seg => Some ((op =? JUMPDEST) && seg)))).
