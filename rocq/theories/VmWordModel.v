(** Arithmetic, comparison, bitwise and shift instructions of the contract
    machine (vm/instructions.go 19-335) on integers.  Go's [big.Int] And/Or/Not
    use infinite two's complement, as [Z.land]/[Z.lor]/[Z.lnot] do; Rsh on a
    negative number is an arithmetic shift, as [Z.shiftr]. The integer pool
    (vm/util/intpool.go), which only recycles allocations, is not modelled. *)
From Verif Require Import Lib.

(** common/helper/math_big.go 24-27 (U256: And with 2^256-1) *)
Definition u256 (x : Z) : Z := Z.land x (two256 - 1).

(** common/helper/math_big.go 36-41 (S256) *)
Definition s256 (x : Z) : Z := if x <? 2 ^ 255 then x else x - two256.

(** big.Int.Bits(): little-endian list of 64-bit words, no trailing zero word. *)
Fixpoint words64_aux (fuel : nat) (x : Z) : list Z :=
  match fuel with
  | O => []
  | S k => if x =? 0 then [] else (x mod two64) :: words64_aux k (x / two64)
  end.
Definition words64 (x : Z) : list Z := words64_aux (Z.to_nat (Z.log2 x / 64 + 1)) x.

(** common/helper/math_big.go 46-59 (Exp), inner loop 50-56: [n] rounds on one
    word, state (result, base). *)
Fixpoint exp_bits (n : nat) (word : Z) (st : Z * Z) : Z * Z :=
  match n with
  | O => st
  | S k =>
      let '(result, base) := st in
      let result' := if Z.land word 1 =? 1 then u256 (result * base) else result in
      let base' := u256 (base * base) in
      exp_bits k (Z.shiftr word 1) (result', base')
  end.

(** common/helper/math_big.go 46-59 (Exp) *)
Definition exp_go (base exponent : Z) : Z :=
  fst (fold_left (fun st w => exp_bits 64 w st) (words64 exponent) (1, base)).

(** common/helper/math_big.go 86-98 (bigEndianByteAt) *)
Definition big_endian_byte_at (x : Z) (n : Z) : Z :=
  let words := words64 x in
  let i := n / 8 in
  if zlen words <=? i then 0
  else Z.land (Z.shiftr (nth (Z.to_nat i) words 0) (8 * (n mod 8))) 255.

(** common/helper/math_big.go 65-70 (Byte) *)
Definition byte_go (x padlength n : Z) : Z :=
  if padlength <=? n then 0 else big_endian_byte_at x (padlength - 1 - n).

(** The pure instructions. *)
Inductive aop :=
  | AAdd | AMul | ASub | ADiv | ASdiv | AMod | ASmod | AAddmod | AMulmod | AExp | ASignextend
  | ALt | AGt | ASlt | ASgt | AEq | AIszero | AAnd | AOr | AXor | ANot | AByte | AShl | AShr | ASar.

(** Number of operands popped (vm/jump_table.go 312-461, makeStackFunc pops). *)
Definition aop_arity (a : aop) : nat :=
  match a with
  | AIszero | ANot => 1
  | AAddmod | AMulmod => 3
  | _ => 2
  end.

(** vm/instructions.go 35-41, 19-33 *)
Definition op_add (x y : Z) := u256 (x + y).
Definition op_mul (x y : Z) := u256 (x * y).
Definition op_sub (x y : Z) := u256 (x - y).
(** vm/instructions.go 43-53; big.Int.Div is Euclidean, operands are non-negative *)
Definition op_div (x y : Z) := if y =? 0 then 0 else u256 (x / y).
(** vm/instructions.go 55-73 *)
Definition op_sdiv (x0 y0 : Z) :=
  let x := s256 x0 in let y := s256 y0 in
  if (Z.sgn y =? 0) || (Z.sgn x =? 0) then 0
  else if negb (Z.sgn x =? Z.sgn y) then u256 (- (Z.abs x / Z.abs y))
  else u256 (Z.abs x / Z.abs y).
(** vm/instructions.go 75-85 *)
Definition op_mod (x y : Z) := if Z.sgn y =? 0 then 0 else u256 (x mod y).
(** vm/instructions.go 87-105 *)
Definition op_smod (x0 y0 : Z) :=
  let x := s256 x0 in let y := s256 y0 in
  if Z.sgn y =? 0 then 0
  else if x <? 0 then u256 (- (Z.abs x mod Z.abs y))
  else u256 (Z.abs x mod Z.abs y).
(** vm/instructions.go 107-119 *)
Definition op_addmod (x y z : Z) := if 0 <? z then u256 ((x + y) mod z) else 0.
(** vm/instructions.go 121-133 *)
Definition op_mulmod (x y z : Z) := if 0 <? z then u256 ((x * y) mod z) else 0.
(** vm/instructions.go 135-141 *)
Definition op_exp (base exponent : Z) := exp_go base exponent.
(** vm/instructions.go 143-160; [back] is the popped top, [num] the next item *)
Definition op_signextend (back num : Z) :=
  if back <? 31 then
    let bit := back * 8 + 7 in
    let mask := Z.shiftl 1 bit - 1 in
    if Z.testbit num bit then u256 (Z.lor num (Z.lnot mask))
    else u256 (Z.land num mask)
  else num.
(** vm/instructions.go 162-182 *)
Definition op_lt (x y : Z) := if x <? y then 1 else 0.
Definition op_gt (x y : Z) := if y <? x then 1 else 0.
(** vm/instructions.go 184-206 *)
Definition op_slt (x y : Z) :=
  let xneg := 2 ^ 255 <=? x in let yneg := 2 ^ 255 <=? y in
  if xneg && negb yneg then 1
  else if negb xneg && yneg then 0
  else if x <? y then 1 else 0.
(** vm/instructions.go 208-230 *)
Definition op_sgt (x y : Z) :=
  let xneg := 2 ^ 255 <=? x in let yneg := 2 ^ 255 <=? y in
  if xneg && negb yneg then 0
  else if negb xneg && yneg then 1
  else if y <? x then 1 else 0.
(** vm/instructions.go 232-251 *)
Definition op_eq (x y : Z) := if x =? y then 1 else 0.
Definition op_iszero (x : Z) := if 0 <? x then 0 else 1.
(** vm/instructions.go 253-281 *)
Definition op_and (x y : Z) := Z.land x y.
Definition op_or (x y : Z) := Z.lor x y.
Definition op_xor (x y : Z) := Z.lxor x y.
Definition op_not (x : Z) := u256 (Z.lnot x).
(** vm/instructions.go 283-294 *)
Definition op_byte (th val : Z) := if th <? 32 then byte_go val 32 th else 0.
(** vm/instructions.go 296-306 *)
Definition op_shl (shift0 value0 : Z) :=
  let shift := u256 shift0 in let value := u256 value0 in
  if 256 <=? shift then 0 else u256 (Z.shiftl value shift).
(** vm/instructions.go 308-318 *)
Definition op_shr (shift0 value0 : Z) :=
  let shift := u256 shift0 in let value := u256 value0 in
  if 256 <=? shift then 0 else u256 (Z.shiftr value shift).
(** vm/instructions.go 320-335 *)
Definition op_sar (shift0 value0 : Z) :=
  let shift := u256 shift0 in let value := s256 value0 in
  if 256 <=? shift then (if 0 <? value then u256 0 else u256 (-1))
  else u256 (Z.shiftr value shift).

(** Dispatch of vm/jump_table.go 312-461 on the operand stack (top first);
    [None] is the Go index-out-of-range panic of a pop on a short stack. *)
Definition exec_aop (a : aop) (st : list Z) : option (list Z) :=
  match a, st with
  | AAdd, x :: y :: r => Some (op_add x y :: r)
  | AMul, x :: y :: r => Some (op_mul x y :: r)
  | ASub, x :: y :: r => Some (op_sub x y :: r)
  | ADiv, x :: y :: r => Some (op_div x y :: r)
  | ASdiv, x :: y :: r => Some (op_sdiv x y :: r)
  | AMod, x :: y :: r => Some (op_mod x y :: r)
  | ASmod, x :: y :: r => Some (op_smod x y :: r)
  | AAddmod, x :: y :: z :: r => Some (op_addmod x y z :: r)
  | AMulmod, x :: y :: z :: r => Some (op_mulmod x y z :: r)
  | AExp, x :: y :: r => Some (op_exp x y :: r)
  | ASignextend, x :: y :: r => Some (op_signextend x y :: r)
  | ALt, x :: y :: r => Some (op_lt x y :: r)
  | AGt, x :: y :: r => Some (op_gt x y :: r)
  | ASlt, x :: y :: r => Some (op_slt x y :: r)
  | ASgt, x :: y :: r => Some (op_sgt x y :: r)
  | AEq, x :: y :: r => Some (op_eq x y :: r)
  | AIszero, x :: r => Some (op_iszero x :: r)
  | AAnd, x :: y :: r => Some (op_and x y :: r)
  | AOr, x :: y :: r => Some (op_or x y :: r)
  | AXor, x :: y :: r => Some (op_xor x y :: r)
  | ANot, x :: r => Some (op_not x :: r)
  | AByte, x :: y :: r => Some (op_byte x y :: r)
  | AShl, x :: y :: r => Some (op_shl x y :: r)
  | AShr, x :: y :: r => Some (op_shr x y :: r)
  | ASar, x :: y :: r => Some (op_sar x y :: r)
  | _, _ => None
  end.
