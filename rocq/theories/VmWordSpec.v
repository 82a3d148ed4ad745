(** Independent specification of the pure instructions: textbook 256-bit
    arithmetic, without reference to the model. *)
From Verif Require Import Lib VmWordModel.

Definition modulus : Z := 2 ^ 256.
(** signed reading of a word, and the word of a signed number *)
Definition to_signed (x : Z) : Z := if x <? 2 ^ 255 then x else x - modulus.
Definition of_signed (z : Z) : Z := z mod modulus.
Definition b2w (b : bool) : Z := if b then 1 else 0.

(** [a] (top of stack) , [b], [c] are the operands in pop order. *)
Definition spec_aop (op : aop) (a b c : Z) : Z :=
  match op with
  | AAdd => (a + b) mod modulus
  | AMul => (a * b) mod modulus
  | ASub => (a - b) mod modulus
  | ADiv => if b =? 0 then 0 else a / b
  | ASdiv => if b =? 0 then 0 else of_signed (Z.quot (to_signed a) (to_signed b))
  | AMod => if b =? 0 then 0 else a mod b
  | ASmod => if b =? 0 then 0 else of_signed (Z.rem (to_signed a) (to_signed b))
  | AAddmod => if c =? 0 then 0 else (a + b) mod c
  | AMulmod => if c =? 0 then 0 else (a * b) mod c
  | AExp => (a ^ b) mod modulus
  | ASignextend =>   (* sign-extend the (a+1)-byte number held in the low bytes of b *)
      if a <? 31 then
        let w := 2 ^ (8 * (a + 1)) in
        let low := b mod w in
        of_signed (if low <? w / 2 then low else low - w)
      else b
  | ALt => b2w (a <? b)
  | AGt => b2w (a >? b)
  | ASlt => b2w (to_signed a <? to_signed b)
  | ASgt => b2w (to_signed a >? to_signed b)
  | AEq => b2w (a =? b)
  | AIszero => b2w (a =? 0)
  | AAnd => Z.land a b
  | AOr => Z.lor a b
  | AXor => Z.lxor a b
  | ANot => modulus - 1 - a
  | AByte => if a <? 32 then (b / 2 ^ (8 * (31 - a))) mod 256 else 0
  | AShl => if a <? 256 then (b * 2 ^ a) mod modulus else 0
  | AShr => if a <? 256 then b / 2 ^ a else 0
  | ASar => of_signed (to_signed b / 2 ^ (Z.min a 256))
  end.
