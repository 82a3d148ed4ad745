(** Arithmetic of prices, amounts and fees in the exchange contracts.

    The Go code computes them with [big.Float] at a precision of 120 bits
    (vm/contracts/dex/matcher.go:18, bigFloatPrec).  Every operation used there
    (SetInt, SetString, Mul, Quo, Add) returns the exact result rounded once to the
    precision of the receiver, to nearest, ties to even (math/big, default rounding
    mode).  A float is a pair (m, e) of value m * 2^e; only non-negative values occur.
    Exponent overflow of big.Float (2^31) is not modelled. *)
From Coq Require Import ZArith List Bool Lia.
From Verif Require Import Lib.
Import ListNotations.
Open Scope Z_scope.

(** Numerator and denominator of the value of (m, e). *)
Definition fnum (f : Z * Z) : Z := fst f * 2 ^ Z.max (snd f) 0.
Definition fden (f : Z * Z) : Z := 2 ^ Z.max (- snd f) 0.

(** n / d to the nearest integer, ties to even. *)
Definition near (n d : Z) : Z :=
  let q := n / d in
  let r := n mod d in
  if 2 * r <? d then q
  else if d <? 2 * r then q + 1
  else if Z.even q then q else q + 1.

(** n / d rounded to p bits (math/big, Float.round).  The exponent is chosen so that
    the scaled fraction lies in [2^(p-1), 2^p). *)
Definition fexp (p n d : Z) : Z :=
  let e := Z.log2 n - Z.log2 d - p in
  if n * 2 ^ Z.max (- e) 0 <? 2 ^ p * (d * 2 ^ Z.max e 0) then e else e + 1.
Definition frnd (p n d : Z) : Z * Z :=
  if n <=? 0 then (0, 0)
  else let e := fexp p n d in
       (near (n * 2 ^ Z.max (- e) 0) (d * 2 ^ Z.max e 0), e).

(** matcher.go:18 *)
Definition fprec : Z := 120.

(** SetPrec(120).SetInt(n) *)
Definition fint (n : Z) : Z * Z := frnd fprec n 1.
(** SetPrec(120).Mul(a, b), .Quo(a, b) and .Add(a, 0.5) *)
Definition fmul (a b : Z * Z) : Z * Z := frnd fprec (fnum a * fnum b) (fden a * fden b).
Definition fquo (a b : Z * Z) : Z * Z := frnd fprec (fnum a * fden b) (fden a * fnum b).
Definition fhalf (a : Z * Z) : Z * Z := frnd fprec (2 * fnum a + fden a) (2 * fden a).
(** Float.Int: truncation. *)
Definition ftrunc (a : Z * Z) : Z := fnum a / fden a.
(** Cmp(1) < 0 *)
Definition flt1 (a : Z * Z) : bool := fnum a <? fden a.

(** Prices are ten bytes: five for the integer part, five for the twelve decimals
    (vm/contracts/dex/utils.go:57-90, PriceToBytes; 92-130, BytesToPrice).  A price is
    the big-endian value of the ten bytes; [price_units] is its numeric value times
    10^12.  SetString(BytesToPrice(price)) parses the decimal string: the digits are
    read exactly and divided once by a power of ten, so trailing zeros do not matter. *)
Definition price_int (p : Z) : Z := p / 2 ^ 40.
Definition price_dec (p : Z) : Z := p mod 2 ^ 40.
Definition price_units (p : Z) : Z := price_int p * 10 ^ 12 + price_dec p.
Definition fprice (p : Z) : Z * Z := frnd fprec (price_units p) (10 ^ 12).

(** vm/contracts/dex/calculator.go:64-76, AdjustForDecimalsDiff. *)
Definition fadjust (f : Z * Z) (diff : Z) : Z * Z :=
  if diff =? 0 then f
  else if 0 <? diff then fquo f (fint (10 ^ diff))
  else fmul f (fint (10 ^ (- diff))).

(** calculator.go:93-96, RoundAmount. *)
Definition fround (f : Z * Z) : Z := ftrunc (fhalf f).

(** matcher.go:575-579 CalculateRawAmountF, 571-573 CalculateRawAmount. *)
Definition raw_amount_f (q p diff : Z) : Z * Z := fadjust (fmul (fprice p) (fint q)) diff.
Definition raw_amount (q p diff : Z) : Z := fround (raw_amount_f q p diff).

(** matcher.go:581-585 CalculateRawQuantityF, 567-569 CalculateRawQuantity (rounded
    down, calculator.go:102-105).  A quotient by a zero price is +Inf in Go and the
    conversion to an integer then yields nil; it cannot happen, prices in the book are
    positive.  [frnd] gives 0 there. *)
Definition raw_qty_f (a p diff : Z) : Z * Z := fadjust (fquo (fint a) (fprice p)) diff.
Definition raw_qty (a p diff : Z) : Z := ftrunc (raw_qty_f a p diff).

(** matcher.go:587-595 CalculateAmountForRate; the rate is parsed from the decimal
    string of utils.go:132-152 (CardinalRateToString), i.e. rate / 100000. *)
Definition rate_cardinal : Z := 100000.
Definition fee_for (a rate : Z) : Z :=
  if 0 <? rate then fround (fmul (fint a) (frnd fprec rate rate_cardinal)) else 0.

(** fund_helper.go:472: float32 arithmetic (24 bits). *)
Definition adjusted_rate (r : Z) : Z :=
  let q := frnd 24 r (rate_cardinal + r) in
  ftrunc (frnd 24 (fnum q * rate_cardinal) (fden q)) + 1.
