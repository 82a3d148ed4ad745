(** Proof of work: which nonce is accepted for a difficulty (pow/pow.go) and the rule of the verifier
    (ledger/verifier/account_verifier.go).
    The hash function is a parameter.  Floats are those of DexFloat, here with 64 bits. *)
From Verif Require Import Lib DexFloat.
Import ListNotations.
Open Scope Z_scope.

(** pow.go:205 *)
Definition prec : Z := 64.
(** Quo(a, b) and Add(a, 1) *)
Definition quo (a b : Z * Z) : Z * Z := frnd prec (fnum a * fden b) (fden a * fnum b).
Definition add1 (a : Z * Z) : Z * Z := frnd prec (fnum a + fden a) (fden a).
(** bigFloatToBigInt: pow.go:210-213; Text('f', 0) rounds to the nearest, ties to even *)
Definition to_int (f : Z * Z) : Z := near (fnum f) (fden f).
(** DifficultyToTarget: pow.go:215-221, for a positive difficulty.  floatTwo256 and float1 are exact. *)
Definition positive_target (d : Z) : Z :=
  let f := frnd prec d 1 in
  let f := quo (1, 0) f in
  let f := add1 f in
  to_int (quo (1, 256) f).
(** For 0 the quotient 1/0 is infinite and the target 0.  For a negative difficulty the sum is at most 1,
    so that the target is at least 2^256 or, for -1, infinite, which gives nil: [None], both refused. *)
Definition difficulty_to_target (d : Z) : option Z :=
  if d <? 0 then None else if d =? 0 then Some 0 else Some (positive_target d).

(** QuickGreater: pow.go:183-196, on 32 bytes each *)
Fixpoint quick_greater (x y : list Z) : bool :=
  match x, y with
  | a :: r, b :: s => if b <? a then true else if a <? b then false else quick_greater r s
  | _, _ => true
  end.
(** The target as 32 bytes, [None] if there is none or it is too long: pow.go:33-46, 160-170.  [test]:
    VMTestParamEnabled.  (The line "target.BitLen() > 256", then LeftPadBytes.) *)
Definition target_bytes (test : bool) (d : Z) : option (list Z) :=
  if test then Some (be_bytes 32 0xffff)
  else match difficulty_to_target d with
       | Some t => if 2 ^ 256 <=? t then None else Some (be_bytes 32 t)
       | None => None
       end.

Section Pow.
(** blake2b.New256 over the bytes written *)
Variable hash : list Z -> list Z.

(** CheckPowNonce: pow.go:159-171 *)
Definition check (test : bool) (d : Z) (nonce data : list Z) : bool :=
  match target_bytes test d with Some t => quick_greater (hash (nonce ++ data)) t | None => false end.

(** GetPowNonce: pow.go:31-64.  [tries]: the random nonces until the time is over.  [None] is an error. *)
Fixpoint search (t : list Z) (tries : list (list Z)) (data : list Z) : option (list Z) :=
  match tries with
  | [] => None
  | n :: r => if quick_greater (hash (n ++ data)) t then Some n else search t r data
  end.
Definition get_nonce (test : bool) (d : Z) (tries : list (list Z)) (data : list Z) : option (list Z) :=
  match target_bytes test d with Some t => search t tries data | None => None end.

(** MapPowNonce: pow.go:67-103.  The counter [i] is never incremented there, so that its time limit does not
    apply and the whole range is searched; [n]: how many numbers are left. *)
Fixpoint scan (t : list Z) (n : nat) (from : Z) (data : list Z) : option Z :=
  match n with
  | O => None
  | S n => if quick_greater (hash (be_bytes 8 from ++ data)) t then Some from else scan t n (from + 1) data
  end.
Definition map_nonce (test : bool) (d from to : Z) (data : list Z) : option Z :=
  match target_bytes test d with Some t => scan t (Z.to_nat (to - from)) from data | None => None end.

(** verifyNonce: account_verifier.go:326-347; [d]: the difficulty, which may be missing.  crypto.Hash256 is
    the same hash. *)
Definition verify_nonce (contract : bool) (nonce : list Z) (d : option Z) (addr prev : list Z) : bool :=
  if negb (zlen nonce =? 0) then
    if contract then false
    else match d with
         | None => false
         | Some d => if negb (zlen nonce =? 8) then false else check false d nonce (hash (addr ++ prev))
         end
  else match d with Some _ => false | None => true end.
End Pow.
