(** Text forms, said independently: a value, its kind and its checksum, each byte as two
    hexadecimal digits. *)
From Coq Require Import ZArith List Bool.
From Verif Require Import Lib.
Import ListNotations.
Open Scope Z_scope.

(** The lower-case form of an ASCII string. *)
Definition lower (s : list Z) : list Z := map (fun c => if (65 <=? c) && (c <=? 90) then c + 32 else c) s.

(** [s] spells the byte [b] with two digits. *)
Definition digits : list Z := [48; 49; 50; 51; 52; 53; 54; 55; 56; 57; 97; 98; 99; 100; 101; 102].
Definition spell (b : Z) : list Z := [nth (Z.to_nat (b / 16)) digits 0; nth (Z.to_nat (b mod 16)) digits 0].
Definition spells (l : list Z) : list Z := concat (map spell l).

Definition is_bytes (n : Z) (l : list Z) : Prop := zlen l = n /\ bytes_ok l.
(** The hash function gives digests of the requested size. *)
Definition hash_ok (H : Z -> list Z -> list Z) : Prop :=
  forall n d, 0 <= n -> is_bytes n (H n d).

(** A user address is 20 bytes followed by 0, a contract address 20 bytes followed by 1. *)
Definition user_address (a : list Z) : Prop := exists core, is_bytes 20 core /\ a = core ++ [0].
Definition contract_address (a : list Z) : Prop := exists core, is_bytes 20 core /\ a = core ++ [1].

(** "vite_", the 20 bytes, and the checksum: five bytes of hash, complemented for
    contracts. *)
Definition spell_address (H : Z -> list Z -> list Z) (a s : list Z) : Prop :=
  exists core, is_bytes 20 core /\
    ((a = core ++ [0] /\ s = [118; 105; 116; 101; 95] ++ spells core ++ spells (H 5 core)) \/
     (a = core ++ [1] /\ s = [118; 105; 116; 101; 95] ++ spells core ++ spells (map (fun b => 255 - b) (H 5 core)))).
(** "tti_", the ten bytes, and two bytes of hash. *)
Definition spell_token (H : Z -> list Z -> list Z) (t s : list Z) : Prop :=
  is_bytes 10 t /\ s = [116; 116; 105; 95] ++ spells t ++ spells (H 2 t).
