(** What the values of the ABI's types are. *)
From Coq Require Import String ZArith List Bool Lia.
From Verif Require Import Lib AbiModel.
Import ListNotations.
Open Scope Z_scope.

(** The widths with a Go type of their own. *)
Definition native (n : Z) : Prop := n = 8 \/ n = 16 \/ n = 32 \/ n = 64.
Definition bytes_of_len (n : Z) (s : list Z) : Prop := bytes_ok s /\ zlen s = n.
(** The Go values standing for the values of a type: every number of the width, every string,
    every fixed byte string. *)
Definition value_of (b : base) (v : val) : Prop :=
  match b with
  | TInt n => 1 <= n <= 256 /\
      ((native n /\ exists z, v = VNum true n z /\ - 2 ^ (n - 1) <= z < 2 ^ (n - 1)) \/
       (~ native n /\ exists z, v = VBig z /\ - 2 ^ (n - 1) <= z < 2 ^ (n - 1)))
  | TUint n => 1 <= n <= 256 /\
      ((native n /\ exists z, v = VNum false n z /\ 0 <= z < 2 ^ n) \/
       (~ native n /\ exists z, v = VBig z /\ 0 <= z < 2 ^ n))
  | TBool => exists x, v = VBool x
  | TString => exists s, v = VString s /\ bytes_ok s
  | TAddress => exists s, v = VByteArr s /\ bytes_of_len 21 s
  | TGid | TToken => exists s, v = VByteArr s /\ bytes_of_len 10 s
  | TFixed n => 0 < n /\ exists s, v = VByteArr s /\ bytes_of_len n s
  | TBytes => exists s, v = VBytes s /\ bytes_ok s
  end.
(** Lists of values; Go keeps lists of uint8 as byte strings. *)
Definition list_value (bytes : list Z -> val) (other : list val -> val) (b : base) (l : list val) (v : val) : Prop :=
  Forall (value_of b) l /\
  ((b = TUint 8 /\ exists s, v = bytes s /\ l = map (VNum false 8) s) \/ (b <> TUint 8 /\ v = other l)).
Definition typed (t : ty) (v : val) : Prop :=
  match t with
  | Base b => value_of b v
  | Slice b => exists l, list_value VBytes (VSlice (base_kind b)) b l v
  | Array n b => 0 < n /\ exists l, zlen l = n /\ list_value VByteArr (VArray (base_kind b)) b l v
  end.

(** The part of the types and values for which the round trip holds: no fixed byte strings
    above 32 bytes, no strings or byte strings inside lists, no negative numbers of a width
    without a Go type. *)
Definition plain_base (b : base) : Prop := match b with TFixed n => n <= 32 | _ => True end.
Definition plain_type (t : ty) : Prop :=
  match t with
  | Base b => plain_base b
  | Slice b | Array _ b => plain_base b /\ b <> TString /\ b <> TBytes
  end.
Definition not_negative (v : val) : Prop := match v with VBig z => 0 <= z | _ => True end.
Definition plain_value (v : val) : Prop :=
  match v with VSlice _ l | VArray _ l => Forall not_negative l | _ => not_negative v end.
Definition good (t : ty) (v : val) : Prop := typed t v /\ plain_type t /\ plain_value v.

(** The types with fixed byte strings of at most 32 bytes and arrays below 2^57 items. *)
Definition small_type (t : ty) : Prop :=
  match t with
  | Base b | Slice b => plain_base b
  | Array n b => plain_base b /\ 0 < n < 2 ^ 57
  end.
(** The number types whose Go type has exactly their range: the native widths and uint256. *)
Definition exact_base (b : base) : Prop :=
  match b with
  | TInt n => native n
  | TUint n => native n \/ n = 256
  | TFixed n => 0 < n <= 32
  | _ => True
  end.
Definition exact_type (t : ty) : Prop :=
  match t with
  | Base b | Slice b => exact_base b
  | Array n b => exact_base b /\ 0 < n < 2 ^ 57
  end.
