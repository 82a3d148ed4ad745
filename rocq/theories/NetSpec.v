(** What messages, addresses and distances are to be, without the code. *)
From Verif Require Import Lib NetModel.
Import ListNotations.
Open Scope Z_scope.

(** A message that can be sent: a byte, a 32 bit number, less than 16 MB. *)
Definition sendable (m : msg) : Prop := 0 <= m_code m < 256 /\ 0 <= m_id m < 2 ^ 32 /\ zlen (m_payload m) < 2 ^ 24.

(** A network address: an IPv4 address, an IPv6 address or a name of at most 63 bytes, with a port. *)
Definition proper (e : endpoint) : Prop :=
  bytes_ok (e_host e) /\ 0 <= e_port e < 65536 /\
  ((e_typ e = IPv4 /\ zlen (e_host e) = 4) \/ (e_typ e = IPv6 /\ zlen (e_host e) = 16)
   \/ (e_typ e = Domain /\ 0 < zlen (e_host e) <= 63 /\ e_host e <> loopback)).

(** The bits of an id from the left, and how many two ids have in common there. *)
Definition bits8 (b : Z) : list bool := map (fun i => Z.testbit b (7 - Z.of_nat i)) (seq 0 8).
Definition bits (l : list Z) : list bool := flat_map bits8 l.
Fixpoint common (a b : list bool) : Z :=
  match a, b with x :: r, y :: s => if eqb x y then 1 + common r s else 0 | _, _ => 0 end.
(** The distance of two ids of 256 bits. *)
Definition far (a b : list Z) : Z := 256 - common (bits a) (bits b).
Definition node_id (l : list Z) : Prop := length l = 32%nat /\ bytes_ok l.

(** What is assumed of the compression: it can be undone, and what it gives begins with the length of
    the contents, as the format of snappy says. *)
Definition undone (enc : list Z -> list Z) (dec : list Z -> option (list Z)) : Prop :=
  forall p, zlen p < 2 ^ 24 -> dec (enc p) = Some p /\ decoded_len (enc p) = Some (zlen p).
