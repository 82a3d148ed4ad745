(** Messages between peers: the framing of a connection (net/codec.go), the packed form of network
    addresses (net/vnode/endpoint.go) and the distance of node ids (net/vnode/node.go).
    Compression (github.com/golang/snappy, not in /repo) is a parameter; the connection accepts all
    that is written; times and time-outs are left out. *)
From Verif Require Import Lib.
Import ListNotations.
Open Scope Z_scope.

(** Go's byte arithmetic: x << k, byte(x). *)
Definition byte (x : Z) : Z := x mod 256.
Definition shl8 (x k : Z) : Z := byte (Z.shiftl x k).

(** * Framing: net/codec.go *)
(** Msg: net/message.go:62-68 without the times and the sender *)
Record msg := Msg { m_code : Z; m_id : Z; m_payload : list Z }.

(** idLengthToBits, bitsToIdLength: codec.go:75-96 *)
Definition id_length_to_bits (n : Z) : Z := if n =? 4 then 3 else n.
Definition bits_to_id_length (b : Z) : Z := if b =? 3 then 4 else b.
(** putId: codec.go:99-122; the bytes written *)
Definition put_id (id : Z) : list Z :=
  if id =? 0 then []
  else if 65535 <? id then [byte (Z.shiftr id 24); byte (Z.shiftr id 16); byte (Z.shiftr id 8); byte id]
  else if 255 <? id then [byte (Z.shiftr id 8); byte id]
  else [byte id].
(** retrieveMeta: codec.go:124-129 *)
Definition retrieve_meta (meta : Z) : Z * Z * bool :=
  (bits_to_id_length (Z.shiftr meta 6), Z.shiftr (shl8 meta 2) 6, 0 <? Z.shiftr (shl8 meta 4) 7).
(** storeMeta: codec.go:131-138 *)
Definition store_meta (isize lsize : Z) (compressed : bool) : Z :=
  let m := Z.lor (shl8 (id_length_to_bits isize) 6) (shl8 lsize 4) in
  if compressed then Z.lor m 8 else m.
(** Varint: codec.go:316-323 (at most four bytes, so nothing is shifted out of 64 bits) *)
Fixpoint varint (l : list Z) : Z := match l with [] => 0 | b :: r => Z.lor (Z.shiftl b (8 * zlen r)) (varint r) end.
(** PutVarint: codec.go:325-338.  The first loop looks for the number of bytes (eight suffice). *)
Fixpoint count_bytes (fuel : nat) (m n : Z) : Z :=
  match fuel with O => m | S f => if 0 <? Z.shiftr n (m * 8) then count_bytes f (m + 1) n else m end.
Fixpoint low_bytes (m : nat) (n : Z) : list Z := match m with O => [] | S k => byte (Z.shiftr n (8 * Z.of_nat k)) :: low_bytes k n end.
(** [room]: the length of the buffer; [None] is an index out of range. *)
Definition put_varint (room n : Z) : option (list Z) :=
  if n =? 0 then Some []
  else let m := count_bytes 8 1 n in if room <? m then None else Some (low_bytes (Z.to_nat m) n).

(** binary.Uvarint as called by snappy.DecodedLen (format of snappy: the length of the contents in
    groups of seven bits, lowest first); at most ten groups. *)
Fixpoint uvarint (fuel : nat) (s : Z) (l : list Z) : option Z :=
  match fuel, l with
  | S f, b :: r => if b <? 128 then Some (Z.shiftl b s)
                   else match uvarint f (s + 7) r with Some v => Some (Z.lor (Z.shiftl (Z.land b 127) s) v) | None => None end
  | _, _ => None
  end.
(** snappy.DecodedLen: an error above 2^32-1 *)
Definition decoded_len (l : list Z) : option Z :=
  match uvarint 10 0 l with Some v => if 0xffffffff <? v then None else Some v | None => None end.

(** A connection gives its bytes in pieces of any size; io.ReadFull collects them.  [None]: the
    stream ended before. *)
Notation conn := (list (list Z)).
Fixpoint read_full (n : nat) (c : conn) {struct c} : option (list Z * conn) :=
  match n with
  | O => Some ([], c)
  | _ => match c with
         | [] => None
         | p :: r => if (n <=? length p)%nat then Some (firstn n p, skipn n p :: r)
                     else match read_full (n - length p) r with Some (b, c') => Some (p ++ b, c') | None => None end
         end
  end.

Section Codec.
(** snappy.Encode, snappy.Decode *)
Variable enc : list Z -> list Z.
Variable dec : list Z -> option (list Z).

(** WriteMsg: codec.go:256-314.  The bytes sent; [None] is a panic.  [min]: minCompressLength. *)
Definition write_msg (min : Z) (m : msg) : option (list Z) :=
  let id := put_id (m_id m) in
  let small := (min <? zlen (m_payload m)) && (zlen (enc (m_payload m)) <? zlen (m_payload m)) in
  let payload := if small then enc (m_payload m) else m_payload m in
  match put_varint (9 - (2 + zlen id)) (zlen payload) with
  | Some len => Some (store_meta (zlen id) (zlen len) small :: m_code m :: id ++ len ++ payload)
  | None => None
  end.

(** What a reader does with the contents: codec.go:234-250; the memory it reserves for them, and the
    contents, [None] for an error. *)
Definition unpack (compressed : bool) (p : list Z) : Z * option (list Z) :=
  if compressed then match decoded_len p with Some n => (n, dec p) | None => (0, None) end else (0, Some p).

(** ReadMsg: codec.go:187-253.  The memory reserved, and the message with what is left, [None] for an
    error.  (The test of the length at 221-224 never fails: three bytes are never above the limit.) *)
Definition read_msg (c : conn) : Z * option (msg * conn) :=
  match read_full 2 c with
  | Some ([meta; code], c1) =>
      let '(isize, lsize, compressed) := retrieve_meta meta in
      match read_full (Z.to_nat isize) c1 with
      | Some (idb, c2) =>
          match read_full (Z.to_nat lsize) c2 with
          | Some (lenb, c3) =>
              let len := varint lenb in
              if 2 ^ 24 - 1 <? len then (0, None)
              else match read_full (Z.to_nat len) c3 with
                   | Some (p, c4) =>
                       let u := unpack compressed p in
                       (len + fst u, match snd u with Some q => Some (Msg code (varint idb) q, c4) | None => None end)
                   | None => (len, None)
                   end
          | None => (0, None)
          end
      | None => (0, None)
      end
  | _ => (0, None)
  end.
(** The loop of a peer: net/peer.go:285-315: messages until the first error or the given number. *)
Fixpoint read_all (n : nat) (c : conn) : list msg * conn :=
  match n with
  | O => ([], c)
  | S k => match snd (read_msg c) with Some (m, c') => let q := read_all k c' in (m :: fst q, snd q) | None => ([], c) end
  end.
(** Writing messages one after the other: net/peer.go:317-327 *)
Fixpoint write_all (min : Z) (l : list msg) : option (list Z) :=
  match l with
  | [] => Some []
  | m :: r => match write_msg min m, write_all min r with Some a, Some b => Some (a ++ b) | _, _ => None end
  end.
End Codec.

(** * Addresses: net/vnode/endpoint.go *)
(** host.go:5-10 *)
Definition IPv4 : Z := 1.
Definition IPv6 : Z := 2.
Definition Domain : Z := 4.
(** node.go:32-34 *)
Definition default_port : Z := 8483.
Definition max_host : Z := 63.
(** endpoint.go:11-13 *)
Definition loopback : list Z := [108; 111; 99; 97; 108; 104; 111; 115; 116].
Definition loopback_ip : list Z := [127; 0; 0; 1].
Record endpoint := Ep { e_host : list Z; e_port : Z; e_typ : Z }.

(** Serialize, Length: endpoint.go:77-106, 159-172; [None] is an error *)
Definition serialize (e : endpoint) : option (list Z) :=
  let n := zlen (e_host e) in
  if n =? 0 then None
  else if max_host <? n then None
  else let m := shl8 n 2 in
       let m := if (e_typ e =? Domain) || (16 <? n) then Z.lor m 2 else m in
       if e_port e =? default_port then Some (m :: e_host e)
       else Some (Z.lor m 1 :: e_host e ++ [byte (Z.shiftr (e_port e) 8); byte (e_port e)]).
(** Deserialize: endpoint.go:109-156 *)
Definition deserialize (buf : list Z) : option endpoint :=
  match buf with
  | [] => None
  | meta :: rest =>
      let n := Z.shiftr meta 2 in
      let has := 0 <? Z.land meta 1 in
      if n =? 0 then None
      else if zlen buf <? n + 1 + (if has then 2 else 0) then None
      else let host := firstn (Z.to_nat n) rest in
           let '(host, typ) := if 0 <? Z.land meta 2 then (if list_eq_dec Z.eq_dec host loopback then (loopback_ip, IPv4) else (host, Domain))
                               else if 4 <? n then (host, IPv6) else (host, IPv4) in
           let k := length buf in
           Some (Ep host (if has then Z.lor (nth (k - 1) buf 0) (Z.shiftl (nth (k - 2) buf 0) 8) else default_port) typ)
  end.

(** * Node ids: net/vnode/node.go.  An id is 32 bytes. *)
(** The loop at node.go:146-149: how often the left bit is missing; a byte that is not zero has it
    within eight steps. *)
Fixpoint shift_out (fuel : nat) (x : Z) : Z :=
  match fuel with O => 0 | S f => if Z.land x 128 =? 0 then 1 + shift_out f (shl8 x 1) else 0 end.
(** commonBits: node.go:130-152 *)
Fixpoint common_bits (a b : list Z) : Z :=
  match a, b with
  | x :: r, y :: s => if x =? y then 8 + common_bits r s else shift_out 8 (Z.lxor x y)
  | _, _ => 0
  end.
(** Distance: node.go:189-191 *)
Definition distance (a b : list Z) : Z := 256 - common_bits a b.
(** commonNBits on the byte in question: node.go:168-182; [bit] < 8 *)
Definition differ_at (a b bit : Z) : Z :=
  let b1 := Z.shiftr (shl8 b bit) bit in
  let b2 := Z.lor b1 (shl8 (Z.shiftr a (8 - bit)) (8 - bit)) in
  let diff := shl8 (Z.shiftr (shl8 a bit) 7) (7 - bit) in
  if 0 <? diff then Z.land b2 (255 - Z.shiftl 1 (7 - bit)) else Z.lor b2 (Z.shiftl 1 (7 - bit)).
(** commonNBits: node.go:154-185; [rnd] is the random id *)
Definition common_n_bits (rnd a : list Z) (n : Z) : list Z :=
  if n =? 256 then a
  else let k := Z.to_nat (n / 8) in
       firstn k a ++ differ_at (nth k a 0) (nth k rnd 0) (n mod 8) :: skipn (S k) rnd.
(** RandFromDistance: node.go:102-108 *)
Definition rand_from_distance (rnd id : list Z) (d : Z) : list Z :=
  let d := if 256 <=? d then 256 else d in common_n_bits rnd id (256 - d).
