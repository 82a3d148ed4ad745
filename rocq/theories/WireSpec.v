(** What a well-formed block is, said without the code that reads and writes blocks. *)
From Coq Require Import ZArith List Bool Permutation.
From Verif Require Import Lib WireModel.
Import ListNotations.
Open Scope Z_scope.

Definition sized (n : Z) (l : list Z) : Prop := zlen l = n /\ bytes_ok l.
Definition is_zero (l : list Z) : Prop := Forall (fun b => b = 0) l.

(** Sends are the types 1, 2, 3 and 6; a genesis receive is 7. *)
Definition sends (t : Z) : Prop := t = 1 \/ t = 2 \/ t = 3 \/ t = 6.

(** Every field has its size; the fields that a block of its kind does not have are zero;
    a first block has no predecessor. *)
Record head_ok (h : head) : Prop := {
  ok_type : 0 <= b_type h < 256;
  ok_hash : sized 32 (b_hash h);
  ok_prev : sized 32 (b_prev h);
  ok_height : 0 <= b_height h < 2 ^ 64;
  ok_first : b_height h <= 1 -> is_zero (b_prev h);
  ok_addr : sized 21 (b_addr h);
  ok_key : bytes_ok (b_key h);
  ok_to : sized 21 (b_to h);
  ok_to_zero : ~ sends (b_type h) -> is_zero (b_to h);
  ok_from : sized 32 (b_from h);
  ok_from_zero : sends (b_type h) -> is_zero (b_from h);
  ok_token : sized 10 (b_token h);
  ok_amount : sends (b_type h) \/ b_type h = 7 -> exists a, b_amount h = Some a /\ 0 <= a;
  ok_no_amount : ~ (sends (b_type h) \/ b_type h = 7) -> b_amount h = None /\ is_zero (b_token h);
  ok_data : bytes_ok (b_data h);
  ok_quota : 0 <= b_quota h < 2 ^ 64;
  ok_used : 0 <= b_used h < 2 ^ 64;
  ok_fee : exists f, b_fee h = Some f /\ 0 <= f;
  ok_log : forall x, b_log h = Some x -> sized 32 x;
  ok_diff : forall d, b_diff h = Some d -> 0 < d;
  ok_nonce : bytes_ok (b_nonce h);
  ok_sig : bytes_ok (b_sig h)
}.
Fixpoint block_ok (b : block) : Prop :=
  let '(Blk h l) := b in
  head_ok h /\ (fix all (l : list block) : Prop := match l with [] => True | s :: r => block_ok s /\ all r end) l.

(** Snapshot content: distinct addresses, sizes. *)
Definition item_ok (x : list Z * (list Z * Z)) : Prop :=
  sized 21 (fst x) /\ sized 32 (fst (snd x)) /\ 0 <= snd (snd x) < 2 ^ 64.
Definition content_ok (sc : content) : Prop := NoDup (map fst sc) /\ Forall item_ok sc.
Record snap_ok (s : snap) : Prop := {
  sok_hash : sized 32 (s_hash s);
  sok_prev : sized 32 (s_prev s);
  sok_height : 0 <= s_height s < 2 ^ 64;
  sok_key : bytes_ok (s_key s);
  sok_sig : bytes_ok (s_sig s);
  sok_time : - 2 ^ 63 <= s_time s < 2 ^ 63;
  sok_seed : 0 <= s_seed s < 2 ^ 64;
  sok_seedhash : forall x, s_seedhash s = Some x -> sized 32 x;
  sok_content : content_ok (s_content s);
  sok_version : 0 <= s_version s < 2 ^ 32
}.
(** Two snapshot blocks with the same fields and the same set of content entries. *)
Definition same_snap (a b : snap) : Prop :=
  s_hash a = s_hash b /\ s_prev a = s_prev b /\ s_height a = s_height b /\ s_key a = s_key b /\
  s_sig a = s_sig b /\ s_time a = s_time b /\ s_seed a = s_seed b /\ s_seedhash a = s_seedhash b /\
  s_version a = s_version b /\ Permutation (s_content a) (s_content b).

Definition meta_ok (m : meta) : Prop :=
  sized 10 (c_gid m) /\ 0 <= c_confirm m < 256 /\ sized 32 (c_create m) /\ 0 <= c_ratio m < 256 /\ 0 <= c_seedconf m < 256.

Definition log_ok (x : list (list Z) * list Z) : Prop := Forall (sized 32) (fst x) /\ bytes_ok (snd x).

(** A block with a difficulty of zero taken as one without difficulty. *)
Definition normal_head (h : head) : head :=
  mkH (b_type h) (b_hash h) (b_prev h) (b_height h) (b_addr h) (b_key h) (b_to h) (b_amount h) (b_token h)
      (b_from h) (b_data h) (b_quota h) (b_used h) (b_fee h) (b_log h)
      (match b_diff h with Some d => if d =? 0 then None else Some d | None => None end) (b_nonce h) (b_sig h).
Fixpoint normal (b : block) : block :=
  let '(Blk h l) := b in
  Blk (normal_head h) ((fix all (l : list block) : list block := match l with [] => [] | s :: r => normal s :: all r end) l).

(** * What a hash should say *)

(** Two inputs that a hash function does not tell apart. *)
Definition collision (H : list Z -> list Z) : Prop := exists u v, u <> v /\ H u = H v.
(** A nonce is absent or eight bytes; an absent one is hashed as zeros. *)
Definition full_nonce (n : list Z) : list Z := match n with [] => repeat 0 8 | _ => n end.
(** The limits that the verifier puts on every account block: numbers of at most 256 bits
    and nonces of eight bytes. *)
Definition checked (h : head) : Prop :=
  (forall a, b_amount h = Some a -> a < 2 ^ 256) /\ (forall f, b_fee h = Some f -> f < 2 ^ 256) /\
  (b_nonce h = [] \/ zlen (b_nonce h) = 8).
(** Two account blocks that say the same: everything except the hash, the signature and
    its key, the quota numbers and the difficulty.  Of the sends made by a contract the
    hashes are compared. *)
Definition same_block (a b : block) : Prop :=
  let x := b_head a in let y := b_head b in
  b_type x = b_type y /\ b_prev x = b_prev y /\ b_height x = b_height y /\ b_addr x = b_addr y /\
  b_to x = b_to y /\ b_amount x = b_amount y /\ b_token x = b_token y /\ b_from x = b_from y /\
  b_data x = b_data y /\ b_fee x = b_fee y /\ b_log x = b_log y /\
  full_nonce (b_nonce x) = full_nonce (b_nonce y) /\
  map (fun s => b_hash (b_head s)) (b_sends a) = map (fun s => b_hash (b_head s)) (b_sends b).
(** Two snapshot blocks that say the same, the time to the second; the version only counts
    once the upgrade that introduced it is active. *)
Definition same_snapshot (versioned : Z -> bool) (a b : snap) : Prop :=
  s_prev a = s_prev b /\ s_height a = s_height b /\ s_time a / 1000000000 = s_time b / 1000000000 /\
  s_seed a = s_seed b /\
  (s_seedhash a = s_seedhash b \/
   (exists z, is_zero z /\ (s_seedhash a = None /\ s_seedhash b = Some z \/ s_seedhash a = Some z /\ s_seedhash b = None))) /\
  Permutation (s_content a) (s_content b) /\
  (versioned (s_height a) = true -> s_version a = s_version b).
