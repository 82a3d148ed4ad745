(** What the state of a snapshot means, in terms of the entries of the store. *)
From Verif Require Import Lib VmDbModel VmDbSpec HistModel.

(** The store: sorted, one entry per key; its storage and balance histories are made of keys for
    21 byte addresses, storage keys of at most 32 bytes, 10 byte token ids and heights below the
    greatest 64 bit number. *)
Definition is_addr (a : bytes) : Prop := bytes_ok a /\ length a = 21%nat.
Definition is_skey (k : bytes) : Prop := bytes_ok k /\ (length k <= 32)%nat.
Definition is_token (t : bytes) : Prop := bytes_ok t /\ length t = 10%nat.
Definition is_height (n : Z) : Prop := 0 <= n < max_u64.
Definition store_ok (db : list kv) : Prop :=
  ascending db /\
  (forall e r, In e db -> fst e = 2 :: r -> exists a k n, fst e = stor_key a k n /\ is_addr a /\ is_skey k /\ is_height n) /\
  (forall e r, In e db -> fst e = 4 :: r -> exists a t n, fst e = bal_key a t n /\ is_addr a /\ is_token t /\ is_height n) /\
  (forall e, In e db -> bytes_ok (fst e)).

(** [v] is the newest value stored for the key at a height up to [n]. *)
Definition newest_value (db : list kv) (n : Z) (a k v : bytes) : Prop :=
  exists h, is_height h /\ h <= n /\ In (stor_key a k h, v) db /\
  forall h' v', is_height h' -> h' <= n -> In (stor_key a k h', v') db -> h' <= h.
Definition newest_balance (db : list kv) (n : Z) (a t v : bytes) : Prop :=
  exists h, is_height h /\ h <= n /\ In (bal_key a t h, v) db /\
  forall h' v', is_height h' -> h' <= n -> In (bal_key a t h', v') db -> h' <= h.

(** Any use of a snapshot iterator. *)
Inductive sop := SNext | SPrev | SLast | SSeek (k : bytes).
Definition sop_ok (o : sop) : Prop := match o with SSeek k => is_skey k | _ => True end.
Definition sdo (n : Z) (a : bytes) (s : sit) (o : sop) : sit :=
  match o with
  | SNext => si_step n true s
  | SPrev => si_step n false s
  | SLast => si_to_last n s
  | SSeek k => si_seek n a k s
  end.
(** Stepping until the end is reported; the current entry and then everything after it. *)
Fixpoint listing (fuel : nat) (n : Z) (nx : bool) (s : sit) : list kv :=
  match fuel with
  | O => []
  | S f => let s' := si_step n nx s in
    if si_ok s' then match si_entry s' with Some e => e :: listing f n nx s' | None => [] end else []
  end.
Definition listing_from (fuel : nat) (n : Z) (nx : bool) (s : sit) : list kv :=
  if si_ok s then match si_entry s with Some e => e :: listing fuel n nx s | None => [] end else [].
(** The prefix matches the key as it is stored, padded with zeros to 32 bytes. *)
Definition matches (p k : bytes) : Prop := has_prefix p (k ++ repeat 0 (32 - length k)%nat).
