(** What the index should answer, read off the blocks of the chain. *)
From Verif Require Import Lib IdxModel.
Import ListNotations.

(** The blocks on the chain: those in the files, then the unconfirmed. *)
Definition confirmed (w : world) : list blk := flat_map g_blocks (w_log w).
Definition blocks (w : world) : list blk := confirmed w ++ w_unc w.
Definition sends (b : blk) : list send := match b with BSend _ _ s => [s] | BRecv _ _ _ _ subs => subs end.
(** All hashes that stand for a block. *)
Definition hashes (b : blk) : list Z := match b with BSend _ _ s => [s_hash s] | BRecv _ _ h _ subs => h :: map s_hash subs end.
Definition received_at (bs : list blk) (s r : Z) : Prop := exists a n subs, In (BRecv a n r (Some s) subs) bs.
Definition waits (bs : list blk) (to s : Z) : Prop :=
  (exists b x, In b bs /\ In x (sends b) /\ s_hash x = s /\ s_to x = to) /\ forall r, ~ received_at bs s r.

(** The height of the snapshot block that confirmed the block of a hash, 0 if none did. *)
Definition confirmed_at (w : world) (h n : Z) : Prop :=
  (exists g b, In g (w_log w) /\ In b (g_blocks g) /\ In h (hashes b) /\ n = sb_height (g_sb g)) \/
  (n = 0 /\ forall b, In b (confirmed w) -> ~ In h (hashes b)).

(** What a chain accepts. *)
Definition accepted (w : world) (b : blk) : Prop :=
  NoDup (hashes b) /\ (forall h, In h (hashes b) -> forall c, In c (blocks w) -> ~ In h (hashes c)) /\
  1 <= b_height b < max_u64 /\ (forall c, In c (blocks w) -> b_addr c = b_addr b -> b_height c < b_height b) /\
  match b with
  | BSend _ _ _ => True
  | BRecv a _ _ from subs =>
      Forall (fun s => s_create s = false) subs /\
      match from with
      | None => w_log w = []            (* blocks of the genesis come before its snapshot block *)
      | Some f => waits (blocks w) a f
      end
  end.
(** A snapshot block: one height for each of some accounts, that of an unconfirmed block; nothing
    confirmed was sent by a block left unconfirmed. *)
Definition snapshots (w : world) (s : sb) : Prop :=
  (forall g, In g (w_log w) -> sb_hash (g_sb g) <> sb_hash s /\ sb_height (g_sb g) < sb_height s) /\ 1 <= sb_height s /\
  NoDup (map fst (sb_content s)) /\
  (forall a n, In (a, n) (sb_content s) -> exists b, In b (w_unc w) /\ b_addr b = a /\ b_height b = n) /\
  (forall a n h f subs c x, In (BRecv a n h (Some f) subs) (w_unc w) -> confirms (sb_content s) (BRecv a n h (Some f) subs) = true ->
     In c (w_unc w) -> In x (sends c) -> s_hash x = f -> confirms (sb_content s) c = true) /\
  (forall a n h subs, In (BRecv a n h None subs) (w_unc w) -> confirms (sb_content s) (BRecv a n h None subs) = true).
(** Deleted account blocks: unconfirmed, in the order of the chain, with all that depends on them. *)
Definition deletes (w : world) (bs : list blk) : Prop :=
  (exists q, bs = filter q (w_unc w)) /\
  (forall b c, In b bs -> In c (w_unc w) -> b_addr c = b_addr b -> b_height b < b_height c -> In c bs) /\
  (forall b x, In b bs -> In x (sends b) -> forall a n h subs, In (BRecv a n h (Some (s_hash x)) subs) (w_unc w) -> In (BRecv a n h (Some (s_hash x)) subs) bs) /\
  (forall b, In b bs -> match b with BRecv _ _ _ None _ => False | _ => True end).
(** The contracts of the state database at a start: created by confirmed blocks. *)
Definition created (gs : list seg) (h : Z) : Prop := exists b x, In b (flat_map g_blocks gs) /\ In x (sends b) /\ s_hash x = h /\ s_create x = true.

Inductive op :=
| OBlock (b : blk) | OSnap (s : sb) (loc : Z) (locs : Z -> Z) | ODelete (bs : list blk) | ORoll (n : nat) (redo : bool)
| OFlush | ORestart (made : list Z) | OEvict (keys : list key) (hs accounts : list Z).
Definition allowed (w : world) (o : op) : Prop :=
  match o with
  | OBlock b => accepted w b
  | OSnap s _ _ => snapshots w s
  | ODelete bs => deletes w bs
  | ORoll n _ => (1 <= n < length (w_log w))%nat        (* not the genesis *)
  | ORestart made => forall h, In h made -> created (w_saved w) h
  | _ => True
  end.
Definition step (w : world) (o : op) : world :=
  match o with
  | OBlock b => World (insert (w_idx w) b) (w_log w) (w_unc w ++ [b]) (w_saved w)
  | OSnap s loc locs => snap w s loc locs
  | ODelete bs => World (delete (w_idx w) bs) (w_log w) (without (w_unc w) bs) (w_saved w)
  | ORoll n redo => roll w n redo
  | OFlush => World (flush (w_idx w)) (w_log w) (w_unc w) (w_log w)
  | ORestart made => World (open_idx (st_disk (i_store (w_idx w))) made) (w_saved w) [] (w_saved w)
  (* the caches may lose anything at any time *)
  | OEvict ks hs acc =>
      let x := w_idx w in
      World (Idx (i_store x) (filter (fun e => negb (existsb (keq (fst e)) ks)) (i_cache x)) (filter (fun e => negb (existsb (Z.eqb (fst e)) hs)) (i_confirm x))
                 (filter (fun a => negb (existsb (Z.eqb a) acc)) (i_accounts x)) (i_latest x)) (w_log w) (w_unc w) (w_saved w)
  end.
Definition w_new : world := World (open_idx [] []) [] [] [].
Inductive reach : world -> Prop :=
| R_new : reach w_new
| R_step w o : reach w -> allowed w o -> reach (step w o).
