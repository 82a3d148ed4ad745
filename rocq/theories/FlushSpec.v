(** What readers and restarts must see, stated on plain maps. *)
From Verif Require Import Lib FlushModel.

(** a batch changes a key *)
Definition touches (b : list wop) (k : list Z) : Prop := exists o, In o b /\ wkey o = k.
Definition apart (a b : list wop) : Prop := forall k, touches a k -> touches b k -> False.

(** How the ledger databases use a store. *)
(** A batch of the snapshot leaves the queue of unconfirmed batches: no batch written before it, and not leaving with it or
    earlier, changes a key it changes. *)
Fixpoint keeps_order (hs : list Z) (u : list (option Z * list wop)) : Prop :=
  match hs with
  | [] => True
  | h :: r => (forall a e b, u = a ++ e :: b -> is_hash h e = true -> apart (unc_all a) (snd e)) /\ keeps_order r (unc_rm h u)
  end.
(** the batches of these blocks *)
Fixpoint batches (hs : list Z) (u : list (option Z * list wop)) : list wop :=
  match hs with [] => [] | h :: r => match unc_get h u with Some b => b | None => [] end ++ batches r (unc_rm h u) end.

Inductive sphase := SIdle | SPrep (target : kv) | SDone (target : kv).
(** [sreach s p ref conf dur]: [s] is reachable; a reader must see [ref]; [conf] is what is confirmed; [dur] is what a
    restart must show *)
Inductive sreach : store -> sphase -> kv -> kv -> kv -> Prop :=
| s_open d : sreach (open_store d) SIdle d d d
| s_direct s p r c d b : sreach s p r c d -> apart (unc_all (st_unc s)) b ->
    sreach (write_direct s b) p (apply b r) (apply b c) d
| s_block s p r c d h b : sreach s p r c d -> sreach (write_block s h b) p (apply b r) c d
| s_snapshot s p r c d b hs s' : sreach s p r c d -> write_snapshot s b hs = Some s' ->
    keeps_order hs (st_unc s) -> apart (unc_all (st_unc s')) b ->
    sreach s' p (apply b r) (apply b (apply (batches hs (st_unc s)) c)) d
| s_undo s p r c d b hs : sreach s p r c d ->
    (forall k, apply b r k = apply (unc_all (fold_left (fun u h => unc_rm h u) hs (st_unc s))) c k) ->   (* b undoes the batches of hs *)
    sreach (rollback_blocks s b hs) p (apply b r) c d
| s_rollback s p r c d b : sreach s p r c d -> sreach (rollback_snapshot s b) p (apply b r) (apply b r) d
| s_prepare s r c d s' : sreach s SIdle r c d -> prepare s = Some s' -> sreach s' (SPrep c) r c d
| s_cancel s t r c d : sreach s (SPrep t) r c d -> sreach (cancel s) SIdle r c d
| s_commit s t r c d : sreach s (SPrep t) r c d -> sreach (commit s) (SDone t) r c t
| s_after s t r c d : sreach s (SDone t) r c d -> sreach (after_commit s) SIdle r c d
| s_restart s p r c d : sreach s p r c d -> sreach (restart s) SIdle d d d.

(** ** Several databases *)
(** what a database must hold after these flushes *)
Definition absorb {D} (dpatch : list Z -> D -> D) (id : list Z) (gens : list (list (list Z * list Z))) (d : D) : D :=
  fold_left (fun d g => fold_left (fun d e => if zlist_eqb (fst e) id then dpatch (snd e) d else d) g d) gens d.
(** what makes a database usable by the flusher *)
Record disk_ok {D} (eqv : D -> D -> Prop) (dpatch : list Z -> D -> D) (torn : list Z -> D -> D -> Prop) : Prop := mkDok {
  do_refl : forall d, eqv d d;
  do_sym : forall d e, eqv d e -> eqv e d;
  do_trans : forall d e f, eqv d e -> eqv e f -> eqv d f;
  do_proper : forall l d e, eqv d e -> eqv (dpatch l d) (dpatch l e);
  do_again : forall l d, eqv (dpatch l (dpatch l d)) (dpatch l d);       (* redoing a write changes nothing *)
  do_torn : forall l d d', torn l d d' -> eqv (dpatch l d') (dpatch l d);  (* redoing completes an interrupted write *)
  do_empty : forall d, eqv (dpatch [] d) d }.
(** ids are hashes of distinct names, none of which is the flag's *)
Record ids_ok (flag : list Z) (ids : list (list Z)) : Prop := mkIok {
  io_len : Forall (fun i => length i = hash_size) ids; io_flag : length flag = hash_size; io_nodup : NoDup ids; io_notin : ~ In flag ids }.
Inductive freach {D} (dpatch : list Z -> D -> D) torn flag ids (ds0 : list D) : fstate -> Prop :=
| fr_init : length ds0 = length ids -> freach dpatch torn flag ids ds0 (mkF ds0 [] Idle [] [])
| fr_step s s' : freach dpatch torn flag ids ds0 s -> fstep dpatch torn flag ids s s' -> freach dpatch torn flag ids ds0 s'.

(** ** Two kinds of database *)
(** leveldb (index, state, redo and plugin databases): a batch is written as a whole *)
Definition kv_patch (l : list Z) (d : kv) : kv := match load l with Some ops => apply ops d | None => d end.
Definition kv_eqv (d e : kv) : Prop := forall k, d k = e k.
Definition kv_torn (l : list Z) (d d' : kv) : Prop := d' = d \/ d' = kv_patch l d.

(** the databases of a node: leveldb databases and the block files *)
Definition node_patch (size : Z) (l : list Z) (d : kv + list Z) : kv + list Z :=
  match d with inl m => inl (kv_patch l m) | inr f => inr (file_patch size l f) end.
Definition node_eqv (d e : kv + list Z) : Prop :=
  match d, e with inl m, inl n => kv_eqv m n | inr f, inr g => f = g | _, _ => False end.
Definition node_torn (size : Z) (l : list Z) (d e : kv + list Z) : Prop :=
  match d, e with inl m, inl n => kv_torn l m n | inr f, inr g => file_torn size l f g | _, _ => False end.

(** [until_idle s s']: the flusher goes from [s] to [s'], where it is idle for the first time *)
Inductive until_idle {D} (dpatch : list Z -> D -> D) torn flag ids : fstate -> fstate -> Prop :=
| ui_here s : fs_phase s = Idle -> until_idle dpatch torn flag ids s s
| ui_step s s1 s2 : fs_phase s <> Idle -> fstep dpatch torn flag ids s s1 -> until_idle dpatch torn flag ids s1 s2 -> until_idle dpatch torn flag ids s s2.
