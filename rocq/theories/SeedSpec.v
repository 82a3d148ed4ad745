(** What is expected of random seeds, stated on the chain alone. *)
From Coq Require Import ZArith List Bool Lia.
From Verif Require Import Lib SeedModel.
Import ListNotations.
Open Scope Z_scope.

(** Every block names its predecessor, and no two blocks have the same hash. *)
Definition linked (c : list header) : Prop :=
  (forall i x y, nth_error c i = Some x -> nth_error c (S i) = Some y -> hd_prev y = hd_hash x) /\ NoDup (map hd_hash c).
Definition seeds_ok (c : list header) : Prop := Forall (fun x => is_u64 (hd_seed x)) c.
(** The block at a height and the 600 before it, newest first. *)
Definition recent (c : list header) (h : Z) : list header :=
  rev (skipn (Z.to_nat (h - 601)) (firstn (Z.to_nat h) c)).
(** Of blocks given newest first: the newest one of each producer that reveals a seed. *)
Fixpoint reveals (l : list header) : list header :=
  match l with
  | [] => []
  | x :: r => if hd_seed x =? 0 then reveals r
              else x :: filter (fun y => negb (hd_producer y =? hd_producer x)) (reveals r)
  end.
Definition total (l : list header) : Z := fold_right (fun x s => hd_seed x + s) 0 l.

(** [opened H newer x k]: among the newer blocks, one of the same producer that itself carries
    a commitment reveals a seed that opens the commitment [k] of [x]. *)
Definition opened (H : list Z -> list Z) (newer : list header) (x : header) (k : list Z) : Prop :=
  exists y, In y newer /\ hd_producer y = hd_producer x /\ hd_commit y <> None /\
    seed_hash H (hd_seed y) (hd_prev x) (hd_time x) = k.
(** [open_at H producer before newer x]: a commitment of the producer from before a time,
    not opened by a newer block. *)
Definition open_at (H : list Z -> list Z) (producer before : Z) (newer : list header) (x : header) : Prop :=
  hd_producer x = producer /\ hd_time x < before /\ exists k, hd_commit x = Some k /\ ~ opened H newer x k.
(** The newest open commitment within the last 601 blocks. *)
Definition newest_open (H : list Z -> list Z) (c : list header) (producer before : Z) (x : header) : Prop :=
  exists newer older, recent c (zlen c) = newer ++ x :: older /\ open_at H producer before newer x /\
    forall n1 y n2, newer = n1 ++ y :: n2 -> ~ open_at H producer before n1 y.
(** The revealed seed opens that commitment. *)
Definition matches_commitment (H : list Z -> list Z) (c : list header) (b : header) (period : Z) : Prop :=
  exists x k, newest_open H c (hd_producer b) period x /\ hd_commit x = Some k /\
    seed_hash H (hd_seed b) (hd_prev x) (hd_time x) = k.
Definition with_seed (b : header) (s : Z) : header :=
  Hd (hd_hash b) (hd_prev b) (hd_time b) s (hd_commit b) (hd_producer b).
(** Number of blocks revealing a seed between two heights. *)
Definition reveal_count (c : list header) (first last : Z) : Z :=
  zlen (filter (fun x => negb (hd_seed x =? 0)) (skipn (Z.to_nat (first - 1)) (firstn (Z.to_nat last) c))).
