(** What the block files are for: a log of bytes that grows at its end, can be cut back, and of
    which the part that was flushed survives. *)
From Verif Require Import Lib BlkModel.
Import ListNotations.

(** The byte of the log a location stands for; a file may be asked for at its end. *)
Definition pos (fs : Z) (l : loc) : Z := (l_id l - 1) * fs + l_off l.
Definition loc_ok (fs : Z) (l : loc) : Prop := 1 <= l_id l /\ 0 <= l_off l <= fs.

(** The log, what of it is on disk for good, and what is being flushed. *)
Record log := Log { g_now : list Z; g_disk : list Z; g_fly : option (list Z) }.
Inductive fop :=
| OWrite (b : list Z)        (* bytes are appended *)
| ODelete (l : loc)          (* the log is cut back *)
| OPrepare                   (* a flush begins *)
| OCancel                    (* and is given up *)
| OCommit                    (* or goes through *)
| OCrash                     (* the process ends and starts again *)
| OCrashIn (k j : nat).      (* ... in the middle of a commit, whose redo log is then used *)
Definition lstep (fs : Z) (g : log) (o : fop) : log :=
  match o with
  | OWrite b => Log (g_now g ++ b) (g_disk g) (g_fly g)
  | ODelete l => Log (firstn (Z.to_nat (pos fs l)) (g_now g)) (g_disk g) (g_fly g)
  | OPrepare => Log (g_now g) (g_disk g) (Some (g_now g))
  | OCancel => Log (g_now g) (g_disk g) None
  | OCommit => match g_fly g with Some t => Log (g_now g) t None | None => g end
  | OCrash => Log (g_disk g) (g_disk g) None
  | OCrashIn _ _ => match g_fly g with Some t => Log t t None | None => g end
  end.
Definition fstep (fs cl : Z) (s : fstate) (o : fop) : option fstate :=
  match o with
  | OWrite b => option_map snd (fm_write fs cl s b)
  | ODelete l => delete_to fs cl s l
  | OPrepare => prepare fs s
  | OCancel => Some (cancel s)
  | OCommit => commit fs s
  | OCrash => start fs cl (f_disk s)
  | OCrashIn k j =>
      match f_fly s with
      | Some (a, t, b) =>
          match flush fs s a t b with
          | Some (os, _) => recover fs cl (crashed (f_disk s) os k j) a t b
          | None => None
          end
      | None => None
      end
  end.
(** The oldest file in memory. *)
Definition oldest (s : fstate) : Z := i_id (last (f_items s) (Item 1 [] 0 false)).
(** While a flush is under way fewer than [cl] files may be in use beyond its first one, and the
    log must not be cut back into an earlier file.  Never may it be cut back beyond the file
    before the oldest one in memory; after a crash in a commit that is all but the newest file. *)
Definition allowed (fs cl : Z) (s : fstate) (g : log) (o : fop) : Prop :=
  match o with
  | OWrite b => match f_fly s with Some (a, _, _) => zlen (g_now g) + zlen b <= fs * (l_id a + cl - 1) | None => True end
  | ODelete l => loc_ok fs l /\ oldest s <= l_id l + 1 /\ match f_fly s with Some (a, _, _) => l_id a <= l_id l | None => True end
  | OPrepare => f_fly s = None
  | OCancel | OCommit => f_fly s <> None
  | OCrash => True
  | OCrashIn k j =>
      match f_fly s with
      | Some (a, t, b) =>
          match flush fs s a t b with
          | Some (os, _) => last_id (crashed (f_disk s) os k j) <= l_id a + 1
          | None => True
          end
      | None => False
      end
  end.
Inductive reach (fs cl : Z) : fstate -> log -> Prop :=
| R_new s : start fs cl [] = Some s -> reach fs cl s (Log [] [] None)
| R_step s g o s' : reach fs cl s g -> allowed fs cl s g o -> fstep fs cl s o = Some s' -> reach fs cl s' (lstep fs g o).

(** Blocks in a log: their bytes one after the other; the kind of a block is 1 or 2 and its
    compressed form is not empty and shorter than 2^32 - 1 bytes. *)
Definition unit_ok (u : unit_) : Prop := (fst u = 1 \/ fst u = 2) /\ snd u <> [] /\ zlen (snd u) + 1 < 2 ^ 32 /\ bytes_ok (snd u).
Definition bytes_of (us : list unit_) : list Z := concat (map frame us).
(** Blocks in chunks: a snapshot block ends one. *)
Definition unchunk (cs : list (list (list Z) * option (list Z))) : list unit_ :=
  concat (map (fun c => map (fun b => (1, b)) (fst c) ++ match snd c with Some b => [(2, b)] | None => [] end) cs).
(** ... and the blocks are all in chunks, only the last of which may lack its snapshot block. *)
Definition chunked (cs : list (list (list Z) * option (list Z))) (us : list unit_) : Prop :=
  unchunk cs = us /\ Forall (fun c => snd c <> None) (removelast cs) /\ Forall (fun c => c <> ([], None)) cs.
