(** Model of the quota window of the ledger cache: ledger/chain/cache/quota_list.go and its callers in
    cache/account_block.go, cache/snapshot_block.go, insert.go 47-68 and delete.go 76-203.
    A map element is an association list. The uint64 counters are unbounded here: they only sum the quota of blocks and
    would wrap after 10^13 blocks. backElement is always the last element of the list (build 229, moveNext 335, Reset 153),
    so it has no field of its own. *)
From Verif Require Import Lib QuotaModel.

(** the fields of ledger.AccountBlock the list uses *)
Record qblk := mkQblk { b_addr : Z; b_quota : Z; b_used : Z }.
Definition qzero : qinfo := mkQinfo 0 0 0.
Definition qplus (a b : qinfo) : qinfo := mkQinfo (qi_count a + qi_count b) (qi_total a + qi_total b) (qi_used a + qi_used b).
Definition qminus (a b : qinfo) : qinfo := mkQinfo (qi_count a - qi_count b) (qi_total a - qi_total b) (qi_used a - qi_used b).
Definition info (b : qblk) : qinfo := mkQinfo 1 (b_quota b) (b_used b).

(** map[types.Address]*quotaInfo *)
Definition elem := list (Z * qinfo).
Fixpoint eget (e : elem) (a : Z) : option qinfo :=
  match e with [] => None | (k, q) :: r => if k =? a then Some q else eget r a end.
Fixpoint eset (e : elem) (a : Z) (v : qinfo) : elem :=
  match e with [] => [(a, v)] | (k, q) :: r => if k =? a then (k, v) :: r else (k, q) :: eset r a v end.
Definition edel (e : elem) (a : Z) : elem := filter (fun kv => negb (fst kv =? a)) e.
Definition or_zero (o : option qinfo) : qinfo := match o with Some q => q | None => qzero end.
(** add 364-373; the same code inline at 128-136, 170-182, 264-279, 301-316 *)
Definition e_add (e : elem) (b : qblk) : elem := eset e (b_addr b) (qplus (or_zero (eget e (b_addr b))) (info b)).
(** sub 375-389 *)
Definition e_sub (e : elem) (b : qblk) : elem :=
  match eget e (b_addr b) with
  | None => e
  | Some q => if qi_count q <=? 1 then edel e (b_addr b) else eset e (b_addr b) (qminus q (info b))
  end.
(** newItem of a segment, build 264-280 *)
Definition item (blocks : list qblk) : elem := fold_left e_add blocks [].
(** aggregate 422-429 *)
Definition aggregate (e : elem) : qinfo := fold_left (fun acc kv => qplus acc (snd kv)) e qzero.

(** *list.Element as usedStart: nil; the element that is [w] from the back (1: the back itself); or an element that has
    been removed from the list, whose Next() is nil *)
Inductive ptr := PNil | PAt (w : nat) | PGone (e : elem).
Record qlist := mkQl { ql_list : list elem; ql_start : ptr; ql_global : qinfo }.
Definition used_height : nat := 75.
Definition list_max : nat := 600.
(** newQuotaList 37-52 *)
Definition ql_empty : qlist := mkQl [] PNil qzero.

Definition back (s : qlist) : elem := last (ql_list s) [].
(** the elements from usedStart to the end of the list *)
Definition window (s : qlist) : list elem :=
  match ql_start s with PNil => [] | PAt w => skipn (length (ql_list s) - w) (ql_list s) | PGone e => [e] end.
(** GetQuotaUsedList 75-98 *)
Definition used_list (s : qlist) (a : Z) : list qinfo := map (fun e => or_zero (eget e a)) (window s).
(** GetGlobalQuota 64-73 *)
Definition global_quota (s : qlist) : qinfo := fold_left (fun acc kv => qminus acc (snd kv)) (back s) (ql_global s).
(** replacing the value of the back element *)
Definition set_back (s : qlist) (e : elem) : list elem := removelast (ql_list s) ++ [e].
(** Add 100-109 *)
Definition ql_add (s : qlist) (b : qblk) : qlist :=
  mkQl (set_back s (e_add (back s) b)) (ql_start s) (qplus (ql_global s) (info b)).
(** Sub 111-120 *)
Definition ql_sub (s : qlist) (b : qblk) : qlist :=
  mkQl (set_back s (e_sub (back s) b)) (ql_start s) (qminus (ql_global s) (info b)).

(** moveNext 331-362 *)
Definition start_value (l : list elem) (p : ptr) : elem :=
  match p with PNil => [] | PAt w => nth (length l - w) l [] | PGone e => e end.
Definition move_next (s : qlist) (e : elem) : qlist :=
  let l := ql_list s ++ [e] in
  let p := match ql_start s with PNil => PAt 1 | PAt w => PAt (S w) | PGone x => PGone x end in
  if (length l <=? used_height)%nat then mkQl l p (ql_global s) else
  let g := fold_left (fun acc kv => qminus acc (snd kv)) (start_value l p) (ql_global s) in
  let p' := match p with PAt (S (S w)) => PAt (S w) | _ => PNil end in
  if (list_max <? length l)%nat
  then mkQl (tl l) (match p' with PAt w => if (w =? length l)%nat then PGone (hd [] l) else PAt w | q => q end) g
  else mkQl l p' g.

(** list.Remove(list.Back()) *)
Definition rm_back (s : qlist) : qlist :=
  mkQl (removelast (ql_list s))
       (match ql_start s with PAt (S (S w)) => PAt (S w) | PAt _ => PGone (back s) | q => q end) (ql_global s).
(** ResetUnconfirmedQuotas 122-159; the list is initialised *)
Definition ql_reset (s : qlist) (unconfirmed : list qblk) : qlist :=
  let e := item unconfirmed in
  let g := qplus (qminus (ql_global s) (aggregate (back s))) (aggregate e) in
  let s1 := rm_back s in
  mkQl (ql_list s1 ++ [e]) (match ql_start s1 with PAt w => PAt (S w) | q => q end) g.
(** NewNext 161-191; None is the nil dereference of backQi *)
Fixpoint confirm (bs : list qblk) (cur bk : elem) : option (elem * elem) :=
  match bs with
  | [] => Some (cur, bk)
  | b :: r =>
    match eget bk (b_addr b) with
    | None => None
    | Some q => confirm r (e_add cur b)
        (if qi_count q <=? 1 then edel bk (b_addr b) else eset bk (b_addr b) (qminus q (info b)))
    end
  end.
Definition new_next (s : qlist) (confirmed : list qblk) : option qlist :=
  match confirm confirmed [] (back s) with
  | None => None
  | Some (cur, bk) => Some (move_next (mkQl (set_back s cur) (ql_start s) (ql_global s)) bk)
  end.

(** resetUsedStart 409-420 and calculateGlobalUsed 391-407, run by build when the list is not empty *)
Definition finish (s : qlist) : qlist :=
  match ql_list s with
  | [] => s
  | _ :: _ =>
    let p := PAt (Nat.min used_height (length (ql_list s))) in
    let s' := mkQl (ql_list s) p (ql_global s) in
    mkQl (ql_list s) p (fold_left (fun acc e => fold_left (fun acc kv => qplus acc (snd kv)) e acc) (window s') qzero)
  end.
(** build 220-329. [snaps]: the blocks of each confirmed snapshot, oldest (genesis, height 1) first. GetSubLedger
    (snapshot_block.go 671-722) returns the chunks of the heights from start to end, both included: BlockDB.ReadRange
    (block/block_db.go 202-273) reads up to the location of the end block and then that block. GetSubLedgerAfterHeight
    (724-745) returns the chunks from start on. Errors of the disk are not modelled. *)
Definition build (s : qlist) (snaps : list (list qblk)) : qlist :=
  let L := length (ql_list s) in
  let H := length snaps in
  if (used_height <=? L)%nat then finish s else
  if (H <=? L)%nat then finish s else
  let end_ := (H + 1 - L)%nat in
  let lack := (list_max - L)%nat in
  let start := if (lack <? end_)%nat then (end_ - lack)%nat else 1%nat in
  match L with
  | O => finish (mkQl (map item (tl (skipn (start - 1) snaps))) (ql_start s) (ql_global s))
  | _ => finish (mkQl (map item (tl (firstn (Nat.min end_ H - start + 1) (skipn (start - 1) snaps))) ++ ql_list s) (ql_start s) (ql_global s))
  end.
(** init 54-62 *)
Definition ql_init (snaps : list (list qblk)) : qlist := move_next (build ql_empty snaps) [].
(** Rollback 193-218; [n]: number of deleted chunks. list.Init() for 600 chunks or more is modelled as removing every
    element (the chain deletes at most 121 chunks at a time, delete.go 39-52). *)
Fixpoint rm_backs (n : nat) (s : qlist) : qlist :=
  match n with O => s | S k => match ql_list s with [] => s | _ => rm_backs k (rm_back s) end end.
Definition ql_rollback (s : qlist) (n : nat) (snaps : list (list qblk)) : qlist :=
  match ql_list s with
  | [] => s
  | _ =>
    let s1 := match back s with [] => rm_back s | _ => s end in
    let s2 := rm_backs (if (list_max <=? n)%nat then length (ql_list s1) else n) s1 in
    move_next (build s2 snaps) []
  end.

(** ** The cache driven by the chain *)
(** [snaps]: blocks of the confirmed snapshots; [pend]: the unconfirmed blocks *)
Record qchain := mkQc { qc_snaps : list (list qblk); qc_pend : list qblk; qc_list : qlist }.
(** cache.InsertAccountBlock, account_block.go 8-13 and 63-75 *)
Definition qc_insert (c : qchain) (b : qblk) : qchain := mkQc (qc_snaps c) (qc_pend c ++ [b]) (ql_add (qc_list c) b).
(** cache.RollbackAccountBlocks, account_block.go 15-34; [rest]: what remains in the unconfirmed pool *)
Definition qc_delete (c : qchain) (bs rest : list qblk) : qchain :=
  mkQc (qc_snaps c) rest (fold_left ql_sub bs (qc_list c)).
(** chain.InsertSnapshotBlock, insert.go 47-68: the confirmed blocks leave the pool, invalid ones are deleted, and the
    pool is counted afresh *)
Definition qc_snapshot (c : qchain) (confirmed invalid rest : list qblk) : option qchain :=
  match new_next (qc_list c) confirmed with
  | None => None
  | Some l => Some (mkQc (qc_snaps c ++ [confirmed]) rest (ql_reset (fold_left ql_sub invalid l) rest))
  end.
(** deleteSnapshotBlocksToHeight, delete.go 76-203, cache part: the last [d] snapshots go; the unconfirmed blocks are one
    more deleted chunk (129-134); with a redo log ([keep]) the blocks of the first deleted snapshot become unconfirmed *)
Definition qc_rollback (c : qchain) (d : nat) (keep : bool) : qchain :=
  let m := (length (qc_snaps c) - d)%nat in
  let snaps := firstn m (qc_snaps c) in
  let pend := if keep then nth m (qc_snaps c) [] else [] in
  let n := match qc_pend c with [] => d | _ => S d end in
  mkQc snaps pend (fold_left ql_add pend (ql_rollback (qc_list c) n snaps)).
(** a node that starts: chain.go 382-415; unconfirmed blocks are not on disk *)
Definition qc_start (snaps : list (list qblk)) : qchain := mkQc snaps [] (ql_init snaps).
