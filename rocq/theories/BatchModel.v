(** Model of the insertion batches of the block pool: putting blocks into levels and
    buckets, and the parallel workers that insert them (ledger/pool/batch, and the
    parts of ledger/pool that feed it). *)
From Coq Require Import ZArith List Bool Lia Permutation.
From Verif Require Import Lib.
Import ListNotations.
Open Scope Z_scope.

(** batch.go:63-73, Item.  Hashes and addresses are integers.  [i_owner] is None for a
    snapshot block; [i_keys], [i_refs] and [i_snap] are the results of ReferHashes. *)
Record item := mkI {
  i_hash : Z; i_prev : Z; i_owner : option Z;
  i_keys : list Z; i_refs : list Z; i_snap : option Z
}.

(** The blocks of the pool and their ReferHashes. *)
Record ablock := mkAB {
  ab_hash : Z; ab_prev : Z; ab_height : Z; ab_addr : Z;
  ab_receive : bool; ab_from : Z; ab_sends : list Z   (* hashes of SendBlockList *)
}.
Record sblock := mkSB { sb_hash : Z; sb_prev : Z; sb_height : Z; sb_content : list Z }.
(** account_pool.go:61-75 *)
Definition account_item (b : ablock) : item :=
  mkI (ab_hash b) (ab_prev b) (Some (ab_addr b))
      (ab_hash b :: ab_sends b)
      ((if ab_receive b then [ab_from b] else []) ++ (if 1 <? ab_height b then [ab_prev b] else []))
      None.
(** snapshot_pool.go:54-64 *)
Definition snapshot_item (b : sblock) : item :=
  mkI (sb_hash b) (sb_prev b) None [sb_hash b] (sb_content b)
      (if 1 <? sb_height b then Some (sb_prev b) else None).

(** bucket.go:9-13 (last is the length minus one); level.go:5-9; level_account.go:9-13
    (the map from addresses to buckets is an association list); level_snapshot.go:9-12
    (one bucket without an owner).  The snapshot hash kept by an account level is only
    used to blacklist it after a failure and is left out. *)
Record level := mkL { l_snap : bool; l_closed : bool; l_bs : list (option Z * list item) }.
(** level.go:34-40, newLevel *)
Definition new_level (snap : bool) : level := mkL snap false (if snap then [(None, [])] else []).
(** bucket.go:23-41, add; None is the error "prev and hash". *)
Definition badd (b : list item) (x : item) : option (list item) :=
  match rev b with
  | [] => Some [x]
  | y :: _ => if i_hash y =? i_prev x then Some (b ++ [x]) else None
  end.
Definition oeqb (a b : option Z) : bool :=
  match a, b with
  | None, None => true
  | Some x, Some y => x =? y
  | _, _ => false
  end.
(** level_account.go:35-45 and level_snapshot.go:18-23, Add, for a level that is open. *)
Fixpoint ladd (bs : list (option Z * list item)) (x : item) : option (list (option Z * list item)) :=
  match bs with
  | [] => Some [(i_owner x, [x])]
  | (o, b) :: r =>
    if oeqb o (i_owner x) then match badd b x with Some b1 => Some ((o, b1) :: r) | None => None end
    else match ladd r x with Some r1 => Some ((o, b) :: r1) | None => None end
  end.

(** batch_impl.go:14-25, batchSnapshot.  [b_all] maps a key to owner and level, the
    latest entry first.  Of the array [ls], allocated with maxLevel entries, [b_ls] is
    the part that has been filled; [put_level] shows that it is filled in order. *)
Record batch := mkB {
  b_cur : Z; b_last : Z; b_all : list (Z * (option Z * Z)); b_ls : list level; b_max : Z
}.
(** batch_impl.go:77-84, NewBatch *)
Definition new_batch (max : Z) : batch := mkB (-1) (-1) [] [] max.
Fixpoint lookup (k : Z) (l : list (Z * (option Z * Z))) : option (option Z * Z) :=
  match l with [] => None | (k', v) :: r => if k =? k' then Some v else lookup k r end.
Definition get_level (i : Z) (ls : list level) : option level :=
  if i <? 0 then None else nth_error ls (Z.to_nat i).
(** ls[i] = l; None when the entries before i are not all filled. *)
Fixpoint put_nth (i : nat) (l : level) (ls : list level) : option (list level) :=
  match ls, i with
  | [], O => Some [l]
  | _ :: r, O => Some (l :: r)
  | [], S _ => None
  | x :: r, S i => match put_nth i l r with Some r1 => Some (x :: r1) | None => None end
  end.
Definition put_level (i : Z) (l : level) (ls : list level) : option (list level) :=
  if i <? 0 then None else put_nth (Z.to_nat i) l ls.
(** batch_impl.go:250-254, addToAll *)
Definition add_all (keys : list Z) (v : option Z * Z) (l : list (Z * (option Z * Z))) :=
  fold_left (fun l k => (k, v) :: l) keys l.

Inductive outcome := Added (b : batch) | Failed (b : batch) | Panic.

(** level.go:15-20, Close, for the levels from [i] down to [last + 1]
    (batch_impl.go:165-167); None is the panic. *)
Definition close (l : level) : option level :=
  if l_closed l then None else Some (mkL (l_snap l) true (l_bs l)).
Fixpoint close_down (n : nat) (i : Z) (ls : list level) : option (list level) :=
  match n with
  | O => Some ls
  | S n =>
    match get_level i ls with
    | None => None
    | Some l => match close l with
                | None => None
                | Some l1 => match put_level i l1 ls with
                             | None => None
                             | Some ls1 => close_down n (i - 1) ls1
                             end
                end
    end
  end.

(** Adding to level [max] and the bookkeeping that follows, common to both kinds. *)
Definition add_at (b : batch) (ls : list level) (max : Z) (x : item) : option (bool * list level) :=
  match get_level max ls with
  | None => None
  | Some l =>
    if l_closed l then None
    else match ladd (l_bs l) x with
         | None => Some (false, ls)
         | Some bs => match put_level max (mkL (l_snap l) false bs) ls with
                      | None => None
                      | Some ls1 => Some (true, ls1)
                      end
         end
  end.

(** batch_impl.go:117-170, addSnapshotItem.  [exA] and [exS] say which account and
    snapshot blocks are on the chain at this moment. *)
Definition known (b : batch) (ex : Z -> bool) (r : Z) : bool :=
  match lookup r (b_all b) with Some _ => true | None => ex r end.
Definition add_snapshot (b : batch) (exA exS : Z -> bool) (x : item) : outcome :=
  if negb (forallb (known b exA) (i_refs x)) then Failed b
  else if negb (match i_snap x with None => true | Some s => known b exS s end) then Failed b
  else
    let max := if b_cur b <? 0 then 0 else b_cur b in
    match (if b_cur b <? 0 then put_level 0 (new_level true) (b_ls b) else Some (b_ls b)) with
    | None => Panic
    | Some ls =>
      match get_level max ls with
      | None => Panic
      | Some tmp =>
        if negb (l_snap tmp) && (b_max b - 1 <? b_cur b + 1) then Failed b
        else
          let max1 := if l_snap tmp then max else b_cur b + 1 in
          match (if l_snap tmp then Some ls else put_level max1 (new_level true) ls) with
          | None => Panic
          | Some ls1 =>
            match add_at b ls1 max1 x with
            | None => Panic
            | Some (ok, ls2) =>
              match close_down (Z.to_nat (max1 - 1 - b_last b)) (max1 - 1) ls2 with
              | None => Panic
              | Some ls3 =>
                let b1 := mkB (if b_cur b <? max1 then max1 else b_cur b) max1
                              (if ok then add_all (i_keys x) (i_owner x, max1) (b_all b) else b_all b)
                              ls3 (b_max b) in
                if ok then Added b1 else Failed b1
              end
            end
          end
      end
    end.

(** batch_impl.go:177-208, the level an account block has to go to. *)
Inductive place := PLevel (max : Z) | PMissing | PMax | PPanic.
Fixpoint find_level (b : batch) (exA : Z -> bool) (owner : Z) (refs : list Z) (max : Z) : place :=
  match refs with
  | [] => PLevel max
  | r :: rest =>
    match lookup r (b_all b) with
    | None => if exA r then find_level b exA owner rest max else PMissing
    | Some (ow, ln) =>
      match get_level ln (b_ls b) with
      | None => PPanic
      | Some lv =>
        if l_closed lv then find_level b exA owner rest max
        else if ln <? max then
          (if b_max b - 1 <? max then PMax else find_level b exA owner rest max)
        else
          match ow with
          | None => PPanic
          | Some o =>
            let m := if o =? owner then ln else ln + 1 in
            if b_max b - 1 <? m then PMax else find_level b exA owner rest m
          end
      end
    end
  end.
(** batch_impl.go:172-248, addAccountItem; [owner] is the item's owner. *)
Definition add_account (b : batch) (exA : Z -> bool) (x : item) (owner : Z) : outcome :=
  match find_level b exA owner (i_refs x) (-1) with
  | PPanic => Panic
  | PMissing | PMax => Failed b
  | PLevel m =>
    let max := if m <? 0 then b_last b + 1 else m in
    if b_max b - 1 <? max then Failed b
    else
      let target :=       (* the level used, and whether it is new; None: no room *)
        if b_cur b <? max then Some (max, true)
        else if 0 <=? b_cur b then
          match get_level (b_cur b) (b_ls b) with
          | Some tmp =>
            if l_snap tmp then
              (if b_max b - 1 <? b_cur b + 1 then None else Some (b_cur b + 1, true))
            else Some (if max <? b_cur b then max else b_cur b, false)
          | None => Some (-1, false)
          end
        else Some (0, true) in
      match target with
      | None => Failed b
      | Some (i, fresh) =>
        (* max stays as computed when ls[current] is used *)
        let max1 := if fresh then i else max in
        match (if fresh then put_level i (new_level false) (b_ls b) else Some (b_ls b)) with
        | None => Panic
        | Some ls =>
          match add_at b ls i x with
          | None => Panic
          | Some (ok, ls1) =>
            let b1 := mkB (if b_cur b <? max1 then max1 else b_cur b) (b_last b)
                          (if ok then add_all (i_keys x) (i_owner x, max1) (b_all b) else b_all b)
                          ls1 (b_max b) in
            if ok then Added b1 else Failed b1
          end
        end
      end
  end.
(** batch_impl.go:101-115, AddSItem and AddAItem *)
Record add_op := mkOp { op_x : item; op_exA : Z -> bool; op_exS : Z -> bool }.
Definition add (b : batch) (o : add_op) : outcome :=
  match i_owner (op_x o) with
  | None => add_snapshot b (op_exA o) (op_exS o) (op_x o)
  | Some w => add_account b (op_exA o) (op_x o) w
  end.
Fixpoint adds (b : batch) (l : list add_op) : option batch :=
  match l with
  | [] => Some b
  | o :: r => match add b o with
              | Added b1 | Failed b1 => adds b1 r
              | Panic => None
              end
  end.

(** batch_executor_impl.go: the execution, as a transition system.  A worker is idle,
    busy with the rest of a bucket, or has returned. *)
Inductive worker := Idle | Busy (rest : list item) | Gone.
Record exec := mkX {
  x_todo : list level;                                       (* levels not started yet *)
  x_run : option (list worker * list (list item) * bool);    (* workers, channel, globalErr <> nil *)
  x_stop : bool;                                             (* execute returned an error *)
  x_out : list item                                          (* blocks inserted so far *)
}.
Fixpoint set_w (n : nat) (w : worker) (l : list worker) : list worker :=
  match l, n with
  | [], _ => []
  | _ :: r, O => w :: r
  | x :: r, S n => x :: set_w n w r
  end.
(** batch_executor_impl.go:81: N = min(lenBs, maxParallel); a snapshot level is inserted
    by the calling routine (55-74). *)
Definition workers_for (l : level) : nat :=
  if l_snap l then 1%nat else Nat.min (length (l_bs l)) 5.
(** One step of one routine.  The callbacks insert the blocks of a bucket one after the
    other and stop at the first that fails (account_pool.go:388-427,
    snapshot_pool.go:251-287); any block may fail.  Go's map iteration puts the buckets
    into the channel in any order.  The unsynchronised read of globalErr may see an old
    value, so a worker may go on after an error. *)
Inductive estep : exec -> exec -> Prop :=
| E_start l todo out bs :                                    (* 32-41, 81-90, 108-116 *)
    Permutation bs (map snd (l_bs l)) ->
    estep (mkX (l :: todo) None false out)
          (mkX todo (Some (repeat Idle (workers_for l), bs, false)) false out)
| E_take todo ws n b q err out :                             (* 93, 97 *)
    nth_error ws n = Some Idle ->
    estep (mkX todo (Some (ws, b :: q, err)) false out)
          (mkX todo (Some (set_w n (Busy b) ws, q, err)) false out)
| E_see todo ws n b q out :                                  (* 94-96 *)
    nth_error ws n = Some Idle ->
    estep (mkX todo (Some (ws, b :: q, true)) false out)
          (mkX todo (Some (set_w n Gone ws, q, true)) false out)
| E_insert todo ws n x r q err out :                         (* 97 *)
    nth_error ws n = Some (Busy (x :: r)) ->
    estep (mkX todo (Some (ws, q, err)) false out)
          (mkX todo (Some (set_w n (Busy r) ws, q, err)) false (out ++ [x]))
| E_fail todo ws n x r q err out :                           (* 99-103 *)
    nth_error ws n = Some (Busy (x :: r)) ->
    estep (mkX todo (Some (ws, q, err)) false out)
          (mkX todo (Some (set_w n Gone ws, q, true)) false out)
| E_next todo ws n q err out :                               (* back to the loop *)
    nth_error ws n = Some (Busy []) ->
    estep (mkX todo (Some (ws, q, err)) false out)
          (mkX todo (Some (set_w n Idle ws, q, err)) false out)
| E_quit todo ws n err out :                                 (* the channel is closed and empty *)
    nth_error ws n = Some Idle ->
    estep (mkX todo (Some (ws, [], err)) false out)
          (mkX todo (Some (set_w n Gone ws, [], err)) false out)
| E_done todo ws q err out :                                 (* 117-134, 37-41 *)
    Forall (fun w => w = Gone) ws ->
    estep (mkX todo (Some (ws, q, err)) false out)
          (mkX todo None err out).
Inductive esteps : exec -> exec -> Prop :=
| es_refl x : esteps x x
| es_step x y z : esteps x y -> estep y z -> esteps x z.
(** batch_impl.go:256-259, 90-99 *)
Definition start (b : batch) : exec := mkX (b_ls b) None false [].
