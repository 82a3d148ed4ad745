(** * The tree of candidate chains kept by the block pool (ledger/pool/tree)

    One tree belongs to one chain: the snapshot chain or one account's chain.
    Branch objects live in a heap and point to each other by identifier. A
    branch pointer of the code (interface Branch, tree.go 29-44) is a [ref]:
    either the ledger ([Disk]) or a branch of the heap ([Node]).

    Simplifications: hashes are integers compared for equality only; heights do
    not wrap at 2^64 and branch numbers do not wrap at 2^32; locks are left out
    (every caller in ledger/pool holds chainHeadMu and chainTailMu); logging is
    left out; [utime] is an argument of the one function that reads it. A nil
    pointer or a call to panic gives [None] (or [Panic]). *)
From Coq Require Import ZArith List Bool Lia.
From Verif Require Import Lib.
Import ListNotations.
Local Open Scope Z_scope.

(** ** Maps with integer keys *)
Fixpoint mget {A} (k : Z) (l : list (Z * A)) : option A :=
  match l with [] => None | (k', v) :: r => if k =? k' then Some v else mget k r end.
Fixpoint mdel {A} (k : Z) (l : list (Z * A)) : list (Z * A) :=
  match l with [] => [] | (k', v) :: r => if k =? k' then mdel k r else (k', v) :: mdel k r end.
Definition mset {A} (k : Z) (v : A) (l : list (Z * A)) : list (Z * A) := (k, v) :: mdel k l.
(** Sets of integers *)
Definition sin (k : Z) (l : list Z) : bool := existsb (Z.eqb k) l.
Definition sdel (k : Z) (l : list Z) : list Z := filter (fun x => negb (x =? k)) l.
Definition sadd (k : Z) (l : list Z) : list Z := k :: sdel k l.

(** ** Data *)
(** tree.go 16-20 (Knot): a block of this chain *)
Record knot := mkknot { k_height : Z; k_hash : Z; k_prev : Z }.
(** tree.go 9-14 (BranchType) with the pointer itself *)
Inductive ref := Disk | Node (x : Z).
(** branch_base.go 11-22 (branchBase) and branch.go 13-20 (branch). The id is
    the key in the heap; utime is left out. *)
Record br := mkbr {
  b_blocks : list (Z * knot);   (* heightBlocks *)
  b_head : Z; b_headX : Z;      (* headHeight, headHash *)
  b_tail : Z; b_tailX : Z;      (* tailHeight, tailHash *)
  b_root : ref;
  b_kids : list Z }.            (* children, by id *)
(** tree_impl.go 14-26 (tree). [t_heap] is the Go heap restricted to branches;
    [t_disk] is the ledger's own chain, oldest block first, which the field
    root reads (ledger/pool/branch_chain.go 13-19). *)
Record tree := mktree {
  t_heap : list (Z * br);
  t_list : list Z;              (* branchList, by id *)
  t_main : Z;
  t_next : Z;                   (* idIdx *)
  t_hashes : list Z;            (* hashes *)
  t_disk : list knot }.

Definition set_heap (t : tree) h := mktree h (t_list t) (t_main t) (t_next t) (t_hashes t) (t_disk t).
Definition set_list (t : tree) l := mktree (t_heap t) l (t_main t) (t_next t) (t_hashes t) (t_disk t).
Definition set_main (t : tree) m := mktree (t_heap t) (t_list t) m (t_next t) (t_hashes t) (t_disk t).
Definition set_next (t : tree) n := mktree (t_heap t) (t_list t) (t_main t) n (t_hashes t) (t_disk t).
Definition set_hashes (t : tree) s := mktree (t_heap t) (t_list t) (t_main t) (t_next t) s (t_disk t).
Definition set_disk (t : tree) d := mktree (t_heap t) (t_list t) (t_main t) (t_next t) (t_hashes t) d.
Definition set_root (b : br) r := mkbr (b_blocks b) (b_head b) (b_headX b) (b_tail b) (b_tailX b) r (b_kids b).
Definition set_kids (b : br) l := mkbr (b_blocks b) (b_head b) (b_headX b) (b_tail b) (b_tailX b) (b_root b) l.

Definition bget (t : tree) (x : Z) : option br := mget x (t_heap t).
Definition bput (t : tree) (x : Z) (b : br) : tree := set_heap t (mset x b (t_heap t)).
Definition bind {A B} (o : option A) (f : A -> option B) : option B :=
  match o with Some a => f a | None => None end.
Notation "'do' x <- e ; f" := (bind e (fun x => f)) (at level 200, x name, e at level 100, f at level 200).
Notation "'let2' ( x , y ) <- e ; f" := (bind e (fun p => let (x, y) := p in f)) (at level 200, x name, y name, e at level 100, f at level 200).

(** branch_base.go 24-26 *)
Definition size (b : br) : Z := b_head b - b_tail b.
(** branch_base.go 77-86 (addHead): only the previous hash is checked *)
Definition add_head (b : br) (k : knot) : option br :=
  if b_headX b =? k_prev k
  then Some (mkbr (mset (k_height k) k (b_blocks b)) (k_height k) (k_hash k) (b_tail b) (b_tailX b) (b_root b) (b_kids b))
  else None.
(** branch_base.go 95-107 (removeTail) *)
Definition remove_tail (b : br) (k : knot) : option br :=
  if negb (b_tailX b =? k_prev k) then None
  else if k_height k >? b_head b then None
  else Some (mkbr (mdel (k_height k) (b_blocks b)) (b_head b) (b_headX b) (k_height k) (k_hash k) (b_root b) (b_kids b)).
(** branch_base.go 109-121 (removeHead) *)
Definition remove_head (b : br) (k : knot) : option br :=
  if negb (b_headX b =? k_hash k) then None
  else if k_height k <=? b_tail b then None
  else Some (mkbr (mdel (k_height k) (b_blocks b)) (k_height k - 1) (k_prev k) (b_tail b) (b_tailX b) (b_root b) (b_kids b)).
(** branch_base.go 123-132 (addTail) *)
Definition add_tail (b : br) (k : knot) : option br :=
  if b_tailX b =? k_hash k
  then Some (mkbr (mset (k_height k) k (b_blocks b)) (b_head b) (b_headX b) (k_height k - 1) (k_prev k) (b_root b) (b_kids b))
  else None.

(** ** Reading *)
(** ledger/pool/branch_chain.go 69-71: the ledger's block at a height. Both
    chains have one at every height from their base (the genesis snapshot block;
    the empty block of height 0 of an account, tools_chain.go 95-110) to the head. *)
Definition disk_get (t : tree) (h : Z) : option knot := find (fun k => k_height k =? h) (t_disk t).
(** ledger/pool/branch_chain.go 82-102 *)
Definition disk_head (t : tree) : knot := last (t_disk t) (mkknot 0 0 0).
(** Branch.GetKnot(height, false): branch_base.go 50-59; the ledger ignores the flag *)
Definition local (t : tree) (rf : ref) (h : Z) : option knot :=
  match rf with Disk => disk_get t h | Node x => do b <- bget t x; mget h (b_blocks b) end.
(** The loop of branch.go 227-256 (getKnotAndBranch) with its map of branches
    already seen. [fuel] bounds the loop: each round adds a new branch to the map. *)
Fixpoint climb (fuel : nat) (t : tree) (seen : list Z) (rf : ref) (h : Z) : option (knot * ref) :=
  match fuel with
  | O => None
  | S f =>
    match local t rf h with
    | Some k => Some (k, rf)
    | None =>
      match rf with
      | Disk => None
      | Node x => if sin x seen then None
                  else do b <- bget t x; climb f t (x :: seen) (b_root b) h
      end
    end
  end.
Definition fuel_of (t : tree) : nat := S (S (length (t_heap t))).
(** branch.go 26-28, 227-256 (GetKnotAndBranch); ledger/pool/branch_chain.go 47-49 *)
Definition knot_and_branch (t : tree) (rf : ref) (h : Z) : option (knot * ref) :=
  match rf with
  | Disk => do k <- disk_get t h; Some (k, Disk)
  | Node x =>
    do b <- bget t x;
    if h >? b_head b then None
    else match mget h (b_blocks b) with
         | Some k => Some (k, Node x)
         | None => climb (fuel_of t) t [] (b_root b) h
         end
  end.
(** branch.go 56-62, 294-304 (GetKnot); ledger/pool/branch_chain.go 69-71 *)
Definition get_knot (t : tree) (rf : ref) (h : Z) (flag : bool) : option knot :=
  match local t rf h with
  | Some k => Some k
  | None => if flag then do r <- knot_and_branch t rf h; Some (fst r) else None
  end.
(** branch.go 322-333 *)
Definition local_contains (b : br) (h x : Z) : bool :=
  if (h >? b_tail b) && (h <=? b_head b)
  then match mget h (b_blocks b) with Some k => k_hash k =? x | None => false end
  else false.
(** branch.go 52-54, 306-320 (ContainsKnot). The ledger's own panics
    (ledger/pool/branch_chain.go 77-80). *)
Definition contains (t : tree) (rf : ref) (h x : Z) (flag : bool) : option bool :=
  match rf with
  | Disk => None
  | Node y =>
    do b <- bget t y;
    if local_contains b h x then Some true
    else if flag
         then match get_knot t (b_root b) h true with Some k => Some (k_hash k =? x) | None => Some false end
         else Some false
  end.
(** branch.go 375-382 *)
Definition linked (t : tree) (b : br) : bool :=
  (b_tail b =? k_height (disk_head t)) && (b_tailX b =? k_hash (disk_head t)).
(** branch.go 432-437 *)
Definition tail_equals (a b : br) : bool := (b_tail a =? b_tail b) && (b_tailX a =? b_tailX b).

(** ** Parents and children *)
(** branch.go 349-354 *)
Definition remove_child (t : tree) (x y : Z) : option tree :=
  do b <- bget t x; Some (bput t x (set_kids b (sdel y (b_kids b)))).
(** branch.go 357-362 *)
Definition add_child (t : tree) (x y : Z) : option tree :=
  do b <- bget t x; Some (bput t x (set_kids b (sadd y (b_kids b)))).
(** branch.go 191-200 *)
Definition update_root_simple (t : tree) (x : Z) (old new : ref) : option tree :=
  do t1 <- match old with Node o => remove_child t o x | Disk => Some t end;
  do b <- bget t1 x;
  let t2 := bput t1 x (set_root b new) in
  match new with Node n => add_child t2 n x | Disk => Some t2 end.
(** The loop of branch.go 208-224: the children of [x] that [x] does not hold
    itself go to [new] or else to [old]. Map iteration order is the list's. *)
Fixpoint move_kids (t : tree) (x : Z) (old new : ref) (kids : list Z) : option tree :=
  match kids with
  | [] => Some t
  | v :: r =>
    do bv <- bget t v;
    do bx <- bget t x;
    if local_contains bx (b_tail bv) (b_tailX bv) then move_kids t x old new r
    else do c <- contains t new (b_tail bv) (b_tailX bv) true;
         if c then do t' <- update_root_simple t v (Node x) new; move_kids t' x old new r
         else do c' <- contains t old (b_tail bv) (b_tailX bv) true;
              if c' then do t' <- update_root_simple t v (Node x) old; move_kids t' x old new r
              else None
  end.
(** branch.go 201-225 *)
Definition update_root (t : tree) (x : Z) (old new : ref) : option tree :=
  do b <- bget t x;
  let t1 := bput t x (set_root b new) in
  do t2 <- match new with Node n => add_child t1 n x | Disk => Some t1 end;
  do b2 <- bget t2 x;
  move_kids t2 x old new (b_kids b2).

(** ** Pruning *)
(** tree_impl.go 46-48 *)
Definition knot_remove (t : tree) (k : knot) : tree := set_hashes t (sdel (k_hash k) (t_hashes t)).
(** branch.go 39-42 *)
Definition br_remove_tail (t : tree) (x : Z) (k : knot) : option tree :=
  do b <- bget t x; do b' <- remove_tail b k; Some (bput t x b').
(** branch.go 408-421 (destroy): from the head down, [n] blocks *)
Fixpoint destroy (n : nat) (t : tree) (x i : Z) : option tree :=
  match n with
  | O => do b <- bget t x;
         if negb (size b =? 0) then None
         else if negb (zlen (b_blocks b) =? 0) then None else Some t
  | S n' =>
    do b <- bget t x;
    do k <- mget i (b_blocks b);
    do b' <- remove_head b k;
    destroy n' (knot_remove (bput t x b') k) x (i - 1)
  end.
(** tree_impl.go 338-362 (removeBranch): the result tells whether it reported success *)
Fixpoint add_children (t : tree) (x : Z) (l : list Z) : option tree :=
  match l with [] => Some t | y :: r => do t' <- add_child t x y; add_children t' x r end.
Definition remove_branch (t : tree) (x : Z) : option (tree * bool) :=
  if x =? t_main t then Some (t, false)
  else
    do b <- bget t x;
    match b_root b with
    | Disk => Some (t, false)
    | Node r =>
      if (zlen (b_kids b) =? 0) then
        do t1 <- remove_child t r x;
        let t2 := set_list t1 (sdel x (t_list t1)) in
        do t3 <- destroy (Z.to_nat (size b)) t2 x (b_head b);
        Some (t3, true)
      else if size b =? 0 then
        do t1 <- remove_child t r x;
        let t2 := set_list t1 (sdel x (t_list t1)) in
        do t3 <- add_children t2 r (b_kids b);
        Some (t3, false)
      else Some (t, false)
    end.
(** branch.go 112-131 (updateChildrenForRemoveTail) *)
Fixpoint kids_after_prune (t : tree) (x : Z) (root : ref) (kids : list Z) : option tree :=
  match kids with
  | [] => Some t
  | v :: r =>
    do bv <- bget t v;
    do bx <- bget t x;
    if local_contains bx (b_tail bv) (b_tailX bv) then kids_after_prune t x root r
    else do c <- contains t root (b_tail bv) (b_tailX bv) true;
         if c then do t' <- update_root_simple t v (Node x) root; kids_after_prune t' x root r
         else None
  end.
(** The loop of branch.go 85-99: [n] rounds from height [i]; the second result
    is [removed] *)
Fixpoint drop_shared (n : nat) (t : tree) (x : Z) (root : ref) (i : Z) (removed : bool) : option (tree * bool) :=
  match n with
  | O => Some (t, removed)
  | S n' =>
    match knot_and_branch t root i with
    | None => Some (t, removed)
    | Some (k, holder) =>
      do own <- local t (Node x) i;
      if k_hash k =? k_hash own then
        do t1 <- br_remove_tail t x k;
        let t2 := match holder with Disk => knot_remove t1 k | Node _ => t1 end in
        drop_shared n' t2 x root (i + 1) true
      else Some (t, removed)
    end
  end.
(** branch.go 80-110 (prune); [fuel] bounds the recursion to the root *)
Fixpoint prune (fuel : nat) (t : tree) (x : Z) : option tree :=
  match fuel with
  | O => None
  | S f =>
    do b0 <- bget t x;
    do t1 <- match b_root b0 with Node r => prune f t r | Disk => Some t end;
    do b <- bget t1 x;
    let2 (t2, removed) <- drop_shared (Z.to_nat (size b)) t1 x (b_root b) (b_tail b + 1) false;
    if negb removed then Some t2
    else
      do b2 <- bget t2 x;
      do t3 <- match b_root b2 with
               | Disk => Some t2
               | Node _ => kids_after_prune t2 x (b_root b2) (b_kids b2)
               end;
      do b3 <- bget t3 x;
      if negb (x =? t_main t3) && (size b3 =? 0)
      then let2 (t4, res) <- remove_branch t3 x; Some t4
      else Some t3
  end.

(** ** Switching *)
Inductive out := Done (t : tree) | Fail (t : tree) | Panic.
Definition of_opt (o : option tree) : out := match o with Some t => Done t | None => Panic end.
(** branch.go 168-173: blocks of [r] from height [i] down, [n] of them *)
Fixpoint copy_tail (n : nat) (t : tree) (x r i : Z) : option tree :=
  match n with
  | O => Some t
  | S n' =>
    do br_ <- bget t r;
    match mget i (b_blocks br_) with
    | None => copy_tail n' t x r (i - 1)
    | Some w => do b <- bget t x; do b' <- add_tail b w; copy_tail n' (bput t x b') x r (i - 1)
    end
  end.
(** branch.go 147-189 (exchangeRoot). The loop of lines 174-179 runs from
    rootTailHeight + 1 while at most rootTailHeight: never. *)
Definition exchange_root (t : tree) (x r : Z) : out :=
  match bget t x, bget t r with
  | Some bx, Some brr =>
    match (match b_root brr with Node rr => remove_child t rr r | Disk => Some t end) with
    | None => Panic
    | Some t1 =>
      let swap t2 := of_opt (do t3 <- update_root_simple t2 x (Node r) (b_root brr);
                             update_root t3 r (b_root brr) (Node x)) in
      if tail_equals brr bx then swap t1
      else if (b_tail brr <=? b_tail bx) && (b_head brr >=? b_tail bx)
           then match copy_tail (Z.to_nat (b_tail bx - b_tail brr)) t1 x r (b_tail bx) with
                | None => Panic
                | Some t2 => swap t2
                end
           else Fail t1
    end
  | _, _ => Panic
  end.
(** branch.go 133-145 (exchangeAllRoot) *)
Fixpoint exchange_all (fuel : nat) (t : tree) (x : Z) : out :=
  match fuel with
  | O => Panic
  | S f =>
    match bget t x with
    | None => Panic
    | Some b =>
      match b_root b with
      | Disk => Done t
      | Node r => match exchange_root t x r with Done t' => exchange_all f t' x | o => o end
      end
    end
  end.
(** tree_impl.go 182-207 (SwitchMainTo) *)
Definition switch_main (t : tree) (x : Z) : out :=
  if x =? t_main t then Done t
  else match prune (fuel_of t) t x with
       | None => Panic
       | Some t1 =>
         match exchange_all (fuel_of t1) t1 x with
         | Done t2 =>
           match bget t2 x with
           | Some b => if linked t2 b then Done (set_main t2 x) else Panic
           | None => Panic
           end
         | o => o
         end
       end.

(** ** The tree's operations *)
(** branch_base.go 134-143, branch.go 423-429 *)
Definition new_br (h x : Z) (root : ref) : br := mkbr [] h x h x root [].
(** tree_impl.go 57-64 (Init) over a ledger *)
Definition init (d : list knot) : tree :=
  let hd := last d (mkknot 0 0 0) in
  mktree [(1, new_br (k_height hd) (k_hash hd) Disk)] [1] 1 1 [] d.
(** tree_impl.go 78-91 (ForkBranch); the hash argument is not used by the code *)
Definition fork (t : tree) (x h : Z) : option (tree * Z) :=
  do k <- get_knot t (Node x) h true;
  let id := t_next t + 1 in
  let t1 := set_next (bput t id (new_br (k_height k) (k_hash k) (Node x))) id in
  do t2 <- add_child t1 x id;
  Some (set_list t2 (sadd id (t_list t2)), id).
(** tree_impl.go 138-146 (AddHead) *)
Definition tree_add_head (t : tree) (x : Z) (k : knot) : option tree :=
  do b <- bget t x; do b' <- add_head b k;
  Some (set_hashes (bput t x b') (sadd (k_hash k) (t_hashes t))).
(** tree_impl.go 148-156 (RemoveTail) *)
Definition tree_remove_tail (t : tree) (x : Z) (k : knot) : option tree :=
  do t' <- br_remove_tail t x k; Some (knot_remove t' k).
(** tree_impl.go 158-166 (AddTail) *)
Definition tree_add_tail (t : tree) (x : Z) (k : knot) : option tree :=
  do b <- bget t x; do b' <- add_tail b k;
  Some (set_hashes (bput t x b') (sadd (k_hash k) (t_hashes t))).
(** tree_impl.go 93-127 (RootHeadAdd) *)
Definition root_head_add (t : tree) (k : knot) : option tree :=
  let m := t_main t in
  do b <- bget t m;
  if negb (k_prev k =? b_tailX b) then None
  else if b_headX b =? k_prev k then
    do b1 <- add_head b k; do b2 <- remove_tail b1 k; Some (bput t m b2)
  else if local_contains b (k_height k) (k_hash k) then tree_remove_tail t m k
  else
    let2 (t1, n) <- fork t m (k_height k - 1);
    do bn <- bget t1 n;
    do bn1 <- add_head bn k; do bn2 <- remove_tail bn1 k;
    let t2 := bput t1 n bn2 in
    do t3 <- update_root_simple t2 n (Node m) Disk;
    do bm <- bget t3 m;
    do t4 <- update_root t3 m (b_root bm) (Node n);
    Some (set_main t4 n).
(** tree_impl.go 264-273 (findEmptyForHead) with the iteration order given *)
Definition find_empty (t : tree) (order : list Z) : option Z :=
  find (fun c => match bget t c with
                 | Some b => (size b =? 0) && (b_headX b =? k_hash (disk_head t)) && (b_head b =? k_height (disk_head t))
                 | None => false
                 end) order.
(** tree_impl.go 209-220 (SwitchMainToEmpty) *)
Definition switch_empty (t : tree) (order : list Z) : out :=
  match bget t (t_main t) with
  | None => Panic
  | Some b =>
    if size b =? 0 then Done t
    else match find_empty t order with
         | Some c => switch_main t c
         | None => match fork t (t_main t) (k_height (disk_head t)) with
                   | Some (t', n) => switch_main t' n
                   | None => Panic
                   end
         end
  end.
(** checker.go 86-110 (CheckTreeRing): [None] is the error *)
Fixpoint ring (fuel : nat) (t : tree) (bm : list Z) (x : Z) : option (list Z) :=
  match fuel with
  | O => None
  | S f =>
    do b <- bget t x;
    (fix each (bm : list Z) (kids : list Z) : option (list Z) :=
       match kids with
       | [] => Some bm
       | v :: r => if sin v bm then None
                   else do bm' <- ring f t (v :: bm) v; each bm' r
       end) bm (b_kids b)
  end.
(** branch.go 384-407 (isGarbage): [stale] says whose last change is 20 minutes old *)
Definition is_garbage (stale : list Z) (t : tree) (x : Z) : bool :=
  match bget t x with
  | Some b => (zlen (b_kids b) =? 0) && (sin x stale || (size b =? 0))
  | None => false
  end.
(** tree_impl.go 302-336 (PruneTree): the two loops over branchList, each in a
    given order; an entry no longer in the map is not visited *)
Fixpoint prune_each (t : tree) (order : list Z) : option tree :=
  match order with
  | [] => Some t
  | x :: r => if negb (sin x (t_list t)) || (x =? t_main t) then prune_each t r
              else do t' <- prune (fuel_of t) t x; prune_each t' r
  end.
Fixpoint collect (stale : list Z) (t : tree) (order : list Z) : option (tree * list Z) :=
  match order with
  | [] => Some (t, [])
  | x :: r =>
    if negb (sin x (t_list t)) || (x =? t_main t) || negb (is_garbage stale t x) then collect stale t r
    else let2 (t', ok) <- remove_branch t x;
         let2 (t2, l) <- collect stale t' r;
         Some (t2, if ok then x :: l else l)
  end.
Definition prune_tree (stale : list Z) (o1 o2 : list Z) (t : tree) : option (tree * list Z) :=
  do seen <- ring (fuel_of t) t [] (t_main t);
  do t1 <- prune_each t o1;
  collect stale t1 o2.
(** tree_impl.go 28-45 (FindBranch) with the iteration order given *)
Definition find_branch (t : tree) (order : list Z) (h x : Z) : option Z :=
  let has c := match local t (Node c) h with Some k => k_hash k =? x | None => false end in
  if has (t_main t) then Some (t_main t) else find has order.
(** tree_impl.go 223-262 (FindForkPointFromMain): key point and fork point;
    [None] is an error. The loop stops at the first height one side lacks. *)
Fixpoint fork_point (fuel : nat) (t : tree) (lg sh i : Z) : option (option knot * knot) :=
  match fuel with
  | O => None
  | S f =>
    do kl <- get_knot t (Node lg) i true;
    do ks <- get_knot t (Node sh) i true;
    if k_hash kl =? k_hash ks then Some (get_knot t (Node lg) (i + 1) true, kl)
    else fork_point f t lg sh (i - 1)
  end.
Definition find_fork_point (t : tree) (x : Z) : option (option knot * knot) :=
  do bx <- bget t x; do bm <- bget t (t_main t);
  let (lg, sh) := if b_head bx >? b_head bm then (x, t_main t) else (t_main t, x) in
  do bs <- bget t sh;
  (* heights go down by one to the ledger's first block at most *)
  fork_point (S (Z.to_nat (b_head bs - k_height (hd (mkknot 0 0 0) (t_disk t))))) t lg sh (b_head bs).
(** tree_impl.go 168-180 (Exists, Size) *)
Definition exists_hash (t : tree) (x : Z) : bool := sin x (t_hashes t).
(** tree_impl.go 275-289 (Brothers) *)
Definition brothers (t : tree) (x : Z) : list Z :=
  match bget t x with
  | None => []
  | Some b => filter (fun v => match bget t v with Some bv => tail_equals bv b | None => false end) (b_kids b)
  end.

(** ** Histories: what the pool does to a tree and to the ledger under it *)
Inductive op :=
| OAdd (x : Z) (k : knot)                  (* chain_pool.go 30-40, 199-219 *)
| OFork (x h : Z)                          (* chain_pool.go 30-50 *)
| OSwitch (x : Z)                          (* bc_pool.go 476-481 *)
| OEmpty (order : list Z)                  (* bc_pool.go 484-486 *)
| OPrune (stale o1 o2 : list Z)            (* bc_pool.go 533 *)
| OAdvance (k : knot)                      (* chain_pool.go 228-237: the ledger takes [k], then the tree hears of it *)
| ORollback (n : nat).                     (* bc_pool.go 163-220: the ledger drops [n] blocks, main takes them back *)
(** bc_pool.go 207-213: newest block first *)
Fixpoint add_tails (t : tree) (x : Z) (l : list knot) : option tree :=
  match l with [] => Some t | k :: r => do t' <- tree_add_tail t x k; add_tails t' x r end.
Definition apply_op (o : op) (t : tree) : out :=
  match o with
  | OAdd x k => of_opt (tree_add_head t x k)
  | OFork x h => of_opt (let2 (t', res) <- fork t x h; Some t')
  | OSwitch x => switch_main t x
  | OEmpty order => switch_empty t order
  | OPrune stale o1 o2 => of_opt (let2 (t', res) <- prune_tree stale o1 o2 t; Some t')
  | OAdvance k => of_opt (root_head_add (set_disk t (t_disk t ++ [k])) k)
  | ORollback n =>
    let keep := (length (t_disk t) - n)%nat in
    of_opt (add_tails (set_disk t (firstn keep (t_disk t))) (t_main t) (rev (skipn keep (t_disk t))))
  end.
(** A refused switch leaves its partial effects behind *)
Definition state_of (o : out) : option tree := match o with Done t | Fail t => Some t | Panic => None end.
