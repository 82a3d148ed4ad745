(** What the state database is meant to hold, said in terms of the blocks of the chain alone. *)
Require Import Coq.Lists.List Coq.ZArith.ZArith Coq.Bool.Bool.
Require Import Verif.Lib Verif.StateModel.
Import ListNotations.
Local Open Scope Z_scope.

(** The last thing that [f] finds along a list. *)
Definition newest_of {A B} (f : A -> option B) (l : list A) : option B :=
  fold_left (fun acc x => match f x with Some v => Some v | None => acc end) l None.
(** The last value given to [k] in a list of assignments. *)
Definition lastkv {V} (l : list (Z * V)) (k : Z) : option V :=
  newest_of (fun p : Z * V => if fst p =? k then Some (snd p) else None) l.
Definition or_empty (v : option (list Z)) : list Z := match v with Some x => x | None => [] end.
Definition or_zero (v : option Z) : Z := match v with Some x => x | None => 0 end.

(** What the blocks [bs], executed in this order, leave behind. *)
Definition storage_after (bs : list ablock) (a k : Z) : list Z :=
  or_empty (newest_of (fun b => if ab_addr b =? a then lastkv (ab_storage b) k else None) bs).
Definition balance_after (bs : list ablock) (a t : Z) : option Z :=
  newest_of (fun b => if ab_addr b =? a then lastkv (ab_bal b) t else None) bs.
Definition code_after (bs : list ablock) (a : Z) : list Z :=
  or_empty (newest_of (fun b => if ab_addr b =? a then ab_code b else None) bs).
Definition meta_after (bs : list ablock) (c : Z) : list Z :=
  or_empty (newest_of (fun b => option_map snd (lastkv (ab_meta b) c)) bs).
Definition log_after (kept : Z -> bool) (bs : list ablock) (h : Z) : list Z :=
  or_empty (newest_of (fun b => match ab_loghash b with
                                | Some h' => if (h' =? h) && kept (ab_addr b) then Some (ab_loglist b) else None
                                | None => None
                                end) bs).
Definition depth_after (bs : list ablock) (h : Z) : Z :=
  or_zero (newest_of (fun b => if ab_receive b && existsb (Z.eqb h) (map fst (ab_sends b)) then Some ((ab_depth b + 1) mod 65536) else None) bs).

(** The blocks of the chain: the confirmed ones up to a height, and all. *)
Definition confirmed_upto (w : world) (n : Z) : list ablock := concat (firstn (Z.to_nat n) (w_segs w)).
Definition live (w : world) : list ablock := concat (w_segs w) ++ w_unc w.

(** The contracts a block creates. *)
Definition creations (b : ablock) : list Z :=
  match ab_creates b with Some c => [c] | None => [] end ++
  flat_map (fun p => match snd p with Some c => [c] | None => [] end) (ab_sends b).
(** A block as the virtual machine makes it: code is never empty (it starts with the contract
    type, vm/util/common.go:112) and is set by the first block of a contract; settings are made
    for contracts the block creates. *)
Definition block_ok (b : ablock) : Prop :=
  (forall c, ab_code b = Some c -> c <> [] /\ ab_height b = 1) /\
  (forall c m, In (c, m) (ab_meta b) -> In c (creations b)).
(** Two blocks that share no hash and create different things. *)
Definition apart (x y : ablock) : Prop :=
  ab_hash x <> ab_hash y /\
  (forall c, In c (creations x) -> In c (creations y) -> False) /\
  (forall h, ab_loghash x = Some h -> ab_loghash y = Some h -> False) /\
  (forall h, In h (map fst (ab_sends x)) -> In h (map fst (ab_sends y)) -> False).
(** [l] is [m1] followed by [m2], for each account by itself. *)
Definition splits (l m1 m2 : list ablock) : Prop :=
  forall a, filter (from a) l = filter (from a) m1 ++ filter (from a) m2.
Definition writes_key (bs : list ablock) (a k : Z) : Prop :=
  exists b, In b bs /\ ab_addr b = a /\ In k (map fst (ab_storage b)).
(** Where the redo log is gone: each account that loses blocks had, by height [n], confirmed
    the smallest of its confirmed storage keys. *)
Definition smallest_key_old (w : world) (n : Z) : Prop :=
  forall b k, In b (concat (skipn (Z.to_nat n) (w_segs w)) ++ w_unc w) ->
    writes_key (concat (w_segs w)) (ab_addr b) k ->
    (forall k', writes_key (concat (w_segs w)) (ab_addr b) k' -> k <= k') ->
    writes_key (confirmed_upto w n) (ab_addr b) k.

(** What the chain asks of the state database. *)
Definition allowed (w : world) (o : op) : Prop :=
  match o with
  | OWrite b => block_ok b /\ (forall x, In x (live w) -> apart x b) /\ ab_height b = zlen (filter (from (ab_addr b)) (live w)) + 1
  | OSnap conf => splits (w_unc w) conf (without conf (w_unc w))
  | ODelAcc bs => splits (w_unc w) (without bs (w_unc w)) bs
  | ODelSnap n => 0 <= n < zlen (w_segs w) /\ (has_redo (w_s w) (n + 1) = true \/ smallest_key_old w n)
  | ORestart => True
  end.
(** The worlds a chain can come to, with the greatest height it has had. *)
Inductive reached (logs_kept cached builtin : Z -> bool) (ord : forall A, list A -> list A) : world -> Z -> Prop :=
| R_empty : reached logs_kept cached builtin ord empty_world 0
| R_step w m o w' : reached logs_kept cached builtin ord w m -> allowed w o ->
    step logs_kept cached builtin ord w o = Some w' ->
    reached logs_kept cached builtin ord w' (Z.max m (zlen (w_segs w'))).
