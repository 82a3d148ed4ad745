(** What the pool should say: the requests of a caller to a contract nobody has received, in the
    order in which the caller made them. *)
From Verif Require Import Lib TurnModel.
Import ListNotations.

(** The sends of an account, in order: its blocks, and for a contract the sends within its receive blocks. *)
Definition sent (chain : list blk) (from : Z) : list send :=
  flat_map (fun b => if b_addr b =? from then match b with BSend _ _ s => [s] | BRecv _ _ _ _ subs => subs end else []) chain.
Definition received (chain : list blk) (h : Z) : Prop := exists a n x subs, In (BRecv a n x h subs) chain.
(** [waiting chain to from l]: the requests of [from] that wait at [to] are [l], oldest first. *)
Inductive keeps (P : send -> Prop) : list send -> list Z -> Prop :=
| K_nil : keeps P [] []
| K_in s l r : P s -> keeps P l r -> keeps P (s :: l) (s_hash s :: r)
| K_out s l r : ~ P s -> keeps P l r -> keeps P (s :: l) r.
Definition waiting (chain : list blk) (to from : Z) (l : list Z) : Prop :=
  keeps (fun s => s_to s = to /\ ~ received chain (s_hash s)) (sent chain from) l.

(** Blocks a chain accepts: hashes are new, heights grow along an account's blocks; contracts have
    receive blocks only, others put no sends into theirs; a receive block takes a send addressed to
    its account that was not received before.  Contracts belong to the group with a pool. *)
Definition hashes (bs : list blk) : list Z := flat_map (fun b => match b with BSend _ _ s => [s_hash s] | BRecv _ _ h _ subs => h :: map s_hash subs end) bs.
Definition accepted (contract genesis pooled : Z -> bool) (chain : list blk) (b : blk) : Prop :=
  NoDup (hashes [b]) /\ (forall h, In h (hashes [b]) -> ~ In h (hashes chain)) /\
  1 <= b_height b /\ (forall c, In c chain -> b_addr c = b_addr b -> b_height c < b_height b) /\
  (forall s, In s (sent [b] (b_addr b)) -> contract (s_to s) = true -> pooled (s_to s) = true) /\
  match b with
  | BSend a _ _ => contract a = false
  | BRecv a _ h f subs =>
      genesis h = false /\ (subs <> [] -> contract a = true) /\ ~ received chain f /\
      exists c s, In s (sent chain c) /\ s_hash s = f /\ s_to s = a
  end.

Inductive op := OBlock (z : Z) (b : blk) | ODelete (z : Z) (bs : list blk) | ORestart (z : Z) | OAsk (to from h : Z) | OList (z to : Z).
Definition allowed (contract genesis pooled : Z -> bool) (w : world) (o : op) : Prop :=
  match o with
  | OBlock _ b => accepted contract genesis pooled (w_chain w) b
  (* blocks of the chain, each once, with the receives of their sends *)
  | ODelete _ bs => NoDup bs /\ incl bs (w_chain w) /\
      (forall c s, In c bs -> In s (sent [c] (b_addr c)) -> forall a n x subs, In (BRecv a n x (s_hash s) subs) (w_chain w) -> In (BRecv a n x (s_hash s) subs) bs)
  | _ => True
  end.
Definition step (contract genesis pooled : Z -> bool) (ord : Z -> forall A : Type, list A -> list A) (w : world) (o : op) : option world :=
  match o with
  | OBlock z b => insert contract genesis pooled ord z w b
  | ODelete z bs => delete contract genesis pooled ord z w bs
  | ORestart z => Some (restart contract pooled ord z w)
  | OAsk to from h => option_map fst (is_front contract w to from h)
  | OList z to => option_map fst (fronts contract ord z w to)
  end.
Inductive reach (contract genesis pooled : Z -> bool) (ord : Z -> forall A : Type, list A -> list A) : world -> Prop :=
| R_new : reach contract genesis pooled ord (World [] (Pool [] [] []))
| R_step w o w' : reach contract genesis pooled ord w -> allowed contract genesis pooled w o -> step contract genesis pooled ord w o = Some w' ->
    reach contract genesis pooled ord w'.
