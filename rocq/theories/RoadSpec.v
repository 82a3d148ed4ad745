(** What the summary should say: the sends on the chain nobody has received. *)
From Verif Require Import Lib RoadModel.
Import ListNotations.

Definition received (bs : list blk) : list Z := flat_map (fun b => match b with BRecv _ _ f _ => [f] | _ => [] end) bs.
Definition pending (bs : list blk) (a : Z) : list send :=
  filter (fun s => (s_to s =? a) && negb (existsb (Z.eqb (s_hash s)) (received bs))) (sends bs).
Definition of_token (t : Z) (l : list send) : list send := filter (fun s => s_tok s =? t) l.
Definition amounts (l : list send) : Z := fold_right (fun s x => s_amt s + x) 0 l.
(** Amount and number, if there is anything. *)
Definition summary (l : list send) : option (Z * Z) := match l with [] => None | _ => Some (amounts l, zlen l) end.

(** Blocks a chain accepts: hashes are new, a receive block takes a send addressed to its account
    that was not received before; only contracts put sends into receive blocks. *)
Definition hashes (bs : list blk) : list Z := flat_map (fun b => match b with BSend _ s => [s_hash s] | BRecv _ h _ subs => h :: map s_hash subs end) bs.
Definition accepted (contract genesis : Z -> bool) (chain : list blk) (b : blk) : Prop :=
  NoDup (hashes [b]) /\ (forall h, In h (hashes [b]) -> ~ In h (hashes chain)) /\
  Forall (fun s => 0 <= s_amt s) (sends [b]) /\
  match b with
  | BSend _ _ => True
  | BRecv a h f subs =>
      genesis h = false /\ (subs <> [] -> contract a = true) /\ ~ In f (received chain) /\
      exists s, In s (sends chain) /\ s_hash s = f /\ s_to s = a
  end.
(** Every send received in [bs] is in [bs]. *)
Definition closed (bs : list blk) : Prop := forall h, In h (received bs) -> exists s, In s (sends bs) /\ s_hash s = h.

Inductive op := OBlock (b : blk) | OSnapshot (bs : list blk) | ODelete (bs : list blk) | ORollback (k : nat) (redo : bool).
Definition allowed (contract genesis : Z -> bool) (w : world) (o : op) : Prop :=
  match o with
  | OBlock b => accepted contract genesis (chain_of w) b /\ zlen (sends (chain_of w ++ [b])) < two64
  (* blocks not yet confirmed, each once, with the sends they receive *)
  | OSnapshot bs => NoDup bs /\ incl bs (w_open w) /\ closed (concat (w_done w) ++ bs)
  (* blocks not yet confirmed, with the receives of their sends *)
  | ODelete bs => incl bs (w_open w) /\ closed (concat (w_done w) ++ without (w_open w) bs)
  | ORollback k _ => (k < length (w_done w))%nat
  end.
Definition step (contract genesis : Z -> bool) (ord : forall A : Type, list A -> list A) (w : world) (o : op) : world :=
  match o with
  | OBlock b => insert w b
  | OSnapshot bs => snapshot contract genesis ord w bs
  | ODelete bs => remove w bs
  | ORollback k redo => rollback contract genesis ord w k redo
  end.
Inductive reach (contract genesis : Z -> bool) (ord : forall A : Type, list A -> list A) : world -> Prop :=
| R_new : reach contract genesis ord (World [] [] [] [])
| R_step w o : reach contract genesis ord w -> allowed contract genesis w o -> reach contract genesis ord (step contract genesis ord w o).
