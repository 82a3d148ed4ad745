(** What a user has, is waiting for and has locked, read off the accepted operations. *)
From Verif Require Import Lib PendModel.
Import ListNotations.
Open Scope Z_scope.

(** The accepted operations of a history, each with the day it was accepted on. *)
Notation events := (list (Z * op)).
Fixpoint total (f : Z -> op -> Z) (es : events) : Z := match es with [] => 0 | (d, o) :: r => f d o + total f r end.
(** The owner and the amount of a stake. *)
Fixpoint stake_of (id : Z) (es : events) : option (Z * Z) :=
  match es with [] => None | (_, OStake u i a) :: r => if i =? id then Some (u, a) else stake_of id r | _ :: r => stake_of id r end.
Definition same (t t' : token) : bool := match t, t' with VX, VX | VITE, VITE => true | _, _ => false end.
(** The day of the last job. *)
Definition last_job (t : token) (es : events) : Z := fold_left (fun j e => match snd e with OJob t' p => if same t t' then p else j | _ => j end) es 0.
(** Does VX mined for the user go to what they have locked? *)
Definition earth (es : events) : bool := existsb (fun e => match snd e with OEarth => true | _ => false end) es.
Definition auto (u : Z) (es : events) : bool := fold_left (fun b e => match snd e with OAuto v on => if v =? u then on else b | _ => b end) es false.
(** Mined VX of a user, those that were locked and the others. *)
Fixpoint mined_from (e b : bool) (locked : bool) (u : Z) (es : events) : Z :=
  match es with
  | [] => 0
  | (_, OEarth) :: r => mined_from true b locked u r
  | (_, OAuto v on) :: r => mined_from e (if v =? u then on else b) locked u r
  | (_, OMined v a) :: r => (if (v =? u) && Bool.eqb (e && b) locked then a else 0) + mined_from e b locked u r
  | _ :: r => mined_from e b locked u r
  end.
Definition mined (locked : bool) (u : Z) (es : events) : Z := mined_from false false locked u es.
(** What the user asked back: unlocked VX, or the amounts of cancelled stakes. *)
Definition asked (t : token) (u : Z) (all : events) (o : op) : Z :=
  match t, o with
  | VX, OUnlock v a => if v =? u then a else 0
  | VITE, OCancelled id => match stake_of id all with Some (v, a) => if v =? u then a else 0 | None => 0 end
  | _, _ => 0
  end.
(** Of that, what was asked on days of which the job seven days later has run, and the rest. *)
Definition ready (t : token) (u : Z) (es : events) : Z := total (fun d o => if d + 7 <=? last_job t es then asked t u es o else 0) es.
Definition waiting (t : token) (u : Z) (es : events) : Z := total (fun d o => if d + 7 <=? last_job t es then 0 else asked t u es o) es.
(** What came in and went out. *)
Definition moved (t : token) (u : Z) (es : events) : Z :=
  total (fun _ o => match o with
                    | OIn t' v a => if same t t' && (v =? u) then a else 0
                    | OOut t' v a => if same t t' && (v =? u) then - a else 0
                    | OLock v a => if same t VX && (v =? u) then - a else 0
                    | OStake v _ a => if same t VITE && (v =? u) then - a else 0
                    | _ => 0
                    end) es.
Definition available (t : token) (u : Z) (es : events) : Z := moved t u es + (if same t VX then mined false u es else 0) + ready t u es.
Definition locked (u : Z) (es : events) : Z :=
  total (fun _ o => match o with OLock v a => if v =? u then a else 0 | OUnlock v a => if v =? u then - a else 0 | _ => 0 end) es + mined true u es.
(** Staked for mining and not cancelled. *)
Definition confirmed (id : Z) (es : events) : bool := existsb (fun e => match snd e with OStaked i _ => i =? id | _ => false end) es.
Definition cancelled (id : Z) (es : events) : bool := existsb (fun e => match snd e with OCancelled i => i =? id | _ => false end) es.
Definition staked (u : Z) (es : events) : Z :=
  total (fun _ o => match o with
                    | OStaked id _ => match stake_of id es with Some (v, a) => if v =? u then a else 0 | None => 0 end
                    | OCancelled id => match stake_of id es with Some (v, a) => if v =? u then - a else 0 | None => 0 end
                    | _ => 0
                    end) es.
(** Amounts entered for a day in a list, and asked for on that day. *)
Fixpoint entered (d : Z) (l : list (Z * Z)) : Z := match l with [] => 0 | (e, a) :: r => (if e =? d then a else 0) + entered d r end.
Definition asked_on (t : token) (u d : Z) (es : events) : Z := total (fun e o => if e =? d then asked t u es o else 0) es.
(** VX a user got less VX a user gave. *)
Definition net (u : Z) (es : events) : Z :=
  total (fun _ o => match o with
                    | OIn VX v a | OMined v a => if v =? u then a else 0
                    | OOut VX v a => if v =? u then - a else 0
                    | _ => 0
                    end) es.
(** Each stake has an id of its own: the hash of the block that asks for it. *)
Definition ids (ops : list op) : list Z := flat_map (fun o => match o with OStake _ id _ => [id] | _ => [] end) ops.
Definition distinct (ops : list op) : Prop := NoDup (ids ops).
