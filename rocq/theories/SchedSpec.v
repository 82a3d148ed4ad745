(** What the schedule should be, in terms of slot numbers: slot [k] starts [k] intervals after genesis and belongs to one seat of one round. *)
From Verif Require Import Lib SchedModel.

(** Realistic parameters: positive, in the range of their Go types, and a round shorter than 292 years. *)
Definition group_ok (g : group) : Prop :=
  1 <= g_nodes g <= 255 /\ 1 <= g_interval g /\ 1 <= g_per g /\ 1 <= g_repeat g <= 65535 /\ g_interval g * g_nodes g * g_per g * g_repeat g * sec < 2 ^ 63.
(** Slots per round, the length of a slot and of a round. *)
Definition slots (g : group) : Z := g_nodes g * g_per g * g_repeat g.
Definition slot_len (g : group) : Z := g_interval g * sec.
Definition round_len (g : group) : Z := slots g * slot_len g.
(** When slot [k] starts. *)
Definition slot_at (g : group) (k : Z) : Z := g_genesis g + k * slot_len g.
(** The seat that slot [k] belongs to: seats take turns, each for [g_per] consecutive slots. *)
Definition seat (g : group) (k : Z) : Z := (k / g_per g) mod g_nodes g.
Definition holder (g : group) (ms : list Z) (k : Z) : option Z := nth_error ms (Z.to_nat (seat g k)).
(** Rounds whose end is within Go's time range of the genesis. *)
Definition in_range (g : group) (i : Z) : Prop := 0 <= i /\ (i + 1) * round_len g < 2 ^ 63.

(** The last of the increasing times [ts] (numbered from 1) strictly before [t]. *)
Definition last_before (ts : list Z) (t h : Z) : Prop :=
  exists x, at_height ts h = Some x /\ x < t /\ forall h' y, at_height ts h' = Some y -> y < t -> h' <= h.
Fixpoint rising (ts : list Z) : Prop := match ts with x :: ((y :: _) as r) => x < y /\ rising r | _ => True end.
(** All times are a whole number of seconds apart from [t]. *)
Definition whole_seconds (ts : list Z) (t : Z) : Prop := Forall (fun x => (t - x) mod sec = 0) ts.

(** Every chain a node can hold: the genesis block, then accepted blocks. *)
Inductive grown (elected : Z -> list Z) (g : group) : list sblock -> Prop :=
| gr_genesis b : b_time b = g_genesis g -> grown elected g [b]
| gr_block c b : grown elected g c -> accepts elected g c b = true -> b_time b + 2 * round_len g < g_genesis g + 2 ^ 63 -> grown elected g (c ++ [b]).
(** When the votes for round [i] are counted: one second after genesis for the first two rounds, then one round ahead. *)
Definition count_time (g : group) (i : Z) : Z := if i <? 2 then g_genesis g + sec else g_genesis g + (i - 1) * round_len g.
(** The schedule as a relation: [a] may produce at [t] on chain [c]. *)
Definition may_produce (elected : Z -> list Z) (g : group) (c : list sblock) (a t : Z) : Prop :=
  exists k h b, t = slot_at g k /\ last_before (times c) (count_time g (k / slots g)) h /\ block_at c h = Some b /\
    zlen (elected (b_hash b)) <= g_nodes g /\ holder g (elected (b_hash b)) k = Some a.
(** Instants the statements range over: from genesis to two rounds before the end of Go's time range (292 years). *)
Definition instant (g : group) (t : Z) : Prop := g_genesis g <= t /\ t + 2 * round_len g < g_genesis g + 2 ^ 63.
(** When the votes for round [i] of a contract group are counted: 75 seconds before it starts, or one second after genesis. *)
Definition contract_count_time (g : group) (i : Z) : Z :=
  let s := i * round_len g in if s <? 75 * sec then g_genesis g + sec else g_genesis g + s - 75 * sec.
