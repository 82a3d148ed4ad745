(** What the statistics should be, in terms of the chain alone. *)
From Verif Require Import Lib SchedModel SchedSpec StatsModel.

(** The blocks after genesis with a time in [s, e), and how many of them [a] produced. *)
Definition during (c : list sblock) (s e : Z) : list sblock := filter (fun b => (s <=? b_time b) && (b_time b <? e)) (tl c).
Definition count (a : Z) (l : list Z) : Z := zlen (filter (Z.eqb a) l).
Definition produced (c : list sblock) (a s e : Z) : Z := count a (map b_producer (during c s e)).
(** The members of round [i]: elected by the last block before the counting time. *)
Definition members (elected : Z -> list Z) (g : group) (c : list sblock) (i : Z) : list Z :=
  match rev (filter (fun b => b_time b <? count_time g i) c) with b :: _ => elected (b_hash b) | [] => [] end.
(** How many slots of a round are planned for [a]. *)
Definition planned (g : group) (ms : list Z) (a : Z) : Z := if g_nodes g <? zlen ms then 0 else g_per g * g_repeat g * count a ms.
Definition round_start (g : group) (i : Z) : Z := g_genesis g + i * round_len g.
Definition hour : Z := 3600 * sec.
Definition hour_start (g : group) (i : Z) : Z := g_genesis g + i * hour.
Definition day_start (g : group) (i : Z) : Z := g_genesis g + i * (24 * hour).
(** Blocks expected from [a] in round [i]: its planned slots, unless nobody produced a block in the round. *)
Definition expected (elected : Z -> list Z) (g : group) (c : list sblock) (a i : Z) : Z :=
  match during c (round_start g i) (round_start g (i + 1)) with [] => 0 | _ => planned g (members elected g c i) a end.
(** ... in [n] rounds from round [i]. *)
Fixpoint expected_from (elected : Z -> list Z) (g : group) (c : list sblock) (a i : Z) (n : nat) : Z :=
  match n with O => 0 | S k => expected elected g c a i + expected_from elected g c a (i + 1) k end.

(** Hours consist of whole rounds. *)
Definition hour_whole (g : group) : Prop := hour mod round_len g = 0.
(** Intervals of length [l] within Go's time range. *)
Definition idx_ok (l i : Z) : Prop := 0 <= i /\ (i + 1) * l < 2 ^ 63.
(** What a point says about [a]: expected and produced blocks. *)
Definition num (p : point) (a : Z) : Z * Z := match get a (p_sbps p) with Some x => x | None => (0, 0) end.

(** Every state a node can get into. [anc] assigns to every block hash the chain ending with that block: hashes commit to
    their ancestry, so no two chains share the hash of their heads. *)
Inductive history (elected : Z -> list Z) (g : group) (votes_of : Z -> votes) (anc : Z -> list sblock) : node -> Prop :=
| h_start b : b_time b = g_genesis g -> anc (b_hash b) = [b] -> history elected g votes_of anc {| n_chain := [b]; n_rounds := []; n_hours := []; n_days := [] |}
| h_step s o : history elected g votes_of anc s ->
    match o with
    | OAppend b => accepts elected g (n_chain s) b = true -> anc (b_hash b) = n_chain s ++ [b] /\ b_time b + 2 * round_len g < g_genesis g + 2 ^ 63
    | ORound i => idx_ok (round_len g) i
    | OHour i => idx_ok hour i
    | ODay i => idx_ok (24 * hour) i
    | ODays n i => idx_ok (24 * hour) i /\ Z.of_nat n <= i + 1
    | ORates i => idx_ok (round_len g) i
    | _ => True
    end ->
    history elected g votes_of anc (n_step elected g votes_of s o).
