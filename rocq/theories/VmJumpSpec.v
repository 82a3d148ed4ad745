(** What a valid jump destination is, independently of bitmaps. *)
From Verif Require Import Lib.

Definition code_at (code : list Z) (i : Z) : Z := nth (Z.to_nat i) code 0.

(** Number of immediate bytes that follow an opcode: PUSHn carries n. *)
Definition immediate_bytes (op : Z) : Z :=
  if (0x60 <=? op) && (op <=? 0x7f) then op - 0x5f else 0.

(** [pc] is where the straight-line decoding of [code] meets an opcode. *)
Inductive instruction_start (code : list Z) : Z -> Prop :=
| start_0 : instruction_start code 0
| start_next pc : instruction_start code pc -> 0 <= pc < zlen code ->
    instruction_start code (pc + 1 + immediate_bytes (code_at code pc)).

(** A jump destination is an opcode position (not inside push data) holding 0x5b. *)
Definition valid_jumpdest (code : list Z) (dest : Z) : Prop :=
  0 <= dest < zlen code /\ code_at code dest = 0x5b /\ instruction_start code dest.
