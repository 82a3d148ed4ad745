(** C04: jumps only land on real JUMPDEST opcodes. *)
From Verif Require Import Lib VmJumpModel VmJumpSpec VmJumpProofs.

(** The jump check never panics and accepts a destination exactly when it is a
    JUMPDEST opcode on an instruction boundary, for every code and target. *)
Theorem jump_check_exact : forall code dest,
  bytes_ok code -> zlen code < 2 ^ 62 -> 0 <= dest ->
  exists b, jump_has code dest = Some b /\ (b = true <-> valid_jumpdest code dest).
Proof. exact jump_has_spec. Qed.

(** The code analysis itself never indexes outside its bitmap, whatever the code
    (including code that ends in the middle of push data), and marks exactly the
    positions that are not opcodes. *)
Theorem code_bitmap_exact : forall code, bytes_ok code ->
  exists m, code_bitmap code = Some m /\
  forall pos, 0 <= pos < zlen code ->
    exists b, code_segment m pos = Some b /\ (b = true <-> instruction_start code pos).
Proof.
  intros code Hb. destruct (code_bitmap_spec code Hb) as (m & E & L & H). exists m. split; [exact E|].
  intros pos Hp. rewrite code_segment_spec by lia. eexists; split; [reflexivity|].
  rewrite Bool.negb_true_iff. now apply H.
Qed.

(** PUSH2 0x5b5b; JUMPDEST; PUSH32 (truncated) 0x5b: only position 3 is a destination. *)
Example jump_check_example :
  map (fun d => jump_has [0x61; 0x5b; 0x5b; 0x5b; 0x7f; 0x5b] d) [0;1;2;3;4;5;6; 2 ^ 64 + 3]
  = [Some false; Some false; Some false; Some true; Some false; Some false; Some false; Some false].
Proof. now vm_compute. Qed.

Print Assumptions jump_check_exact.
Print Assumptions code_bitmap_exact.
