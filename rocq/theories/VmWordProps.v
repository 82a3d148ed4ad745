(** C01: contract arithmetic is exact modulo 2^256. *)
From Verif Require Import Lib VmWordModel VmWordSpec VmWordProofs.

Lemma exec_aop_frame op a b c rest r :
  exec_aop op (firstn (aop_arity op) [a; b; c]) = Some [r] ->
  exec_aop op (firstn (aop_arity op) [a; b; c] ++ rest) = Some (r :: rest).
Proof.
  intro E. destruct op; cbn [aop_arity firstn app exec_aop] in *; inversion E; reflexivity.
Qed.

Lemma arith_exact_l op a b c rest : op <> ASar -> is_word a -> is_word b -> is_word c ->
  exec_aop op (firstn (aop_arity op) [a; b; c] ++ rest) = Some (spec_aop op a b c :: rest)
  /\ is_word (spec_aop op a b c).
Proof.
  intros Hop Ha Hb Hc. destruct (aop_spec op a b c Hop Ha Hb Hc) as (r & E & ->).
  split; [now apply exec_aop_frame|].
  assert (Forall is_word (firstn (aop_arity op) [a; b; c])) as Hf.
  { destruct op; cbn [aop_arity firstn]; repeat constructor; apply Ha || apply Hb || apply Hc. }
  exact (exec_aop_word op _ _ _ Hf E).
Qed.

Lemma sar_exact_l a b rest : is_word a -> is_word b -> (b <> 0 \/ a < 256) ->
  exec_aop ASar (a :: b :: rest) = Some (spec_aop ASar a b 0 :: rest) /\ is_word (spec_aop ASar a b 0).
Proof.
  intros Ha Hb Hc. cbn [exec_aop]. rewrite sar_spec by assumption. split; [reflexivity|].
  unfold spec_aop, of_signed. apply Z.mod_pos_bound. reflexivity.
Qed.

(** Every pure instruction except SAR, on all words, leaves exactly the
    specified word on top of an otherwise unchanged stack. *)
Theorem arith_exact :
  forall op a b c rest, op <> ASar -> is_word a -> is_word b -> is_word c ->
    exec_aop op (firstn (aop_arity op) [a; b; c] ++ rest) = Some (spec_aop op a b c :: rest)
    /\ is_word (spec_aop op a b c).
Proof. exact arith_exact_l. Qed.
Print Assumptions arith_exact.

(** SAR is exact except when the value is 0 and the shift is 256 or more.
    Missing: that corner case, which is wrong in the code (next theorem). *)
Theorem sar_exact_partial :
  forall a b rest, is_word a -> is_word b -> (b <> 0 \/ a < 256) ->
    exec_aop ASar (a :: b :: rest) = Some (spec_aop ASar a b 0 :: rest) /\ is_word (spec_aop ASar a b 0).
Proof. exact sar_exact_l. Qed.
Print Assumptions sar_exact_partial.

(** Finding: 0 shifted arithmetically right by 256 gives 2^256-1, not 0. *)
Theorem sar_exact_refuted :
  exists a b, is_word a /\ is_word b /\
    exec_aop ASar [a; b] = Some [2 ^ 256 - 1] /\ spec_aop ASar a b 0 = 0.
Proof. exists 256, 0. repeat split; vm_compute; congruence. Qed.
Print Assumptions sar_exact_refuted.

(** The signed cases are met with negative operands: -7 / 2 = -3, -7 mod 2 = -1. *)
Example sdiv_neg : is_word (2 ^ 256 - 7) /\
  exec_aop ASdiv [2 ^ 256 - 7; 2; 99] = Some [2 ^ 256 - 3; 99] /\
  exec_aop ASmod [2 ^ 256 - 7; 2; 99] = Some [2 ^ 256 - 1; 99] /\
  exec_aop ASignextend [0; 255] = Some [2 ^ 256 - 1].
Proof. unfold is_word. repeat split; try reflexivity; vm_compute; congruence. Qed.
