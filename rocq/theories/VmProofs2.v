From Verif Require Import Lib VmWordModel VmWordProofs VmJumpModel VmJumpSpec VmJumpProofs VmModel VmSpec VmProofs.

(** instructions the decoder can produce *)
Definition instr_ok (i : instr) : Prop :=
  match i with
  | IPush n => (1 <= n <= 32)%nat | IDup n => (1 <= n <= 16)%nat | ISwap n => (1 <= n <= 16)%nat
  | ILog n => (n <= 4)%nat | _ => True end.

Lemma decode_ok is op i : decode is op = Some i -> instr_ok i.
Proof.
  unfold decode.
  destruct ((0x60 <=? op) && (op <=? 0x7f)) eqn:E1; [intros [= <-]; cbn; lia|].
  destruct ((0x80 <=? op) && (op <=? 0x8f)) eqn:E2; [intros [= <-]; cbn; lia|].
  destruct ((0x90 <=? op) && (op <=? 0x9f)) eqn:E3; [intros [= <-]; cbn; lia|].
  destruct ((0xa0 <=? op) && (op <=? 0xa4)) eqn:E4; [intros [= <-]; cbn; lia|].
  clear. intros H.
  repeat match type of H with
  | match ?x with _ => _ end = _ => destruct x
  | Some _ = Some _ => injection H as <-; exact I
  | None = Some _ => discriminate H
  end.
Qed.

Definition wr_after (e : venv) (i : instr) (s : vst) : list (Z * list Z) :=
  match i with
  | ISstore => if v_offchain e then s_wr s else assoc_set (back (s_stk s) 0) (big_bytes (back (s_stk s) 1)) (s_wr s)
  | _ => s_wr s
  end.

Definition frame (e : venv) (i : instr) (s s' : vst) : Prop :=
  s_quota s' = s_quota s /\ s_lastgas s' = s_lastgas s /\ s_modified s' = s_modified s /\
  s_wr s' = wr_after e i s /\ zlen (s_mem s') = zlen (s_mem s) /\ bytes_ok (s_mem s') /\
  Forall is_word (s_stk s') /\ 0 <= s_pc s' < two64 /\
  (v_offchain e = true -> s_logs s' = s_logs s /\ s_sends s' = s_sends s).

Definition exec_post (e : venv) (i : instr) (s : vst) (o : vout) : Prop :=
  match o with
  | ONext s' => frame e i s s' /\ zlen (s_stk s') = zlen (s_stk s) + snd (stack_req i) - fst (stack_req i) /\ halting i = false
  | OHalt _ s' | ORevert _ s' => frame e i s s' /\ zlen (s_stk s') <= zlen (s_stk s) /\ halting i = true
  | OErr _ s' => frame e i s s' /\ zlen (s_stk s') <= zlen (s_stk s)
  | OPanic p => False
  end.

Lemma wrap64_range x : 0 <= wrap64 x < two64.
Proof. unfold wrap64. apply Z.mod_pos_bound. reflexivity. Qed.

Ltac fr := repeat split; cbn [advance set_pc set_stk set_mem set_wr add_log add_send s_pc s_stk s_mem s_lastgas s_quota s_wr s_modified s_logs s_sends fst snd stack_req halting wr_after];
  auto; try apply wrap64_range; try (rewrite ?zlen_cons; lia).

Lemma jump_to_post e i s s0 pos : env_ok e -> 0 <= pos -> (i = IJump \/ i = IJumpi) ->
  frame e i s0 s -> zlen (s_stk s) = zlen (s_stk s0) + snd (stack_req i) - fst (stack_req i) ->
  exec_post e i s0 (jump_to e s pos).
Proof.
  intros He Hp Hi F L. unfold jump_to.
  destruct (eo_code e He) as [C1 C2].
  destruct (jump_has_spec (v_code e) pos C1 C2 Hp) as (b & -> & _).
  destruct b; cbn [exec_post].
  - destruct F as (A & B & C & D & E & G & H & I & J).
    repeat split; auto.
    + unfold to_uint64. apply Z.mod_pos_bound. reflexivity.
    + unfold to_uint64. apply Z.mod_pos_bound. reflexivity.
    + now apply J. + now apply J.
    + destruct Hi; subst; reflexivity.
  - split; [assumption|]. destruct Hi; subst; cbn in L; lia.
Qed.

Lemma push_value_word e s p : env_ok e -> 0 <= s_pc s < two64 -> zlen (s_mem s) < two64 -> is_word (push_value e s p).
Proof.
  intros He Hpc Hm. pose proof (zlen_nonneg (s_mem s)). pose proof (zlen_nonneg (v_data e)). pose proof (zlen_nonneg (v_code e)).
  destruct (eo_code e He) as [_ C]. destruct (eo_data e He) as [_ D]. change (2 ^ 62) with 4611686018427387904 in *.
  destruct p; cbn [push_value]; try apply (eo_env e He); try (destruct (v_offchain e); [now apply small_word|apply (eo_env e He)]);
  try (now apply small_word); apply u64_word; p64; lia.
Qed.

Lemma swap_top_spec st n : (1 <= n)%nat -> Z.of_nat n + 1 <= zlen st -> Forall is_word st ->
  exists st', swap_top st n = Some st' /\ length st' = length st /\ Forall is_word st'.
Proof.
  intros Hn Hl H. unfold zlen in Hl. destruct st as [|top r]; [cbn in Hl; lia|]. destruct n as [|k]; [lia|].
  cbn [swap_top]. cbn [length] in Hl.
  destruct (nth_error r k) as [x|] eqn:E.
  - eexists. split; [reflexivity|]. inversion H; subst. split.
    + cbn [length]. rewrite app_length. cbn [length]. rewrite firstn_length, skipn_length. lia.
    + constructor; [rewrite Forall_forall in H3; eapply H3, nth_error_In, E|].
      apply Forall_app; split; [now apply Forall_firstn'|]. constructor; [assumption|]. now apply Forall_skipn'.
  - apply nth_error_None in E. lia.
Qed.

Lemma push_bytes_word code pc n : bytes_ok code -> (n <= 32)%nat -> 0 <= pc -> is_word (push_bytes code pc n).
Proof.
  intros Hc Hn Hp. unfold push_bytes. cbv zeta. apply be_val_word; [apply right_pad_ok, slice_ok, Hc|].
  unfold right_pad. rewrite zlen_app, zlen_repeat. pose proof (zlen_nonneg code).
  rewrite slice_len by lia. lia.
Qed.

Lemma shape1 st : 1 <= zlen st -> Forall is_word st -> exists a r, st = a :: r /\ is_word a /\ Forall is_word r.
Proof. intros L H. destruct st as [|a r]; [unfold zlen in L; cbn in L; lia|]. inversion H; subst. eauto 6. Qed.
Lemma shape2 st : 2 <= zlen st -> Forall is_word st -> exists a b r, st = a :: b :: r /\ is_word a /\ is_word b /\ Forall is_word r.
Proof.
  intros L H. destruct (shape1 st) as (a & r & -> & A & B); [lia|assumption|]. rewrite zlen_cons in L.
  destruct (shape1 r) as (b & r' & -> & C & D); [lia|assumption|]. exists a, b, r'. auto.
Qed.
Lemma shape3 st : 3 <= zlen st -> Forall is_word st -> exists a b c r, st = a :: b :: c :: r /\ is_word a /\ is_word b /\ is_word c /\ Forall is_word r.
Proof.
  intros L H. destruct (shape1 st) as (a & r & -> & A & B); [lia|assumption|]. rewrite zlen_cons in L.
  destruct (shape2 r) as (b & c & r' & -> & C & D & E); [lia|assumption|]. exists a, b, c, r'. auto.
Qed.
Lemma shape5 st : 5 <= zlen st -> Forall is_word st -> exists a b c d f r, st = a :: b :: c :: d :: f :: r /\ is_word a /\ is_word b /\ is_word c /\ is_word d /\ is_word f /\ Forall is_word r.
Proof.
  intros L H. destruct (shape2 st) as (a & b & r & -> & A & B & C); [lia|assumption|]. rewrite !zlen_cons in L.
  destruct (shape3 r) as (c & d & f & r' & -> & D & E & F & G); [lia|assumption|]. exists a, b, c, d, f, r'. auto 10.
Qed.
Lemma shape_len1 {A} (a : A) r : zlen (a :: r) = 1 + zlen r. Proof. apply zlen_cons. Qed.

Lemma exec_spec e i s :
  env_ok e -> instr_ok i -> fst (stack_req i) <= zlen (s_stk s) ->
  Forall is_word (s_stk s) -> bytes_ok (s_mem s) -> zlen (s_mem s) < 2 ^ 62 -> 0 <= s_pc s < two64 ->
  Forall (fun kv => bytes_ok (snd kv) /\ zlen (snd kv) <= 32) (s_wr s) ->
  (forall sz, mem_size i (s_stk s) = Some sz -> sz <= zlen (s_mem s)) ->
  (i = ICall2 -> mem_get (s_mem s) (to_int64 (back (s_stk s) 3)) (to_int64 (back (s_stk s) 4)) <> None) ->
  exec_post e i s (exec e i s).
Proof.
  intros He Hi Hlen Hst Hm Hm62 Hpc Hwr Hsz Hc2.
  change (2 ^ 62) with 4611686018427387904 in Hm62.
  assert (forall off size, 0 <= off -> 0 <= size -> calc_mem_size off size <= zlen (s_mem s) -> in_mem (s_mem s) off size) as Hin.
  { intros off size Ho Hs H. unfold calc_mem_size in H. unfold in_mem. destruct (Z.eqb_spec size 0); [auto|]. right.
    change (2 ^ 63) with 9223372036854775808. lia. }
  assert (frame e IStop s s) as F0 by (fr; lia).
  destruct i; cbn [stack_req fst snd] in Hlen.
  - (* stop *) cbn [exec]. cbn [exec_post]. fr; lia.
  - (* arith *) cbn [exec].
    destruct (exec_aop_some a (s_stk s)) as [r E]; [unfold zlen in Hlen; lia|].
    assert (is_word r) by (eapply exec_aop_word; [exact Hst|exact E]).
    replace (exec_aop a (s_stk s)) with (Some (r :: skipn (aop_arity a) (s_stk s))) by (symmetry; exact E).
    unfold advance; cbn [exec_post]. fr.
    + constructor; [assumption|]. now apply Forall_skipn'.
    + unfold zlen in *. cbn [length]. rewrite skipn_length. lia.
  - (* sha3 *) destruct (shape2 _ Hlen Hst) as (a & b & r & Es & W1 & W2 & W3).
    destruct (mem_get_in (s_mem s) a b) as [d D]; [now apply is_word_ge0|now apply is_word_ge0| |].
    { apply Hin; try (now apply is_word_ge0). apply Hsz. cbn [mem_size]. rewrite Es. reflexivity. }
    cbn [exec]. rewrite Es, D. unfold advance; cbn [exec_post]. rewrite ?Es. fr.
    constructor; [apply (eo_hash e He)|assumption].
  - (* blake *) destruct (shape2 _ Hlen Hst) as (a & b & r & Es & W1 & W2 & W3).
    destruct (mem_get_in (s_mem s) a b) as [d D]; [now apply is_word_ge0|now apply is_word_ge0| |].
    { apply Hin; try (now apply is_word_ge0). apply Hsz. cbn [mem_size]. rewrite Es. reflexivity. }
    cbn [exec]. rewrite Es, D. unfold advance; cbn [exec_post]. rewrite ?Es. fr.
    constructor; [apply (eo_hash e He)|assumption].
  - (* env *) cbn [exec]. unfold advance; cbn [exec_post]. fr.
    constructor; [|assumption]. apply push_value_word; auto. p64; lia.
  - (* balance *) destruct (shape1 _ Hlen Hst) as (a & r & Es & W1 & W2). cbn [exec]. rewrite Es. unfold advance; cbn [exec_post]. rewrite ?Es. fr.
    constructor; [apply (eo_balance e He)|assumption].
  - (* calldataload *) destruct (shape1 _ Hlen Hst) as (a & r & Es & W1 & W2). cbn [exec]. rewrite Es. unfold advance; cbn [exec_post]. rewrite ?Es. fr.
    constructor; [|assumption]. apply be_val_word; [apply get_data_big_ok, (eo_data e He)|].
    rewrite get_data_big_len; [lia|now apply is_word_ge0|change (2 ^ 63) with 9223372036854775808; lia].
  - (* calldatacopy *) destruct (shape3 _ Hlen Hst) as (a & b & c & r & Es & W1 & W2 & W3 & W4).
    assert (in_mem (s_mem s) a c) as IM.
    { apply Hin; try (now apply is_word_ge0). apply Hsz. cbn [mem_size]. rewrite Es. reflexivity. }
    destruct (mem_set_in (s_mem s) a c (get_data_big (v_data e) b c)) as (m' & D & L & O); auto using is_word_ge0.
    { apply get_data_big_ok, (eo_data e He). }
    { destruct IM as [->|[I1 I2]]; [now right|left]. apply is_word_ge0 in W1, W2, W3. apply get_data_big_len; lia. }
    cbn [exec]. rewrite Es, D. unfold with_mem, advance; cbn [exec_post]. rewrite ?Es. fr.
  - (* codecopy *) destruct (shape3 _ Hlen Hst) as (a & b & c & r & Es & W1 & W2 & W3 & W4).
    assert (in_mem (s_mem s) a c) as IM.
    { apply Hin; try (now apply is_word_ge0). apply Hsz. cbn [mem_size]. rewrite Es. reflexivity. }
    destruct (mem_set_in (s_mem s) a c (get_data_big (v_code e) b c)) as (m' & D & L & O); auto using is_word_ge0.
    { apply get_data_big_ok, (eo_code e He). }
    { destruct IM as [->|[I1 I2]]; [now right|left]. apply is_word_ge0 in W1, W2, W3. apply get_data_big_len; lia. }
    cbn [exec]. rewrite Es, D. unfold with_mem, advance; cbn [exec_post]. rewrite ?Es. fr.
  - (* returndatacopy *) destruct (shape3 _ Hlen Hst) as (a & b & c & r & Es & W1 & W2 & W3 & W4).
    cbn [exec]. rewrite Es.
    destruct ((64 <? bit_len (b + c)) || (0 <? to_uint64 (b + c))) eqn:Oob.
    + cbn [exec_post]. rewrite ?Es. fr.
    + apply is_word_ge0 in W2, W3. rewrite bit_len_le64 in Oob by lia.
      apply orb_false_iff in Oob as [O1 O2]. rewrite to_uint64_id in O2 by lia. assert (c = 0) by lia. subst c.
      unfold mem_set. change (to_uint64 0) with 0. cbn [Z.ltb Z.compare]. unfold with_mem, advance; cbn [exec_post]. rewrite ?Es. fr.
  - (* pop *) destruct (shape1 _ Hlen Hst) as (a & r & Es & W1 & W2). cbn [exec]. rewrite Es. unfold advance; cbn [exec_post]. rewrite ?Es. fr.
  - (* mload *) destruct (shape1 _ Hlen Hst) as (a & r & Es & W1 & W2).
    assert (in_mem (s_mem s) a 32) as IM.
    { apply Hin; try (now apply is_word_ge0). apply Hsz. cbn [mem_size]. rewrite Es. reflexivity. }
    cbn [exec]. rewrite Es. destruct IM as [|[I1 I2]]; [discriminate|]. apply is_word_ge0 in W1.
    rewrite to_int64_id by lia. unfold mem_get.
    destruct (Z.eqb_spec 32 0); [discriminate|]. destruct (Z.ltb_spec a (zlen (s_mem s))); [|lia].
    destruct (Z.ltb_spec a 0); [lia|]. destruct (Z.ltb_spec 32 0); [lia|]. destruct (Z.ltb_spec (zlen (s_mem s)) (a + 32)); [lia|].
    cbn [orb]. unfold advance; cbn [exec_post]. rewrite ?Es. fr.
    constructor; [|assumption]. apply be_val_word; [now apply slice_ok|]. rewrite slice_len; lia.
  - (* mstore *) destruct (shape2 _ Hlen Hst) as (a & b & r & Es & W1 & W2 & W3).
    assert (in_mem (s_mem s) a 32) as IM.
    { apply Hin; try (now apply is_word_ge0). apply Hsz. cbn [mem_size]. rewrite Es. reflexivity. }
    cbn [exec]. rewrite Es. destruct IM as [|[I1 I2]]; [discriminate|]. apply is_word_ge0 in W1.
    rewrite to_uint64_id by (p64; lia). unfold mem_set32. destruct (Z.ltb_spec (zlen (s_mem s)) (a + 32)); [lia|].
    assert (zlen (be_bytes 32 b) = 32) as L32 by (unfold zlen; now rewrite be_bytes_length).
    unfold with_mem, advance; cbn [exec_post]. rewrite ?Es. fr.
    + apply write_at_len; lia.
    + apply write_at_ok; [assumption|apply be_bytes_ok].
  - (* mstore8 *) destruct (shape2 _ Hlen Hst) as (a & b & r & Es & W1 & W2 & W3).
    assert (in_mem (s_mem s) a 1) as IM.
    { apply Hin; try (now apply is_word_ge0). apply Hsz. cbn [mem_size]. rewrite Es. reflexivity. }
    cbn [exec]. rewrite Es. destruct IM as [|[I1 I2]]; [discriminate|]. apply is_word_ge0 in W1.
    rewrite to_int64_id by lia. unfold mem_set8. destruct (Z.ltb_spec a 0); [lia|]. destruct (Z.leb_spec (zlen (s_mem s)) a); [lia|].
    cbn [orb]. unfold with_mem, advance; cbn [exec_post]. rewrite ?Es. fr.
    + apply write_at_len; [lia|]. rewrite zlen_cons, zlen_nil. lia.
    + apply write_at_ok; [assumption|]. constructor; [unfold is_byte; lia|constructor].
  - (* sload *) destruct (shape1 _ Hlen Hst) as (a & r & Es & W1 & W2). cbn [exec]. rewrite Es. unfold advance; cbn [exec_post]. rewrite ?Es. fr.
    constructor; [|assumption]. destruct (look_ok e s a He Hwr). now apply be_val_word.
  - (* sstore *) destruct (shape2 _ Hlen Hst) as (a & b & r & Es & W1 & W2 & W3). cbn [exec]. rewrite Es. cbv zeta.
    unfold advance; cbn [exec_post]. destruct (v_offchain e) eqn:Off; rewrite ?Es; fr; rewrite ?Es, ?Off; try reflexivity; try discriminate; try (rewrite !zlen_cons; lia).
  - (* jump *) destruct (shape1 _ Hlen Hst) as (a & r & Es & W1 & W2). cbn [exec]. rewrite Es.
    apply jump_to_post; auto using is_word_ge0; [fr; lia|cbn [set_stk s_stk stack_req fst snd]; rewrite Es, zlen_cons; lia].
  - (* jumpi *) destruct (shape2 _ Hlen Hst) as (a & b & r & Es & W1 & W2 & W3). cbn [exec]. rewrite Es.
    destruct (b =? 0).
    + unfold advance; cbn [exec_post]. rewrite ?Es. fr.
    + apply jump_to_post; auto using is_word_ge0; [fr; lia|cbn [set_stk s_stk stack_req fst snd]; rewrite Es, !zlen_cons; lia].
  - (* jumpdest *) cbn [exec]. unfold advance; cbn [exec_post]. fr.
  - (* push *) cbn [exec]. unfold advance; cbn [exec_post]. fr. constructor; [|assumption].
    cbn in Hi. apply push_bytes_word; [apply (eo_code e He)|lia|lia].
  - (* dup *) cbn in Hi. destruct n as [|k]; [lia|]. cbn [exec].
    destruct (nth_error (s_stk s) k) as [x|] eqn:N.
    + unfold advance; cbn [exec_post]. fr. constructor; [|assumption]. rewrite Forall_forall in Hst. eapply Hst, nth_error_In, N.
    + apply nth_error_None in N. unfold zlen in Hlen. lia.
  - (* swap *) cbn in Hi. destruct (swap_top_spec (s_stk s) n) as (st' & E & L & F); [lia|lia|assumption|].
    cbn [exec]. rewrite E. unfold advance; cbn [exec_post]. fr. unfold zlen in *. lia.
  - (* log *) destruct (shape2 (s_stk s)) as (a & b & r & Es & W1 & W2 & W3); [lia|assumption|]. cbn [exec]. rewrite Es in Hlen |- *.
    rewrite !zlen_cons in Hlen. unfold zlen in Hlen.
    destruct (Z.ltb_spec (Z.of_nat (length r)) (Z.of_nat n)); [lia|].
    destruct (v_offchain e) eqn:Off.
    + unfold advance; cbn [exec_post]. rewrite ?Es. fr; [now apply Forall_skipn'|]. rewrite !zlen_cons. unfold zlen. rewrite skipn_length. lia.
    + destruct (mem_get_in (s_mem s) a b) as [d D]; [now apply is_word_ge0|now apply is_word_ge0| |].
      { apply Hin; try (now apply is_word_ge0). apply Hsz. cbn [mem_size]. rewrite Es. reflexivity. }
      rewrite D. unfold advance; cbn [exec_post]. rewrite ?Es. fr; try (now apply Forall_skipn'); try (rewrite Off in *; discriminate).
      rewrite !zlen_cons. unfold zlen. rewrite skipn_length. lia.
  - (* call *) destruct (shape5 _ Hlen Hst) as (a & b & c & d & f & r & Es & W1 & W2 & W3 & W4 & W5 & W6). cbn [exec]. rewrite Es.
    destruct (v_offchain e) eqn:Off.
    + unfold advance; cbn [exec_post]. rewrite ?Es. fr.
    + destruct (mem_get_in (s_mem s) d f) as [x D]; [now apply is_word_ge0|now apply is_word_ge0| |].
      { apply Hin; try (now apply is_word_ge0). apply Hsz. cbn [mem_size]. rewrite Es. reflexivity. }
      rewrite D. unfold advance; cbn [exec_post]. rewrite ?Es. fr; rewrite Off in *; discriminate.
  - (* call2 *) destruct (shape5 _ Hlen Hst) as (a & b & c & d & f & r & Es & W1 & W2 & W3 & W4 & W5 & W6). cbn [exec]. specialize (Hc2 eq_refl). rewrite Es in *.
    destruct (v_offchain e) eqn:Off.
    + unfold advance; cbn [exec_post]. rewrite ?Es. fr. constructor; [now apply small_word|assumption].
    + cbn [back nth] in Hc2. destruct (mem_get (s_mem s) (to_int64 d) (to_int64 f)) as [x|]; [|congruence].
      cbv zeta. unfold advance; cbn [exec_post]. rewrite ?Es. fr; try (rewrite Off in *; discriminate).
      constructor; [apply (eo_sendhash e He)|assumption].
  - (* return *) destruct (shape2 _ Hlen Hst) as (a & b & r & Es & W1 & W2 & W3).
    destruct (mem_get_in (s_mem s) a b) as [d D]; [now apply is_word_ge0|now apply is_word_ge0| |].
    { apply Hin; try (now apply is_word_ge0). apply Hsz. cbn [mem_size]. rewrite Es. reflexivity. }
    cbn [exec]. rewrite Es, D. cbn [exec_post]. rewrite ?Es. fr.
  - (* revert *) destruct (shape2 _ Hlen Hst) as (a & b & r & Es & W1 & W2 & W3). cbn [exec]. rewrite Es.
    destruct (v_offchain e) eqn:Off.
    + cbn [exec_post]. rewrite ?Es. fr.
    + destruct (mem_get_in (s_mem s) a b) as [d D]; [now apply is_word_ge0|now apply is_word_ge0| |].
      { apply Hin; try (now apply is_word_ge0). apply Hsz. cbn [mem_size]. rewrite Es. reflexivity. }
      rewrite D. cbn [exec_post]. rewrite ?Es. fr.
Qed.

(** ** One step *)
Definition measure (e : venv) (s : vst) : Z := 3 * (s_quota s + phi e s) + zlen (s_stk s).

Definition call_reads_unpaid (e : venv) (s : vst) : Prop :=
  exists i, decode (v_iset e) (get_op (v_code e) (s_pc s)) = Some i /\ is_call i = true /\
    mem_get (s_mem s) (to_int64 (back (s_stk s) 3)) (to_int64 (back (s_stk s) 4)) = None.

Lemma assoc_set_fst {A} k (v : A) w x : In x (map fst (assoc_set k v w)) -> x = k \/ In x (map fst w).
Proof.
  induction w as [|[k' v'] w IH]; cbn; [intuition|]. destruct (Z.eqb_spec k k'); cbn; intuition.
Qed.
Lemma assoc_set_Forall (P : list Z -> Prop) k v w : P v -> Forall (fun kv => P (snd kv)) w -> Forall (fun kv => P (snd kv)) (assoc_set k v w).
Proof.
  intros Hv H. induction H as [|[k' v'] w Hx Hw IH]; cbn; [constructor; auto|]. destruct (k =? k'); constructor; auto.
Qed.
Lemma set_add_spec k l : In k (set_add k l) /\ incl l (set_add k l) /\ (NoDup l -> NoDup (set_add k l)) /\ (forall x, In x (set_add k l) -> x = k \/ In x l).
Proof.
  unfold set_add. destruct (existsb (Z.eqb k) l) eqn:E.
  - apply existsb_exists in E as (x & I & Q). apply Z.eqb_eq in Q. subst x. repeat split; auto using incl_refl.
  - assert (~ In k l). { intro C. assert (existsb (Z.eqb k) l = true) as F by (apply existsb_exists; exists k; split; [assumption|apply Z.eqb_refl]). congruence. }
    repeat split; [left; reflexivity|intros x Hx; now right|intros; now constructor|intros x [<-|Hx]; auto].
Qed.

Lemma step_spec e q0 s : env_ok e -> quota_ok q0 -> inv e q0 s ->
  match step e s with
  | ONext s' => inv e q0 s' /\ measure e s' + 2 <= measure e s
  | OHalt _ s' | ORevert _ s' => inv e q0 s'
  | OErr _ s' => 0 <= s_quota s' <= q0 /\ (v_offchain e = true -> s_wr s' = [] /\ s_logs s' = [] /\ s_sends s' = [])
  | OPanic p => p = PanicMem /\ call_reads_unpaid e s
  end.
Proof.
  intros He [Hq0 Hq1] I. pose proof (eo_tok e He) as T. unfold step.
  assert (0 <= phi e s) as Hphi by now apply phi_list_ge0.
  assert (0 <= s_lastgas s) as Hlg0.
  { rewrite (iv_lg _ _ _ I). pose proof (zlen_nonneg (s_mem s)). pose proof (price_ge (v_gas e) (zlen (s_mem s) / 32) T). lia. }
  pose proof (iv_q _ _ _ I) as Hq. pose proof (iv_budget _ _ _ I) as Hb.
  assert (0 <= s_quota s <= q0 /\ (v_offchain e = true -> s_wr s = [] /\ s_logs s = [] /\ s_sends s = [])) as Herr by (split; [lia|apply (iv_off _ _ _ I)]).
  destruct (decode (v_iset e) (get_op (v_code e) (s_pc s))) as [i|] eqn:Dec; [|exact Herr].
  pose proof (decode_ok _ _ _ Dec) as Hi.
  destruct (stack_req i) as [pop push] eqn:Req. cbv zeta.
  destruct (Z.ltb_spec (zlen (s_stk s)) pop) as [|Hpop]; [exact Herr|].
  unfold stack_limit. destruct (Z.ltb_spec 1024 (zlen (s_stk s) + push - pop)) as [|Hpush]; [exact Herr|].
  destruct (memory_size i (s_stk s)) as [msz|] eqn:Ms; [|exact Herr].
  pose proof (memory_size_spec _ _ _ (iv_stk _ _ _ I) Ms) as Hmsz.
  destruct (gas_cost e s i msz) as [cost charge lg md|err|] eqn:G; [|exact Herr|].
  2:{ (* the only panic *)
    split; [reflexivity|]. exists i. split; [exact Dec|].
    destruct i; cbn [gas_cost] in G; try discriminate;
      try (unfold gas_mem_plus in G; destruct (memory_gas _ _ _ _) as [[? ?]|]; [|discriminate]; destruct (fold_left _ _ _); discriminate).
    - destruct a; try discriminate. destruct (safe_add _ _); discriminate.
    - unfold gas_sstore in G. cbv zeta in G.
      repeat match type of G with (if ?c then _ else _) = _ => destruct c end; discriminate.
    - destruct (big_uint64 _); [|discriminate]. unfold gas_mem_plus in G. destruct (memory_gas _ _ _ _) as [[? ?]|]; [|discriminate]. destruct (fold_left _ _ _); discriminate.
    - unfold gas_call in G. destruct (memory_gas _ _ _ _) as [[? ?]|]; [|discriminate]. split; [reflexivity|].
      destruct (mem_get _ _ _); [|reflexivity]. destruct (v_sendcost _ _); [|discriminate]. destruct (_ <? _); [|discriminate]. destruct (safe_add _ _); discriminate.
    - unfold gas_call in G. destruct (memory_gas _ _ _ _) as [[? ?]|]; [|discriminate]. split; [reflexivity|].
      destruct (mem_get _ _ _); [|reflexivity]. destruct (v_sendcost _ _); [|discriminate]. destruct (_ <? _); [|discriminate]. destruct (safe_add _ _); discriminate. }
  destruct (use_quota (s_quota s) cost charge) as [q|] eqn:U.
  2:{ cbn [set_gas s_quota s_wr s_logs s_sends]. split; [lia|apply (iv_off _ _ _ I)]. }
  (* accounting *)
  set (s1 := set_mem (set_gas s q lg md) (mem_resize (s_mem s) msz)).
  assert (0 <= msz < two64 /\ msz mod 32 = 0) as [Hm1 Hm2].
  { destruct (mem_size i (s_stk s)); [lia|]. subst msz. split; [p64; lia|reflexivity]. }
  assert (zlen (s_mem s1) = Z.max (zlen (s_mem s)) msz) as Hml by (unfold s1; cbn [set_mem s_mem]; apply mem_resize_len).
  assert (let phi' := phi_list (v_gas e) (v_orig e) (wr_after e i s) in
     0 <= q /\ lg = memory_price (v_gas e) (zlen (s_mem s1) / 32) /\
     q + phi' <= s_quota s + phi e s /\ q + phi' + lg <= s_quota s + phi e s + s_lastgas s /\
     (free i = false -> q + phi' + 1 <= s_quota s + phi e s) /\
     (zlen (s_mem s1) < 2 ^ 62) /\
     (v_earth e = true -> zlen md <= 100 /\ NoDup md /\ incl (map fst (wr_after e i s)) md)) as Acc.
  { cbv zeta.
    assert (zlen (s_mem s) < 2 ^ 62) as Hmm.
    { pose proof (price_ge (v_gas e) (zlen (s_mem s) / 32) T). pose proof (zlen_nonneg (s_mem s)). rewrite <- (iv_lg _ _ _ I) in H.
      change (2 ^ 62) with 4611686018427387904. change (2 ^ 32) with 4294967296 in Hq1. pose proof (iv_mem32 _ _ _ I). lia. }
    destruct i eqn:Ei; try match goal with |- context [ISstore] => idtac | _ =>
      rewrite <- Ei in G, Ms;
      destruct (gas_spec e s i msz cost charge lg md He (iv_stk _ _ _ I)) as (fee & F1 & F2 & F3 & F4 & F5); [subst i; discriminate|exact Ms|exact G|];
      subst charge md; unfold use_quota in U; destruct (Z.ltb_spec (s_quota s) cost); [discriminate|]; injection U as <-;
      destruct (memory_gas_spec (v_gas e) (s_mem s) (s_lastgas s) msz fee lg (s_quota s)) as (P1 & P2 & P3 & P4);
        [exact T|exact Hm1|exact Hm2|apply (iv_mem32 _ _ _ I)|apply (iv_lg _ _ _ I)|exact Hq|lia|exact F1|lia|];
      rewrite Hml; cbn [wr_after]; unfold phi;
      subst i; split; [lia|]; split; [exact P3|]; split; [lia|]; split; [lia|];
      split; [intros Fr; first [discriminate Fr | specialize (F5 Fr); lia]|]; 
      split; [change (2 ^ 62) with 4611686018427387904 in *; lia|apply (iv_mod _ _ _ I)]
    end.
    (* SSTORE *)
    cbn [gas_cost] in G. cbn [mem_size] in Hmsz. subst msz.
    destruct (gas_sstore_spec e s cost charge lg md He) as (A1 & A2 & A3 & A4 & A5 & A6); [apply back_word, (iv_stk _ _ _ I)|exact G|].
    pose proof (zlen_nonneg (s_mem s)). rewrite Z.max_l in Hml by lia. rewrite Hml.
    set (loc := back (s_stk s) 0) in *. set (nb := big_bytes (back (s_stk s) 1)) in *.
    assert (cur_val e s loc = look (v_orig e) (s_wr s) loc) as Ec by reflexivity.
    pose proof (phi1_le (v_gas e) (v_orig e) (s_wr s) loc T) as Hle. rewrite <- Ec in Hle. fold (phi e s) in Hle.
    pose proof (phi1_ge0 (v_gas e) (v_orig e loc) nb T) as Hge.
    assert (0 <= q /\ q + phi_list (v_gas e) (v_orig e) (wr_after e ISstore s) <= s_quota s + phi e s) as [Q1 Q2].
    { cbn [wr_after]. fold loc nb. destruct (v_offchain e) eqn:Off.
      - destruct (iv_off _ _ _ I Off) as (W & _ & _).
        assert (charge = true) as -> by (apply A4; unfold cur_val; rewrite W; reflexivity).
        unfold use_quota in U. destruct (Z.ltb_spec (s_quota s) cost); [discriminate|]. injection U as <-. fold (phi e s). lia.
      - rewrite phi_list_set, <- Ec. fold (phi e s). unfold use_quota in U. destruct charge.
        + destruct (Z.ltb_spec (s_quota s) cost); [discriminate|]. injection U as <-. lia.
        + injection U as <-. change (2 ^ 32) with 4294967296 in Hq1. unfold wrap64. rewrite Z.mod_small by (p64; lia). lia. }
    split; [exact Q1|]. split; [rewrite A1; apply (iv_lg _ _ _ I)|]. split; [exact Q2|]. split; [lia|]. split; [discriminate|].
    split; [exact Hmm|]. intros Er. rewrite Er in A5. subst md. destruct (iv_mod _ _ _ I Er) as (B1 & B2 & B3).
    destruct (set_add_spec loc (s_modified s)) as (C1 & C2 & C3 & C4).
    split; [auto|]. split; [auto|]. cbn [wr_after]. fold loc nb.
    destruct (v_offchain e).
    - eapply incl_tran; eauto.
    - intros x Hx. apply assoc_set_fst in Hx as [->|Hx]; auto. }
  cbv zeta in Acc. destruct Acc as (Q0 & Q1 & Q2 & Q3 & Q4 & Q5 & Q6).
  assert (exec_post e i s1 (exec e i s1)) as Post.
  { apply exec_spec; auto; unfold s1; cbn [set_mem set_gas s_pc s_stk s_mem s_lastgas s_quota s_wr].
    - rewrite Req. exact Hpop.
    - apply (iv_stk _ _ _ I).
    - apply mem_resize_ok, (iv_mem _ _ _ I).
    - apply (iv_pc _ _ _ I).
    - apply (iv_wr _ _ _ I).
    - intros sz Esz. rewrite Esz in Hmsz. rewrite mem_resize_len. lia.
    - intros ->. cbn [mem_size] in Hmsz. subst msz. cbn [gas_cost] in G. unfold gas_call in G.
      unfold mem_resize. pose proof (zlen_nonneg (s_mem s)). destruct (Z.ltb_spec (zlen (s_mem s)) 0); [lia|].
      destruct (memory_gas _ _ _ _) as [[? ?]|]; [|discriminate]. destruct (mem_get _ _ _); discriminate. }
  assert (wr_after e i s1 = wr_after e i s) as Wr1 by (destruct i; reflexivity).
  assert (forall s', frame e i s1 s' -> zlen (s_stk s') <= 1024 -> inv e q0 s') as Hinv.
  { intros s' (B1 & B2 & B3 & B4 & B5 & B6 & B7 & B8 & B9) Hl. rewrite Wr1 in B4.
    unfold s1 in B1, B2, B3, B9. cbn [set_mem set_gas s_quota s_lastgas s_modified s_logs s_sends] in B1, B2, B3, B9.
    constructor; auto.
    - rewrite B5, Hml. pose proof (iv_mem32 _ _ _ I). destruct (Z.max_spec (zlen (s_mem s)) msz) as [[_ ->]|[_ ->]]; assumption.
    - rewrite B2, B5. exact Q1.
    - lia.
    - unfold phi. rewrite B1, B2, B4. lia.
    - rewrite B4. destruct i; try apply (iv_wr _ _ _ I). cbn [wr_after]. destruct (v_offchain e); [apply (iv_wr _ _ _ I)|].
      apply (assoc_set_Forall (fun v => bytes_ok v /\ zlen v <= 32)); [|apply (iv_wr _ _ _ I)].
      split; [apply big_bytes_ok|]. apply big_bytes_len, back_word, (iv_stk _ _ _ I).
    - intros Off. destruct (iv_off _ _ _ I Off) as (W & L & S). destruct (B9 Off) as [-> ->]. rewrite B4.
      split; [|auto]. destruct i; try exact W. cbn [wr_after]. rewrite Off. exact W.
    - rewrite B3, B4. exact Q6. }
  assert (s_stk s1 = s_stk s) as Es1 by reflexivity.
  pose proof (iv_len _ _ _ I) as Hlen.
  destruct (exec e i s1) as [s'|ret s'|ret s'|err s'|p]; cbn [exec_post] in Post.
  - destruct Post as (F & L & H). rewrite Req, Es1 in L. cbn [fst snd] in L.
    split; [apply Hinv; [exact F|lia]|].
    destruct F as (B1 & _ & _ & B4 & _). rewrite Wr1 in B4. unfold s1 in B1. cbn [set_mem set_gas s_quota] in B1.
    unfold measure. replace (phi e s') with (phi_list (v_gas e) (v_orig e) (wr_after e i s)) by (unfold phi; now rewrite B4).
    rewrite B1, L. destruct (free i) eqn:Fr.
    + assert (push + 2 <= pop) by (destruct i; cbn in Fr, H, Req; try discriminate; injection Req as <- <-; lia). lia.
    + specialize (Q4 eq_refl). assert (push <= pop + 1) by (destruct i; cbn in Req; injection Req as <- <-; lia). lia.
  - destruct Post as (F & L & _). rewrite Es1 in L. apply Hinv; [exact F|lia].
  - destruct Post as (F & L & _). rewrite Es1 in L. apply Hinv; [exact F|lia].
  - destruct Post as (F & L). rewrite Es1 in L.
    assert (inv e q0 s') as I' by (apply Hinv; [exact F|lia]).
    split; [|apply (iv_off _ _ _ I')].
    pose proof (iv_q _ _ _ I'). pose proof (iv_budget _ _ _ I').
    assert (0 <= phi e s') by now apply phi_list_ge0.
    assert (0 <= s_lastgas s').
    { rewrite (iv_lg _ _ _ I'). pose proof (zlen_nonneg (s_mem s')). pose proof (price_ge (v_gas e) (zlen (s_mem s') / 32) T). lia. }
    lia.
  - destruct Post.
Qed.

Lemma reachable_inv e q s : env_ok e -> quota_ok q -> reachable e q s -> inv e q s.
Proof.
  intros He Hq. induction 1; [now apply init_inv|].
  pose proof (step_spec e q s He Hq IHreachable) as S. rewrite H0 in S. apply S.
Qed.
