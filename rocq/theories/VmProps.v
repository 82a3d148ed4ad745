(** C02–C06, C34: theorems about whole contract executions. *)
From Verif Require Import Lib VmWordModel VmWordSpec VmWordProofs VmJumpModel VmJumpSpec VmJumpProofs VmModel VmSpec VmProofs VmProofs2 VmProofs3.

(** A small environment the examples run in. Hashes are stand-ins. *)
Definition demo (code : list Z) : venv := {|
  v_iset := SetEarth; v_offchain := false; v_earth := true; v_gas := vite_table;
  v_code := code; v_data := [1; 2; 3]; v_orig := fun k => if k =? 7 then [9] else [];
  v_env := fun _ => 5; v_balance := fun _ => 1000; v_keccak := fun d => zlen d mod 97; v_blake := fun d => zlen d mod 89;
  v_sendcost := fun b => if zlen (sd_data b) <? 1000000 then Some (21000 + 68 * zlen (sd_data b)) else None;
  v_sendhash := fun l => zlen l mod 83 |}.

Lemma demo_ok code : bytes_ok code -> zlen code < 2 ^ 62 -> env_ok (demo code).
Proof.
  intros. assert (forall n, 0 <= n < 1001 -> is_word n) as W by (intros n A; unfold is_word, two256; split; [lia|]; apply Z.lt_trans with 1001; [lia|now vm_compute]).
  constructor; cbn [demo v_gas v_code v_data v_env v_balance v_keccak v_blake v_sendhash v_sendcost v_orig]; auto.
  - split; [|reflexivity]. repeat constructor; unfold is_byte; lia.
  - intros. apply W; lia.
  - intros. apply W; lia.
  - intros. split; apply W; lia.
  - intros. apply W; lia.
  - intros b c. pose proof (zlen_nonneg (sd_data b)). destruct (Z.ltb_spec (zlen (sd_data b)) 1000000); [|discriminate].
    intros Q. assert (c = 21000 + 68 * zlen (sd_data b)) as -> by congruence. unfold is_u64. p64. lia.
  - intros k. destruct (k =? 7); split; try constructor; try constructor; unfold is_byte, zlen; cbn; lia.
Qed.

(** A program that uses memory, storage, a jump, a log and a call:
    MSTORE(0, 0x2a); SSTORE(7, 1); SSTORE(7, 9) (refund); LOG0(0,32);
    CALL(5,6,7,0,32); JUMP over an INVALID; RETURN(0,32). *)
Definition demo_code : list Z :=
  [0x60;0x2a;0x60;0;0x52; 0x60;1;0x60;7;0x55; 0x60;9;0x60;7;0x55; 0x60;32;0x60;0;0xa0;
   0x60;32;0x60;0;0x60;7;0x60;6;0x60;5;0xf1; 0x60;35;0x56;0xfe;0x5b; 0x60;32;0x60;0;0xf3].
Lemma demo_code_ok : env_ok (demo demo_code).
Proof. apply demo_ok; [|reflexivity]. repeat constructor; unfold is_byte; lia. Qed.

Lemma run_reachable fuel : forall e q s o, reachable e q s -> run fuel e s = Some o ->
  exists s0, reachable e q s0 /\ step e s0 = o /\ (forall s', o <> ONext s').
Proof.
  induction fuel as [|f IH]; intros e q s o R H; cbn [run] in H; [discriminate|].
  destruct (step e s) as [s1|ret s1|ret s1|er s1|p] eqn:E.
  - eapply IH; [|exact H]. eapply reach_next; eauto.
  - injection H as <-. exists s. repeat split; auto. congruence.
  - injection H as <-. exists s. repeat split; auto. congruence.
  - injection H as <-. exists s. repeat split; auto. congruence.
  - injection H as <-. exists s. repeat split; auto. congruence.
Qed.

(** [n] instructions in a row, all of which go on. *)
Fixpoint steps (n : nat) (e : venv) (s : vst) : option vst :=
  match n with O => Some s | S k => match step e s with ONext s' => steps k e s' | _ => None end end.
Lemma steps_reachable n : forall e q s s', reachable e q s -> steps n e s = Some s' -> reachable e q s'.
Proof.
  induction n; intros e q s s' R H; cbn [steps] in H; [congruence|].
  destruct (step e s) eqn:S; try discriminate. eapply IHn; [|exact H]. eapply reach_next; eauto.
Qed.

(** ** C02 *)
(** At every moment of every execution the stack holds at most 1024 words, and no
    instruction ever pops from a stack that is too short (which would panic). *)
Theorem stack_safe : forall e q s, env_ok e -> quota_ok q -> reachable e q s ->
  zlen (s_stk s) <= 1024 /\ Forall is_word (s_stk s) /\ step e s <> OPanic PanicStack.
Proof.
  intros e q s He Hq R. pose proof (reachable_inv e q s He Hq R) as I.
  split; [apply (iv_len _ _ _ I)|]. split; [apply (iv_stk _ _ _ I)|].
  pose proof (step_spec e q s He Hq I) as S. intros C. rewrite C in S. destruct S as [S _]. discriminate.
Qed.
Print Assumptions stack_safe.

(** The stack errors are raised exactly when the stack is too short for the operands
    of the next instruction, or would exceed 1024 afterwards. *)
Theorem stack_errors_exact : forall e s i, decode (v_iset e) (get_op (v_code e) (s_pc s)) = Some i ->
  (step e s = OErr EStackUnderflow s <-> zlen (s_stk s) < fst (stack_req i)) /\
  (step e s = OErr EStackLimit s <-> fst (stack_req i) <= zlen (s_stk s) /\
     1024 < zlen (s_stk s) - fst (stack_req i) + snd (stack_req i)).
Proof.
  intros e s i Dec. unfold step. rewrite Dec. destruct (stack_req i) as [pop push] eqn:R. cbn [fst snd]. cbv zeta. unfold stack_limit.
  assert (forall x, x <> EStackUnderflow /\ x <> EStackLimit -> forall s', OErr x s' <> OErr EStackUnderflow s /\ OErr x s' <> OErr EStackLimit s) as D
    by (intros x [A B] s'; split; congruence).
  destruct (Z.ltb_spec (zlen (s_stk s)) pop); [split; split; intros; auto; try discriminate; lia|].
  destruct (Z.ltb_spec 1024 (zlen (s_stk s) + push - pop)); [split; split; intros; auto; try discriminate; try lia|].
  assert (match memory_size i (s_stk s) with
    | Some msz => match gas_cost e s i msz with
      | GOk cost charge lg md => match use_quota (s_quota s) cost charge with
        | Some q => exec e i (set_mem (set_gas s q lg md) (mem_resize (s_mem s) msz))
        | None => OErr EOutOfQuota (set_gas s 0 lg md) end
      | GErr err => OErr err s | GPanic => OPanic PanicMem end
    | None => OErr EMemSizeOverflow s end <> OErr EStackUnderflow s /\
    match memory_size i (s_stk s) with
    | Some msz => match gas_cost e s i msz with
      | GOk cost charge lg md => match use_quota (s_quota s) cost charge with
        | Some q => exec e i (set_mem (set_gas s q lg md) (mem_resize (s_mem s) msz))
        | None => OErr EOutOfQuota (set_gas s 0 lg md) end
      | GErr err => OErr err s | GPanic => OPanic PanicMem end
    | None => OErr EMemSizeOverflow s end <> OErr EStackLimit s) as [N1 N2].
  { destruct (memory_size i (s_stk s)) as [msz|]; [|split; discriminate].
    destruct (gas_cost e s i msz) as [cost charge lg md|err|] eqn:G; [| |split; discriminate].
    - destruct (use_quota (s_quota s) cost charge); [|split; discriminate].
      set (s1 := set_mem _ _). clearbody s1.
      assert (forall s0 pos, jump_to e s0 pos <> OErr EStackUnderflow s /\ jump_to e s0 pos <> OErr EStackLimit s) as J.
      { intros. unfold jump_to. destruct (jump_has (v_code e) pos) as [[|]|]; split; discriminate. }
      assert (forall s0 o, with_mem s0 o <> OErr EStackUnderflow s /\ with_mem s0 o <> OErr EStackLimit s) as W.
      { intros. unfold with_mem, advance. destruct o; split; discriminate. }
      unfold exec, advance. repeat match goal with |- context [match ?x with _ => _ end] => destruct x end; auto; split; discriminate.
    - assert (err <> EStackUnderflow /\ err <> EStackLimit) as N; [|split; intros C; injection C as C; tauto].
      clear - G. 
      assert (forall t m x err, gas_mem_plus t s m x = GErr err -> err = EGasOverflow) as M.
      { intros t m x er. unfold gas_mem_plus. destruct (memory_gas _ _ _ _) as [[? ?]|]; [|congruence]. destruct (fold_left _ _ _); congruence. }
      assert (err = EGasOverflow \/ err = EStorageLimit \/ err = ESendCost) as [->|[->| ->]]; [|split; discriminate..].
      destruct i; cbn [gas_cost] in G; try discriminate; try (left; eapply M; exact G).
      + destruct a; try discriminate. destruct (safe_add _ _); [discriminate|left; congruence].
      + unfold gas_sstore in G. cbv zeta in G. destruct (v_earth e && _); [right; left; congruence|].
        repeat match type of G with (if ?c then _ else _) = _ => destruct c end; discriminate.
      + destruct (big_uint64 _); [left; eapply M; exact G|left; congruence].
      + unfold gas_call in G. destruct (memory_gas _ _ _ _) as [[? ?]|]; [|left; congruence]. destruct (mem_get _ _ _); [|discriminate].
        destruct (v_sendcost _ _); [|right; right; congruence]. destruct (_ <? _); [|discriminate]. destruct (safe_add _ _); [discriminate|left; congruence].
      + unfold gas_call in G. destruct (memory_gas _ _ _ _) as [[? ?]|]; [|left; congruence]. destruct (mem_get _ _ _); [|discriminate].
        destruct (v_sendcost _ _); [|right; right; congruence]. destruct (_ <? _); [|discriminate]. destruct (safe_add _ _); [discriminate|left; congruence]. }
  split; split; intros X; try contradiction; lia.
Qed.
Print Assumptions stack_errors_exact.

(** ** C03 *)
(** Every instruction except CALL2 touches only memory that exists after its own
    expansion, and all existing memory has been paid for at its exact price.
    Missing: CALL2, and the size CALL is charged for (refuted below). *)
Theorem memory_paid_before_use_partial : forall e q s i s', env_ok e -> quota_ok q -> reachable e q s ->
  decode (v_iset e) (get_op (v_code e) (s_pc s)) = Some i -> i <> ICall2 ->
  (step e s = ONext s' \/ (exists ret, step e s = OHalt ret s') \/ (exists ret, step e s = ORevert ret s')) ->
  (snd (touched s i) = 0 \/ fst (touched s i) + snd (touched s i) <= zlen (s_mem s')) /\
  zlen (s_mem s') mod 32 = 0 /\ memory_price (v_gas e) (zlen (s_mem s') / 32) <= q - s_quota s'.
Proof.
  intros e q s i s' He Hq R Dec N E. split; [eapply step_touched; eauto|].
  assert (inv e q s') as I.
  { pose proof (step_spec e q s He Hq (reachable_inv e q s He Hq R)) as S.
    destruct E as [E|[[ret E]|[ret E]]]; rewrite E in S; apply S. }
  split; [apply (iv_mem32 _ _ _ I)|]. rewrite <- (iv_lg _ _ _ I). pose proof (iv_budget _ _ _ I).
  assert (0 <= phi e s') by (apply phi_list_ge0, (eo_tok e He)). lia.
Qed.
Print Assumptions memory_paid_before_use_partial.

(** The only run-time panic any code can cause is a CALL/CALL2 whose data range
    straddles the end of memory at the moment its price is computed. *)
Theorem panic_only_in_call : forall e q s p, env_ok e -> quota_ok q -> reachable e q s -> step e s = OPanic p ->
  p = PanicMem /\ exists i, decode (v_iset e) (get_op (v_code e) (s_pc s)) = Some i /\ is_call i = true.
Proof.
  intros e q s p He Hq R E. pose proof (step_spec e q s He Hq (reachable_inv e q s He Hq R)) as S. rewrite E in S.
  destruct S as [-> (i & D & C & _)]. eauto.
Qed.
Print Assumptions panic_only_in_call.

(** Finding: CALL2 has no memory size function. Asked to send 32 bytes with no memory
    allocated, it reads beyond memory and silently sends an empty request. *)
Theorem memory_paid_before_use_refuted : exists e q s s', env_ok e /\ quota_ok q /\ reachable e q s /\
  decode (v_iset e) (get_op (v_code e) (s_pc s)) = Some ICall2 /\ step e s = ONext s' /\
  touched s ICall2 = (0, 32) /\ zlen (s_mem s') = 0 /\ map sd_data (s_sends s') = [[]].
Proof.
  set (code := [0x60;32;0x60;0;0x60;7;0x60;6;0x60;5;0xf2]).
  assert (env_ok (demo code)) as Ok by (apply demo_ok; [repeat constructor; unfold is_byte; lia|reflexivity]).
  exists (demo code), 100000.
  eexists. eexists. split; [exact Ok|]. split; [split; [discriminate|reflexivity]|]. split.
  { eapply (steps_reachable 5); [apply reach_init|]. vm_compute. reflexivity. }
  repeat split; vm_compute; reflexivity.
Qed.
Print Assumptions memory_paid_before_use_refuted.

(** Finding: code can make the node panic: with 32 bytes of memory, CALL2 over the
    range [0,64). *)
Theorem call2_panics_refuted : exists e q, env_ok e /\ quota_ok q /\ run 20 e (init_st q) = Some (OPanic PanicMem).
Proof.
  exists (demo [0x60;1;0x60;0;0x52; 0x60;64;0x60;0;0x60;7;0x60;6;0x60;5;0xf2]), 100000.
  split; [apply demo_ok; [repeat constructor; unfold is_byte; lia|reflexivity]|]. split; [split; [discriminate|reflexivity]|]. now vm_compute.
Qed.
Print Assumptions call2_panics_refuted.

(** Finding: the price of a CALL is computed before memory is expanded, so a request
    carrying 320 bytes from fresh memory is priced as one with no data: the same
    quota is used as for a request without data plus the memory itself. *)
Theorem call_priced_without_data_refuted : exists e q s s', env_ok e /\ quota_ok q /\ reachable e q s /\
  decode (v_iset e) (get_op (v_code e) (s_pc s)) = Some ICall /\ step e s = ONext s' /\
  (exists b c c0, s_sends s' = [b] /\ zlen (sd_data b) = 320 /\ v_sendcost e b = Some c /\
     v_sendcost e (mkSend (sd_to b) (sd_token b) (sd_amount b) []) = Some c0 /\ c0 < c /\
     s_quota s - s_quota s' = c0 - g_callminus (v_gas e) + memory_price (v_gas e) 10).
Proof.
  set (code := [0x61;1;64;0x60;0;0x60;7;0x60;6;0x60;5;0xf1]).
  assert (env_ok (demo code)) as Ok by (apply demo_ok; [repeat constructor; unfold is_byte; lia|reflexivity]).
  exists (demo code), 100000.
  eexists. eexists. split; [exact Ok|]. split; [split; [discriminate|reflexivity]|]. split.
  { eapply (steps_reachable 5); [apply reach_init|]. vm_compute. reflexivity. }
  split; [vm_compute; reflexivity|]. split; [vm_compute; reflexivity|].
  eexists. eexists. eexists. split; [vm_compute; reflexivity|]. repeat split; vm_compute; reflexivity.
Qed.
Print Assumptions call_priced_without_data_refuted.

(** ** C04 *)
(** Whatever the code, every instruction ever executed starts at an instruction
    boundary of the straight-line decoding: execution never enters push data. *)
Theorem execution_on_instruction_boundaries : forall e q s, env_ok e -> quota_ok q -> reachable e q s ->
  instruction_start (v_code e) (s_pc s).
Proof. exact reachable_pc. Qed.
Print Assumptions execution_on_instruction_boundaries.

(** ** C05 *)
(** Every execution stops within 3q/2 + 1 instructions. *)
Theorem execution_terminates : forall e q, env_ok e -> quota_ok q ->
  exists o, run (Z.to_nat (3 * q / 2 + 1)) e (init_st q) = Some o.
Proof.
  intros e q He Hq.
  assert (forall fuel s, inv e q s -> measure e s < 2 * Z.of_nat fuel -> exists o, run fuel e s = Some o) as L.
  { induction fuel as [|f IH]; intros s I M.
    - exfalso. assert (0 <= phi e s) by (apply phi_list_ge0, (eo_tok e He)). pose proof (iv_q _ _ _ I). pose proof (zlen_nonneg (s_stk s)).
      unfold measure in M. lia.
    - cbn [run]. pose proof (step_spec e q s He Hq I) as S. destruct (step e s); eauto. destruct S as [I' M']. apply IH; [assumption|lia]. }
  apply L; [now apply init_inv|]. unfold measure, init_st, phi; change (zlen (s_stk (mkSt 0 [] [] 0 q [] [] [] []))) with 0. cbn [s_quota s_wr]. unfold phi_list. cbn [fold_right map].
  destruct Hq. lia.
Qed.
Print Assumptions execution_terminates.

(** ** C06 *)
(** In every state of every execution, including the one it ends in, the quota left
    is between zero and the quota supplied; refunds for storage never exceed what
    was paid. *)
Theorem quota_never_overspent : forall e q s s', env_ok e -> quota_ok q -> reachable e q s ->
  out_state (step e s) = Some s' -> 0 <= s_quota s' <= q.
Proof.
  intros e q s s' He Hq R E. pose proof (step_spec e q s He Hq (reachable_inv e q s He Hq R)) as S.
  assert (forall x, inv e q x -> 0 <= s_quota x <= q) as X.
  { intros x I. pose proof (iv_q _ _ _ I). pose proof (iv_budget _ _ _ I).
    assert (0 <= phi e x) by (apply phi_list_ge0, (eo_tok e He)).
    assert (0 <= s_lastgas x).
    { rewrite (iv_lg _ _ _ I). pose proof (zlen_nonneg (s_mem x)). pose proof (price_ge (v_gas e) (zlen (s_mem x) / 32) (eo_tok e He)). lia. }
    lia. }
  destruct (step e s); cbn [out_state] in E; try discriminate; injection E as <-; try (apply X; apply S). apply S.
Qed.
Print Assumptions quota_never_overspent.

(** However memory grew, the charges for it so far add up to the price of its current size. *)
Theorem memory_charge_telescopes : forall e q s, env_ok e -> quota_ok q -> reachable e q s ->
  s_lastgas s = memory_price (v_gas e) (zlen (s_mem s) / 32).
Proof. intros e q s He Hq R. apply (iv_lg _ _ _ (reachable_inv e q s He Hq R)). Qed.
Print Assumptions memory_charge_telescopes.

(** Finding: the limit below which the memory price is computed (0xffffffffe0 bytes)
    lets the 64-bit square overflow: 2^32 words are charged only the linear part.
    Reachable only with a quota above 2^32, which the ledger never grants. *)
Theorem memory_price_overflow_refuted : exists size fee lg, 0 <= size <= 0xffffffffe0 /\
  memory_gas vite_table [] 0 size = Some (fee, lg) /\ fee < memory_price vite_table (size / 32) / 1000000.
Proof. exists (2 ^ 37), (2 ^ 32), (2 ^ 32). repeat split; try (vm_compute; congruence). Qed.
Print Assumptions memory_price_overflow_refuted.

(** ** C34 *)
(** Every instruction executed has exactly its documented effect on stack, memory,
    storage, logs and requests, except SAR of zero by 256 or more and a CALL2 whose
    data lies outside memory (both refuted above). *)
Theorem instruction_effects_partial : forall e q s i, env_ok e -> quota_ok q -> reachable e q s ->
  decode (v_iset e) (get_op (v_code e) (s_pc s)) = Some i ->
  (i = ICall2 -> arg s 4 = 0 \/ arg s 3 + arg s 4 <= zlen (s_mem s)) ->
  (i = IArith ASar -> arg s 1 <> 0 \/ arg s 0 < 256) ->
  match step e s with
  | ONext s' => ideal e s i s' /\ s_pc s' = ideal_pc s i
  | OHalt ret _ => (i = IStop \/ i = IRevert /\ v_offchain e = true) /\ ret = []
       \/ i = IReturn /\ ret = read_bytes (s_mem s) (arg s 0) (arg s 1)
  | ORevert ret _ => i = IRevert /\ v_offchain e = false /\ ret = read_bytes (s_mem s) (arg s 0) (arg s 1)
  | OErr _ _ | OPanic _ => True
  end.
Proof. exact step_ideal. Qed.
Print Assumptions instruction_effects_partial.

(** ** C35 *)
(** An off-chain read never changes anything: no storage write, log or request
    exists in any state it reaches or ends in. *)
Theorem offchain_read_only : forall e q s s', env_ok e -> quota_ok q -> v_offchain e = true -> reachable e q s ->
  out_state (step e s) = Some s' -> s_wr s' = [] /\ s_logs s' = [] /\ s_sends s' = [].
Proof.
  intros e q s s' He Hq Off R E. pose proof (step_spec e q s He Hq (reachable_inv e q s He Hq R)) as S.
  destruct (step e s); cbn [out_state] in E; try discriminate; injection E as <-; try (apply (iv_off e q); [apply S|exact Off]).
  destruct S as [_ S]. exact (S Off).
Qed.
Print Assumptions offchain_read_only.

(** ** C36 *)
(** Since the Earth upgrade one execution changes at most 100 storage locations. *)
Theorem storage_writes_bounded : forall e q s, env_ok e -> quota_ok q -> v_earth e = true -> reachable e q s ->
  forall locs, NoDup locs -> (forall k, In k locs -> cur_val e s k <> v_orig e k) -> zlen locs <= 100.
Proof.
  intros e q s He Hq Er R locs Nd H. destruct (iv_mod _ _ _ (reachable_inv e q s He Hq R) Er) as (A & B & C).
  assert (incl locs (s_modified s)) as Inc.
  { intros k Hk. apply C. specialize (H k Hk). unfold cur_val in H. destruct (assoc k (s_wr s)) as [v|] eqn:E; [|congruence].
    clear -E. induction (s_wr s) as [|[a b] w IH]; cbn in *; [discriminate|]. destruct (Z.eqb_spec k a); [left; congruence|right; auto]. }
  pose proof (NoDup_incl_length Nd Inc). unfold zlen in *. lia.
Qed.
Print Assumptions storage_writes_bounded.

(** The hypotheses are met by a run that exercises memory, storage with a refund, a
    log, a call, a jump and a return. *)
Example demo_run : env_ok (demo demo_code) /\ quota_ok 100000 /\
  match run 60 (demo demo_code) (init_st 100000) with
  | Some (OHalt ret s) => ret = be_bytes 32 0x2a /\ s_wr s = [(7, [9])] /\ length (s_logs s) = 1%nat /\
       map sd_amount (s_sends s) = [7] /\ s_quota s = 89142
  | _ => False
  end.
Proof. split; [exact demo_code_ok|]. split; [split; [discriminate|reflexivity]|]. vm_compute. repeat split. Qed.
