(** Each executed instruction has its documented effect. *)
From Verif Require Import Lib VmWordModel VmWordSpec VmWordProofs VmWordProps VmJumpModel VmJumpSpec VmJumpProofs VmModel VmSpec VmProofs VmProofs2.

Lemma nth_read l off size k : (k < Z.to_nat size)%nat -> nth k (read_bytes l off size) 0 = byte_at l (off + Z.of_nat k).
Proof.
  intros H. unfold read_bytes. rewrite nth_indep with (d' := (fun k => byte_at l (off + Z.of_nat k)) O) by (rewrite map_length, seq_length; lia).
  rewrite (map_nth (fun k => byte_at l (off + Z.of_nat k))). now rewrite seq_nth by lia.
Qed.
Lemma read_length l off size : length (read_bytes l off size) = Z.to_nat size.
Proof. unfold read_bytes. now rewrite map_length, seq_length. Qed.
Lemma nth_ext0 (a b : list Z) : length a = length b -> (forall k, (k < length a)%nat -> nth k a 0 = nth k b 0) -> a = b.
Proof. intros. now apply nth_ext with (d := 0) (d' := 0). Qed.
Lemma nth_skipn' {A} n (l : list A) k d : nth k (skipn n l) d = nth (n + k) l d.
Proof. revert l. induction n; intros [|x l]; cbn; auto. now destruct k. Qed.
Lemma nth_firstn' {A} n (l : list A) k d : (k < n)%nat -> nth k (firstn n l) d = nth k l d.
Proof. revert l k. induction n; intros [|x l] [|k] H; cbn; auto; try lia. apply IHn. lia. Qed.
Lemma slice_read l off size : 0 <= off -> 0 <= size -> off + size <= zlen l -> slice l off size = read_bytes l off size.
Proof.
  intros A B C. apply nth_ext0.
  - rewrite read_length. unfold slice, zlen in *. rewrite firstn_length, skipn_length. lia.
  - intros k Hk. assert (k < Z.to_nat size)%nat by (unfold slice in Hk; rewrite firstn_length in Hk; lia).
    rewrite nth_read by assumption. unfold slice. rewrite nth_firstn', nth_skipn' by assumption. unfold byte_at.
    destruct (Z.ltb_spec (off + Z.of_nat k) 0); [lia|]. f_equal. lia.
Qed.
Lemma read_nil l off : read_bytes l off 0 = [].
Proof. reflexivity. Qed.
Lemma mem_get_read m off size : 0 <= off -> 0 <= size -> in_mem m off size ->
  mem_get m (to_int64 off) (to_int64 size) = Some (read_bytes m off size).
Proof.
  intros Ho Hs [-> | [H1 H2]]; [reflexivity|].
  rewrite !to_int64_id by lia. unfold mem_get. destruct (Z.eqb_spec size 0) as [->|]; [reflexivity|].
  destruct (Z.ltb_spec off (zlen m)); [|lia].
  destruct (Z.ltb_spec off 0); [lia|]. destruct (Z.ltb_spec size 0); [lia|]. destruct (Z.ltb_spec (zlen m) (off + size)); [lia|].
  cbn [orb]. now rewrite slice_read by lia.
Qed.
Lemma nth_repeat0 n k : nth k (repeat 0 n) 0 = 0.
Proof. revert k. induction n; intros [|k]; cbn; auto. Qed.
Lemma nth_app0 (l : list Z) n k : nth k (l ++ repeat 0 n) 0 = nth k l 0.
Proof.
  destruct (Nat.lt_ge_cases k (length l)).
  - now rewrite app_nth1.
  - rewrite app_nth2, nth_repeat0, nth_overflow by lia. reflexivity.
Qed.
Lemma byte_resize m n k : byte_at (mem_resize m n) k = byte_at m k.
Proof. unfold mem_resize, byte_at. destruct (zlen m <? n); [|reflexivity]. destruct (k <? 0); [reflexivity|]. apply nth_app0. Qed.
Lemma byte_overflow l k : zlen l <= k -> byte_at l k = 0.
Proof. intros. unfold byte_at. pose proof (zlen_nonneg l). destruct (k <? 0); [reflexivity|]. apply nth_overflow. unfold zlen in *. lia. Qed.

Lemma padded_read l off n m : 0 <= off -> n = Z.to_nat m -> 0 <= m ->
  let s := Z.min off (zlen l) in let e := Z.min (s + m) (zlen l) in
  right_pad (slice l s (e - s)) m = read_bytes l off m.
Proof.
  intros Ho -> Hm. cbv zeta. pose proof (zlen_nonneg l).
  set (s := Z.min off (zlen l)). set (e := Z.min (s + m) (zlen l)).
  assert (zlen (slice l s (e - s)) = e - s) as L by (apply slice_len; lia).
  apply nth_ext0.
  - rewrite read_length. unfold right_pad. rewrite app_length, repeat_length. unfold zlen in L |- *. lia.
  - intros k Hk. unfold right_pad in *. rewrite app_length, repeat_length in Hk. unfold zlen in L, Hk.
    assert (k < Z.to_nat m)%nat by lia. rewrite nth_read by assumption. rewrite nth_app0.
    destruct (Z.lt_ge_cases (Z.of_nat k) (e - s)).
    + unfold slice. rewrite nth_firstn', nth_skipn' by lia. unfold byte_at. destruct (Z.ltb_spec (off + Z.of_nat k) 0); [lia|]. f_equal. lia.
    + rewrite nth_overflow by lia. symmetry. apply byte_overflow. lia.
Qed.
Lemma get_data_read data off size : 0 <= off -> 0 <= size < 2 ^ 63 -> get_data_big data off size = read_bytes data off size.
Proof.
  intros A [B C]. unfold get_data_big. cbv zeta. rewrite to_int64_id by lia. now apply (padded_read data off (Z.to_nat size) size).
Qed.
Lemma push_bytes_read code pc n : 0 <= pc -> push_bytes code pc n = be_val (read_bytes code (pc + 1) (Z.of_nat n)).
Proof.
  intros A. unfold push_bytes. cbv zeta. f_equal. rewrite Z.min_comm.
  pose proof (padded_read code (pc + 1) n (Z.of_nat n)) as P. cbv zeta in P. rewrite <- P by lia.
  now rewrite (Z.min_comm (Z.min _ _ + _)).
Qed.
Lemma byte_write m off v k : 0 <= off -> off + zlen v <= zlen m ->
  byte_at (write_at m off v) k = if (off <=? k) && (k <? off + zlen v) then nth (Z.to_nat (k - off)) v 0 else byte_at m k.
Proof.
  intros Ho Hl. unfold byte_at. destruct (Z.ltb_spec k 0).
  - destruct (Z.leb_spec off k); [lia|]. reflexivity.
  - unfold write_at. unfold zlen in *.
    assert (length (firstn (Z.to_nat off) m) = Z.to_nat off) as L by (rewrite firstn_length; lia).
    destruct (Z.leb_spec off k); cbn [andb].
    + rewrite app_nth2 by lia. rewrite L. destruct (Z.ltb_spec k (off + Z.of_nat (length v))).
      * rewrite app_nth1 by lia. f_equal. lia.
      * rewrite app_nth2 by lia. rewrite nth_skipn'. f_equal. lia.
    + rewrite app_nth1 by lia. now rewrite nth_firstn' by lia.
Qed.
Lemma nth_be_bytes n : forall x k, (k < n)%nat -> nth k (be_bytes n x) 0 = x / 256 ^ (Z.of_nat n - 1 - Z.of_nat k) mod 256.
Proof.
  induction n as [|n IH]; intros x k Hk; [lia|]. cbn [be_bytes].
  destruct (Nat.eq_dec k n) as [->|].
  - rewrite app_nth2; rewrite be_bytes_length; [|lia]. replace (n - n)%nat with O by lia. cbn [nth].
    replace (Z.of_nat (S n) - 1 - Z.of_nat n) with 0 by lia. change (256 ^ 0) with 1. now rewrite Z.div_1_r.
  - rewrite app_nth1 by (rewrite be_bytes_length; lia). rewrite IH by lia.
    rewrite Z.div_div by (try lia; apply Z.pow_pos_nonneg; lia).
    replace (Z.of_nat (S n) - 1 - Z.of_nat k) with (1 + (Z.of_nat n - 1 - Z.of_nat k)) by lia.
    rewrite Z.pow_add_r by lia. reflexivity.
Qed.
Lemma be_val_big_bytes x : is_word x -> be_val (big_bytes x) = x.
Proof.
  intros W. unfold big_bytes. apply be_val_bytes. apply is_word_ge0 in W. unfold bit_len.
  destruct (Z.eqb_spec x 0) as [->|]; [now vm_compute|].
  pose proof (Z.log2_nonneg x). split; [lia|].
  rewrite Z2Nat.id by (apply Z.div_pos; lia).
  change 256 with (2 ^ 8). rewrite <- Z.pow_mul_r by (try lia; apply Z.div_pos; lia).
  destruct (Z.log2_spec x) as [_ L]; [lia|]. eapply Z.lt_le_trans; [exact L|]. apply Z.pow_le_mono_r; lia.
Qed.
Lemma assoc_set_get {A} k (v : A) w k' : assoc k' (assoc_set k v w) = if k' =? k then Some v else assoc k' w.
Proof.
  induction w as [|[a b] w IH]; cbn [assoc_set assoc].
  - destruct (k' =? k); reflexivity.
  - destruct (Z.eqb_spec k a) as [<-|]; cbn [assoc].
    + destruct (k' =? k) eqn:E; reflexivity.
    + destruct (Z.eqb_spec k' a) as [->|]; [destruct (Z.eqb_spec a k); [congruence|reflexivity]|exact IH].
Qed.
Lemma aop_eq_dec (a b : aop) : {a = b} + {a <> b}.
Proof. decide equality. Defined.
Lemma arith_ideal a st : Forall is_word st -> Z.of_nat (aop_arity a) <= zlen st ->
  (a = ASar -> nth 1 st 0 <> 0 \/ nth 0 st 0 < 256) ->
  exec_aop a st = Some (spec_aop a (nth 0 st 0) (nth 1 st 0) (nth 2 st 0) :: skipn (aop_arity a) st).
Proof.
  intros H L Hs.
  assert (forall n, is_word (nth n st 0)) as W by (intros n; change (nth n st 0) with (back st n); now apply back_word).
  destruct (aop_eq_dec a ASar) as [->|Na].
  - specialize (Hs eq_refl). cbn in L. destruct (shape2 st) as (x & y & r & -> & _); [lia|assumption|].
    apply sar_exact_l; [apply (W O)|apply (W 1%nat)|exact Hs].
  - replace st with (firstn (aop_arity a) [nth 0 st 0; nth 1 st 0; nth 2 st 0] ++ skipn (aop_arity a) st) at 1.
    + apply arith_exact_l; auto.
    + unfold zlen in L. assert (aop_arity a <= 3)%nat by (destruct a; cbn; lia).
      destruct (aop_arity a) as [|[|[|[|]]]]; try lia; destruct st as [|? [|? [|? ?]]]; cbn in *; try lia; reflexivity.
Qed.

Lemma copy_ok m off size v : 0 <= off -> 0 <= size -> in_mem m off size -> (zlen v = size \/ size = 0) ->
  exists m', mem_set m (to_uint64 off) (to_uint64 size) v = Some m' /\
    forall k, byte_at m' k = if (off <=? k) && (k <? off + size) then nth (Z.to_nat (k - off)) v 0 else byte_at m k.
Proof.
  intros Ho Hs Hin Hl. unfold mem_set. destruct Hin as [-> | [H1 H2]].
  - change (to_uint64 0) with 0. cbn [Z.ltb Z.compare]. eexists; split; [reflexivity|]. intros k.
    destruct ((off <=? k) && (k <? off + 0)) eqn:E; [lia|reflexivity].
  - rewrite !to_uint64_id by (p64; lia). destruct (Z.ltb_spec 0 size).
    + destruct (Z.ltb_spec (zlen m) (off + size)); [lia|]. eexists. split; [reflexivity|]. intros k.
      destruct Hl as [Hl|]; [|lia].
      replace (firstn (Z.to_nat size) v) with v by (symmetry; apply firstn_all2; unfold zlen in Hl; lia).
      rewrite byte_write by lia. now rewrite Hl.
    + eexists; split; [reflexivity|]. intros k. destruct ((off <=? k) && (k <? off + size)) eqn:E; [lia|reflexivity].
Qed.

Definition exec_ideal_post (e : venv) (i : instr) (s : vst) (o : vout) : Prop :=
  match o with
  | ONext s' => ideal e s i s' /\ s_pc s' = ideal_pc s i /\ 0 <= s_pc s' < 2 ^ 63 /\
      ((i = IJump \/ i = IJumpi /\ arg s 1 <> 0) -> valid_jumpdest (v_code e) (s_pc s'))
  | OHalt ret s' => (i = IStop \/ i = IRevert /\ v_offchain e = true) /\ ret = [] \/ i = IReturn /\ ret = read_bytes (s_mem s) (arg s 0) (arg s 1)
  | ORevert ret s' => i = IRevert /\ v_offchain e = false /\ ret = read_bytes (s_mem s) (arg s 0) (arg s 1)
  | OErr _ _ => i = IReturndatacopy \/ (i = IJump \/ i = IJumpi) /\ ~ valid_jumpdest (v_code e) (arg s 0)
  | OPanic _ => False
  end.

Ltac idl := cbn [advance set_pc set_stk set_mem set_wr add_log add_send s_pc s_stk s_mem s_lastgas s_quota s_wr s_modified s_logs s_sends
  exec_ideal_post ideal_stack ideal_byte ideal_storage ideal_logs ideal_sends ideal_pc nth skipn firstn app].
Ltac pc1 := unfold wrap64; rewrite ?Z.mod_small by (p64; lia); try lia.
Ltac nojump := let H := fresh in intros H; exfalso; destruct H as [H | [H _]]; discriminate H.
Ltac idstep Es := unfold advance, exec_ideal_post; split; [constructor; idl; unfold arg, storage, cur_val; rewrite ?Es; idl; auto | split; [idl; pc1 | split; [idl; pc1 | try nojump]]].

Lemma exec_ideal e i s :
  env_ok e -> instr_ok i -> fst (stack_req i) <= zlen (s_stk s) ->
  Forall is_word (s_stk s) -> zlen (s_mem s) < 2 ^ 62 -> 0 <= s_pc s < 2 ^ 62 + 64 ->
  in_mem (s_mem s) (fst (touched s i)) (snd (touched s i)) ->
  (i = IArith ASar -> arg s 1 <> 0 \/ arg s 0 < 256) ->
  exec_ideal_post e i s (exec e i s).
Proof.
  intros He Hi Hlen Hst Hm62 Hpc Hin Hsar.
  change (2 ^ 62) with 4611686018427387904 in *.
  change (2 ^ 63) with 9223372036854775808.
  assert (forall pos r, 0 <= pos -> (i = IJump \/ i = IJumpi) -> pos = arg s 0 -> r = ideal_stack e s i -> ideal_pc s i = pos ->
     exec_ideal_post e i s (jump_to e (set_stk s r) pos)) as Hjump.
  { intros pos r Hp Hi' Ha Hr Hpc'. unfold jump_to. destruct (eo_code e He) as [C1 C2].
    destruct (jump_has_spec (v_code e) pos C1 C2 Hp) as (b & -> & V). destruct b.
    - destruct V as [V _]. specialize (V eq_refl). pose proof V as (V1 & V2 & V3).
      change (2 ^ 62) with 4611686018427387904 in C2.
      cbn [exec_ideal_post set_pc set_stk s_pc]. rewrite to_uint64_id by (p64; lia).
      split; [constructor; cbn [set_pc set_stk s_pc s_stk s_mem s_logs s_sends]; destruct Hi'; subst; auto|].
      split; [auto|]. split; [change (2 ^ 63) with 9223372036854775808; lia|auto].
    - cbn [exec_ideal_post]. right. split; [assumption|]. rewrite <- Ha. intros C. apply V in C. discriminate. }
  destruct i; cbn [stack_req fst snd] in Hlen; cbn [touched fst snd] in Hin.
  - (* stop *) cbn [exec exec_ideal_post]. auto.
  - (* arith *) cbn [exec]. rewrite arith_ideal; auto; [|intros ->; now apply Hsar]. idstep Hst.
  - (* sha3 *) destruct (shape2 _ Hlen Hst) as (a & b & r & Es & W1 & W2 & W3). unfold arg in Hin. rewrite Es in Hin. cbn [nth] in Hin.
    apply is_word_ge0 in W1, W2. cbn [exec]. rewrite Es. rewrite mem_get_read by assumption. idstep Es.
  - (* blake *) destruct (shape2 _ Hlen Hst) as (a & b & r & Es & W1 & W2 & W3). unfold arg in Hin. rewrite Es in Hin. cbn [nth] in Hin.
    apply is_word_ge0 in W1, W2. cbn [exec]. rewrite Es. rewrite mem_get_read by assumption. idstep Es.
  - (* env *) cbn [exec]. idstep Hst.
  - (* balance *) destruct (shape1 _ Hlen Hst) as (a & r & Es & W1 & W2). cbn [exec]. rewrite Es. idstep Es.
  - (* calldataload *) destruct (shape1 _ Hlen Hst) as (a & r & Es & W1 & W2). cbn [exec]. rewrite Es.
    apply is_word_ge0 in W1. rewrite get_data_read by (change (2 ^ 63) with 9223372036854775808; lia). idstep Es.
  - (* calldatacopy *) destruct (shape3 _ Hlen Hst) as (a & b & c & r & Es & W1 & W2 & W3 & W4). unfold arg in Hin. rewrite Es in Hin. cbn [nth] in Hin.
    apply is_word_ge0 in W1, W2, W3. cbn [exec]. rewrite Es.
    destruct (copy_ok (s_mem s) a c (get_data_big (v_data e) b c)) as (m' & D & B); auto.
    { destruct Hin as [->|[I1 I2]]; [now right|left]. apply get_data_big_len; lia. }
    rewrite D. unfold with_mem. idstep Es. intros k. rewrite B.
    destruct ((a <=? k) && (k <? a + c)) eqn:E; [|reflexivity].
    destruct Hin as [->|[I1 I2]]; [lia|]. rewrite get_data_read by lia. rewrite nth_read by lia. f_equal. lia.
  - (* codecopy *) destruct (shape3 _ Hlen Hst) as (a & b & c & r & Es & W1 & W2 & W3 & W4). unfold arg in Hin. rewrite Es in Hin. cbn [nth] in Hin.
    apply is_word_ge0 in W1, W2, W3. cbn [exec]. rewrite Es.
    destruct (copy_ok (s_mem s) a c (get_data_big (v_code e) b c)) as (m' & D & B); auto.
    { destruct Hin as [->|[I1 I2]]; [now right|left]. apply get_data_big_len; lia. }
    rewrite D. unfold with_mem. idstep Es. intros k. rewrite B.
    destruct ((a <=? k) && (k <? a + c)) eqn:E; [|reflexivity].
    destruct Hin as [->|[I1 I2]]; [lia|]. rewrite get_data_read by lia. rewrite nth_read by lia. f_equal. lia.
  - (* returndatacopy *) destruct (shape3 _ Hlen Hst) as (a & b & c & r & Es & W1 & W2 & W3 & W4).
    cbn [exec]. rewrite Es.
    destruct ((64 <? bit_len (b + c)) || (0 <? to_uint64 (b + c))) eqn:Oob; [cbn [exec_ideal_post]; auto|].
    apply is_word_ge0 in W2, W3. rewrite bit_len_le64 in Oob by lia.
    apply orb_false_iff in Oob as [O1 O2]. rewrite to_uint64_id in O2 by lia. assert (c = 0) by lia. subst c.
    unfold mem_set. change (to_uint64 0) with 0. cbn [Z.ltb Z.compare]. unfold with_mem. idstep Es.
  - (* pop *) destruct (shape1 _ Hlen Hst) as (a & r & Es & W1 & W2). cbn [exec]. rewrite Es. idstep Es.
  - (* mload *) destruct (shape1 _ Hlen Hst) as (a & r & Es & W1 & W2). unfold arg in Hin. rewrite Es in Hin. cbn [nth] in Hin.
    apply is_word_ge0 in W1. cbn [exec]. rewrite Es. change 32 with (to_int64 32). rewrite mem_get_read by (lia || assumption). idstep Es.
  - (* mstore *) destruct (shape2 _ Hlen Hst) as (a & b & r & Es & W1 & W2 & W3). unfold arg in Hin. rewrite Es in Hin. cbn [nth] in Hin.
    cbn [exec]. rewrite Es. destruct Hin as [|[I1 I2]]; [discriminate|]. apply is_word_ge0 in W1.
    rewrite to_uint64_id by (p64; lia). unfold mem_set32. destruct (Z.ltb_spec (zlen (s_mem s)) (a + 32)); [lia|].
    assert (zlen (be_bytes 32 b) = 32) as L32 by (unfold zlen; now rewrite be_bytes_length).
    unfold with_mem. idstep Es. intros k. rewrite byte_write by lia. rewrite L32.
    destruct ((a <=? k) && (k <? a + 32)) eqn:E; [|reflexivity]. rewrite nth_be_bytes by lia. do 3 f_equal. lia.
  - (* mstore8 *) destruct (shape2 _ Hlen Hst) as (a & b & r & Es & W1 & W2 & W3). unfold arg in Hin. rewrite Es in Hin. cbn [nth] in Hin.
    cbn [exec]. rewrite Es. destruct Hin as [|[I1 I2]]; [discriminate|]. apply is_word_ge0 in W1.
    rewrite to_int64_id by lia. unfold mem_set8. destruct (Z.ltb_spec a 0); [lia|]. destruct (Z.leb_spec (zlen (s_mem s)) a); [lia|].
    cbn [orb]. unfold with_mem. idstep Es. intros k. rewrite byte_write by (rewrite ?zlen_cons, ?zlen_nil; lia). rewrite zlen_cons, zlen_nil.
    replace (1 + 0) with 1 by lia. destruct ((a <=? k) && (k <? a + 1)) eqn:E; [|reflexivity]. replace (Z.to_nat (k - a)) with O by lia. reflexivity.
  - (* sload *) destruct (shape1 _ Hlen Hst) as (a & r & Es & W1 & W2). cbn [exec]. rewrite Es. idstep Es.
  - (* sstore *) destruct (shape2 _ Hlen Hst) as (a & b & r & Es & W1 & W2 & W3). cbn [exec]. rewrite Es. cbv zeta.
    destruct (v_offchain e) eqn:Off.
    + idstep Es. rewrite Off. auto.
    + idstep Es. intros k. rewrite Off, assoc_set_get. destruct (k =? a); [now apply be_val_big_bytes|reflexivity].
  - (* jump *) destruct (shape1 _ Hlen Hst) as (a & r & Es & W1 & W2). cbn [exec]. rewrite Es.
    apply is_word_ge0 in W1. apply Hjump; auto; unfold arg; cbn [ideal_stack ideal_pc]; unfold arg; rewrite ?Es; reflexivity.
  - (* jumpi *) destruct (shape2 _ Hlen Hst) as (a & b & r & Es & W1 & W2 & W3). cbn [exec]. rewrite Es.
    destruct (Z.eqb_spec b 0) as [->|Nb].
    + unfold advance, exec_ideal_post. split; [constructor; idl; unfold arg, storage, cur_val; rewrite ?Es; idl; auto|]. idl. unfold arg. rewrite Es. idl.
      cbn [Z.eqb]. change (2 ^ 63) with 9223372036854775808. split; [pc1|]. split; [pc1|]. intros [H|[_ H]]; [discriminate|congruence].
    + apply is_word_ge0 in W1. apply Hjump; auto; unfold arg; cbn [ideal_stack ideal_pc]; unfold arg; rewrite ?Es; cbn [nth skipn]; try reflexivity.
      destruct (Z.eqb_spec b 0); [congruence|reflexivity].
  - (* jumpdest *) cbn [exec]. idstep Hst.
  - (* push *) cbn in Hi. cbn [exec]. rewrite push_bytes_read by lia. idstep Hst.
  - (* dup *) cbn in Hi. destruct n as [|k]; [lia|]. cbn [exec].
    destruct (nth_error (s_stk s) k) as [x|] eqn:N.
    + idstep Hst. cbn [Nat.sub]. rewrite Nat.sub_0_r. f_equal. symmetry. now apply nth_error_nth.
    + apply nth_error_None in N. unfold zlen in Hlen. lia.
  - (* swap *) cbn in Hi. destruct n as [|k]; [lia|]. cbn [exec].
    destruct (s_stk s) as [|top r] eqn:Es; [unfold zlen in Hlen; cbn in Hlen; lia|]. cbn [swap_top].
    destruct (nth_error r k) as [x|] eqn:N.
    + idstep Es. replace (S k + 1)%nat with (S (S k)) by lia. replace (S k - 1)%nat with k by lia. cbn [skipn]. rewrite (nth_error_nth _ _ 0 N). reflexivity.
    + apply nth_error_None in N. rewrite zlen_cons in Hlen. unfold zlen in Hlen. lia.
  - (* log *) destruct (shape2 (s_stk s)) as (a & b & r & Es & W1 & W2 & W3); [lia|assumption|]. cbn [exec]. rewrite Es in Hlen |- *.
    unfold arg in Hin. rewrite Es in Hin. cbn [nth] in Hin. apply is_word_ge0 in W1, W2.
    rewrite !zlen_cons in Hlen. unfold zlen in Hlen.
    destruct (Z.ltb_spec (Z.of_nat (length r)) (Z.of_nat n)); [lia|]. rewrite mem_get_read by assumption.
    replace (n + 2)%nat with (S (S n)) by lia.
    destruct (v_offchain e) eqn:Off; idstep Es; rewrite ?Off; auto; replace (n + 2)%nat with (S (S n)) by lia; reflexivity.
  - (* call *) destruct (shape5 _ Hlen Hst) as (a & b & c & d & f & r & Es & W1 & W2 & W3 & W4 & W5 & W6). cbn [exec]. rewrite Es.
    unfold arg in Hin. rewrite Es in Hin. cbn [nth] in Hin. apply is_word_ge0 in W4, W5. rewrite mem_get_read by assumption.
    assert (call_block (a :: b :: c :: d :: f :: r) (read_bytes (s_mem s) d f) = request_of s) as Q by (unfold request_of, arg; rewrite Es; reflexivity).
    destruct (v_offchain e) eqn:Off; idstep Es; rewrite ?Off, ?Q; auto.
  - (* call2 *) destruct (shape5 _ Hlen Hst) as (a & b & c & d & f & r & Es & W1 & W2 & W3 & W4 & W5 & W6). cbn [exec]. rewrite Es.
    unfold arg in Hin. rewrite Es in Hin. cbn [nth] in Hin. apply is_word_ge0 in W4, W5. rewrite mem_get_read by assumption.
    assert (call_block (a :: b :: c :: d :: f :: r) (read_bytes (s_mem s) d f) = request_of s) as Q by (unfold request_of, arg; rewrite Es; reflexivity).
    destruct (v_offchain e) eqn:Off; idstep Es; rewrite ?Off, ?Q; auto.
  - (* return *) destruct (shape2 _ Hlen Hst) as (a & b & r & Es & W1 & W2 & W3). unfold arg in Hin. rewrite Es in Hin. cbn [nth] in Hin.
    apply is_word_ge0 in W1, W2. cbn [exec]. rewrite Es. rewrite mem_get_read by assumption. cbn [exec_ideal_post]. unfold arg. rewrite Es. auto.
  - (* revert *) destruct (shape2 _ Hlen Hst) as (a & b & r & Es & W1 & W2 & W3). unfold arg in Hin. rewrite Es in Hin. cbn [nth] in Hin.
    apply is_word_ge0 in W1, W2. cbn [exec]. rewrite Es. rewrite mem_get_read by assumption. destruct (v_offchain e) eqn:Off; cbn [exec_ideal_post]; unfold arg; rewrite ?Es; auto.
Qed.

(** ** Lifting to one step of the machine *)
Record charged (e : venv) (s : vst) (i : instr) (s1 : vst) : Prop := {
  ch_dec : decode (v_iset e) (get_op (v_code e) (s_pc s)) = Some i;
  ch_fit : fst (stack_req i) <= zlen (s_stk s);
  ch_big : zlen (s_mem s1) < 2 ^ 62;
  ch_in : i <> ICall2 -> in_mem (s_mem s1) (fst (touched s i)) (snd (touched s i));
  ch_stk : s_stk s1 = s_stk s; ch_pc : s_pc s1 = s_pc s; ch_wr : s_wr s1 = s_wr s;
  ch_logs : s_logs s1 = s_logs s; ch_sends : s_sends s1 = s_sends s;
  ch_byte : forall k, byte_at (s_mem s1) k = byte_at (s_mem s) k;
  ch_msize : mem_size i (s_stk s) = None -> s_mem s1 = s_mem s;
  ch_ok : bytes_ok (s_mem s1);
  ch_sz : forall sz, mem_size i (s_stk s) = Some sz -> sz <= zlen (s_mem s1) }.

Lemma touched_size i s off size : touched s i = (off, size) -> i <> ICall2 -> 
  mem_size i (s_stk s) = Some (calc_mem_size off size) \/ size = 0.
Proof. destruct i; cbn [touched mem_size]; intros [= <- <-] N; auto; congruence. Qed.

Lemma step_charged e q0 s : env_ok e -> quota_ok q0 -> inv e q0 s ->
  (exists err s', step e s = OErr err s') \/ (exists p, step e s = OPanic p) \/
  exists i s1, charged e s i s1 /\ step e s = exec e i s1.
Proof.
  intros He [Hq0 Hq1] I. pose proof (eo_tok e He) as T. unfold step.
  destruct (decode (v_iset e) (get_op (v_code e) (s_pc s))) as [i|] eqn:Dec; [|eauto].
  destruct (stack_req i) as [pop push] eqn:Req. cbv zeta.
  destruct (Z.ltb_spec (zlen (s_stk s)) pop) as [|Hpop]; [eauto|].
  unfold stack_limit. destruct (Z.ltb_spec 1024 (zlen (s_stk s) + push - pop)) as [|Hpush]; [eauto|].
  destruct (memory_size i (s_stk s)) as [msz|] eqn:Ms; [|eauto].
  pose proof (memory_size_spec _ _ _ (iv_stk _ _ _ I) Ms) as Hmsz.
  destruct (gas_cost e s i msz) as [cost charge lg md|err|] eqn:G; [|eauto|eauto].
  destruct (use_quota (s_quota s) cost charge) as [q|] eqn:U; [|eauto].
  right; right. exists i. eexists. split; [|reflexivity].
  assert (0 <= phi e s) as Hphi by now apply phi_list_ge0.
  pose proof (iv_q _ _ _ I) as Hq. pose proof (iv_budget _ _ _ I) as Hb.
  assert (0 <= msz < two64 /\ msz mod 32 = 0) as [Hm1 Hm2].
  { destruct (mem_size i (s_stk s)); [lia|]. subst msz. split; [p64; lia|reflexivity]. }
  assert (0 <= s_lastgas s) as Hlg0.
  { rewrite (iv_lg _ _ _ I). pose proof (zlen_nonneg (s_mem s)). pose proof (price_ge (v_gas e) (zlen (s_mem s) / 32) T). lia. }
  assert (zlen (s_mem s) < 2 ^ 62) as Hmm.
  { pose proof (price_ge (v_gas e) (zlen (s_mem s) / 32) T). pose proof (zlen_nonneg (s_mem s)). rewrite <- (iv_lg _ _ _ I) in H.
    change (2 ^ 62) with 4611686018427387904. change (2 ^ 32) with 4294967296 in Hq1. pose proof (iv_mem32 _ _ _ I). lia. }
  assert (zlen (mem_resize (s_mem s) msz) < 2 ^ 62) as Hbig.
  { rewrite mem_resize_len. 
    destruct (mem_size i (s_stk s)) as [sz|] eqn:Esz; [|subst msz; pose proof (zlen_nonneg (s_mem s)); change (2 ^ 62) with 4611686018427387904 in *; lia].
    destruct (gas_spec e s i msz cost charge lg md He (iv_stk _ _ _ I)) as (fee & F1 & F2 & F3 & F4 & F5); [intros ->; discriminate|exact Ms|exact G|].
    subst charge. unfold use_quota in U. destruct (Z.ltb_spec (s_quota s) cost); [discriminate|].
    destruct (memory_gas_spec (v_gas e) (s_mem s) (s_lastgas s) msz fee lg (s_quota s)) as (P1 & P2 & P3 & P4);
        [exact T|exact Hm1|exact Hm2|apply (iv_mem32 _ _ _ I)|apply (iv_lg _ _ _ I)|exact Hq|lia|exact F1|lia|].
    change (2 ^ 62) with 4611686018427387904 in *. lia. }
  constructor; auto.
  - rewrite Req. exact Hpop.
  - intros N. cbn [set_mem s_mem]. destruct (touched s i) as [off size] eqn:Et. cbn [fst snd].
    destruct (touched_size i s off size Et N) as [E|E]; [|now left].
    rewrite E in Hmsz. unfold calc_mem_size in Hmsz. destruct (Z.eqb_spec size 0); [now left|]. right.
    rewrite mem_resize_len in *. change (2 ^ 63) with 9223372036854775808. change (2 ^ 62) with 4611686018427387904 in *. lia.
  - intros k. apply byte_resize.
  - intros E. cbn [set_mem s_mem]. rewrite E in Hmsz. subst msz. unfold mem_resize. pose proof (zlen_nonneg (s_mem s)).
    destruct (Z.ltb_spec (zlen (s_mem s)) 0); [lia|reflexivity].
  - apply mem_resize_ok, (iv_mem _ _ _ I).
  - intros sz E. rewrite E in Hmsz. cbn [set_mem s_mem]. rewrite mem_resize_len. lia.
Qed.

Lemma read_bytes_ext a b off size : (forall k, byte_at a k = byte_at b k) -> read_bytes a off size = read_bytes b off size.
Proof. intros H. unfold read_bytes. apply map_ext. intros. apply H. Qed.

Lemma charged_arg e s i s1 n : charged e s i s1 -> arg s1 n = arg s n.
Proof. intros C. unfold arg. now rewrite (ch_stk _ _ _ _ C). Qed.
Lemma charged_request e s i s1 : charged e s i s1 -> request_of s1 = request_of s.
Proof.
  intros C. unfold request_of. rewrite !(charged_arg _ _ _ _ _ C). f_equal. apply read_bytes_ext, (ch_byte _ _ _ _ C).
Qed.
Lemma charged_storage e s i s1 k : charged e s i s1 -> storage e s1 k = storage e s k.
Proof. intros C. unfold storage, cur_val. now rewrite (ch_wr _ _ _ _ C). Qed.

Lemma ideal_transfer e s i s1 s' : charged e s i s1 -> ideal e s1 i s' -> ideal e s i s'.
Proof.
  intros C [A1 A2 A3 A4 A5].
  assert (forall off size, read_bytes (s_mem s1) off size = read_bytes (s_mem s) off size) as R by (intros; apply read_bytes_ext, (ch_byte _ _ _ _ C)).
  constructor.
  - rewrite A1. destruct i; cbn [ideal_stack]; rewrite ?(charged_arg _ _ _ _ _ C), ?(ch_stk _ _ _ _ C), ?R, ?(charged_storage _ _ _ _ _ C),
      ?(charged_request _ _ _ _ C), ?(ch_sends _ _ _ _ C), ?(ch_pc _ _ _ _ C); try reflexivity.
    f_equal. destruct p; cbn [env_word]; rewrite ?(ch_pc _ _ _ _ C); try reflexivity. now rewrite (ch_msize _ _ _ _ C).
  - intros k. rewrite A2. destruct i; cbn [ideal_byte]; rewrite ?(charged_arg _ _ _ _ _ C), ?(ch_byte _ _ _ _ C); reflexivity.
  - intros k. rewrite A3. destruct i; cbn [ideal_storage]; rewrite ?(charged_arg _ _ _ _ _ C), ?(charged_storage _ _ _ _ _ C); reflexivity.
  - rewrite A4. destruct i; cbn [ideal_logs]; rewrite ?(charged_arg _ _ _ _ _ C), ?(ch_logs _ _ _ _ C), ?(ch_stk _ _ _ _ C), ?R; reflexivity.
  - rewrite A5. destruct i; cbn [ideal_sends]; rewrite ?(charged_request _ _ _ _ C), ?(ch_sends _ _ _ _ C); reflexivity.
Qed.

Lemma start_bound code pc : instruction_start code pc -> 0 <= pc <= zlen code + 32.
Proof.
  induction 1; [pose proof (zlen_nonneg code); lia|]. pose proof (imm_range (code_at code pc)). lia.
Qed.

Lemma decode_imm is op i : decode is op = Some i -> immediate_bytes op = match i with IPush n => Z.of_nat n | _ => 0 end.
Proof.
  unfold decode, immediate_bytes.
  destruct ((0x60 <=? op) && (op <=? 0x7f)) eqn:E1; [intros [= <-]; lia|].
  destruct ((0x80 <=? op) && (op <=? 0x8f)) eqn:E2; [intros [= <-]; lia|].
  destruct ((0x90 <=? op) && (op <=? 0x9f)) eqn:E3; [intros [= <-]; lia|].
  destruct ((0xa0 <=? op) && (op <=? 0xa4)) eqn:E4; [intros [= <-]; lia|].
  clear. intros H.
  repeat match type of H with
  | match ?x with _ => _ end = _ => destruct x
  | Some _ = Some _ => injection H as <-; reflexivity
  | None = Some _ => discriminate H
  end.
Qed.

(** pc and jumps: does not need the ideal stack, so covers CALL2 and SAR too *)
Lemma exec_pc e i s s' :
  env_ok e -> instr_ok i -> fst (stack_req i) <= zlen (s_stk s) -> Forall is_word (s_stk s) -> 0 <= s_pc s < 2 ^ 62 + 64 ->
  exec e i s = ONext s' ->
  i <> IStop /\ (s_pc s' = ideal_pc s i) /\ (s_pc s' = s_pc s + 1 + match i with IPush n => Z.of_nat n | _ => 0 end \/ valid_jumpdest (v_code e) (s_pc s')) .
Proof.
  intros He Hi Hlen Hst Hpc E. change (2 ^ 62) with 4611686018427387904 in *.
  assert (forall pos s0, 0 <= pos -> jump_to e s0 pos = ONext s' -> s_pc s' = pos /\ valid_jumpdest (v_code e) (s_pc s')) as Hj.
  { intros pos s0 Hp. unfold jump_to. destruct (eo_code e He) as [C1 C2].
    destruct (jump_has_spec (v_code e) pos C1 C2 Hp) as (b & -> & V). destruct b; [|discriminate]. intros [= <-].
    destruct V as [V _]. specialize (V eq_refl). pose proof V as (V1 & _). change (2 ^ 62) with 4611686018427387904 in C2.
    cbn [set_pc s_pc]. rewrite to_uint64_id by (p64; lia). auto. }
  assert (forall s0, s_pc s0 = s_pc s -> advance s0 = ONext s' -> s_pc s' = s_pc s + 1) as Ha.
  { intros s0 H0 [= <-]. cbn [set_pc s_pc]. rewrite H0. unfold wrap64. rewrite Z.mod_small by (p64; lia). lia. }
  assert (forall s0 o, s_pc s0 = s_pc s -> with_mem s0 o = ONext s' -> s_pc s' = s_pc s + 1) as Hw.
  { intros s0 [m|] H0; [|discriminate]. apply Ha. exact H0. }
  assert (forall x y z st, s_stk s = x :: y :: z -> st = s_stk s -> True) as _ by auto.
  split; [intros ->; cbn in E; discriminate|].
  destruct i; cbn [exec ideal_pc] in *; unfold arg;
  try (let H := fresh in assert (s_pc s' = s_pc s + 1) as H; [|split; [exact H|left; lia]]).
  all: try match goal with |- s_pc _ = s_pc _ + 1 => 
    repeat match goal with
    | E : match ?x with _ => _ end = ONext _ |- _ => destruct x
    | E : _ = ONext _ |- _ => first [discriminate E | eapply Ha; [|exact E]; try destruct (v_offchain e); reflexivity | eapply Hw; [|exact E]; reflexivity]
    end end.
  - (* jump *) destruct (shape1 _ Hlen Hst) as (a & r & Es & W1 & W2). rewrite Es in *. apply is_word_ge0 in W1.
    destruct (Hj _ _ W1 E). cbn [nth]. auto.
  - destruct (shape2 _ Hlen Hst) as (a & b & r & Es & W1 & W2 & W3). rewrite Es in *. apply is_word_ge0 in W1. cbn [nth].
    destruct (b =? 0).
    + assert (s_pc s' = s_pc s + 1) by (eapply Ha; [|exact E]; reflexivity). split; [assumption|left; lia].
    + destruct (Hj _ _ W1 E). auto.
  - cbn in Hi. injection E as <-. cbn [set_pc set_stk s_pc]. unfold wrap64. rewrite (Z.mod_small (s_pc s + _)) by (p64; lia).
    rewrite Z.mod_small by (p64; lia). split; [lia|left; lia].
Qed.

Lemma step_pc e q0 s s' : env_ok e -> quota_ok q0 -> inv e q0 s -> instruction_start (v_code e) (s_pc s) -> step e s = ONext s' ->
  instruction_start (v_code e) (s_pc s') /\
  exists i, decode (v_iset e) (get_op (v_code e) (s_pc s)) = Some i /\ s_pc s' = ideal_pc s i.
Proof.
  intros He Hq I P E. pose proof (start_bound _ _ P) as B. destruct (eo_code e He) as [_ C2].
  destruct (step_charged e q0 s He Hq I) as [(err & x & Q)|[(p & Q)|(i & s1 & Ch & Q)]]; [congruence|congruence|].
  rewrite Q in E. pose proof (ch_dec _ _ _ _ Ch) as Dec.
  destruct (exec_pc e i s1 s' He (decode_ok _ _ _ Dec)) as (NS & Hpc & Hnext).
  - rewrite (ch_stk _ _ _ _ Ch). apply (ch_fit _ _ _ _ Ch).
  - rewrite (ch_stk _ _ _ _ Ch). apply (iv_stk _ _ _ I).
  - rewrite (ch_pc _ _ _ _ Ch). change (2 ^ 62) with 4611686018427387904 in *. lia.
  - exact E.
  - split.
    + destruct Hnext as [Hn|V]; [|apply V]. rewrite (ch_pc _ _ _ _ Ch) in Hn.
      unfold get_op in Dec. destruct (Z.ltb_spec (s_pc s) (zlen (v_code e))) as [Hlt|Hge].
      * rewrite Hn, <- (decode_imm _ _ _ Dec). apply (start_next _ _ P). lia.
      * cbn in Dec. injection Dec as <-. congruence.
    + exists i. split; [exact Dec|]. rewrite Hpc. destruct i; cbn [ideal_pc]; rewrite ?(charged_arg _ _ _ _ _ Ch), ?(ch_pc _ _ _ _ Ch); reflexivity.
Qed.

Lemma reachable_pc e q s : env_ok e -> quota_ok q -> reachable e q s -> instruction_start (v_code e) (s_pc s).
Proof.
  intros He Hq H. induction H; [constructor|].
  eapply step_pc; eauto. now apply reachable_inv.
Qed.

Lemma step_ideal e q s i : env_ok e -> quota_ok q -> reachable e q s ->
  decode (v_iset e) (get_op (v_code e) (s_pc s)) = Some i ->
  (i = ICall2 -> arg s 4 = 0 \/ arg s 3 + arg s 4 <= zlen (s_mem s)) ->
  (i = IArith ASar -> arg s 1 <> 0 \/ arg s 0 < 256) ->
  match step e s with
  | ONext s' => ideal e s i s' /\ s_pc s' = ideal_pc s i
  | OHalt ret _ => (i = IStop \/ i = IRevert /\ v_offchain e = true) /\ ret = []
       \/ i = IReturn /\ ret = read_bytes (s_mem s) (arg s 0) (arg s 1)
  | ORevert ret _ => i = IRevert /\ v_offchain e = false /\ ret = read_bytes (s_mem s) (arg s 0) (arg s 1)
  | OErr _ _ | OPanic _ => True
  end.
Proof.
  intros He Hq R Dec Hc2 Hsar. pose proof (reachable_inv _ _ _ He Hq R) as I. pose proof (reachable_pc _ _ _ He Hq R) as P.
  pose proof (start_bound _ _ P) as B. destruct (eo_code e He) as [_ C2].
  destruct (step_charged e q s He Hq I) as [(err & x & Q)|[(p & Q)|(j & s1 & Ch & Q)]]; rewrite Q; [exact Logic.I|exact Logic.I|].
  pose proof (ch_dec _ _ _ _ Ch) as Dec'. assert (j = i) by congruence. subst j. clear Dec'.
  pose proof (exec_ideal e i s1 He (decode_ok _ _ _ Dec)) as X.
  assert (forall off size, read_bytes (s_mem s1) off size = read_bytes (s_mem s) off size) as Rd by (intros; apply read_bytes_ext, (ch_byte _ _ _ _ Ch)).
  assert (touched s1 i = touched s i) as Tch by (destruct i; cbn [touched]; rewrite ?(charged_arg _ _ _ _ _ Ch); reflexivity).
  rewrite Tch, (ch_stk _ _ _ _ Ch), (ch_pc _ _ _ _ Ch), !(charged_arg _ _ _ _ _ Ch) in X.
  specialize (X (ch_fit _ _ _ _ Ch) (iv_stk _ _ _ I) (ch_big _ _ _ _ Ch)).
  change (2 ^ 62) with 4611686018427387904 in *. specialize (X ltac:(lia)).
  assert (in_mem (s_mem s1) (fst (touched s i)) (snd (touched s i))) as Hin.
  { assert (i = ICall2 \/ i <> ICall2) as [->|N] by (destruct i; auto; right; discriminate).
    - cbn [touched fst snd]. rewrite (ch_msize _ _ _ _ Ch) by reflexivity. destruct (Hc2 eq_refl); [now left|right].
      pose proof (ch_big _ _ _ _ Ch). rewrite (ch_msize _ _ _ _ Ch) in H0 by reflexivity. change (2 ^ 63) with 9223372036854775808.
      change (2 ^ 62) with 4611686018427387904 in *. lia.
    - apply (ch_in _ _ _ _ Ch N). }
  specialize (X Hin Hsar).
  destruct (exec e i s1); cbn [exec_ideal_post] in X; auto.
  - destruct X as (A & A' & _). split; [eapply ideal_transfer; eauto|].
    rewrite A'. destruct i; cbn [ideal_pc]; rewrite ?(charged_arg _ _ _ _ _ Ch), ?(ch_pc _ _ _ _ Ch); reflexivity.
  - rewrite Rd, !(charged_arg _ _ _ _ _ Ch) in X. exact X.
  - rewrite Rd, !(charged_arg _ _ _ _ _ Ch) in X. exact X.
Qed.

(** touched memory is inside the memory at that time *)
Lemma step_touched e q s i s' : env_ok e -> quota_ok q -> reachable e q s ->
  decode (v_iset e) (get_op (v_code e) (s_pc s)) = Some i -> i <> ICall2 ->
  (step e s = ONext s' \/ (exists ret, step e s = OHalt ret s') \/ (exists ret, step e s = ORevert ret s')) ->
  snd (touched s i) = 0 \/ fst (touched s i) + snd (touched s i) <= zlen (s_mem s').
Proof.
  intros He Hq R Dec N E. pose proof (reachable_inv _ _ _ He Hq R) as I.
  destruct (step_charged e q s He Hq I) as [(err & x & Q)|[(p & Q)|(j & s1 & Ch & Q)]]; rewrite Q in E;
    try (destruct E as [E|[[ret E]|[ret E]]]; discriminate E).
  pose proof (ch_dec _ _ _ _ Ch) as Dec'. assert (j = i) by congruence. subst j. clear Dec'.
  pose proof (ch_in _ _ _ _ Ch N) as Hin.
  pose proof (exec_spec e i s1 He (decode_ok _ _ _ Dec)) as X.
  rewrite (ch_stk _ _ _ _ Ch), (ch_pc _ _ _ _ Ch), (ch_wr _ _ _ _ Ch) in X.
  specialize (X (ch_fit _ _ _ _ Ch) (iv_stk _ _ _ I) (ch_ok _ _ _ _ Ch) (ch_big _ _ _ _ Ch) (iv_pc _ _ _ I) (iv_wr _ _ _ I) (ch_sz _ _ _ _ Ch)).
  specialize (X ltac:(intros; congruence)).
  assert (zlen (s_mem s') = zlen (s_mem s1)) as L.
  { destruct E as [E|[[ret E]|[ret E]]]; rewrite E in X; cbn [exec_post] in X; apply X. }
  rewrite L. destruct Hin; [now left|right; tauto].
Qed.
