From Coq Require Import Zpow_facts.
From Verif Require Import Lib VmWordModel VmWordSpec.

Lemma mod_pow_l a k : (a mod modulus) ^ k mod modulus = a ^ k mod modulus.
Proof. symmetry. apply Zpower_mod. reflexivity. Qed.

Lemma modulus_two256 : modulus = two256. Proof. reflexivity. Qed.
Lemma u256_mod x : u256 x = x mod modulus.
Proof.
  unfold u256. change (two256 - 1) with (Z.ones 256).
  rewrite Z.land_ones by lia. reflexivity.
Qed.
Lemma u256_range x : is_word (u256 x).
Proof. rewrite u256_mod. unfold is_word. apply Z.mod_pos_bound. reflexivity. Qed.
Lemma u256_id x : is_word x -> u256 x = x.
Proof. intro H. rewrite u256_mod. apply Z.mod_small. exact H. Qed.
Lemma s256_signed x : s256 x = to_signed x.
Proof. reflexivity. Qed.

Definition H255 : 2 ^ 256 = 2 * 2 ^ 255 := eq_refl.
Lemma pow255_pos : 0 < 2 ^ 255. Proof. reflexivity. Qed.

Lemma to_signed_range x : is_word x -> - 2 ^ 255 <= to_signed x < 2 ^ 255.
Proof.
  unfold is_word, to_signed, modulus, two256. rewrite H255. pose proof pow255_pos.
  destruct (Z.ltb_spec x (2 ^ 255)); lia.
Qed.

(* ---- exponentiation ---- *)
Lemma exp_bits_spec n : forall w r b e,
  0 <= w -> 0 <= e -> 
  exists r' b',
    exp_bits n w (r, b) = (r', b') /\
    r' mod modulus = (r * b ^ (w mod 2 ^ Z.of_nat n)) mod modulus /\
    b' mod modulus = (b ^ (2 ^ Z.of_nat n)) mod modulus.
Proof.
  induction n as [|n IH]; intros w r b e Hw He.
  - exists r, b. split; [reflexivity|]. change (2 ^ Z.of_nat 0) with 1.
    rewrite Z.mod_1_r, Z.pow_0_r, Z.mul_1_r, Z.pow_1_r. auto.
  - cbn [exp_bits].
    set (r1 := if Z.land w 1 =? 1 then u256 (r * b) else r).
    assert (Hsh : 0 <= Z.shiftr w 1) by (apply Z.shiftr_nonneg; lia).
    destruct (IH (Z.shiftr w 1) r1 (u256 (b * b)) e Hsh He) as (r' & b' & E & Hr & Hb).
    exists r', b'. split; [exact E|].
    assert (Hpow : forall k, 0 <= k -> (u256 (b * b)) ^ k mod modulus = (b ^ (2 * k)) mod modulus).
    { intros k Hk. rewrite u256_mod. rewrite mod_pow_l.
      rewrite Z.pow_mul_r by lia. now rewrite Z.pow_2_r. }
    assert (Hs : 2 ^ Z.of_nat (S n) = 2 * 2 ^ Z.of_nat n).
    { rewrite Nat2Z.inj_succ. apply Z.pow_succ_r. lia. }
    assert (Hp : 0 < 2 ^ Z.of_nat n) by (apply Z.pow_pos_nonneg; lia).
    split.
    + rewrite Hr. rewrite Hs.
      set (q := Z.shiftr w 1 mod 2 ^ Z.of_nat n).
      assert (Hq : w mod (2 * 2 ^ Z.of_nat n) = (w mod 2) + 2 * q).
      { unfold q. rewrite Z.shiftr_div_pow2 by lia. change (2 ^ 1) with 2.
        rewrite Z.rem_mul_r by lia. ring. }
      rewrite Hq.
      assert (Hq0 : 0 <= q) by (unfold q; apply Z.mod_pos_bound; lia).
      rewrite Z.mul_mod, Hpow by (try exact Hq0; discriminate).
      rewrite <- Z.mul_mod by discriminate.
      assert (Hl : Z.land w 1 = w mod 2).
      { change 1 with (Z.ones 1). rewrite Z.land_ones by lia. reflexivity. }
      unfold r1. rewrite Hl.
      assert (Hw2 : 0 <= w mod 2) by (apply Z.mod_pos_bound; reflexivity).
      assert (Hq2 : 0 <= 2 * q) by (clear - Hq0; lia).
      rewrite (Z.pow_add_r b (w mod 2) (2 * q) Hw2 Hq2).
      destruct (Z.eqb_spec (w mod 2) 1) as [H1|H1].
      * rewrite H1, Z.pow_1_r, u256_mod.
        rewrite Z.mul_mod_idemp_l by discriminate. f_equal. ring.
      * assert (w mod 2 = 0) as -> by (clear - H1; lia). rewrite Z.pow_0_r. f_equal. ring.
    + rewrite Hb, Hpow by lia. now rewrite Hs.
Qed.

Lemma exp_bits_range n : forall w r b, is_word r -> is_word b ->
  is_word (fst (exp_bits n w (r, b))) /\ is_word (snd (exp_bits n w (r, b))).
Proof.
  induction n as [|n IH]; intros w r b Hr Hb; cbn [exp_bits]; [cbn; auto|].
  apply IH; [|apply u256_range]. destruct (Z.land w 1 =? 1); [apply u256_range|exact Hr].
Qed.

(** little-endian value of 64-bit words *)
Fixpoint wval (l : list Z) : Z := match l with [] => 0 | w :: r => w + two64 * wval r end.

Lemma words64_aux_val fuel : forall x, 0 <= x < two64 ^ Z.of_nat fuel -> wval (words64_aux fuel x) = x.
Proof.
  induction fuel as [|k IH]; intros x Hx; cbn [words64_aux].
  - change (two64 ^ Z.of_nat 0) with 1 in Hx. cbn. lia.
  - destruct (Z.eqb_spec x 0) as [->|Hn]; [reflexivity|].
    cbn [wval]. rewrite IH; [unfold two64; lia|].
    rewrite Nat2Z.inj_succ, Z.pow_succ_r in Hx by lia.
    assert (0 < two64) by reflexivity. split; [apply Z.div_pos; lia|].
    apply Z.div_lt_upper_bound; lia.
Qed.
Lemma words64_aux_ok fuel : forall x, 0 <= x -> Forall (fun w => 0 <= w < two64) (words64_aux fuel x).
Proof.
  induction fuel as [|k IH]; intros x Hx; cbn [words64_aux]; [constructor|].
  destruct (x =? 0); [constructor|]. constructor.
  - apply Z.mod_pos_bound. reflexivity.
  - apply IH. apply Z.div_pos; [lia|reflexivity].
Qed.
Lemma words64_fuel x : 0 <= x -> x < two64 ^ Z.of_nat (Z.to_nat (Z.log2 x / 64 + 1)).
Proof.
  intro Hx. destruct (Z.eq_dec x 0) as [->|Hn]; [reflexivity|].
  pose proof (Z.log2_spec x ltac:(lia)) as [_ Hl].
  pose proof (Z.log2_nonneg x).
  rewrite Z2Nat.id by lia. unfold two64. rewrite <- Z.pow_mul_r by lia.
  eapply Z.lt_le_trans; [exact Hl|]. apply Z.pow_le_mono_r; lia.
Qed.
Lemma words64_val x : 0 <= x -> wval (words64 x) = x.
Proof. intro Hx. apply words64_aux_val. split; [exact Hx|]. now apply words64_fuel. Qed.
Lemma words64_ok x : 0 <= x -> Forall (fun w => 0 <= w < two64) (words64 x).
Proof. intro. now apply words64_aux_ok. Qed.

Lemma pow64_two64 : 2 ^ Z.of_nat 64 = two64. Proof. reflexivity. Qed.

Lemma fold_left_step {A B} (f : A -> B -> A) x l a : fold_left f (x :: l) a = fold_left f l (f a x).
Proof. reflexivity. Qed.

Lemma exp_fold_spec ws : forall r b,
  Forall (fun w => 0 <= w < two64) ws ->
  (fst (fold_left (fun st w => exp_bits 64 w st) ws (r, b))) mod modulus = (r * b ^ wval ws) mod modulus.
Proof.
  induction ws as [|w ws IH]; intros r b Hok.
  - cbn [fold_left wval fst]. now rewrite Z.pow_0_r, Z.mul_1_r.
  - inversion Hok as [|? ? Hw Hws]; subst.
    rewrite fold_left_step. cbn [wval].
    destruct (exp_bits_spec 64 w r b 0 ltac:(lia) ltac:(lia)) as (r' & b' & E & Hr & Hb).
    rewrite E, IH by exact Hws.
    rewrite pow64_two64 in Hr, Hb.
    rewrite (Z.mod_small w two64 Hw) in Hr.
    assert (Hv : 0 <= wval ws).
    { clear - Hws. induction ws as [|a ws IHws]; cbn [wval]; [lia|].
      inversion Hws; subst. specialize (IHws H2). unfold two64. lia. }
    assert (Hw0 : 0 <= w) by (clear - Hw; lia).
    assert (Hv0 : 0 <= two64 * wval ws) by (clear - Hv; unfold two64; lia).
    rewrite (Z.pow_add_r b w (two64 * wval ws) Hw0 Hv0).
    rewrite Z.mul_mod, Hr by discriminate.
    rewrite <- (mod_pow_l b' (wval ws)), Hb, mod_pow_l.
    rewrite <- Z.mul_mod by discriminate.
    rewrite <- Z.pow_mul_r by (try exact Hv; discriminate).
    now rewrite Z.mul_assoc.
Qed.
Lemma exp_fold_range ws : forall r b, is_word r -> is_word b ->
  is_word (fst (fold_left (fun st w => exp_bits 64 w st) ws (r, b))).
Proof.
  induction ws as [|w ws IH]; intros r b Hr Hb; [exact Hr|]. rewrite fold_left_step.
  pose proof (exp_bits_range 64 w r b Hr Hb) as [H1 H2].
  destruct (exp_bits 64 w (r, b)) as [r' b'] eqn:E. apply IH; [exact H1|exact H2].
Qed.
Lemma op_exp_spec a b : is_word a -> is_word b -> op_exp a b = (a ^ b) mod modulus.
Proof.
  intros Ha Hb. unfold op_exp, exp_go.
  pose proof (exp_fold_spec (words64 b) 1 a (words64_ok b (proj1 Hb))) as H.
  rewrite words64_val, Z.mul_1_l in H by apply Hb.
  assert (is_word 1) as H1 by (split; [lia|reflexivity]).
  pose proof (exp_fold_range (words64 b) 1 a H1 Ha) as Hrg.
  rewrite Z.mod_small in H by exact Hrg. exact H.
Qed.

(* ---- BYTE ---- *)
Lemma wval_nth ws : forall i, Forall (fun w => 0 <= w < two64) ws ->
  nth i ws 0 = (wval ws / two64 ^ Z.of_nat i) mod two64.
Proof.
  induction ws as [|w ws IH]; intros i Hok.
  - cbn [wval]. rewrite Z.div_0_l by (apply Z.pow_nonzero; [discriminate|lia]). destruct i; reflexivity.
  - inversion Hok as [|? ? Hw Hws]; subst. destruct i as [|i].
    + cbn [nth wval]. change (two64 ^ Z.of_nat 0) with 1. rewrite Z.div_1_r.
      unfold two64 in *. lia.
    + cbn [nth wval]. rewrite IH by exact Hws.
      rewrite Nat2Z.inj_succ, Z.pow_succ_r by lia.
      assert (0 < two64 ^ Z.of_nat i) by (apply Z.pow_pos_nonneg; [reflexivity|lia]).
      rewrite <- Z.div_div by (try discriminate; lia).
      replace ((w + two64 * wval ws) / two64) with (wval ws); [reflexivity|]. unfold two64 in *; lia.
Qed.
Lemma div_mod_shift x k : 0 <= k -> (x / 2 ^ k) mod 256 = (x mod (2 ^ (k + 8))) / 2 ^ k.
Proof.
  intro Hk. assert (0 < 2 ^ k) by (apply Z.pow_pos_nonneg; lia).
  rewrite Z.pow_add_r by lia. change (2 ^ 8) with 256.
  rewrite Z.rem_mul_r by lia. rewrite Z.mul_comm, Z.div_add by lia.
  rewrite (Z.div_small (x mod 2 ^ k)) by (apply Z.mod_pos_bound; lia). reflexivity.
Qed.
Lemma big_endian_byte_at_spec x n : 0 <= x -> 0 <= n -> big_endian_byte_at x n = (x / 2 ^ (8 * n)) mod 256.
Proof.
  intros Hx Hn. unfold big_endian_byte_at.
  assert (Hnth : nth (Z.to_nat (n / 8)) (words64 x) 0 = (x / 2 ^ (64 * (n / 8))) mod two64).
  { rewrite wval_nth by now apply words64_ok. rewrite words64_val by exact Hx.
    rewrite Z2Nat.id by lia. unfold two64. rewrite <- Z.pow_mul_r by lia. reflexivity. }
  assert (Hsplit : (x / 2 ^ (8 * n)) mod 256 =
                   Z.land (Z.shiftr ((x / 2 ^ (64 * (n / 8))) mod two64) (8 * (n mod 8))) 255).
  { change 255 with (Z.ones 8). rewrite Z.land_ones by lia.
    rewrite Z.shiftr_div_pow2 by lia.
    change (2 ^ 8) with 256.
    set (y := x / 2 ^ (64 * (n / 8))).
    set (k := 8 * (n mod 8)).
    assert (Hk : 0 <= k <= 56) by (unfold k; lia).
    replace (8 * n) with (64 * (n / 8) + k) by (unfold k; lia).
    rewrite Z.pow_add_r by lia.
    rewrite <- Z.div_div by (try (apply Z.pow_nonzero; lia); apply Z.pow_pos_nonneg; lia).
    fold y. rewrite (div_mod_shift y) by lia. rewrite (div_mod_shift (y mod two64)) by lia.
    f_equal. unfold two64.
    replace (2 ^ 64) with (2 ^ (k + 8) * 2 ^ (56 - k)) by (rewrite <- Z.pow_add_r by lia; f_equal; lia).
    assert (0 < 2 ^ (k + 8)) by (apply Z.pow_pos_nonneg; lia).
    assert (0 < 2 ^ (56 - k)) by (apply Z.pow_pos_nonneg; lia).
    rewrite (Z.rem_mul_r y) by lia.
    rewrite Z.mul_comm, Z.mod_add by lia. now rewrite Z.mod_mod by lia. }
  destruct (Z.leb_spec (zlen (words64 x)) (n / 8)) as [Hle|Hgt].
  - rewrite nth_overflow in Hnth by (unfold zlen in Hle; lia).
    rewrite Hsplit, <- Hnth. rewrite Z.shiftr_0_l. reflexivity.
  - rewrite Hnth. now symmetry.
Qed.

(* ---- SIGNEXTEND ---- *)
Lemma signextend_spec a b : is_word a -> is_word b -> op_signextend a b = spec_aop ASignextend a b 0.
Proof.
  intros Ha Hb. unfold op_signextend, spec_aop.
  destruct (Z.ltb_spec a 31) as [Hlt|Hge]; [|reflexivity].
  unfold is_word in Ha.
  set (bit := a * 8 + 7). assert (Hbit : 0 <= bit <= 247) by (unfold bit; lia).
  replace (8 * (a + 1)) with (bit + 1) by (unfold bit; lia).
  rewrite Z.pow_add_r by lia. change (2 ^ 1) with 2.
  rewrite Z.shiftl_mul_pow2 by lia. rewrite Z.mul_1_l.
  set (p := 2 ^ bit) in *. assert (Hp : 0 < p) by (unfold p; apply Z.pow_pos_nonneg; lia).
  rewrite Z.div_mul by lia.
  assert (Hones : p - 1 = Z.ones bit) by (rewrite Z.ones_equiv; unfold p; lia).
  pose proof (Z.testbit_spec' b bit ltac:(lia)) as Ht. fold p in Ht.
  assert (Hlow : b mod (p * 2) = b mod p + p * ((b / p) mod 2)) by (apply Z.rem_mul_r; lia).
  pose proof (Z.mod_pos_bound b p Hp) as Hm.
  destruct (Z.testbit b bit) eqn:Eb; cbn [Z.b2z] in Ht.
  - rewrite <- Ht in Hlow.
    destruct (Z.ltb_spec (b mod (p * 2)) p) as [Hc|Hc]; [lia|].
    unfold of_signed. rewrite u256_mod. f_equal.
    rewrite Hones.
    assert (Hldiff : Z.lor b (Z.lnot (Z.ones bit)) = Z.lor (Z.land b (Z.ones bit)) (Z.lnot (Z.ones bit))).
    { apply Z.bits_inj'. intros n Hn. rewrite !Z.lor_spec, Z.land_spec, Z.lnot_spec by lia.
      destruct (Z.testbit b n), (Z.testbit (Z.ones bit) n); reflexivity. }
    rewrite Hldiff, Z.land_ones by lia. fold p.
    assert (Hlor : Z.lor (b mod p) (Z.lnot (Z.ones bit)) = b mod p + Z.lnot (Z.ones bit)).
    { symmetry. rewrite Z.add_nocarry_lxor.
      - rewrite Z.lxor_lor; [reflexivity|].
        apply Z.bits_inj'. intros n Hn. rewrite Z.land_spec, Z.lnot_spec, Z.bits_0 by lia.
        unfold p. destruct (Z.lt_ge_cases n bit).
        + rewrite Z.ones_spec_low by lia. now rewrite andb_false_r.
        + rewrite Z.mod_pow2_bits_high by lia. reflexivity.
      - apply Z.bits_inj'. intros n Hn. rewrite Z.land_spec, Z.lnot_spec, Z.bits_0 by lia.
        unfold p. destruct (Z.lt_ge_cases n bit).
        + rewrite Z.ones_spec_low by lia. now rewrite andb_false_r.
        + rewrite Z.mod_pow2_bits_high by lia. reflexivity. }
    rewrite Hlor. unfold Z.lnot. rewrite <- Hones. lia.
  - rewrite <- Ht in Hlow.
    destruct (Z.ltb_spec (b mod (p * 2)) p) as [Hc|Hc]; [|lia].
    unfold of_signed. rewrite u256_mod. f_equal. rewrite Hones, Z.land_ones by lia. fold p. lia.
Qed.

(* ---- ranges of bitwise operations ---- *)
Lemma word_bits x : is_word x <-> 0 <= x /\ (forall n, 256 <= n -> Z.testbit x n = false).
Proof.
  unfold is_word. split.
  - intros [H0 H1]. split; [exact H0|]. intros n Hn.
    destruct (Z.eq_dec x 0) as [->|]; [apply Z.bits_0|].
    apply Z.bits_above_log2; [lia|]. apply Z.log2_lt_pow2; [lia|].
    eapply Z.lt_le_trans; [exact H1|]. apply Z.pow_le_mono_r; lia.
  - intros [H0 Hb]. split; [exact H0|].
    destruct (Z.lt_ge_cases x two256) as [|Hge]; [assumption|exfalso].
    assert (Hl : 256 <= Z.log2 x) by (apply Z.log2_le_pow2; [unfold two256 in Hge; lia|exact Hge]).
    assert (0 < x) by (unfold two256 in Hge; lia).
    pose proof (Z.bit_log2 x ltac:(lia)) as Ht. rewrite (Hb _ Hl) in Ht. discriminate.
Qed.
Lemma land_word x y : is_word x -> is_word y -> is_word (Z.land x y).
Proof.
  rewrite !word_bits. intros [Hx Hbx] [Hy Hby]. split; [apply Z.land_nonneg; auto|].
  intros n Hn. now rewrite Z.land_spec, Hbx.
Qed.
Lemma lor_word x y : is_word x -> is_word y -> is_word (Z.lor x y).
Proof.
  rewrite !word_bits. intros [Hx Hbx] [Hy Hby]. split; [apply Z.lor_nonneg; auto|].
  intros n Hn. now rewrite Z.lor_spec, Hbx, Hby.
Qed.
Lemma lxor_word x y : is_word x -> is_word y -> is_word (Z.lxor x y).
Proof.
  rewrite !word_bits. intros [Hx Hbx] [Hy Hby]. split.
  - apply Z.lxor_nonneg. lia.
  - intros n Hn. now rewrite Z.lxor_spec, Hbx, Hby.
Qed.

Lemma small_word z : 0 <= z < 1000 -> is_word z.
Proof. unfold is_word, two256. intros [H1 H2]. split; [exact H1|]. eapply Z.lt_trans; [exact H2|reflexivity]. Qed.

Lemma sgn_eqb0 y : (Z.sgn y =? 0) = (y =? 0).
Proof. destruct y; reflexivity. Qed.

Lemma to_signed_eqb0 y : is_word y -> (to_signed y =? 0) = (y =? 0).
Proof.
  intro Hy. unfold to_signed, is_word, modulus, two256 in *. rewrite H255 in *. pose proof pow255_pos.
  destruct (Z.ltb_spec y (2 ^ 255)); [reflexivity|]. lia.
Qed.

Lemma sdiv_spec a b : is_word a -> is_word b -> op_sdiv a b = spec_aop ASdiv a b 0.
Proof.
  intros Ha Hb. unfold op_sdiv, spec_aop, of_signed; cbv zeta. rewrite (s256_signed a), (s256_signed b), !sgn_eqb0.
  rewrite !to_signed_eqb0 by assumption.
  destruct (Z.eqb_spec b 0) as [Eb|Eb]; [reflexivity|]. cbn [orb].
  destruct (Z.eqb_spec a 0) as [Ea|Ea].
  { subst a. change (to_signed 0) with 0. rewrite Z.quot_0_l; [reflexivity|].
    intro H0. apply Z.eqb_eq in H0. rewrite to_signed_eqb0 in H0 by assumption. apply Z.eqb_eq in H0. contradiction. }
  assert (Hnb : to_signed b <> 0) by (intro H0; apply Z.eqb_eq in H0; rewrite to_signed_eqb0 in H0 by assumption; apply Z.eqb_eq in H0; contradiction).
  assert (Hna : to_signed a <> 0) by (intro H0; apply Z.eqb_eq in H0; rewrite to_signed_eqb0 in H0 by assumption; apply Z.eqb_eq in H0; contradiction).
  set (x := to_signed a) in *. set (y := to_signed b) in *.
  assert (Hq : Z.quot x y = if Z.sgn x =? Z.sgn y then Z.abs x / Z.abs y else - (Z.abs x / Z.abs y)).
  { rewrite Z.quot_div by assumption. destruct (Z.eqb_spec (Z.sgn x) (Z.sgn y)) as [E|E].
    - rewrite E. replace (Z.sgn y * Z.sgn y) with 1; [lia|]. destruct y; try contradiction; reflexivity.
    - destruct x, y; try contradiction; cbn [Z.sgn] in *; try congruence; lia. }
  rewrite Hq. destruct (Z.sgn x =? Z.sgn y); cbn [negb]; apply u256_mod.
Qed.

Lemma smod_spec a b : is_word a -> is_word b -> op_smod a b = spec_aop ASmod a b 0.
Proof.
  intros Ha Hb. unfold op_smod, spec_aop, of_signed; cbv zeta. rewrite (s256_signed a), (s256_signed b), !sgn_eqb0.
  rewrite !to_signed_eqb0 by assumption.
  destruct (Z.eqb_spec b 0) as [Eb|Eb]; [reflexivity|].
  assert (Hnb : to_signed b <> 0) by (intro H0; apply Z.eqb_eq in H0; rewrite to_signed_eqb0 in H0 by assumption; apply Z.eqb_eq in H0; contradiction).
  set (x := to_signed a) in *. set (y := to_signed b) in *.
  rewrite Z.rem_mod by assumption.
  destruct (Z.ltb_spec x 0) as [Hx|Hx]; rewrite u256_mod; f_equal.
  - rewrite (Z.sgn_neg x) by lia. lia.
  - destruct (Z.eq_dec x 0) as [->|]; [reflexivity|]. rewrite (Z.sgn_pos x) by lia. lia.
Qed.

Lemma pow_split k : 0 <= k <= 256 -> 0 < 2 ^ k /\ 2 ^ k <= modulus.
Proof.
  intro H. split; [apply Z.pow_pos_nonneg; lia|]. unfold modulus. apply Z.pow_le_mono_r; lia.
Qed.

(** every instruction except SAR matches the specification *)
Lemma sar_spec a b : is_word a -> is_word b -> (b <> 0 \/ a < 256) ->
  op_sar a b = spec_aop ASar a b 0.
Proof.
  intros Ha Hb Hcase. unfold op_sar, spec_aop, of_signed; cbv zeta. rewrite (u256_id a) by exact Ha. rewrite s256_signed.
  destruct (Z.leb_spec 256 a) as [Hge|Hlt].
  - rewrite Z.min_r by lia. pose proof (to_signed_range b Hb) as Hr.
    assert (Hb0 : b <> 0) by (destruct Hcase; [assumption|lia]).
    assert (to_signed b <> 0) by (intro H0; apply Z.eqb_eq in H0; rewrite to_signed_eqb0 in H0 by assumption; apply Z.eqb_eq in H0; contradiction).
    assert (H2 : 2 ^ 256 = 2 * 2 ^ 255) by reflexivity. pose proof pow255_pos.
    destruct (Z.ltb_spec 0 (to_signed b)); rewrite u256_mod; f_equal.
    + symmetry. apply Z.div_small. lia.
    + apply Z.div_unique with (to_signed b + 2 ^ 256); lia.
  - rewrite Z.min_l by lia. rewrite u256_mod. f_equal. apply Z.shiftr_div_pow2. apply Ha.
Qed.

Lemma aop_spec op a b c : op <> ASar -> is_word a -> is_word b -> is_word c ->
  exists r, exec_aop op (firstn (aop_arity op) [a; b; c]) = Some [r] /\ r = spec_aop op a b c.
Proof.
  intros Hop Ha Hb Hc. pose proof Ha as [Ha0 Ha1]. pose proof Hb as [Hb0 Hb1]. pose proof Hc as [Hc0 Hc1].
  destruct op; cbn [aop_arity firstn exec_aop]; (eexists; split; [reflexivity|]); try contradiction.
  - apply u256_mod.
  - apply u256_mod.
  - apply u256_mod.
  - unfold op_div, spec_aop. destruct (Z.eqb_spec b 0); [reflexivity|]. apply u256_id.
    split; [apply Z.div_pos; lia|]. eapply Z.le_lt_trans; [|exact Ha1]. apply Z.div_le_upper_bound; nia.
  - now apply sdiv_spec.
  - unfold op_mod, spec_aop. rewrite sgn_eqb0. destruct (Z.eqb_spec b 0); [reflexivity|]. apply u256_id.
    pose proof (Z.mod_pos_bound a b ltac:(lia)). unfold is_word; lia.
  - now apply smod_spec.
  - unfold op_addmod, spec_aop. destruct (Z.ltb_spec 0 c); destruct (Z.eqb_spec c 0); try lia. 
    apply u256_id. pose proof (Z.mod_pos_bound (a + b) c ltac:(lia)). unfold is_word; lia.
  - unfold op_mulmod, spec_aop. destruct (Z.ltb_spec 0 c); destruct (Z.eqb_spec c 0); try lia.
    apply u256_id. pose proof (Z.mod_pos_bound (a * b) c ltac:(lia)). unfold is_word; lia.
  - now apply op_exp_spec.
  - rewrite signextend_spec by assumption. reflexivity.
  - reflexivity.
  - unfold op_gt, spec_aop. now rewrite Z.gtb_ltb.
  - unfold op_slt, spec_aop, to_signed, b2w, modulus, is_word, two256 in *. rewrite H255 in *. pose proof pow255_pos.
    destruct (Z.leb_spec (2 ^ 255) a), (Z.leb_spec (2 ^ 255) b); cbn [negb andb];
      destruct (Z.ltb_spec a (2 ^ 255)), (Z.ltb_spec b (2 ^ 255)); try lia;
      repeat match goal with |- context [?u <? ?v] => destruct (Z.ltb_spec u v) end; lia.
  - unfold op_sgt, spec_aop, to_signed, b2w, modulus, is_word, two256 in *. rewrite Z.gtb_ltb. rewrite H255 in *. pose proof pow255_pos.
    destruct (Z.leb_spec (2 ^ 255) a), (Z.leb_spec (2 ^ 255) b); cbn [negb andb];
      destruct (Z.ltb_spec a (2 ^ 255)), (Z.ltb_spec b (2 ^ 255)); try lia;
      repeat match goal with |- context [?u <? ?v] => destruct (Z.ltb_spec u v) end; lia.
  - reflexivity.
  - unfold op_iszero, spec_aop, b2w. destruct (Z.ltb_spec 0 a), (Z.eqb_spec a 0); try lia; reflexivity.
  - reflexivity.
  - reflexivity.
  - reflexivity.
  - unfold op_not, spec_aop. rewrite u256_mod. unfold Z.lnot. unfold is_word in Ha. change two256 with modulus in *.
    symmetry. apply Z.mod_unique_pos with (-1); lia.
  - unfold op_byte, spec_aop, byte_go. destruct (Z.ltb_spec a 32); [|reflexivity].
    destruct (Z.leb_spec 32 a); [lia|]. rewrite big_endian_byte_at_spec by lia.
    replace (32 - 1 - a) with (31 - a) by lia. reflexivity.
  - unfold op_shl, spec_aop; cbv zeta. rewrite (u256_id a), (u256_id b) by assumption.
    destruct (Z.leb_spec 256 a), (Z.ltb_spec a 256); try lia; try reflexivity.
    rewrite u256_mod, Z.shiftl_mul_pow2 by lia. reflexivity.
  - unfold op_shr, spec_aop; cbv zeta. rewrite (u256_id a), (u256_id b) by assumption.
    destruct (Z.leb_spec 256 a), (Z.ltb_spec a 256); try lia; try reflexivity.
    rewrite Z.shiftr_div_pow2 by lia. apply u256_id.
    assert (0 < 2 ^ a) by (apply Z.pow_pos_nonneg; lia).
    split; [apply Z.div_pos; lia|]. eapply Z.le_lt_trans; [|exact Hb1]. apply Z.div_le_upper_bound; nia.
Qed.

Lemma b2w_word b : is_word (b2w b).
Proof. destruct b; apply small_word; cbn; lia. Qed.

(** results are always words *)
Lemma exec_aop_word op st r rest : Forall is_word st -> exec_aop op st = Some (r :: rest) ->
  is_word r.
Proof.
  intros Hst E.
  destruct op; cbn [exec_aop] in E;
  (destruct st as [|x st]; [discriminate|]; inversion Hst as [|? ? Hx Hst']; subst);
  try (destruct st as [|y st]; [discriminate|]; inversion Hst' as [|? ? Hy Hst'']; subst);
  try (destruct st as [|z st]; [discriminate|]; inversion Hst'' as [|? ? Hz Hst''']; subst);
  inversion E; subst; clear E;
  unfold op_add, op_mul, op_sub, op_div, op_sdiv, op_mod, op_smod, op_addmod, op_mulmod,
    op_lt, op_gt, op_slt, op_sgt, op_eq, op_iszero, op_not, op_shl, op_shr, op_sar; cbv zeta;
  try (repeat match goal with
       | |- is_word (u256 _) => apply u256_range
       | |- is_word 0 => apply small_word; lia
       | |- is_word 1 => apply small_word; lia
       | |- is_word (if ?c then _ else _) => destruct c
       end; fail).
  - rewrite op_exp_spec by assumption. apply Z.mod_pos_bound. reflexivity.
  - unfold op_signextend. destruct (x <? 31); [|exact Hy]. destruct (Z.testbit y _); apply u256_range.
  - now apply land_word.
  - now apply lor_word.
  - now apply lxor_word.
  - unfold op_byte, byte_go. destruct (Z.ltb_spec x 32) as [Hlt|]; [|apply small_word; lia].
    destruct (Z.leb_spec 32 x); [apply small_word; lia|].
    rewrite big_endian_byte_at_spec by (unfold is_word in *; lia). apply small_word.
    pose proof (Z.mod_pos_bound (y / 2 ^ (8 * (32 - 1 - x))) 256 ltac:(lia)). lia.
Qed.

Lemma exec_aop_length op st st' : exec_aop op st = Some st' ->
  length st = (length st' + aop_arity op - 1)%nat /\ exists r rest, st' = r :: rest /\ rest = skipn (aop_arity op) st.
Proof.
  intro E. destruct op; cbn [exec_aop] in E;
  (destruct st as [|x st]; [discriminate|]);
  try (destruct st as [|y st]; [discriminate|]);
  try (destruct st as [|z st]; [discriminate|]);
  inversion E; subst; cbn [length aop_arity skipn]; (split; [lia|]); eauto.
Qed.
Lemma exec_aop_some op st : (aop_arity op <= length st)%nat -> exists r, exec_aop op st = Some (r :: skipn (aop_arity op) st).
Proof.
  intro H. destruct op; cbn [exec_aop aop_arity] in *;
  (destruct st as [|x st]; [cbn in H; lia|]);
  try (destruct st as [|y st]; [cbn in H; lia|]);
  try (destruct st as [|z st]; [cbn in H; lia|]);
  eexists; reflexivity.
Qed.
