(** Proof of work: a nonce is accepted just when the hash reaches the target, and the target asks for the
    work the difficulty says. *)
From Verif Require Import Lib DexFloat DexFloatProofs PowModel.
Import ListNotations.
Open Scope Z_scope.

(** ** Floats *)
Lemma pos_frnd n d : 0 < n -> 0 < d -> 0 < fnum (frnd prec n d).
Proof.
  intros N D. destruct (frnd_close prec n d eq_refl D ltac:(lia)) as [L _]. pose proof (fden_pos (frnd prec n d)) as F.
  set (a := fnum (frnd prec n d)) in *. set (b := fden (frnd prec n d)) in *. change (2 ^ prec) with 18446744073709551616 in L.
  assert (0 < n * b) by nia. destruct (Z.le_gt_cases a 0) as [G|G]; [|assumption]. assert (a * d <= 0) by nia. lia.
Qed.
Lemma near_fle f g : 0 <= fnum f -> 0 <= fnum g -> fle f g -> to_int f <= to_int g.
Proof. intros F G L. unfold to_int. apply near_mono; try apply fden_pos; assumption. Qed.
(** the four floats of the computation *)
Definition f0 (d : Z) := frnd prec d 1.
Definition f1 (d : Z) := quo (1, 0) (f0 d).
Definition f2 (d : Z) := add1 (f1 d).
Definition f3 (d : Z) := quo (1, 256) (f2 d).
Lemma target_f3 d : positive_target d = to_int (f3 d).
Proof. reflexivity. Qed.
Lemma f1_eq d : f1 d = frnd prec (fden (f0 d)) (fnum (f0 d)).
Proof. unfold f1, quo. change (fnum (1, 0)) with 1. change (fden (1, 0)) with 1. now rewrite !Z.mul_1_l. Qed.
Lemma f3_eq d : f3 d = frnd prec (2 ^ 256 * fden (f2 d)) (fnum (f2 d)).
Proof. unfold f3, quo. change (fnum (1, 256)) with (2 ^ 256). change (fden (1, 256)) with 1. now rewrite Z.mul_1_l. Qed.
Lemma f_pos d : 0 < d -> 0 < fnum (f0 d) /\ 0 < fnum (f1 d) /\ 0 < fnum (f2 d) /\ 0 < fnum (f3 d).
Proof.
  intro D. assert (P0 : 0 < fnum (f0 d)) by (apply pos_frnd; lia).
  assert (P1 : 0 < fnum (f1 d)) by (rewrite f1_eq; apply pos_frnd; [apply fden_pos|assumption]).
  assert (P2 : 0 < fnum (f2 d)) by (apply pos_frnd; [pose proof (fden_pos (f1 d)); lia|apply fden_pos]).
  repeat split; try assumption. rewrite f3_eq. apply pos_frnd; [|assumption]. pose proof (fden_pos (f2 d)).
  apply Z.mul_pos_pos; [reflexivity|assumption].
Qed.

(** ** The target grows with the difficulty *)
Theorem target_monotone d d' : 0 < d <= d' -> positive_target d <= positive_target d'.
Proof.
  intros D. destruct (f_pos d ltac:(lia)) as (P0 & P1 & P2 & P3), (f_pos d' ltac:(lia)) as (Q0 & Q1 & Q2 & Q3).
  rewrite !target_f3. apply near_fle; try lia. rewrite !f3_eq. apply frnd_mono; try reflexivity; try assumption.
  { pose proof (fden_pos (f2 d)). apply Z.mul_nonneg_nonneg; [discriminate|lia]. }
  assert (M2 : fle (f2 d') (f2 d)).
  { unfold f2, add1. apply frnd_mono; try reflexivity; try apply fden_pos; [pose proof (fden_pos (f1 d')); lia|].
    assert (M1 : fle (f1 d') (f1 d)).
    { rewrite !f1_eq. apply frnd_mono; try reflexivity; try assumption; [pose proof (fden_pos (f0 d')); lia|].
      assert (M0 : fle (f0 d) (f0 d')) by (apply frnd_mono; try reflexivity; lia). unfold fle in M0. lia. }
    unfold fle in M1. lia. }
  unfold fle in M2. set (W := 2 ^ 256). assert (0 < W) by reflexivity. nia.
Qed.

(** ** Comparison of bytes *)
Lemma greater_spec x : forall y, length x = length y -> bytes_ok x -> bytes_ok y -> quick_greater x y = (be_val y <=? be_val x).
Proof.
  induction x as [|a x IH]; intros [|b y] L X Y; cbn [length] in L; try discriminate; [reflexivity|]. injection L as L.
  inversion X as [|? ? A X']; inversion Y as [|? ? B Y']; subst. cbn [quick_greater]. rewrite !be_val_cons.
  pose proof (be_val_range x X') as RX. pose proof (be_val_range y Y') as RY.
  assert (E : zlen x = zlen y) by (unfold zlen; congruence). rewrite E in *. set (p := 256 ^ zlen y) in *.
  destruct (Z.ltb_spec b a) as [G|G]; [symmetry; apply Z.leb_le; nia|].
  destruct (Z.ltb_spec a b) as [G'|G']; [symmetry; apply Z.leb_gt; nia|].
  rewrite IH by assumption. replace a with b by lia. destruct (Z.leb_spec (be_val y) (be_val x)), (Z.leb_spec (b * p + be_val y) (b * p + be_val x)); lia.
Qed.

(** ** Between 1 and 2^64-1 there is a target; above there is none *)
Lemma target_low : positive_target (2 ^ 64 - 1) < 2 ^ 256.
Proof. vm_compute. reflexivity. Qed.
Lemma target_high : positive_target (2 ^ 64) = 2 ^ 256.
Proof. vm_compute. reflexivity. Qed.
Lemma target_one : 0 <= positive_target 1.
Proof. vm_compute. discriminate. Qed.
Lemma target_range d : 0 < d < 2 ^ 64 -> 0 <= positive_target d < 2 ^ 256.
Proof.
  intro D. split.
  - apply Z.le_trans with (positive_target 1); [exact target_one|apply target_monotone; lia].
  - apply Z.le_lt_trans with (positive_target (2 ^ 64 - 1)); [apply target_monotone; lia|exact target_low].
Qed.

Section Pow.
Variable hash : list Z -> list Z.
Hypothesis hash_ok : forall l, length (hash l) = 32%nat /\ bytes_ok (hash l).

(** C75: for a difficulty from 1 to 2^64-1 a nonce is accepted just when the hash, read as a number, reaches the
    target of the difficulty. *)
Theorem nonce_accepted d nonce data : 0 < d < 2 ^ 64 ->
  check hash false d nonce data = true <-> positive_target d <= be_val (hash (nonce ++ data)).
Proof.
  intro D. destruct (target_range d D) as [T0 T1]. unfold check, target_bytes, difficulty_to_target.
  destruct (Z.ltb_spec d 0); [lia|]. destruct (Z.eqb_spec d 0); [lia|]. destruct (Z.leb_spec (2 ^ 256) (positive_target d)); [lia|].
  destruct (hash_ok (nonce ++ data)) as [HL HB]. rewrite greater_spec; [|now rewrite be_bytes_length|assumption|apply be_bytes_ok].
  rewrite be_val_bytes; [|change (256 ^ Z.of_nat 32) with (2 ^ 256); lia]. apply Z.leb_le.
Qed.
(** A difficulty of 2^64 or more cannot be met by any nonce; one of 0 is met by all. *)
Theorem difficulty_limits nonce data :
  (forall d, 2 ^ 64 <= d -> check hash false d nonce data = false) /\ (forall d, d < 0 -> check hash false d nonce data = false)
  /\ check hash false 0 nonce data = true.
Proof.
  split; [|split].
  - intros d D. unfold check, target_bytes, difficulty_to_target. change (2 ^ 64) with 18446744073709551616 in D.
    destruct (Z.ltb_spec d 0); [lia|]. destruct (Z.eqb_spec d 0); [lia|].
    destruct (Z.leb_spec (2 ^ 256) (positive_target d)) as [_|G]; [reflexivity|exfalso].
    pose proof (target_monotone (2 ^ 64) d) as M. rewrite target_high in M. change (2 ^ 64) with 18446744073709551616 in M. lia.
  - intros d D. unfold check, target_bytes, difficulty_to_target. destruct (Z.ltb_spec d 0); [reflexivity|lia].
  - unfold check, target_bytes, difficulty_to_target. cbn [Z.ltb Z.eqb Z.compare]. destruct (Z.leb_spec (2 ^ 256) 0) as [G|_]; [exfalso; apply G; reflexivity|].
    destruct (hash_ok (nonce ++ data)) as [HL HB]. rewrite greater_spec; [|now rewrite be_bytes_length|assumption|apply be_bytes_ok].
    rewrite be_val_bytes; [|split; [lia|reflexivity]]. apply Z.leb_le. pose proof (be_val_range _ HB). lia.
Qed.
(** A nonce that was found is accepted; and one is found if an accepted one is tried. *)
Theorem found_accepted test d tries data n : get_nonce hash test d tries data = Some n -> In n tries /\ check hash test d n data = true.
Proof.
  unfold get_nonce, check. destruct (target_bytes test d) as [t|]; [|discriminate].
  induction tries as [|x r IH]; cbn [search]; [discriminate|]. destruct (quick_greater (hash (x ++ data)) t) eqn:E.
  - intros [= <-]. split; [now left|assumption].
  - intro H. destruct (IH H) as [I C]. split; [now right|assumption].
Qed.
Theorem found_if_tried test d tries data n : In n tries -> check hash test d n data = true -> get_nonce hash test d tries data <> None.
Proof.
  unfold get_nonce, check. destruct (target_bytes test d) as [t|]; [|discriminate].
  induction tries as [|x r IH]; [contradiction|]. intros [->|I] C; cbn [search].
  - rewrite C. discriminate.
  - destruct (quick_greater (hash (x ++ data)) t); [discriminate|now apply IH].
Qed.
(** Searching a range of numbers gives the first accepted one, and an error only if there is none. *)
Lemma scan_spec t data n : forall from, match scan hash t n from data with
  | Some k => from <= k < from + Z.of_nat n /\ quick_greater (hash (be_bytes 8 k ++ data)) t = true
              /\ forall j, from <= j < k -> quick_greater (hash (be_bytes 8 j ++ data)) t = false
  | None => forall j, from <= j < from + Z.of_nat n -> quick_greater (hash (be_bytes 8 j ++ data)) t = false
  end.
Proof.
  induction n as [|n IH]; intro from; cbn [scan]; [intros j H; lia|].
  destruct (quick_greater (hash (be_bytes 8 from ++ data)) t) eqn:E.
  - split; [lia|]. split; [assumption|]. intros j H. lia.
  - specialize (IH (from + 1)). destruct (scan hash t n (from + 1) data) as [k|].
    + destruct IH as (R & Q & F). split; [lia|]. split; [assumption|]. intros j H. destruct (Z.eq_dec j from) as [N|N]; [now subst j|apply F; lia].
    + intros j H. destruct (Z.eq_dec j from) as [N|N]; [now subst j|apply IH; lia].
Qed.
Theorem range_searched d from to data : 0 < d < 2 ^ 64 ->
  match map_nonce hash false d from to data with
  | Some k => from <= k < to /\ positive_target d <= be_val (hash (be_bytes 8 k ++ data))
              /\ forall j, from <= j < k -> be_val (hash (be_bytes 8 j ++ data)) < positive_target d
  | None => forall j, from <= j < to -> be_val (hash (be_bytes 8 j ++ data)) < positive_target d
  end.
Proof.
  intro D. pose proof (fun n => nonce_accepted d n data D) as A. unfold check in A. unfold map_nonce.
  destruct (target_bytes false d) as [t|] eqn:ET.
  2:{ exfalso. revert ET. destruct (target_range d D). unfold target_bytes, difficulty_to_target.
      destruct (Z.ltb_spec d 0); [lia|]. destruct (Z.eqb_spec d 0); [lia|]. destruct (Z.leb_spec (2 ^ 256) (positive_target d)); [lia|discriminate]. }
  assert (B : forall j, quick_greater (hash (be_bytes 8 j ++ data)) t = false -> be_val (hash (be_bytes 8 j ++ data)) < positive_target d).
  { intros j H. destruct (Z.lt_ge_cases (be_val (hash (be_bytes 8 j ++ data))) (positive_target d)) as [G|G]; [assumption|]. apply A in G. congruence. }
  pose proof (scan_spec t data (Z.to_nat (to - from)) from) as S. destruct (scan hash t (Z.to_nat (to - from)) from data) as [k|].
  - destruct S as (R & Q & F). split; [lia|]. split; [now apply A|]. intros j H. apply B, F, H.
  - intros j H. apply B, S. lia.
Qed.
(** What is accepted for a difficulty is accepted for every lower one. *)
Theorem lower_difficulty d d' nonce data : 0 < d <= d' -> check hash false d' nonce data = true -> check hash false d nonce data = true.
Proof.
  intros D C. destruct (Z.lt_ge_cases d' (2 ^ 64)) as [L|L].
  - apply nonce_accepted; [lia|]. apply nonce_accepted in C; [|lia]. pose proof (target_monotone d d' D). lia.
  - rewrite (proj1 (difficulty_limits nonce data) d' L) in C. discriminate.
Qed.

(** The rule for blocks: without a nonce there must be no difficulty; with one the account must not be a contract, the
    nonce has eight bytes and its hash, with the hash of the account and the block before, reaches the target. *)
Theorem nonce_rule contract nonce d addr prev : (forall x, d = Some x -> 0 < x < 2 ^ 64) ->
  verify_nonce hash contract nonce d addr prev = true <->
  (nonce = [] /\ d = None) \/
  (contract = false /\ length nonce = 8%nat /\ exists x, d = Some x /\ positive_target x <= be_val (hash (nonce ++ hash (addr ++ prev)))).
Proof.
  intro R. unfold verify_nonce. destruct nonce as [|n0 nonce].
  - change (negb (zlen (@nil Z) =? 0)) with false. cbv iota. destruct d as [x|]; split; try discriminate; try (now left); try (intros; reflexivity).
    intros [[_ H]|(_ & H & _)]; discriminate.
  - destruct (Z.eqb_spec (zlen (n0 :: nonce)) 0) as [E|_]; [rewrite zlen_cons in E; pose proof (zlen_nonneg nonce); lia|]. cbn [negb].
    destruct contract; [split; [discriminate|intros [[H _]|(H & _)]; discriminate]|].
    destruct d as [x|]; [|split; [discriminate|intros [[H _]|(_ & _ & x & H & _)]; discriminate]].
    destruct (Z.eqb_spec (zlen (n0 :: nonce)) 8) as [E|E]; cbn [negb].
    + rewrite (nonce_accepted x _ _ (R x eq_refl)). split.
      * intro H. right. split; [reflexivity|]. split; [unfold zlen in E; lia|]. now exists x.
      * intros [[H _]|(_ & _ & y & [= <-] & H)]; [discriminate|assumption].
    + split; [discriminate|]. intros [[H _]|(_ & H & _)]; [discriminate|]. exfalso. apply E. unfold zlen. rewrite H. reflexivity.
Qed.
End Pow.

(** ** The work *)
Lemma chain_bounds M d a0 b0 a1 b1 a2 b2 a3 b3 W : 1 < M -> 0 < d -> 0 < W -> 0 < a0 -> 0 < b0 -> 0 < a1 -> 0 < b1 -> 0 < a2 -> 0 < b2 -> 0 < a3 -> 0 < b3 ->
  (M - 1) * (d * b0) <= M * a0 <= (M + 1) * (d * b0) ->
  (M - 1) * (b0 * b1) <= M * (a1 * a0) <= (M + 1) * (b0 * b1) ->
  (M - 1) * ((a1 + b1) * b2) <= M * (a2 * b1) <= (M + 1) * ((a1 + b1) * b2) ->
  (M - 1) * (W * b2 * b3) <= M * (a3 * a2) <= (M + 1) * (W * b2 * b3) ->
  (M - 1) * ((M - 1) + d * (M + 1)) * a3 <= (M + 1) * (M + 1) * d * W * b3
  /\ (M - 1) * (M - 1) * d * W * b3 <= (M + 1) * ((M + 1) + d * (M - 1)) * a3.
Proof.
  intros HM HD HW A0 B0 A1 B1 A2 B2 A3 B3 [L0 U0] [L1 U1] [L2 U2] [L3 U3].
  assert (X1 : (M - 1) * d * a1 <= (M + 1) * b1).
  { apply (Z.mul_le_mono_pos_r _ _ b0); [assumption|]. pose proof (Z.mul_le_mono_nonneg_r _ _ a1 ltac:(lia) L0). nia. }
  assert (X2 : (M - 1) * b1 <= (M + 1) * d * a1).
  { apply (Z.mul_le_mono_pos_r _ _ b0); [assumption|]. pose proof (Z.mul_le_mono_nonneg_r _ _ a1 ltac:(lia) U0). nia. }
  assert (Y1 : M * (M - 1) * d * a2 <= (M + 1) * ((M + 1) + d * (M - 1)) * b2).
  { apply (Z.mul_le_mono_pos_r _ _ b1); [assumption|].
    assert (S1 : (M * (a2 * b1)) * ((M - 1) * d) <= (M + 1) * ((a1 + b1) * b2) * ((M - 1) * d)) by (apply Z.mul_le_mono_nonneg_r; [nia|assumption]).
    assert (S2 : ((M - 1) * d * a1) * ((M + 1) * b2) <= ((M + 1) * b1) * ((M + 1) * b2)) by (apply Z.mul_le_mono_nonneg_r; [nia|assumption]).
    lia. }
  assert (Y2 : (M - 1) * ((M - 1) + d * (M + 1)) * b2 <= M * (M + 1) * d * a2).
  { apply (Z.mul_le_mono_pos_r _ _ b1); [assumption|].
    assert (S1 : (M - 1) * ((a1 + b1) * b2) * ((M + 1) * d) <= (M * (a2 * b1)) * ((M + 1) * d)) by (apply Z.mul_le_mono_nonneg_r; [nia|assumption]).
    assert (S2 : ((M - 1) * b1) * ((M - 1) * b2) <= ((M + 1) * d * a1) * ((M - 1) * b2)) by (apply Z.mul_le_mono_nonneg_r; [nia|assumption]).
    lia. }
  split.
  - apply (Z.mul_le_mono_pos_r _ _ b2); [assumption|].
    assert (S1 : (M * (a3 * a2)) * ((M + 1) * d) <= (M + 1) * (W * b2 * b3) * ((M + 1) * d)) by (apply Z.mul_le_mono_nonneg_r; [nia|assumption]).
    assert (S2 : ((M - 1) * ((M - 1) + d * (M + 1)) * b2) * a3 <= (M * (M + 1) * d * a2) * a3) by (apply Z.mul_le_mono_nonneg_r; [lia|assumption]).
    lia.
  - apply (Z.mul_le_mono_pos_r _ _ b2); [assumption|].
    assert (S1 : (M - 1) * (W * b2 * b3) * ((M - 1) * d) <= (M * (a3 * a2)) * ((M - 1) * d)) by (apply Z.mul_le_mono_nonneg_r; [nia|assumption]).
    assert (S2 : (M * (M - 1) * d * a2) * a3 <= ((M + 1) * ((M + 1) + d * (M - 1)) * b2) * a3) by (apply Z.mul_le_mono_nonneg_r; [lia|assumption]).
    lia.
Qed.
Lemma near_bounds M d a3 b3 T W : 1 < M -> 0 < d -> 0 < b3 -> 2 * a3 - b3 <= 2 * (T * b3) <= 2 * a3 + b3 ->
  (M - 1) * ((M - 1) + d * (M + 1)) * a3 <= (M + 1) * (M + 1) * d * W * b3 ->
  (M - 1) * (M - 1) * d * W * b3 <= (M + 1) * ((M + 1) + d * (M - 1)) * a3 ->
  2 * ((M - 1) * ((M - 1) + d * (M + 1))) * T <= 2 * ((M + 1) * (M + 1) * d * W) + (M - 1) * ((M - 1) + d * (M + 1))
  /\ 2 * ((M - 1) * (M - 1) * d * W) <= 2 * ((M + 1) * ((M + 1) + d * (M - 1))) * T + (M + 1) * ((M + 1) + d * (M - 1)).
Proof.
  intros HM HD Q3 NB U L. split.
  - apply (Z.mul_le_mono_pos_r _ _ b3); [assumption|]. assert (PP : 0 < (M - 1) * ((M - 1) + d * (M + 1))) by nia.
    set (P := (M - 1) * ((M - 1) + d * (M + 1))) in *. clearbody P.
    assert (S : P * (2 * (T * b3)) <= P * (2 * a3 + b3)) by (apply Z.mul_le_mono_nonneg_l; lia). lia.
  - apply (Z.mul_le_mono_pos_r _ _ b3); [assumption|]. assert (PP : 0 < (M + 1) * ((M + 1) + d * (M - 1))) by nia.
    set (P := (M + 1) * ((M + 1) + d * (M - 1))) in *. clearbody P.
    assert (S : P * (2 * a3 - b3) <= P * (2 * (T * b3))) by (apply Z.mul_le_mono_nonneg_l; lia). lia.
Qed.
Lemma work_arith M d T W : M = 18446744073709551616 -> 1 <= d ->
  1606938044258990275541962092341162602522202993782792835301376 <= W ->
  2 * ((M - 1) * ((M - 1) + d * (M + 1))) * T <= 2 * ((M + 1) * (M + 1) * d * W) + (M - 1) * ((M - 1) + d * (M + 1)) ->
  2 * ((M - 1) * (M - 1) * d * W) <= 2 * ((M + 1) * ((M + 1) + d * (M - 1))) * T + (M + 1) * ((M + 1) + d * (M - 1)) ->
  2305843009213693952 * Z.abs ((W - T) * (d + 1) - W) <= W * (d + 2).
Proof.
  intros EM D HW U' L'. replace (M - 1) with 18446744073709551615 in * by lia. replace (M + 1) with 18446744073709551617 in * by lia. clear EM M.
  assert (DD : d <= d ^ 2) by nia. set (w := 1606938044258990275541962092341162602522202993782792835301376) in HW.
  assert (WD0 : 0 <= W * d) by (unfold w in HW; nia).
  assert (WD : w * d ^ 2 <= W * d ^ 2) by (apply Z.mul_le_mono_nonneg_r; lia).
  assert (HD : w * d <= W * d) by (apply Z.mul_le_mono_nonneg_r; lia).
  unfold w in *. clear w.
  assert (G1 : 2305843009213693952 * ((W - T) * (d + 1) - W) <= W * (d + 2)).
  { set (P := 18446744073709551617 * (18446744073709551617 + d * 18446744073709551615)) in *. assert (PP : 0 < P) by (unfold P; lia).
    apply (Z.mul_le_mono_pos_r _ _ (2 * P)); [lia|].
    assert (S : (2 * (18446744073709551615 * 18446744073709551615 * d * W)) * (d + 1) <= (2 * P * T + P) * (d + 1)) by (apply Z.mul_le_mono_nonneg_r; lia).
    unfold P in *. clear L' U'. ring_simplify in S. ring_simplify. lia. }
  assert (G2 : - (W * (d + 2)) <= 2305843009213693952 * ((W - T) * (d + 1) - W)).
  { set (P := 18446744073709551615 * (18446744073709551615 + d * 18446744073709551617)) in *. assert (PP : 0 < P) by (unfold P; lia).
    apply (Z.mul_le_mono_pos_r _ _ (2 * P)); [lia|].
    assert (S : (2 * P * T) * (d + 1) <= (2 * (18446744073709551617 * 18446744073709551617 * d * W) + P) * (d + 1)) by (apply Z.mul_le_mono_nonneg_r; lia).
    unfold P in *. clear L' U'. ring_simplify in S. ring_simplify. lia. }
  lia.
Qed.
Lemma pow_M : exists M, M = 2 ^ prec /\ M = 18446744073709551616. Proof. now exists 18446744073709551616. Qed.
Lemma pow_W : exists W, W = 2 ^ 256 /\ 1606938044258990275541962092341162602522202993782792835301376 <= W.
Proof. exists (2 ^ 256). split; [reflexivity|vm_compute; discriminate]. Qed.
Lemma frnd_close64 n d : 0 < d -> 0 <= n -> exists f M, f = frnd prec n d /\ M = 2 ^ prec /\
  (M - 1) * (n * fden f) <= M * (fnum f * d) <= (M + 1) * (n * fden f).
Proof. intros D N. eexists. eexists. split; [reflexivity|]. split; [reflexivity|]. apply frnd_close; [reflexivity|assumption|assumption]. Qed.
Lemma f3_bounds d M W : 0 < d -> M = 2 ^ prec -> W = 2 ^ 256 -> 1 < M -> 0 < W ->
  (M - 1) * ((M - 1) + d * (M + 1)) * fnum (f3 d) <= (M + 1) * (M + 1) * d * W * fden (f3 d)
  /\ (M - 1) * (M - 1) * d * W * fden (f3 d) <= (M + 1) * ((M + 1) + d * (M - 1)) * fnum (f3 d).
Proof.
  intros D EM EW HM HW. destruct (f_pos d D) as (P0 & P1 & P2 & P3).
  pose proof (fden_pos (f0 d)) as Q0. pose proof (fden_pos (f1 d)) as Q1. pose proof (fden_pos (f2 d)) as Q2. pose proof (fden_pos (f3 d)) as Q3.
  destruct (frnd_close64 d 1 eq_refl ltac:(lia)) as (f & M0 & E & EM0 & C0). rewrite <- EM in EM0. subst M0. fold (f0 d) in E. subst f.
  destruct (frnd_close64 (fden (f0 d)) (fnum (f0 d)) P0 ltac:(lia)) as (f & M0 & E & EM0 & C1). rewrite <- EM in EM0. subst M0. rewrite <- f1_eq in E. subst f.
  destruct (frnd_close64 (fnum (f1 d) + fden (f1 d)) (fden (f1 d)) Q1 ltac:(lia)) as (f & M0 & E & EM0 & C2). rewrite <- EM in EM0. subst M0. fold (add1 (f1 d)) in E. fold (f2 d) in E. subst f.
  assert (WQ : 0 <= W * fden (f2 d)) by nia.
  destruct (frnd_close64 (W * fden (f2 d)) (fnum (f2 d)) P2 WQ) as (f & M0 & E & EM0 & C3). rewrite <- EM in EM0. subst M0. rewrite EW in E. rewrite <- f3_eq in E. subst f.
  rewrite Z.mul_1_r in C0. clear EM EW WQ.
  exact (chain_bounds M d _ _ _ _ _ _ _ _ W HM D HW P0 Q0 P1 Q1 P2 Q2 P3 Q3 C0 C1 C2 C3).
Qed.
(** C75: of the 2^256 values a hash can have, one in difficulty+1 is accepted, up to the part (difficulty+2) / 2^61:
    so many hashes are needed on the average. *)
Theorem work_needed d : 0 < d ->
  2 ^ 61 * Z.abs ((2 ^ 256 - positive_target d) * (d + 1) - 2 ^ 256) <= 2 ^ 256 * (d + 2).
Proof.
  change (2 ^ 61) with 2305843009213693952. intro D1.
  destruct pow_M as (M & EM & HM), pow_W as (W & EW & HW). rewrite <- EW.
  assert (M1 : 1 < M) by lia. assert (W1 : 0 < W) by lia. assert (D : 1 <= d) by lia.
  destruct (f3_bounds d M W D1 EM EW M1 W1) as [U L]. destruct (f_pos d D1) as (_ & _ & _ & P3).
  assert (P3' : 0 <= fnum (f3 d)) by lia.
  pose proof (near_bound (fnum (f3 d)) (fden (f3 d)) (fden_pos _) P3') as NB.
  destruct (near_bounds M d _ _ _ W M1 D1 (fden_pos _) NB U L) as [U' L'].
  rewrite target_f3. unfold to_int. exact (work_arith M d _ W HM D HW U' L').
Qed.
(** Up to 2^32 this is one part in 2^28. *)
Theorem work_needed_partial d : 1 <= d <= 2 ^ 32 ->
  2 ^ 28 * Z.abs ((2 ^ 256 - positive_target d) * (d + 1) - 2 ^ 256) <= 2 ^ 256.
Proof.
  intro D. assert (D1 : 0 < d) by lia. pose proof (work_needed d D1) as H. destruct pow_W as (W & EW & HW). rewrite <- EW in *.
  revert H. generalize (Z.abs ((W - positive_target d) * (d + 1) - W)). intros x H.
  change (2 ^ 61) with 2305843009213693952 in H. change (2 ^ 28) with 268435456. change (2 ^ 32) with 4294967296 in D.
  assert (W * (d + 2) <= W * 4294967298) by (apply Z.mul_le_mono_nonneg_l; lia). lia.
Qed.
(** Up to 2^29 a higher difficulty always has a higher target. *)
Theorem higher_is_harder_partial d : 1 <= d < 2 ^ 29 -> positive_target d < positive_target (d + 1).
Proof.
  intro D. assert (D1 : 0 < d) by lia. assert (D2 : 0 < d + 1) by lia. pose proof (work_needed d D1) as H1. pose proof (work_needed (d + 1) D2) as H2.
  destruct pow_W as (W & EW & HW). rewrite <- EW in *. revert H1 H2. generalize (positive_target d) (positive_target (d + 1)). intros t t' H1 H2.
  change (2 ^ 61) with 2305843009213693952 in *. change (2 ^ 29) with 536870912 in D.
  assert (A1 : 2305843009213693952 * (W * d - t * (d + 1)) >= - (W * (d + 2))) by lia.
  assert (A2 : 2305843009213693952 * (W * (d + 1) - t' * (d + 2)) <= W * (d + 3)) by lia.
  destruct (Z.lt_ge_cases t t') as [G|G]; [assumption|exfalso].
  assert (B1 : - (W * (d + 2)) * (d + 2) <= 2305843009213693952 * (W * d - t * (d + 1)) * (d + 2)) by (apply Z.mul_le_mono_nonneg_r; lia).
  assert (B2 : 2305843009213693952 * (W * (d + 1) - t' * (d + 2)) * (d + 1) <= W * (d + 3) * (d + 1)) by (apply Z.mul_le_mono_nonneg_r; lia).
  assert (DD : 0 <= (d + 1) * (d + 2)) by (apply Z.mul_nonneg_nonneg; lia).
  assert (B3 : t' * ((d + 1) * (d + 2)) <= t * ((d + 1) * (d + 2))) by (apply Z.mul_le_mono_nonneg_r; lia).
  assert (B4 : 2305843009213693952 * W <= W * ((d + 2) * (d + 2) + (d + 3) * (d + 1))) by (clear A1 A2 H1 H2; lia).
  assert (B5 : (d + 2) * (d + 2) <= 536870916 * 536870916) by (apply Z.mul_le_mono_nonneg; lia).
  assert (B6 : (d + 3) * (d + 1) <= 536870916 * 536870916) by (apply Z.mul_le_mono_nonneg; lia).
  assert (B7 : W * ((d + 2) * (d + 2) + (d + 3) * (d + 1)) <= W * (2 * (536870916 * 536870916))) by (apply Z.mul_le_mono_nonneg_l; lia).
  clear - B4 B7 HW. lia.
Qed.

(** Above, the target hardly changes: one and a half times the difficulty can have the same target, so that the same hashes are
    accepted for both. *)
Theorem higher_is_harder_refuted : exists d, 0 < d < 2 ^ 64 /\ positive_target (d + d / 2) = positive_target d /\ d + d / 2 < 2 ^ 64.
Proof. exists 10000000000000000000. repeat split; vm_compute; reflexivity. Qed.
(** In the other direction: a hash accepted for one difficulty and not for the next *)
Example harder : positive_target 75164738 < positive_target 75164739.
Proof. vm_compute. reflexivity. Qed.
Example target_example : positive_target 1 = 2 ^ 255 /\ positive_target 3 = 3 * 2 ^ 254.
Proof. split; vm_compute; reflexivity. Qed.
(** A hash that meets the difficulty 3 but not 7 *)
Definition toy (l : list Z) : list Z := match l with n :: _ => Z.modulo n 256 :: repeat 0 31 | [] => repeat 0 32 end.
Lemma toy_ok l : length (toy l) = 32%nat /\ bytes_ok (toy l).
Proof.
  assert (R : forall n, bytes_ok (repeat 0 n)) by (induction n; constructor; [unfold is_byte; lia|assumption]).
  destruct l as [|n l]; split; try reflexivity; [apply (R 32%nat)|]. constructor; [unfold is_byte; pose proof (Z.mod_pos_bound n 256); lia|apply (R 31%nat)].
Qed.
Example search_example : get_nonce toy false 3 [[10; 0; 0; 0; 0; 0; 0; 0]; [200; 0; 0; 0; 0; 0; 0; 0]] [1] = Some [200; 0; 0; 0; 0; 0; 0; 0]
  /\ check toy false 7 [200; 0; 0; 0; 0; 0; 0; 0] [1] = false
  /\ map_nonce toy false 3 (2 ^ 56 * 190) (2 ^ 56 * 190 + 3) [1] = None /\ map_nonce toy false 3 (2 ^ 56 * 192 - 2) (2 ^ 56 * 192 + 2) [1] = Some (2 ^ 56 * 192)
  /\ verify_nonce toy false [200; 0; 0; 0; 0; 0; 0; 0] (Some 3) [5] [6] = true.
Proof. vm_compute. repeat split. Qed.

Print Assumptions target_monotone.
Print Assumptions nonce_accepted.
Print Assumptions difficulty_limits.
Print Assumptions found_accepted.
Print Assumptions found_if_tried.
Print Assumptions range_searched.
Print Assumptions lower_difficulty.
Print Assumptions nonce_rule.
Print Assumptions work_needed.
Print Assumptions work_needed_partial.
Print Assumptions higher_is_harder_partial.
Print Assumptions higher_is_harder_refuted.
