(** Proofs for DexProps: monotonicity and accuracy of amounts, order types, priority. *)
From Coq Require Import ZArith List Bool Lia Sorted.
From Verif Require Import Lib DexFloat DexFloatProofs DexModel DexSpec DexProofs DexProofs2 DexProofs3 DexProofs4.
Import ListNotations.
Open Scope Z_scope.

(** * Monotonicity *)

Lemma fint_pos n : 0 < n -> 0 < fnum (fint n).
Proof.
  intro N. destruct (frnd_close fprec n 1 ltac:(reflexivity) ltac:(lia) ltac:(lia)) as [C _].
  pose proof (fden_pos (fint n)) as D. fold (fint n) in C. set (a := fnum (fint n)) in *. set (b := fden (fint n)) in *.
  assert (0 < n * b) by nia. change (2 ^ fprec) with 1329227995784915872903807060280344576 in C. lia.
Qed.
Lemma fint_nn n : 0 <= fnum (fint n).
Proof. apply fnum_nonneg. lia. Qed.

Lemma fmul_mono a a' b b' : 0 <= fnum a -> 0 <= fnum b -> 0 <= fnum a' -> 0 <= fnum b' -> fle a a' -> fle b b' -> fle (fmul a b) (fmul a' b').
Proof.
  intros A B A' B' H K. unfold fle in H, K. pose proof (fden_pos a). pose proof (fden_pos b). pose proof (fden_pos a'). pose proof (fden_pos b').
  apply frnd_mono; [reflexivity|nia|nia|nia|].
  replace (fnum a * fnum b * (fden a' * fden b')) with ((fnum a * fden a') * (fnum b * fden b')) by ring.
  replace (fnum a' * fnum b' * (fden a * fden b)) with ((fnum a' * fden a) * (fnum b' * fden b)) by ring.
  apply Z.mul_le_mono_nonneg; nia.
Qed.
Lemma fquo_mono a a' c : 0 <= fnum a -> 0 < fnum c -> fle a a' -> fle (fquo a c) (fquo a' c).
Proof.
  intros A C H. unfold fle in H. pose proof (fden_pos a). pose proof (fden_pos c). pose proof (fden_pos a').
  apply frnd_mono; [reflexivity|nia|nia|nia|].
  replace (fnum a * fden c * (fden a' * fnum c)) with ((fnum a * fden a') * (fden c * fnum c)) by ring.
  replace (fnum a' * fden c * (fden a * fnum c)) with ((fnum a' * fden a) * (fden c * fnum c)) by ring.
  apply Z.mul_le_mono_nonneg_r; [nia|exact H].
Qed.
Lemma fhalf_mono a a' : 0 <= fnum a -> fle a a' -> fle (fhalf a) (fhalf a').
Proof.
  intros A H. unfold fle in H. pose proof (fden_pos a). pose proof (fden_pos a').
  apply frnd_mono; [reflexivity|lia|lia|lia|]. nia.
Qed.
Lemma ftrunc_mono a a' : fle a a' -> ftrunc a <= ftrunc a'.
Proof.
  intro H. unfold fle in H. unfold ftrunc. pose proof (fden_pos a). pose proof (fden_pos a') as D'.
  apply Z.div_le_lower_bound; [exact D'|]. pose proof (Z.mul_div_le (fnum a) (fden a) ltac:(lia)) as K.
  set (k := fnum a / fden a) in *. apply (Z.mul_le_mono_pos_r _ _ (fden a)); [lia|].
  replace (fden a' * k * fden a) with (fden a' * (fden a * k)) by ring. nia.
Qed.
Lemma fle_refl a : fle a a.
Proof. unfold fle. lia. Qed.

Lemma fadjust_mono d a a' : 0 <= fnum a -> 0 <= fnum a' -> fle a a' -> fle (fadjust a d) (fadjust a' d) /\ 0 <= fnum (fadjust a d).
Proof.
  intros A A' H. unfold fadjust. destruct (d =? 0); [auto|]. destruct (Z.ltb_spec 0 d) as [L|L].
  - assert (0 < fnum (fint (10 ^ d))) by (apply fint_pos, Z.pow_pos_nonneg; lia).
    split; [apply fquo_mono; assumption|apply fquo_num; lia].
  - split; [apply fmul_mono; auto using fint_nn, fle_refl|]. apply fnum_nonneg, Z.mul_pos_pos; apply fden_pos.
Qed.

Theorem raw_amount_mono q q' p p' d : 0 <= q <= q' -> 0 <= price_units p <= price_units p' ->
  raw_amount q p d <= raw_amount q' p' d.
Proof.
  intros Q P. unfold raw_amount, fround. apply ftrunc_mono. unfold raw_amount_f.
  assert (N : forall q p, 0 <= fnum (fmul (fprice p) (fint q))).
  { intros. apply fnum_nonneg, Z.mul_pos_pos; apply fden_pos. }
  assert (H : fle (fmul (fprice p) (fint q)) (fmul (fprice p') (fint q'))).
  { apply fmul_mono; auto using fint_nn; try (apply fnum_nonneg; reflexivity).
    - apply frnd_mono; [reflexivity|reflexivity|reflexivity|lia|]. apply Z.mul_le_mono_nonneg_r; [discriminate|lia].
    - apply frnd_mono; lia || reflexivity. }
  destruct (fadjust_mono d _ _ (N q p) (N q' p') H) as [A B]. apply fhalf_mono; assumption.
Qed.

Lemma price_units_mono p p' : 0 <= p <= p' -> price_dec p < 10 ^ 12 -> 0 <= price_units p <= price_units p'.
Proof.
  unfold price_units, price_int, price_dec. intros H D.
  pose proof (Z.div_mod p (2 ^ 40) ltac:(lia)) as E. pose proof (Z.div_mod p' (2 ^ 40) ltac:(lia)) as E'.
  pose proof (Z.mod_pos_bound p (2 ^ 40) ltac:(lia)). pose proof (Z.mod_pos_bound p' (2 ^ 40) ltac:(lia)).
  assert (0 <= p / 2 ^ 40) by (apply Z.div_pos; lia).
  set (a := p / 2 ^ 40) in *. set (b := p mod 2 ^ 40) in *. set (a' := p' / 2 ^ 40) in *. set (b' := p' mod 2 ^ 40) in *.
  lia.
Qed.

(** * Accuracy *)

Notation K := (2 ^ 120).
Lemma ubK n d u v : 0 < d -> 0 <= n -> 0 < v -> n * v <= u * d ->
  fnum (frnd fprec n d) * (K * v) <= (K + 1) * u * fden (frnd fprec n d).
Proof.
  intros D N V L. destruct (frnd_close fprec n d ltac:(reflexivity) D N) as [_ C].
  change (2 ^ fprec) with K in C.
  pose proof (fden_pos (frnd fprec n d)) as B. set (a := fnum _) in *. set (b := fden _) in *.
  apply (Z.mul_le_mono_pos_r _ _ d D).
  apply Z.le_trans with ((K + 1) * (n * b) * v).
  - replace (a * (K * v) * d) with (K * (a * d) * v) by ring. apply Z.mul_le_mono_nonneg_r; [lia|exact C].
  - replace ((K + 1) * (n * b) * v) with ((K + 1) * b * (n * v)) by ring.
    replace ((K + 1) * u * b * d) with ((K + 1) * b * (u * d)) by ring.
    apply Z.mul_le_mono_nonneg_l; [lia|exact L].
Qed.
Lemma lbK n d u v : 0 < d -> 0 <= n -> 0 < v -> u * d <= n * v ->
  (K - 1) * u * fden (frnd fprec n d) <= fnum (frnd fprec n d) * (K * v).
Proof.
  intros D N V L. destruct (frnd_close fprec n d ltac:(reflexivity) D N) as [C _].
  change (2 ^ fprec) with K in C.
  pose proof (fden_pos (frnd fprec n d)) as B. set (a := fnum _) in *. set (b := fden _) in *.
  apply (Z.mul_le_mono_pos_r _ _ d D).
  apply Z.le_trans with ((K - 1) * (n * b) * v).
  - replace ((K - 1) * (n * b) * v) with ((K - 1) * b * (n * v)) by ring.
    replace ((K - 1) * u * b * d) with ((K - 1) * b * (u * d)) by ring.
    apply Z.mul_le_mono_nonneg_l; [lia|exact L].
  - replace (a * (K * v) * d) with (K * (a * d) * v) by ring. apply Z.mul_le_mono_nonneg_r; [lia|exact C].
Qed.

(** [f] is close to x / y: after [i] roundings up, [j] roundings down. *)
Definition near_to (f : Z * Z) (x y u1 v1 u2 v2 : Z) : Prop :=
  0 <= fnum f /\ 0 < v1 /\ 0 < v2 /\ 0 <= u1 /\ 0 <= u2 /\
  fnum f * (v1 * y) <= (u1 * x) * fden f /\ (u2 * x) * fden f <= fnum f * (v2 * y).

Lemma near_frnd n d : 0 < d -> 0 <= n -> near_to (frnd fprec n d) n d (K + 1) K (K - 1) K.
Proof.
  intros D N. unfold near_to. split; [apply fnum_nonneg, D|]. do 4 (split; [lia|]).
  destruct (frnd_close fprec n d ltac:(reflexivity) D N) as [C1 C2]. change (2 ^ fprec) with K in *. lia.
Qed.
Lemma near_mul a b x y x' y' u1 v1 u2 v2 s1 t1 s2 t2 : 0 <= x -> 0 <= x' -> 0 < y -> 0 < y' ->
  near_to a x y u1 v1 u2 v2 -> near_to b x' y' s1 t1 s2 t2 ->
  near_to (fmul a b) (x * x') (y * y') ((K + 1) * (u1 * s1)) (K * (v1 * t1)) ((K - 1) * (u2 * s2)) (K * (v2 * t2)).
Proof.
  intros X X' Y Y' (A1 & A2 & A3 & A4 & A5 & A6 & A7) (B1 & B2 & B3 & B4 & B5 & B6 & B7).
  pose proof (fden_pos a) as Da. pose proof (fden_pos b) as Db.
  unfold near_to, fmul. split; [apply fnum_nonneg; nia|]. do 4 (split; [nia|]). split.
  - replace (K * (v1 * t1) * (y * y')) with (K * ((v1 * y) * (t1 * y'))) by ring.
    replace ((K + 1) * (u1 * s1) * (x * x')) with ((K + 1) * ((u1 * x) * (s1 * x'))) by ring.
    apply ubK; [nia|nia|nia|].
    replace (fnum a * fnum b * (v1 * y * (t1 * y'))) with ((fnum a * (v1 * y)) * (fnum b * (t1 * y'))) by ring.
    replace (u1 * x * (s1 * x') * (fden a * fden b)) with ((u1 * x * fden a) * (s1 * x' * fden b)) by ring.
    apply Z.mul_le_mono_nonneg; [apply Z.mul_nonneg_nonneg; nia|assumption|apply Z.mul_nonneg_nonneg; nia|assumption].
  - replace (K * (v2 * t2) * (y * y')) with (K * ((v2 * y) * (t2 * y'))) by ring.
    replace ((K - 1) * (u2 * s2) * (x * x')) with ((K - 1) * ((u2 * x) * (s2 * x'))) by ring.
    apply lbK; [nia|nia|nia|].
    replace (fnum a * fnum b * (v2 * y * (t2 * y'))) with ((fnum a * (v2 * y)) * (fnum b * (t2 * y'))) by ring.
    replace (u2 * x * (s2 * x') * (fden a * fden b)) with ((u2 * x * fden a) * (s2 * x' * fden b)) by ring.
    apply Z.mul_le_mono_nonneg; [apply Z.mul_nonneg_nonneg; nia|assumption|apply Z.mul_nonneg_nonneg; nia|assumption].
Qed.
Lemma near_quo a c x y z w u1 v1 u2 v2 s1 t1 s2 t2 : 0 <= x -> 0 < y -> 0 < z -> 0 < w -> 0 < fnum c -> 0 < s2 -> 0 < u2 ->
  near_to a x y u1 v1 u2 v2 -> near_to c z w s1 t1 s2 t2 -> 0 < s1 ->
  near_to (fquo a c) (x * w) (y * z) ((K + 1) * (u1 * t2)) (K * (v1 * s2)) ((K - 1) * (u2 * t1)) (K * (v2 * s1)).
Proof.
  intros X Y Z0 W C S U (A1 & A2 & A3 & A4 & A5 & A6 & A7) (B1 & B2 & B3 & B4 & B5 & B6 & B7) S1.
  pose proof (fden_pos a) as Da. pose proof (fden_pos c) as Dc.
  unfold near_to, fquo. split; [apply fnum_nonneg; nia|]. do 4 (split; [nia|]). split.
  - replace (K * (v1 * s2) * (y * z)) with (K * ((v1 * y) * (s2 * z))) by ring.
    replace ((K + 1) * (u1 * t2) * (x * w)) with ((K + 1) * ((u1 * x) * (t2 * w))) by ring.
    apply ubK; [nia|nia|nia|].
    replace (fnum a * fden c * (v1 * y * (s2 * z))) with ((fnum a * (v1 * y)) * (s2 * z * fden c)) by ring.
    replace (u1 * x * (t2 * w) * (fden a * fnum c)) with ((u1 * x * fden a) * (fnum c * (t2 * w))) by ring.
    apply Z.mul_le_mono_nonneg; [apply Z.mul_nonneg_nonneg; nia|assumption|apply Z.mul_nonneg_nonneg; nia|assumption].
  - replace (K * (v2 * s1) * (y * z)) with (K * ((v2 * y) * (s1 * z))) by ring.
    replace ((K - 1) * (u2 * t1) * (x * w)) with ((K - 1) * ((u2 * x) * (t1 * w))) by ring.
    apply lbK; [nia|nia|nia|].
    replace (fnum a * fden c * (v2 * y * (s1 * z))) with ((fnum a * (v2 * y)) * (s1 * z * fden c)) by ring.
    replace (u2 * x * (t1 * w) * (fden a * fnum c)) with ((u2 * x * fden a) * (fnum c * (t1 * w))) by ring.
    apply Z.mul_le_mono_nonneg; [apply Z.mul_nonneg_nonneg; nia|assumption|apply Z.mul_nonneg_nonneg; nia|assumption].
Qed.
Lemma near_round f x y u1 v1 u2 v2 : 0 <= x -> 0 < y -> near_to f x y u1 v1 u2 v2 ->
  fround f * y * (2 * K * v1) <= (K + 1) * (2 * u1 * x + v1 * y)
  /\ (K - 1) * (2 * u2 * x + v2 * y) < (fround f + 1) * y * (2 * K * v2).
Proof.
  intros X Y (A1 & A2 & A3 & A4 & A5 & A6 & A7). pose proof (fden_pos f) as D. unfold fround, ftrunc.
  pose proof (ubK (2 * fnum f + fden f) (2 * fden f) (2 * u1 * x + v1 * y) (2 * (v1 * y)) ltac:(lia) ltac:(lia) ltac:(nia)) as U.
  pose proof (lbK (2 * fnum f + fden f) (2 * fden f) (2 * u2 * x + v2 * y) (2 * (v2 * y)) ltac:(lia) ltac:(lia) ltac:(nia)) as L.
  fold (fhalf f) in U, L. specialize (U ltac:(nia)). specialize (L ltac:(nia)).
  pose proof (fden_pos (fhalf f)) as Dh. set (n := fnum (fhalf f)) in *. set (d := fden (fhalf f)) in *.
  pose proof (Z.mul_div_le n d Dh) as Q1. pose proof (Z.mul_succ_div_gt n d Dh) as Q2. unfold Z.succ in Q2.
  set (k := n / d) in *. split.
  - apply (Z.mul_le_mono_pos_r _ _ d Dh).
    apply Z.le_trans with (n * (K * (2 * (v1 * y)))); [|exact U].
    replace (k * y * (2 * K * v1) * d) with (d * k * (K * (2 * (v1 * y)))) by ring.
    apply Z.mul_le_mono_nonneg_r; [nia|exact Q1].
  - apply (Z.mul_lt_mono_pos_r d _ _ Dh).
    apply Z.le_lt_trans with (n * (K * (2 * (v2 * y)))); [exact L|].
    replace ((k + 1) * y * (2 * K * v2) * d) with (d * (k + 1) * (K * (2 * (v2 * y)))) by ring.
    apply Z.mul_lt_mono_pos_r; [nia|exact Q2].
Qed.

Theorem raw_amount_close q p d : 0 <= q -> 0 <= p ->
  let x := price_units p * q * 10 ^ Z.max (- d) 0 in
  let y := 10 ^ 12 * 10 ^ Z.max d 0 in
  x <= 2 ^ 100 * y -> x - y <= raw_amount q p d * y <= x + y.
Proof.
  intros Q P x y B. unfold raw_amount, raw_amount_f.
  assert (PU : 0 <= price_units p).
  { unfold price_units, price_int, price_dec. pose proof (Z.div_pos p (2 ^ 40) P ltac:(lia)).
    pose proof (Z.mod_pos_bound p (2 ^ 40) ltac:(lia)). nia. }
  pose proof (near_frnd (price_units p) (10 ^ 12) ltac:(lia) PU) as N1. fold (fprice p) in N1.
  pose proof (near_frnd q 1 ltac:(lia) Q) as N2. fold (fint q) in N2.
  pose proof (near_mul (fprice p) (fint q) (price_units p) (10 ^ 12) q 1 _ _ _ _ _ _ _ _ PU Q ltac:(lia) ltac:(lia) N1 N2) as N3.
  set (f := fmul (fprice p) (fint q)) in *. unfold fadjust.
  assert (FIN : forall g u1 v1 u2 v2, near_to g x y u1 v1 u2 v2 -> 0 <= x -> 0 < y ->
     (forall kk, kk * (2 * K * v1) <= (K + 1) * (2 * u1 * x + v1 * y) -> kk <= x + y) ->
     (forall kk, (K - 1) * (2 * u2 * x + v2 * y) < kk * (2 * K * v2) -> x < kk) ->
     x - y <= fround g * y <= x + y).
  { intros g u1 v1 u2 v2 N X Y F1 F2. destruct (near_round g x y u1 v1 u2 v2 X Y N) as [R1 R2].
    specialize (F1 (fround g * y) R1). specialize (F2 ((fround g + 1) * y) R2). lia. }
  destruct (Z.eqb_spec d 0) as [E|E]; [|destruct (Z.ltb_spec 0 d) as [L|L]].
  - assert (HX : x = price_units p * q) by (unfold x; subst d; change (10 ^ Z.max (- 0) 0) with 1; ring).
    assert (HY : y = 10 ^ 12 * 1) by (unfold y; subst d; reflexivity).
    rewrite <- HX, <- HY in N3. eapply FIN; [exact N3|nia|lia| |]; assert (0 <= x) by nia; assert (0 < y) by lia; clear N1 N2 N3 FIN HX HY; clearbody x y;
      intros kk KK; lia.
  - assert (T : 0 < 10 ^ d) by (apply Z.pow_pos_nonneg; lia).
    pose proof (near_frnd (10 ^ d) 1 ltac:(lia) ltac:(lia)) as N4. fold (fint (10 ^ d)) in N4.
    pose proof (near_quo f (fint (10 ^ d)) (price_units p * q) (10 ^ 12 * 1) (10 ^ d) 1 ((K + 1) * ((K + 1) * (K + 1))) (K * (K * K)) ((K - 1) * ((K - 1) * (K - 1))) (K * (K * K)) (K + 1) K (K - 1) K ltac:(nia) ltac:(lia) T ltac:(lia) (fint_pos _ T) ltac:(lia) ltac:(lia) N3 N4 ltac:(lia)) as N5.
    assert (HX : x = price_units p * q * 1) by (unfold x; rewrite Z.max_r by lia; reflexivity).
    assert (HY : y = 10 ^ 12 * 1 * 10 ^ d) by (unfold y; rewrite Z.max_l by lia; ring).
    rewrite <- HX, <- HY in N5. eapply FIN; [exact N5|nia|nia| |]; assert (0 <= x) by nia; assert (0 < y) by nia;
      clear N1 N2 N3 N4 N5 FIN HX HY; clearbody x y; intros kk KK; lia.
  - assert (T : 0 < 10 ^ (- d)) by (apply Z.pow_pos_nonneg; lia).
    pose proof (near_frnd (10 ^ (- d)) 1 ltac:(lia) ltac:(lia)) as N4. fold (fint (10 ^ (- d))) in N4.
    pose proof (near_mul f (fint (10 ^ (- d))) (price_units p * q) (10 ^ 12 * 1) (10 ^ (- d)) 1 ((K + 1) * ((K + 1) * (K + 1))) (K * (K * K)) ((K - 1) * ((K - 1) * (K - 1))) (K * (K * K)) (K + 1) K (K - 1) K ltac:(nia) ltac:(lia) ltac:(lia) ltac:(lia) N3 N4) as N5.
    assert (HX : x = price_units p * q * 10 ^ (- d)) by (unfold x; rewrite Z.max_l by lia; reflexivity).
    assert (HY : y = 10 ^ 12 * 1 * 1) by (unfold y; rewrite Z.max_r by lia; reflexivity).
    rewrite <- HX, <- HY in N5. eapply FIN; [exact N5|nia|nia| |]; assert (0 <= x) by nia; assert (0 < y) by nia;
      clear N1 N2 N3 N4 N5 FIN HX HY; clearbody x y; intros kk KK; lia.
Qed.
