(** Facts about the rounded arithmetic of DexFloat: rounding is monotone and close. *)
From Coq Require Import ZArith List Bool Lia.
From Verif Require Import Lib DexFloat.
Import ListNotations.
Open Scope Z_scope.

Lemma near_bound n d : 0 < d -> 0 <= n -> 2 * n - d <= 2 * (near n d * d) <= 2 * n + d.
Proof.
  intros D N. unfold near. pose proof (Z.div_mod n d ltac:(lia)) as E.
  pose proof (Z.mod_pos_bound n d D) as B.
  destruct (2 * (n mod d) <? d) eqn:A; [|destruct (d <? 2 * (n mod d)) eqn:C].
  - apply Z.ltb_lt in A. nia.
  - apply Z.ltb_lt in C. nia.
  - apply Z.ltb_ge in A, C. destruct (Z.even (n / d)); nia.
Qed.

Lemma near_nonneg n d : 0 < d -> 0 <= n -> 0 <= near n d.
Proof.
  intros D N. unfold near. pose proof (Z.div_pos n d N D).
  destruct (_ <? _); [lia|]. destruct (_ <? _); [lia|]. destruct (Z.even _); lia.
Qed.

Lemma near_tie n d k : 0 < d -> 2 * n = (2 * k + 1) * d -> near n d = if Z.even k then k else k + 1.
Proof.
  intros D E. assert (Q : n / d = k).
  { symmetry. apply (Z.div_unique_pos n d k (n - d * k)); nia. }
  assert (R : n mod d = n - d * k). { rewrite Z.mod_eq, Q; lia. }
  unfold near. rewrite Q, R.
  replace (2 * (n - d * k)) with d by nia. now rewrite Z.ltb_irrefl.
Qed.

Lemma near_mono n1 d1 n2 d2 : 0 < d1 -> 0 < d2 -> 0 <= n1 -> 0 <= n2 ->
  n1 * d2 <= n2 * d1 -> near n1 d1 <= near n2 d2.
Proof.
  intros D1 D2 N1 N2 L. destruct (Z.le_gt_cases (near n1 d1) (near n2 d2)) as [|G]; [assumption|exfalso].
  pose proof (near_bound n1 d1 D1 N1) as B1. pose proof (near_bound n2 d2 D2 N2) as B2.
  set (a := near n1 d1) in *. set (b := near n2 d2) in *.
  assert (X1 : (2 * a - 1) * (d1 * d2) <= 2 * (n1 * d2)) by nia.
  assert (X2 : 2 * (n2 * d1) <= (2 * b + 1) * (d1 * d2)) by nia.
  assert (P : 0 < d1 * d2) by nia.
  assert (AB : a = b + 1) by nia.
  assert (T1 : 2 * n1 = (2 * b + 1) * d1) by nia.
  assert (T2 : 2 * n2 = (2 * b + 1) * d2) by nia.
  pose proof (near_tie n1 d1 b D1 T1) as R1. pose proof (near_tie n2 d2 b D2 T2) as R2.
  fold a in R1. fold b in R2. destruct (Z.even b); lia.
Qed.

Lemma near_int k d : 0 < d -> near (k * d) d = k.
Proof.
  intro D. unfold near. rewrite Z.div_mul, Z.mod_mul by lia. change (2 * 0) with 0.
  now destruct (Z.ltb_spec 0 d); [|lia].
Qed.
Lemma near_ge n d k : 0 < d -> k * d <= n -> k <= near n d.
Proof.
  intros D L. unfold near.
  assert (k <= n / d) by (apply Z.div_le_lower_bound; lia).
  destruct (_ <? _); [lia|]. destruct (_ <? _); [lia|]. destruct (Z.even _); lia.
Qed.
Lemma near_le n d k : 0 < d -> n <= k * d -> near n d <= k.
Proof.
  intros D L. unfold near. pose proof (Z.div_mod n d ltac:(lia)) as E. pose proof (Z.mod_pos_bound n d D) as B.
  assert (X : n / d < k \/ n / d = k /\ n mod d = 0).
  { destruct (Z.le_gt_cases k (n / d)) as [G|G]; [right|left; exact G].
    assert (n / d <= k) by (apply Z.div_le_upper_bound; lia). split; [lia|nia]. }
  destruct X as [X|[X R]].
  - destruct (_ <? _); [lia|]. destruct (_ <? _); [lia|]. destruct (Z.even _); lia.
  - rewrite R. change (2 * 0) with 0. destruct (Z.ltb_spec 0 d); lia.
Qed.

(** Scaling by a common power of two. *)
Lemma scale_nd n d e K : 0 <= K -> 0 <= e + K ->
  n * 2 ^ Z.max (- e) 0 * (d * 2 ^ (e + K)) = n * 2 ^ K * (d * 2 ^ Z.max e 0).
Proof.
  intros HK HE. destruct (Z.le_gt_cases 0 e) as [P|P].
  - rewrite (Z.max_r (- e)), (Z.max_l e) by lia. rewrite Z.pow_add_r by lia. change (2 ^ 0) with 1. ring.
  - rewrite (Z.max_l (- e)), (Z.max_r e) by lia.
    assert (X : 2 ^ K = 2 ^ (- e) * 2 ^ (e + K)) by (rewrite <- Z.pow_add_r by lia; f_equal; lia).
    rewrite X. change (2 ^ 0) with 1. ring.
Qed.
Lemma scale_f f K : 0 <= K -> 0 <= snd f + K -> fnum f * 2 ^ K = fst f * 2 ^ (snd f + K) * fden f.
Proof.
  intros HK HE. unfold fnum, fden. destruct f as [m e]; cbn [fst snd] in *.
  destruct (Z.le_gt_cases 0 e) as [P|P].
  - rewrite (Z.max_r (- e)), (Z.max_l e) by lia. rewrite Z.pow_add_r by lia. change (2 ^ 0) with 1. ring.
  - rewrite (Z.max_l (- e)), (Z.max_r e) by lia.
    assert (X : 2 ^ K = 2 ^ (- e) * 2 ^ (e + K)) by (rewrite <- Z.pow_add_r by lia; f_equal; lia).
    rewrite X. change (2 ^ 0) with 1. ring.
Qed.

Lemma pow2_pos k : 0 <= k -> 0 < 2 ^ k.
Proof. intro. apply Z.pow_pos_nonneg; lia. Qed.

Lemma fden_pos f : 0 < fden f.
Proof. unfold fden. apply pow2_pos. lia. Qed.

(** The chosen exponent puts the fraction in [2^(p-1), 2^p). *)
Lemma fexp_raw p n d K : 0 < n -> 0 < d -> 0 < p -> 0 <= K -> 0 <= fexp p n d + K ->
  2 ^ (p - 1) * (d * 2 ^ (fexp p n d + K)) <= n * 2 ^ K
  /\ n * 2 ^ K < 2 ^ p * (d * 2 ^ (fexp p n d + K)).
Proof.
  intros N D P HK. unfold fexp.
  set (e := Z.log2 n - Z.log2 d - p).
  pose proof (Z.log2_spec n N) as [Ln Un]. pose proof (Z.log2_spec d D) as [Ld Ud].
  pose proof (Z.log2_nonneg n) as Gn. pose proof (Z.log2_nonneg d) as Gd.
  set (a := Z.log2 n) in *. set (b := Z.log2 d) in *.
  assert (W : forall X, 0 <= X -> 0 <= e + X ->
              2 ^ (p - 1) * (d * 2 ^ (e + X)) <= n * 2 ^ X
              /\ n * 2 ^ X < 2 ^ (p + 1) * (d * 2 ^ (e + X))).
  { intros X HX HE.
    assert (A1 : 2 ^ a * 2 ^ X = 2 ^ p * (2 ^ b * 2 ^ (e + X))).
    { rewrite <- !Z.pow_add_r by (unfold e in *; lia). f_equal. unfold e. lia. }
    assert (A2 : 2 ^ Z.succ a * 2 ^ X = 2 ^ (p + 1) * (2 ^ b * 2 ^ (e + X))).
    { rewrite <- !Z.pow_add_r by (unfold e in *; lia). f_equal. unfold e. lia. }
    assert (S1 : 2 ^ Z.succ b = 2 * 2 ^ b) by (rewrite Z.pow_succ_r; lia).
    assert (S2 : 2 ^ p = 2 * 2 ^ (p - 1)).
    { replace p with (1 + (p - 1)) at 1 by lia. rewrite Z.pow_add_r by lia. reflexivity. }
    pose proof (pow2_pos X HX) as PX. pose proof (pow2_pos (e + X) HE) as PE.
    pose proof (pow2_pos (p - 1) ltac:(lia)) as PP. pose proof (pow2_pos (p + 1) ltac:(lia)) as PP1.
    split.
    - assert (B : d * 2 ^ (e + X) <= 2 * (2 ^ b * 2 ^ (e + X))) by nia.
      assert (C : 2 ^ (p - 1) * (d * 2 ^ (e + X)) <= 2 ^ (p - 1) * (2 * (2 ^ b * 2 ^ (e + X)))) by nia.
      assert (F : 2 ^ a * 2 ^ X <= n * 2 ^ X) by nia. nia.
    - assert (F : n * 2 ^ X < 2 ^ Z.succ a * 2 ^ X) by nia.
      assert (B : 2 ^ b * 2 ^ (e + X) <= d * 2 ^ (e + X)) by nia. nia. }
  assert (SN : forall X, 0 <= X -> 0 <= e + X ->
    (n * 2 ^ Z.max (- e) 0 <? 2 ^ p * (d * 2 ^ Z.max e 0)) = (n * 2 ^ X <? 2 ^ p * (d * 2 ^ (e + X)))).
  { intros X HX HE. pose proof (scale_nd n d e X HX HE) as S.
    pose proof (pow2_pos (Z.max e 0) ltac:(lia)) as P1. pose proof (pow2_pos (e + X) HE) as P2.
    set (u := n * 2 ^ Z.max (- e) 0) in *. set (v := d * 2 ^ (e + X)) in *.
    set (w := n * 2 ^ X) in *. set (y := d * 2 ^ Z.max e 0) in *.
    assert (0 < v) by (unfold v; nia). assert (0 < y) by (unfold y; nia).
    pose proof (pow2_pos p ltac:(lia)).
    assert (I : u < 2 ^ p * y <-> w < 2 ^ p * v).
    { split; intro L.
      - apply (Z.mul_lt_mono_pos_r y); [lia|]. rewrite <- S. nia.
      - apply (Z.mul_lt_mono_pos_r v); [lia|]. rewrite S. nia. }
    destruct (Z.ltb_spec u (2 ^ p * y)), (Z.ltb_spec w (2 ^ p * v)); tauto || lia. }
  destruct (n * 2 ^ Z.max (- e) 0 <? 2 ^ p * (d * 2 ^ Z.max e 0)) eqn:T; intro HE.
  - pose proof (SN K HK HE) as T1. symmetry in T1. apply Z.ltb_lt in T1. destruct (W K HK HE). tauto.
  - set (X := K + 1). assert (HX : 0 <= e + X) by (unfold X; lia).
    pose proof (SN X ltac:(unfold X; lia) HX) as T1. symmetry in T1. apply Z.ltb_ge in T1.
    destruct (W X ltac:(unfold X; lia) HX) as [_ U].
    assert (Q1 : 2 ^ X = 2 * 2 ^ K) by (unfold X; rewrite Z.pow_add_r by lia; change (2 ^ 1) with 2; ring).
    assert (Q2 : e + 1 + K = e + X) by (unfold X; lia). rewrite Q2.
    assert (S2 : 2 ^ p = 2 * 2 ^ (p - 1)).
    { replace p with (1 + (p - 1)) at 1 by lia. rewrite Z.pow_add_r by lia. reflexivity. }
    assert (S3 : 2 ^ (p + 1) = 2 * 2 ^ p) by (rewrite Z.pow_add_r by lia; change (2 ^ 1) with 2; ring).
    rewrite Q1 in T1, U. replace (n * (2 * 2 ^ K)) with (2 * (n * 2 ^ K)) in T1, U by ring.
    rewrite S3 in U. rewrite S2 in T1.
    replace (2 * 2 ^ (p - 1) * (d * 2 ^ (e + X))) with (2 * (2 ^ (p - 1) * (d * 2 ^ (e + X)))) in T1 by ring.
    replace (2 * 2 ^ p * (d * 2 ^ (e + X))) with (2 * (2 ^ p * (d * 2 ^ (e + X)))) in U by ring.
    split; lia.
Qed.

Lemma fexp_ok p n d : 0 < n -> 0 < d -> 0 < p ->
  let e := fexp p n d in
  2 ^ (p - 1) * (d * 2 ^ Z.max e 0) <= n * 2 ^ Z.max (- e) 0
  /\ n * 2 ^ Z.max (- e) 0 < 2 ^ p * (d * 2 ^ Z.max e 0).
Proof.
  intros N D P e.
  pose proof (fexp_raw p n d (Z.max (- e) 0) N D P ltac:(lia) ltac:(unfold e; lia)) as R.
  replace (fexp p n d + Z.max (- e) 0) with (Z.max e 0) in R by (unfold e; lia). exact R.
Qed.

Lemma frnd_nonneg p n d : 0 < d -> 0 <= fst (frnd p n d).
Proof.
  intro D. unfold frnd. destruct (Z.leb_spec n 0); [cbn [fst]; lia|]. cbn [fst].
  apply near_nonneg; [pose proof (pow2_pos (Z.max (fexp p n d) 0)); nia|].
  pose proof (pow2_pos (Z.max (- fexp p n d) 0)); nia.
Qed.
Lemma fnum_nonneg p n d : 0 < d -> 0 <= fnum (frnd p n d).
Proof.
  intro D. unfold fnum. pose proof (frnd_nonneg p n d D).
  pose proof (pow2_pos (Z.max (snd (frnd p n d)) 0)). nia.
Qed.

(** Order of values. *)
Definition fle (a b : Z * Z) : Prop := fnum a * fden b <= fnum b * fden a.

Lemma frnd_mono p n1 d1 n2 d2 : 0 < p -> 0 < d1 -> 0 < d2 -> 0 <= n1 -> n1 * d2 <= n2 * d1 ->
  fle (frnd p n1 d1) (frnd p n2 d2).
Proof.
  intros P D1 D2 N1 L. unfold fle.
  destruct (Z.le_gt_cases n1 0) as [Z1|G1].
  { assert (E : frnd p n1 d1 = (0, 0)) by (unfold frnd; destruct (Z.leb_spec n1 0); [reflexivity|lia]).
    rewrite E. change (fnum (0, 0)) with 0. change (fden (0, 0)) with 1.
    pose proof (fnum_nonneg p n2 d2 D2). lia. }
  assert (G2 : 0 < n2) by nia.
  assert (F1 : frnd p n1 d1 = (near (n1 * 2 ^ Z.max (- fexp p n1 d1) 0) (d1 * 2 ^ Z.max (fexp p n1 d1) 0), fexp p n1 d1))
    by (unfold frnd; destruct (Z.leb_spec n1 0); [lia|reflexivity]).
  assert (F2 : frnd p n2 d2 = (near (n2 * 2 ^ Z.max (- fexp p n2 d2) 0) (d2 * 2 ^ Z.max (fexp p n2 d2) 0), fexp p n2 d2))
    by (unfold frnd; destruct (Z.leb_spec n2 0); [lia|reflexivity]).
  set (f1 := frnd p n1 d1) in *. set (f2 := frnd p n2 d2) in *.
  set (e1 := fexp p n1 d1) in *. set (e2 := fexp p n2 d2) in *.
  set (K := Z.abs e1 + Z.abs e2). assert (HK : 0 <= K) by (unfold K; lia).
  assert (K1 : 0 <= e1 + K) by (unfold K; lia). assert (K2 : 0 <= e2 + K) by (unfold K; lia).
  pose proof (fexp_raw p n1 d1 K G1 D1 P HK K1) as [R1a R1b].
  pose proof (fexp_raw p n2 d2 K G2 D2 P HK K2) as [R2a R2b].
  fold e1 in R1a, R1b. fold e2 in R2a, R2b.
  pose proof (scale_f f1 K HK) as S1. pose proof (scale_f f2 K HK) as S2.
  rewrite F1 in S1 at 1. rewrite F2 in S2 at 1. cbn [snd] in S1, S2. specialize (S1 K1). specialize (S2 K2).
  replace (snd f1) with e1 in S1 by (rewrite F1; reflexivity).
  replace (snd f2) with e2 in S2 by (rewrite F2; reflexivity).
  pose proof (fden_pos f1) as Q1. pose proof (fden_pos f2) as Q2. pose proof (pow2_pos K HK) as PK.
  assert (M : fst f1 * 2 ^ (e1 + K) <= fst f2 * 2 ^ (e2 + K)).
  { pose proof (fexp_ok p n1 d1 G1 D1 P) as [O1a O1b]. pose proof (fexp_ok p n2 d2 G2 D2 P) as [O2a O2b].
    fold e1 in O1a, O1b. fold e2 in O2a, O2b.
    pose proof (pow2_pos (Z.max e1 0) ltac:(lia)) as PA. pose proof (pow2_pos (Z.max e2 0) ltac:(lia)) as PB.
    pose proof (pow2_pos (Z.max (- e1) 0) ltac:(lia)) as PC. pose proof (pow2_pos (Z.max (- e2) 0) ltac:(lia)) as PD.
    pose proof (pow2_pos (e1 + K) K1) as PE1. pose proof (pow2_pos (e2 + K) K2) as PE2.
    pose proof (pow2_pos (p - 1) ltac:(lia)) as PP.
    assert (T2 : 2 ^ p = 2 * 2 ^ (p - 1)).
    { replace p with (1 + (p - 1)) at 1 by lia. rewrite Z.pow_add_r by lia. reflexivity. }
    rewrite F1, F2. cbn [fst].
    assert (DA : 0 < d1 * 2 ^ Z.max e1 0) by (apply Z.mul_pos_pos; lia).
    assert (DB : 0 < d2 * 2 ^ Z.max e2 0) by (apply Z.mul_pos_pos; lia).
    assert (NA : 0 < n1 * 2 ^ Z.max (- e1) 0) by (apply Z.mul_pos_pos; lia).
    assert (NB : 0 < n2 * 2 ^ Z.max (- e2) 0) by (apply Z.mul_pos_pos; lia).
    assert (H1 : near (n1 * 2 ^ Z.max (- e1) 0) (d1 * 2 ^ Z.max e1 0) <= 2 ^ p).
    { apply (near_le _ _ _ DA). lia. }
    assert (H2 : 2 ^ (p - 1) <= near (n2 * 2 ^ Z.max (- e2) 0) (d2 * 2 ^ Z.max e2 0)).
    { apply (near_ge _ _ _ DB). exact O2a. }
    destruct (Z.lt_trichotomy e1 e2) as [C|[C|C]].
    - assert (E : 2 * 2 ^ (e1 + K) <= 2 ^ (e2 + K)).
      { change (2 * 2 ^ (e1 + K)) with (2 ^ 1 * 2 ^ (e1 + K)). rewrite <- Z.pow_add_r by lia.
        apply Z.pow_le_mono_r; lia. }
      transitivity (2 ^ p * 2 ^ (e1 + K)); [apply Z.mul_le_mono_nonneg_r; lia|].
      transitivity (2 ^ (p - 1) * 2 ^ (e2 + K)); [|apply Z.mul_le_mono_nonneg_r; lia].
      rewrite T2. replace (2 * 2 ^ (p - 1) * 2 ^ (e1 + K)) with (2 ^ (p - 1) * (2 * 2 ^ (e1 + K))) by ring.
      apply Z.mul_le_mono_nonneg_l; lia.
    - rewrite C. apply Z.mul_le_mono_nonneg_r; [lia|]. rewrite C in NA, DA.
      apply near_mono; [lia|lia|lia|lia|].
      replace (n1 * 2 ^ Z.max (- e2) 0 * (d2 * 2 ^ Z.max e2 0)) with (n1 * d2 * (2 ^ Z.max (- e2) 0 * 2 ^ Z.max e2 0)) by ring.
      replace (n2 * 2 ^ Z.max (- e2) 0 * (d1 * 2 ^ Z.max e2 0)) with (n2 * d1 * (2 ^ Z.max (- e2) 0 * 2 ^ Z.max e2 0)) by ring.
      apply Z.mul_le_mono_nonneg_r; [|exact L]. apply Z.mul_nonneg_nonneg; lia.
    - exfalso.
      assert (E : 2 * 2 ^ (e2 + K) <= 2 ^ (e1 + K)).
      { change (2 * 2 ^ (e2 + K)) with (2 ^ 1 * 2 ^ (e2 + K)). rewrite <- Z.pow_add_r by lia.
        apply Z.pow_le_mono_r; lia. }
      assert (A1 : 2 ^ p * d1 * 2 ^ (e2 + K) <= n1 * 2 ^ K).
      { etransitivity; [|exact R1a]. rewrite T2.
        replace (2 * 2 ^ (p - 1) * d1 * 2 ^ (e2 + K)) with (2 ^ (p - 1) * d1 * (2 * 2 ^ (e2 + K))) by ring.
        replace (2 ^ (p - 1) * (d1 * 2 ^ (e1 + K))) with (2 ^ (p - 1) * d1 * 2 ^ (e1 + K)) by ring.
        apply Z.mul_le_mono_nonneg_l; [apply Z.mul_nonneg_nonneg; lia|lia]. }
      assert (A2 : 2 ^ p * d1 * 2 ^ (e2 + K) * d2 <= n1 * 2 ^ K * d2) by (apply Z.mul_le_mono_nonneg_r; lia).
      assert (A3 : n2 * 2 ^ K * d1 < 2 ^ p * (d2 * 2 ^ (e2 + K)) * d1) by (apply Z.mul_lt_mono_pos_r; lia).
      assert (A4 : n1 * d2 * 2 ^ K <= n2 * d1 * 2 ^ K) by (apply Z.mul_le_mono_nonneg_r; lia).
      replace (2 ^ p * (d2 * 2 ^ (e2 + K)) * d1) with (2 ^ p * d1 * 2 ^ (e2 + K) * d2) in A3 by ring.
      replace (n1 * d2 * 2 ^ K) with (n1 * 2 ^ K * d2) in A4 by ring.
      replace (n2 * d1 * 2 ^ K) with (n2 * 2 ^ K * d1) in A4 by ring.
      exact (Z.lt_irrefl _ (Z.le_lt_trans _ _ _ A2 (Z.le_lt_trans _ _ _ A4 A3))). }
  assert (G : fnum f1 * 2 ^ K * fden f2 <= fnum f2 * 2 ^ K * fden f1).
  { rewrite S1, S2.
    replace (fst f1 * 2 ^ (e1 + K) * fden f1 * fden f2) with (fst f1 * 2 ^ (e1 + K) * (fden f1 * fden f2)) by ring.
    replace (fst f2 * 2 ^ (e2 + K) * fden f2 * fden f1) with (fst f2 * 2 ^ (e2 + K) * (fden f1 * fden f2)) by ring.
    apply Z.mul_le_mono_nonneg_r; [apply Z.mul_nonneg_nonneg; lia|exact M]. }
  replace (fnum f1 * 2 ^ K * fden f2) with (fnum f1 * fden f2 * 2 ^ K) in G by ring.
  replace (fnum f2 * 2 ^ K * fden f1) with (fnum f2 * fden f1 * 2 ^ K) in G by ring.
  apply (Z.mul_le_mono_pos_r _ _ (2 ^ K)); assumption.
Qed.

(** Relative error at most 2^-p. *)
Lemma frnd_close p n d : 0 < p -> 0 < d -> 0 <= n ->
  (2 ^ p - 1) * (n * fden (frnd p n d)) <= 2 ^ p * (fnum (frnd p n d) * d)
  /\ 2 ^ p * (fnum (frnd p n d) * d) <= (2 ^ p + 1) * (n * fden (frnd p n d)).
Proof.
  intros P D N. destruct (Z.le_gt_cases n 0) as [Z0|G].
  { assert (n = 0) by lia. subst n. change (frnd p 0 d) with (0, 0). cbn. change (2 ^ 0) with 1. lia. }
  assert (F : frnd p n d = (near (n * 2 ^ Z.max (- fexp p n d) 0) (d * 2 ^ Z.max (fexp p n d) 0), fexp p n d))
    by (unfold frnd; destruct (Z.leb_spec n 0); [lia|reflexivity]).
  rewrite F. unfold fnum, fden. cbn [fst snd].
  pose proof (fexp_ok p n d G D P) as [O _]. set (e := fexp p n d) in *.
  pose proof (pow2_pos (Z.max e 0) ltac:(lia)) as PA. pose proof (pow2_pos (Z.max (- e) 0) ltac:(lia)) as PC.
  pose proof (near_bound (n * 2 ^ Z.max (- e) 0) (d * 2 ^ Z.max e 0) ltac:(nia) ltac:(nia)) as [B1 B2].
  set (m := near _ _) in *. set (a := 2 ^ Z.max e 0) in *. set (b := 2 ^ Z.max (- e) 0) in *.
  assert (T2 : 2 ^ p = 2 * 2 ^ (p - 1)).
  { replace p with (1 + (p - 1)) at 1 by lia. rewrite Z.pow_add_r by lia. reflexivity. }
  pose proof (pow2_pos (p - 1) ltac:(lia)) as PP. set (h := 2 ^ (p - 1)) in *. rewrite T2.
  assert (Y : h * (d * a) <= n * b) by exact O.
  assert (X1 : 2 * (n * b) - d * a <= 2 * (m * a * d)) by nia.
  assert (X2 : 2 * (m * a * d) <= 2 * (n * b) + d * a) by nia.
  split; nia.
Qed.
