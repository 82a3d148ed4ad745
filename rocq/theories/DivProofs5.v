(** Shares are proportional to within one unit. *)
From Verif Require Import Lib DexFloat DexFloatProofs DivModel DivSpec DivProofs DivProofs2.
From Coq Require Import Sorted.
Import ListNotations.

Lemma mul2 k a b A B y z : 0 <= k -> 0 <= a -> 0 <= b -> k * a <= A * y -> k * b <= B * z -> (k * k) * (a * b) <= (A * B) * (y * z).
Proof. intros K X Y H1 H2. replace (k * k * (a * b)) with ((k * a) * (k * b)) by ring. replace (A * B * (y * z)) with ((A * y) * (B * z)) by ring. apply Z.mul_le_mono_nonneg; auto; now apply Z.mul_nonneg_nonneg. Qed.
Lemma cancel g x y : 0 < g -> g * x <= g * y -> x <= y.
Proof. intros G H. now apply (Z.mul_le_mono_pos_l x y g). Qed.
(** A quotient of two rounded numbers, rounded. *)
Lemma quo_arith k m t nm dm nt dt n2 d2 : 10 <= k -> 0 <= m -> 0 < t -> 0 <= nm -> 0 < dm -> 0 < nt -> 0 < dt -> 0 <= n2 -> 0 < d2 ->
  (k - 1) * (m * dm) <= k * nm -> k * nm <= (k + 1) * (m * dm) -> (k - 1) * (t * dt) <= k * nt -> k * nt <= (k + 1) * (t * dt) ->
  (k - 1) * ((nm * dt) * d2) <= k * (n2 * (dm * nt)) -> k * (n2 * (dm * nt)) <= (k + 1) * ((nm * dt) * d2) ->
  (k - 4) * (m * d2) <= k * (n2 * t) /\ k * (n2 * t) <= (k + 4) * (m * d2).
Proof.
  intros K M T NM DM NT DT N2 D2 A1 A2 B1 B2 C1 C2. assert (G : 0 < dm * dt) by (now apply Z.mul_pos_pos). split.
  - (* (k-1)^2 m dm dt d2 <= k (k-1) nm dt d2 <= k k n2 dm nt <= k (k+1) n2 dm t dt *)
    assert (X : (k - 1) * ((k - 1) * (m * dm)) * (dt * d2) <= (k + 1) * k * (n2 * dm * (t * dt))).
    { apply Z.le_trans with ((k - 1) * (k * nm) * (dt * d2)); [apply Z.mul_le_mono_nonneg_r; [nia|]; apply Z.mul_le_mono_nonneg_l; lia|].
      apply Z.le_trans with (k * (k * (n2 * (dm * nt)))); [replace ((k - 1) * (k * nm) * (dt * d2)) with (k * ((k - 1) * ((nm * dt) * d2))) by ring; apply Z.mul_le_mono_nonneg_l; lia|].
      replace (k * (k * (n2 * (dm * nt)))) with (k * (n2 * dm) * (k * nt)) by ring. replace ((k + 1) * k * (n2 * dm * (t * dt))) with (k * (n2 * dm) * ((k + 1) * (t * dt))) by ring. apply Z.mul_le_mono_nonneg_l; [nia|lia]. }
    assert (Y : (k - 1) * (k - 1) * (m * d2) <= (k + 1) * k * (n2 * t)).
    { apply (cancel (dm * dt)); [exact G|]. replace (dm * dt * ((k - 1) * (k - 1) * (m * d2))) with ((k - 1) * ((k - 1) * (m * dm)) * (dt * d2)) by ring. replace (dm * dt * ((k + 1) * k * (n2 * t))) with ((k + 1) * k * (n2 * dm * (t * dt))) by ring. exact X. }
    apply (cancel (k + 1)); [lia|]. replace ((k + 1) * (k * (n2 * t))) with ((k + 1) * k * (n2 * t)) by ring. apply Z.le_trans with ((k - 1) * (k - 1) * (m * d2)); [|exact Y]. replace ((k + 1) * ((k - 4) * (m * d2))) with ((k + 1) * (k - 4) * (m * d2)) by ring. apply Z.mul_le_mono_nonneg_r; [apply Z.mul_nonneg_nonneg; lia|nia].
  - assert (X : (k - 1) * k * (n2 * dm * (t * dt)) <= (k + 1) * ((k + 1) * (m * dm)) * (dt * d2)).
    { apply Z.le_trans with (k * (k * (n2 * (dm * nt)))).
      { replace (k * (k * (n2 * (dm * nt)))) with (k * (n2 * dm) * (k * nt)) by ring. replace ((k - 1) * k * (n2 * dm * (t * dt))) with (k * (n2 * dm) * ((k - 1) * (t * dt))) by ring. apply Z.mul_le_mono_nonneg_l; [nia|lia]. }
      apply Z.le_trans with ((k + 1) * (k * nm) * (dt * d2)); [replace ((k + 1) * (k * nm) * (dt * d2)) with (k * ((k + 1) * ((nm * dt) * d2))) by ring; apply Z.mul_le_mono_nonneg_l; lia|].
      apply Z.mul_le_mono_nonneg_r; [nia|]. apply Z.mul_le_mono_nonneg_l; lia. }
    assert (Y : (k - 1) * k * (n2 * t) <= (k + 1) * (k + 1) * (m * d2)).
    { apply (cancel (dm * dt)); [exact G|]. replace (dm * dt * ((k + 1) * (k + 1) * (m * d2))) with ((k + 1) * ((k + 1) * (m * dm)) * (dt * d2)) by ring. replace (dm * dt * ((k - 1) * k * (n2 * t))) with ((k - 1) * k * (n2 * dm * (t * dt))) by ring. exact X. }
    apply (cancel (k - 1)); [lia|]. replace ((k - 1) * (k * (n2 * t))) with ((k - 1) * k * (n2 * t)) by ring. apply Z.le_trans with ((k + 1) * (k + 1) * (m * d2)); [exact Y|]. replace ((k - 1) * ((k + 4) * (m * d2))) with ((k - 1) * (k + 4) * (m * d2)) by ring. apply Z.mul_le_mono_nonneg_r; [apply Z.mul_nonneg_nonneg; lia|nia].
Qed.
(** A product of a rounded number and such a quotient, rounded. *)
Lemma mul_arith k p m t n1 d1 n2 d2 n3 d3 : 100 <= k -> 0 <= p -> 0 <= m -> 0 < t -> 0 <= n1 -> 0 < d1 -> 0 <= n2 -> 0 < d2 -> 0 <= n3 -> 0 < d3 ->
  (k - 1) * (p * d1) <= k * n1 -> k * n1 <= (k + 1) * (p * d1) -> (k - 4) * (m * d2) <= k * (n2 * t) -> k * (n2 * t) <= (k + 4) * (m * d2) ->
  (k - 1) * ((n1 * n2) * d3) <= k * (n3 * (d1 * d2)) -> k * (n3 * (d1 * d2)) <= (k + 1) * ((n1 * n2) * d3) ->
  (k - 7) * (p * m * d3) <= k * (n3 * t) /\ k * (n3 * t) <= (k + 7) * (p * m * d3).
Proof.
  intros K P M T N1 D1 N2 D2 N3 D3 A1 A2 B1 B2 C1 C2. assert (G : 0 < d1 * d2) by (now apply Z.mul_pos_pos). assert (PD : 0 <= p * d1) by (apply Z.mul_nonneg_nonneg; lia). assert (MD : 0 <= m * d2) by (apply Z.mul_nonneg_nonneg; lia). assert (NT : 0 <= n2 * t) by (apply Z.mul_nonneg_nonneg; lia). assert (PMD : 0 <= p * m * d3) by (apply Z.mul_nonneg_nonneg; [apply Z.mul_nonneg_nonneg|]; lia). split.
  - assert (X : (k - 1) * ((k - 1) * (p * d1)) * ((k - 4) * (m * d2)) * d3 <= k * k * (k * (n3 * (d1 * d2)) * t)).
    { apply Z.le_trans with ((k - 1) * (k * n1) * (k * (n2 * t)) * d3).
      - apply Z.mul_le_mono_nonneg_r; [lia|]. apply Z.mul_le_mono_nonneg; [apply Z.mul_nonneg_nonneg; [lia|apply Z.mul_nonneg_nonneg; lia]|apply Z.mul_le_mono_nonneg_l; lia|apply Z.mul_nonneg_nonneg; lia|exact B1].
      - replace ((k - 1) * (k * n1) * (k * (n2 * t)) * d3) with (k * k * (((k - 1) * ((n1 * n2) * d3)) * t)) by ring. apply Z.mul_le_mono_nonneg_l; [nia|]. apply Z.mul_le_mono_nonneg_r; [lia|exact C1]. }
    assert (Y : (k - 1) * (k - 1) * (k - 4) * (p * m * d3) <= k * k * (k * (n3 * t))).
    { apply (cancel (d1 * d2)); [exact G|]. replace (d1 * d2 * ((k - 1) * (k - 1) * (k - 4) * (p * m * d3))) with ((k - 1) * ((k - 1) * (p * d1)) * ((k - 4) * (m * d2)) * d3) by ring. replace (d1 * d2 * (k * k * (k * (n3 * t)))) with (k * k * (k * (n3 * (d1 * d2)) * t)) by ring. exact X. }
    apply (cancel (k * k)); [nia|]. apply Z.le_trans with ((k - 1) * (k - 1) * (k - 4) * (p * m * d3)); [|exact Y]. replace (k * k * ((k - 7) * (p * m * d3))) with (k * k * (k - 7) * (p * m * d3)) by ring. apply Z.mul_le_mono_nonneg_r; [exact PMD|nia].
  - assert (X : k * k * (k * (n3 * (d1 * d2)) * t) <= (k + 1) * ((k + 1) * (p * d1)) * ((k + 4) * (m * d2)) * d3).
    { apply Z.le_trans with ((k + 1) * (k * n1) * (k * (n2 * t)) * d3).
      - replace ((k + 1) * (k * n1) * (k * (n2 * t)) * d3) with (k * k * (((k + 1) * ((n1 * n2) * d3)) * t)) by ring. apply Z.mul_le_mono_nonneg_l; [nia|]. apply Z.mul_le_mono_nonneg_r; [lia|exact C2].
      - apply Z.mul_le_mono_nonneg_r; [lia|]. apply Z.mul_le_mono_nonneg; [apply Z.mul_nonneg_nonneg; [lia|apply Z.mul_nonneg_nonneg; lia]|apply Z.mul_le_mono_nonneg_l; lia|apply Z.mul_nonneg_nonneg; lia|exact B2]. }
    assert (Y : k * k * (k * (n3 * t)) <= (k + 1) * (k + 1) * (k + 4) * (p * m * d3)).
    { apply (cancel (d1 * d2)); [exact G|]. replace (d1 * d2 * ((k + 1) * (k + 1) * (k + 4) * (p * m * d3))) with ((k + 1) * ((k + 1) * (p * d1)) * ((k + 4) * (m * d2)) * d3) by ring. replace (d1 * d2 * (k * k * (k * (n3 * t)))) with (k * k * (k * (n3 * (d1 * d2)) * t)) by ring. exact X. }
    apply (cancel (k * k)); [nia|]. apply Z.le_trans with ((k + 1) * (k + 1) * (k + 4) * (p * m * d3)); [exact Y|]. replace (k * k * ((k + 7) * (p * m * d3))) with (k * k * (k + 7) * (p * m * d3)) by ring. apply Z.mul_le_mono_nonneg_r; [exact PMD|nia].
Qed.
(** One half added, rounded and truncated: [e] bounds the products' error. *)
Lemma round_arith k p m t n3 d3 n4 d4 : 100 <= k -> 0 <= m <= t -> 0 < t -> 0 <= p -> 64 * (p + 2) <= k -> 0 <= n3 -> 0 < d3 -> 0 <= n4 -> 0 < d4 ->
  (k - 7) * (p * m * d3) <= k * (n3 * t) -> k * (n3 * t) <= (k + 7) * (p * m * d3) ->
  (k - 1) * ((2 * n3 + d3) * d4) <= k * (n4 * (2 * d3)) -> k * (n4 * (2 * d3)) <= (k + 1) * ((2 * n3 + d3) * d4) ->
  Z.abs ((n4 / d4) * t - p * m) < t.
Proof.
  intros K M T P B N3 D3 N4 D4 A1 A2 C1 C2.
  (* |k (n3 t - p m d3)| <= 7 p m d3 <= 7 p t d3, so 8 |n3 t - p m d3| <= t d3 *)
  assert (PM : 0 <= p * m <= p * t) by (split; [apply Z.mul_nonneg_nonneg; lia|apply Z.mul_le_mono_nonneg_l; lia]).
  assert (E : 7 * (p * m * d3) * 8 <= k * (t * d3)).
  { apply Z.le_trans with (7 * (p * t * d3) * 8); [nia|]. replace (7 * (p * t * d3) * 8) with (56 * p * (t * d3)) by ring. apply Z.mul_le_mono_nonneg_r; [nia|lia]. }
  assert (U3 : 8 * (n3 * t) <= 8 * (p * m * d3) + t * d3) by (apply (cancel k); [lia|]; lia).
  assert (L3 : 8 * (p * m * d3) <= 8 * (n3 * t) + t * d3) by (apply (cancel k); [lia|]; lia).
  (* n3 <= (p + 1) d3 *)
  assert (N3B : n3 <= (p + 1) * d3).
  { apply (cancel (8 * t)); [lia|]. apply Z.le_trans with (8 * (p * t * d3) + t * d3); [nia|]. nia. }
  assert (S : 8 * ((2 * n3 + d3) * d4) <= k * (d3 * d4)).
  { replace (8 * ((2 * n3 + d3) * d4)) with (8 * (2 * n3 + d3) * d4) by ring. replace (k * (d3 * d4)) with (k * d3 * d4) by ring. apply Z.mul_le_mono_nonneg_r; [lia|]. nia. }
  assert (U4 : 8 * (n4 * (2 * d3)) <= 8 * ((2 * n3 + d3) * d4) + d3 * d4) by (apply (cancel k); [lia|]; lia).
  assert (L4 : 8 * ((2 * n3 + d3) * d4) <= 8 * (n4 * (2 * d3)) + d3 * d4) by (apply (cancel k); [lia|]; lia).
  pose proof (Z.mul_div_le n4 d4 D4) as Q1. pose proof (Z.mul_succ_div_gt n4 d4 D4) as Q2. set (a := n4 / d4) in *. assert (a0 : 0 <= a) by (apply Z.div_pos; lia). clearbody a.
  (* a d4 <= n4 < (a + 1) d4 *)
  assert (U : 16 * (a * t) <= 16 * (p * m) + 2 * t + 8 * t + t).
  { apply (cancel (d3 * d4)); [now apply Z.mul_pos_pos|].
    assert (X1 : 16 * (a * d4) * d3 <= 16 * n3 * d4 + 9 * d3 * d4) by nia.
    assert (X2 : 16 * (n3 * t) <= (16 * (p * m) + 2 * t) * d3) by lia.
    replace (d3 * d4 * (16 * (a * t))) with (16 * (a * d4) * d3 * t) by ring. apply Z.le_trans with ((16 * n3 * d4 + 9 * d3 * d4) * t); [apply Z.mul_le_mono_nonneg_r; lia|]. replace ((16 * n3 * d4 + 9 * d3 * d4) * t) with (16 * (n3 * t) * d4 + 9 * t * (d3 * d4)) by ring. replace (d3 * d4 * (16 * (p * m) + 2 * t + 8 * t + t)) with ((16 * (p * m) + 2 * t) * d3 * d4 + 9 * t * (d3 * d4)) by ring. apply Z.add_le_mono_r. apply Z.mul_le_mono_nonneg_r; lia. }
  assert (L : 16 * (p * m) + 7 * t <= 16 * ((a + 1) * t) + 2 * t).
  { apply (cancel (d3 * d4)); [now apply Z.mul_pos_pos|].
    assert (X1 : 16 * n3 * d4 + 7 * d3 * d4 <= 16 * ((a + 1) * d4) * d3) by nia.
    assert (X2 : 16 * (p * m) * d3 <= 16 * (n3 * t) + 2 * t * d3) by lia.
    replace (d3 * d4 * (16 * (p * m) + 7 * t)) with (16 * (p * m) * d3 * d4 + 7 * t * (d3 * d4)) by ring. apply Z.le_trans with ((16 * (n3 * t) + 2 * t * d3) * d4 + 7 * t * (d3 * d4)); [apply Z.add_le_mono_r; apply Z.mul_le_mono_nonneg_r; lia|]. replace (d3 * d4 * (16 * ((a + 1) * t) + 2 * t)) with (16 * ((a + 1) * d4) * d3 * t + 2 * t * (d3 * d4)) by ring. replace ((16 * (n3 * t) + 2 * t * d3) * d4 + 7 * t * (d3 * d4)) with ((16 * n3 * d4 + 7 * d3 * d4) * t + 2 * t * (d3 * d4)) by ring. apply Z.add_le_mono_r. apply Z.mul_le_mono_nonneg_r; lia. }
  apply Z.abs_lt. nia.
Qed.
Definition roomy : Z := 2 ^ 110.
Lemma share_close total mine amount : 0 < mine <= total -> 0 <= amount < roomy -> Z.abs (share_of total mine amount * total - amount * mine) < total.
Proof.
  intros M A. unfold share_of, fround, fhalf, ftrunc, fmul, fquo, fint.
  assert (O : 0 < 1) by reflexivity. assert (KP : 0 < fprec) by reflexivity. assert (M0 : 0 <= mine) by lia. assert (T0 : 0 <= total) by lia. assert (T1 : 0 < total) by lia. assert (A0 : 0 <= amount) by lia.
  assert (K : 100 <= 2 ^ fprec) by (apply (proj1 (Z.leb_le _ _)); vm_compute; reflexivity).
  assert (KB : 64 * (amount + 2) <= 2 ^ fprec) by (destruct A as [_ A]; apply Z.le_trans with (64 * (roomy + 2)); [lia|apply (proj1 (Z.leb_le _ _)); vm_compute; reflexivity]).
  destruct (frnd_close fprec mine 1 KP O M0) as [m1 m2]. pose proof (fnum_nonneg fprec mine 1 O) as nm. destruct (frnd_close fprec total 1 KP O T0) as [t1 t2]. pose proof (fnum_nonneg fprec total 1 O) as nt. destruct (frnd_close fprec amount 1 KP O A0) as [a1 a2]. pose proof (fnum_nonneg fprec amount 1 O) as na.
  set (fm := frnd fprec mine 1) in *. set (ft := frnd fprec total 1) in *. set (fa := frnd fprec amount 1) in *. clearbody fm ft fa. assert (dm := fden_pos fm). assert (dt := fden_pos ft). assert (da := fden_pos fa).
  set (k := 2 ^ fprec) in *. assert (NT : 0 < fnum ft) by (assert (0 < (k - 1) * (total * fden ft)) by (apply Z.mul_pos_pos; [lia|now apply Z.mul_pos_pos]); nia).
  assert (P2 : 0 < fden fm * fnum ft) by (now apply Z.mul_pos_pos). assert (Q2 : 0 <= fnum fm * fden ft) by (apply Z.mul_nonneg_nonneg; lia).
  destruct (frnd_close fprec _ _ KP P2 Q2) as [q1 q2]. pose proof (fnum_nonneg fprec (fnum fm * fden ft) _ P2) as nq. fold k in q1, q2. set (f2 := frnd fprec (fnum fm * fden ft) (fden fm * fnum ft)) in *. clearbody f2. assert (d2 := fden_pos f2).
  assert (QA : (k - 4) * (mine * fden f2) <= k * (fnum f2 * total) /\ k * (fnum f2 * total) <= (k + 4) * (mine * fden f2)) by (apply (quo_arith k mine total (fnum fm) (fden fm) (fnum ft) (fden ft)); rewrite ?Z.mul_1_r in *; try assumption; lia).
  assert (P3 : 0 < fden fa * fden f2) by (now apply Z.mul_pos_pos). assert (Q3 : 0 <= fnum fa * fnum f2) by (apply Z.mul_nonneg_nonneg; lia).
  destruct (frnd_close fprec _ _ KP P3 Q3) as [r1 r2]. pose proof (fnum_nonneg fprec (fnum fa * fnum f2) _ P3) as nr. fold k in r1, r2. set (f3 := frnd fprec (fnum fa * fnum f2) (fden fa * fden f2)) in *. clearbody f3. assert (d3 := fden_pos f3). destruct QA as [QA1 QA2].
  assert (MA : (k - 7) * (amount * mine * fden f3) <= k * (fnum f3 * total) /\ k * (fnum f3 * total) <= (k + 7) * (amount * mine * fden f3)) by (apply (mul_arith k amount mine total (fnum fa) (fden fa) (fnum f2) (fden f2)); rewrite ?Z.mul_1_r in *; assumption). destruct MA as [MA1 MA2].
  assert (P4 : 0 < 2 * fden f3) by lia. assert (Q4 : 0 <= 2 * fnum f3 + fden f3) by lia. destruct (frnd_close fprec _ _ KP P4 Q4) as [s1 s2]. pose proof (fnum_nonneg fprec (2 * fnum f3 + fden f3) _ P4) as ns. fold k in s1, s2. set (f4 := frnd fprec (2 * fnum f3 + fden f3) (2 * fden f3)) in *. clearbody f4. assert (d4 := fden_pos f4).
  clearbody k. apply (round_arith k amount mine total (fnum f3) (fden f3) (fnum f4) (fden f4)); try assumption; lia.
Qed.

(** * The payments of one token *)
Definition pt (t : Z) (l : list (Z * Z * Z)) : list (Z * Z * Z) := filter (fun x => snd (fst x) =? t) l.
Definition ascending (l : list (Z * Z * Z)) : Prop := StronglySorted (fun a b => fst (fst a) < fst (fst b)) l.
Lemma pt_app t a b : pt t (a ++ b) = pt t a ++ pt t b.
Proof. apply filter_app. Qed.
Lemma serve_token total a u i x : In x (snd (serve total a u i)) -> snd (fst x) = i_token i.
Proof. unfold serve. destruct (i_over i); [intros []|]. unfold divide. destruct (_ || _); intros [<-|[]]; reflexivity. Qed.
Lemma serve_map total a u i : i_token (fst (serve total a u i)) = i_token i /\ i_amount (fst (serve total a u i)) = i_amount i.
Proof. unfold serve. destruct (i_over i); [auto|]. unfold divide. destruct (_ || _); auto. Qed.
Lemma pt_other t total a u is : ~ In t (map i_token is) -> pt t (flat_map (fun i => snd (serve total a u i)) is) = [].
Proof.
  induction is as [|i is IH]; cbn [flat_map map]; intros N; [reflexivity|]. rewrite pt_app, IH by (intros X; apply N; now right). rewrite app_nil_r. unfold pt. destruct (filter _ (snd (serve total a u i))) as [|x l] eqn:E; [reflexivity|]. assert (I : In x (x :: l)) by now left. rewrite <- E in I. apply filter_In in I. destruct I as [I T]. apply serve_token in I. apply Z.eqb_eq in T. destruct N. left. congruence.
Qed.
Lemma pt_serve total a u is i : NoDup (map i_token is) -> In i is -> pt (i_token i) (flat_map (fun i => snd (serve total a u i)) is) = snd (serve total a u i).
Proof.
  induction is as [|j is IH]; cbn [flat_map map]; intros N []; inversion N as [|? ? NI N']; subst; rewrite pt_app.
  - rewrite pt_other by exact NI. rewrite app_nil_r. unfold pt. apply filter_none. intros x X. apply Z.eqb_eq. exact (serve_token _ _ _ _ _ X).
  - rewrite IH by assumption. unfold pt. destruct (filter _ (snd (serve total a u j))) as [|x l] eqn:E; [reflexivity|]. assert (I : In x (x :: l)) by now left. rewrite <- E in I. apply filter_In in I. destruct I as [I T]. apply serve_token in I. apply Z.eqb_eq in T. destruct NI. rewrite <- I, T. now apply in_map.
Qed.
Lemma serve_cases total a u i : i_over i = true /\ serve total a u i = (i, []) \/
  i_over i = false /\ (i_over (fst (serve total a u i)) = true /\ (exists s, snd (serve total a u i) = [(u, i_token i, s)]) \/ snd (serve total a u i) = [(u, i_token i, share_of total a (i_amount i))]).
Proof. unfold serve. destruct (i_over i) eqn:O; [left; auto|]. right. split; [reflexivity|]. unfold divide. destruct (_ || _); [left; split; [reflexivity|eexists; reflexivity]|right; reflexivity]. Qed.
Lemma walk_share total p c : forall l is, good c l -> Forall (fit total p l) is -> NoDup (map i_token is) -> forall i, In i is ->
  let L := pt (i_token i) (snd (walk total p is l)) in
  (i_over i = true -> L = []) /\ ascending L /\ forall pre u t a post, L = pre ++ (u, t, a) :: post -> post <> [] -> a = share_of total (at_ (uget u l) p) (i_amount i).
Proof.
  assert (NIL : forall i (l : users), (i_over i = true -> ([] : list (Z * Z * Z)) = []) /\ ascending [] /\ forall pre u t a post, ([] : list (Z * Z * Z)) = pre ++ (u, t, a) :: post -> post <> [] -> a = share_of total (at_ (uget u l) p) (i_amount i)).
  { intros i l. split; [reflexivity|]. split; [constructor|]. intros [|? pre] u t a post E; discriminate. }
  induction l as [|[u f] l IH]; intros is G F N i I; cbn zeta.
  - cbn [walk]. destruct (forallb i_over is); apply NIL.
  - cbn [walk]. destruct (forallb i_over is) eqn:O; [apply NIL|].
    assert (Gl := good_tail _ _ _ G). assert (W : sf c f) by (apply (proj2 G (u, f)); now left). assert (LB : forall e, In e l -> u < fst e) by (destruct G as [S _]; inversion S as [|? ? _ H]; subst; rewrite Forall_forall in H; exact H).
    assert (KEY : forall v, threshold <= at_ (uget v l) p -> u < v).
    { intros v. clear - LB. induction l as [|[w g] l IH]; cbn [uget]; intros T; [change (at_ [] p) with 0 in T; pose proof threshold_pos; lia|]. destruct (Z.eqb_spec w v) as [<-|NE]; [apply (LB (w, g)); now left|]. apply IH; [intros e E; apply LB; now right|exact T]. }
    assert (REST : forall is', Forall (fit total p l) is' -> NoDup (map i_token is') -> forall i', In i' is' -> let L := pt (i_token i') (snd (walk total p is' l)) in (i_over i' = true -> L = []) /\ ascending L /\ (forall x, In x L -> u < fst (fst x)) /\ forall pre v t a post, L = pre ++ (v, t, a) :: post -> post <> [] -> a = share_of total (at_ (uget v ((u, f) :: l)) p) (i_amount i')).
    { intros is' F' N' i' I'. cbn zeta. destruct (IH is' Gl F' N' i' I') as (A & B & C). cbn zeta in *. destruct (walk_ok total p c l is' Gl F') as (_ & _ & _ & _ & _ & W6). cbn zeta in W6.
      assert (UB : forall x, In x (pt (i_token i') (snd (walk total p is' l))) -> u < fst (fst x)) by (intros [[v t] a] X; apply filter_In in X; apply KEY; apply (W6 v t a); apply X).
      split; [exact A|]. split; [exact B|]. split; [exact UB|]. intros pre v t a post E NE. rewrite (C pre v t a post E NE). assert (X := UB (v, t, a) ltac:(rewrite E; apply in_or_app; right; now left)). cbn [fst] in X. cbn [uget]. now rewrite (proj2 (Z.eqb_neq u v)) by lia. }
    pose proof (match_ok c f p W) as M. destruct (match_funds f p) as [[a f']|].
    + destruct M as (-> & AP & W' & NE & AT). destruct (valid (at_ f p)) eqn:V.
      * assert (CE : cs ((u, f) :: l) p = at_ f p + cs l p) by (cbn [cs]; rewrite counts_valid, V; reflexivity). destruct (serve_all_ok total p ((u, f) :: l) u (at_ f p) is F) as (A & _ & _). cbn zeta in A. specialize (A l CE).
        assert (TK : map i_token (fst (serve_all total (at_ f p) u is)) = map i_token is) by (unfold serve_all; cbn [fst]; rewrite map_map; apply map_ext; intros j; apply serve_map).
        assert (I' : In (fst (serve total (at_ f p) u i)) (fst (serve_all total (at_ f p) u is))) by (unfold serve_all; cbn [fst]; apply (in_map (fun i => fst (serve total (at_ f p) u i))); exact I).
        assert (N' := N). rewrite <- TK in N'. specialize (REST _ A N' _ I'). cbn zeta in REST. destruct (serve_map total (at_ f p) u i) as [ET EA]. rewrite ET, EA in REST. unfold serve_all in *. cbn [fst snd] in *. destruct (walk total p (map (fun i => fst (serve total (at_ f p) u i)) is) l) as [r' pays]. cbn [fst snd] in *. rewrite pt_app, pt_serve by assumption. destruct REST as (R1 & R2 & R3 & R4).
        destruct (serve_cases total (at_ f p) u i) as [[OV E]|[OV [[OV' (s & E)]|E]]]; rewrite E in *; cbn [fst snd app] in *.
        -- split; [exact R1|]. split; [exact R2|exact R4].
        -- split; [congruence|]. rewrite (R1 OV'). split; [repeat constructor|]. intros pre v t a post EQ NP. destruct pre as [|? [|? pre]]; cbn in EQ; [injection EQ as _ _ _ <-; now destruct NP|discriminate|discriminate].
        -- split; [congruence|]. split; [constructor; [exact R2|apply Forall_forall; exact R3]|]. intros pre v t a post EQ NP. destruct pre as [|x pre]; cbn [app] in EQ; [injection EQ as <- _ <- _; cbn [uget]; now rewrite Z.eqb_refl|]. injection EQ as _ EQ. exact (R4 pre v t a post EQ NP).
      * assert (CE : cs ((u, f) :: l) p = cs l p) by (cbn [cs]; rewrite counts_valid, V; reflexivity).
        assert (F' : Forall (fit total p l) is) by (revert F; apply Forall_impl; intros j [L X]; split; [exact L|]; now rewrite CE in X). destruct (REST is F' N i I) as (R1 & R2 & _ & R4). destruct (walk total p is l) as [r' pays]. cbn [fst snd] in *. auto.
    + assert (CE : cs ((u, f) :: l) p = cs l p) by (cbn [cs]; rewrite M; reflexivity).
      assert (F' : Forall (fit total p l) is) by (revert F; apply Forall_impl; intros j [L X]; split; [exact L|]; now rewrite CE in X). destruct (REST is F' N i I) as (R1 & R2 & _ & R4). destruct (walk total p is l) as [r' pays]. cbn [fst snd] in *. auto.
Qed.
