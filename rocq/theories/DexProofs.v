(** Proofs for DexProps: amounts, fees and one match of two orders. *)
From Coq Require Import ZArith List Bool Lia Sorted.
From Verif Require Import Lib DexFloat DexFloatProofs DexModel DexSpec.
Import ListNotations.
Open Scope Z_scope.

(** * Upper bounds of rounded values *)

Definition ub (f : Z * Z) (u v : Z) : Prop := fnum f * v <= u * fden f.

Lemma frnd_ub n d u v : 0 < d -> 0 <= n -> 0 < v -> n * v <= u * d ->
  ub (frnd fprec n d) (1001 * u) (1000 * v).
Proof.
  intros D N V L. unfold ub.
  destruct (frnd_close fprec n d ltac:(reflexivity) D N) as [_ C].
  set (a := fnum (frnd fprec n d)) in *. set (b := fden (frnd fprec n d)) in *.
  assert (B : 0 < b) by apply fden_pos.
  assert (E : 1000 * (a * d) <= 1001 * (n * b)).
  { change (2 ^ fprec) with (2 ^ 120) in C.
    assert (X : 0 <= n * b) by nia.
    assert (Y : a * d <= n * b + n * b / 1000).
    { apply Z.div_le_lower_bound in C; [|lia].
      change (2^120) with 1329227995784915872903807060280344576 in C. lia. }
    lia. }
  assert (F : 1000 * (a * d) * v <= 1001 * (n * b) * v) by nia.
  assert (G : 1001 * (n * v) * b <= 1001 * (u * d) * b) by nia.
  assert (H : (a * (1000 * v)) * d <= (1001 * u * b) * d) by nia.
  nia.
Qed.

Lemma fee_half a r : 0 <= a -> 0 <= r <= 1000 -> 0 <= fee_for a r /\ 2 * fee_for a r <= a.
Proof.
  intros A R. unfold fee_for. destruct (Z.ltb_spec 0 r) as [P|P]; [|lia].
  unfold fround, ftrunc.
  set (fa := fint a). set (fr := frnd fprec r rate_cardinal). set (fp := fmul fa fr).
  assert (Na : 0 <= fnum fa) by (apply fnum_nonneg; lia).
  assert (Nr : 0 <= fnum fr) by (apply fnum_nonneg; reflexivity).
  pose proof (fden_pos fa) as Da. pose proof (fden_pos fr) as Dr.
  assert (Np : 0 <= fnum fp) by (apply fnum_nonneg; nia).
  pose proof (fden_pos fp) as Dp.
  assert (Nh : 0 <= fnum (fhalf fp)) by (apply fnum_nonneg; lia).
  pose proof (fden_pos (fhalf fp)) as Dh.
  split; [apply Z.div_pos; lia|].
  assert (Ua : ub fa (1001 * a) 1000) by (apply (frnd_ub a 1 a 1); lia).
  assert (Ur : ub fr (1001 * 1000) (1000 * 100000)).
  { apply (frnd_ub r rate_cardinal 1000 100000); unfold rate_cardinal; lia. }
  assert (Up : ub fp (1001 * (1001 * a * (1001 * 1000))) (1000 * (1000 * (1000 * 100000)))).
  { apply frnd_ub; [nia|nia|lia|]. unfold ub in Ua, Ur.
    replace (fnum fa * fnum fr * (1000 * (1000 * 100000))) with ((fnum fa * 1000) * (fnum fr * (1000 * 100000))) by ring.
    replace (1001 * a * (1001 * 1000) * (fden fa * fden fr)) with ((1001 * a * fden fa) * (1001 * 1000 * fden fr)) by ring.
    apply Z.mul_le_mono_nonneg; lia. }
  set (U := 1001 * (1001 * a * (1001 * 1000))) in *. set (V := 1000 * (1000 * (1000 * 100000))) in *.
  assert (Uh : ub (fhalf fp) (1001 * (2 * U + V)) (1000 * (2 * V))).
  { apply frnd_ub; [lia|lia|unfold V; lia|]. unfold ub in Up.
    assert (fnum fp * V <= U * fden fp) by exact Up. unfold V in *. lia. }
  unfold ub in Uh. pose proof (Z.mul_div_le (fnum (fhalf fp)) (fden (fhalf fp)) Dh) as K.
  set (k := fnum (fhalf fp) / fden (fhalf fp)) in *.
  assert (K2 : k * (1000 * (2 * V)) <= 1001 * (2 * U + V)).
  { apply (Z.mul_le_mono_pos_r _ _ (fden (fhalf fp)) Dh). unfold V in *. lia. }
  unfold U, V in K2. lia.
Qed.

Lemma fee_nonneg a r : 0 <= a -> 0 <= fee_for a r.
Proof.
  intro A. unfold fee_for. destruct (0 <? r); [|lia]. unfold fround, ftrunc. apply Z.div_pos; [|apply fden_pos].
  apply fnum_nonneg. pose proof (fden_pos (fmul (fint a) (frnd fprec r rate_cardinal))). lia.
Qed.

Lemma raw_amount_nonneg q p d : 0 <= raw_amount q p d.
Proof.
  unfold raw_amount, fround, ftrunc. apply Z.div_pos; [|apply fden_pos].
  apply fnum_nonneg. pose proof (fden_pos (raw_amount_f q p d)). lia.
Qed.

Lemma fnum_nonneg0 p n d : 0 <= d -> 0 <= fnum (frnd p n d).
Proof.
  intro D. destruct (Z.eq_dec d 0) as [->|E]; [|apply fnum_nonneg; lia].
  unfold frnd. destruct (Z.leb_spec n 0) as [L|L]; [cbn; lia|]. unfold fnum. cbn [fst snd].
  apply Z.mul_nonneg_nonneg; [|apply Z.pow_nonneg; lia].
  rewrite Z.mul_0_l. unfold near. rewrite Zdiv_0_r, Zmod_0_r.
  destruct (_ <? 0); [lia|]. destruct (0 <? _); [lia|]. cbn. lia.
Qed.
Lemma fquo_num a b : 0 <= fnum b -> 0 <= fnum (fquo a b).
Proof. intro B. apply fnum_nonneg0. pose proof (fden_pos a). nia. Qed.

Lemma raw_qty_nonneg q p d : 0 <= q -> 0 <= raw_qty q p d.
Proof.
  intro Q. unfold raw_qty, ftrunc. apply Z.div_pos; [|apply fden_pos].
  assert (A : 0 <= fnum (fquo (fint q) (fprice p))).
  { apply fquo_num. apply fnum_nonneg. reflexivity. }
  unfold raw_qty_f, fadjust. destruct (d =? 0); [exact A|]. destruct (0 <? d).
  - apply fquo_num. apply fnum_nonneg. lia.
  - unfold fmul. apply fnum_nonneg. apply Z.mul_pos_pos; apply fden_pos.
Qed.

Lemma subabs_eq a b : b <= a -> subabs a b = a - b.
Proof. unfold subabs. lia. Qed.
Lemma minz_spec a b : minz a b = Z.min a b.
Proof. unfold minz. destruct (Z.ltb_spec b a); lia. Qed.

(** * Fees *)

Lemma executed_fee_spec a r side origin locked used :
  0 <= a -> 0 <= origin <= used ->
  (side = false -> used <= locked) ->
  let '(inc, ex, _) := executed_fee a r side origin locked used in
  0 <= inc /\ ex = origin + inc /\ (side = false -> used + inc <= locked)
  /\ inc <= fee_for a r.
Proof.
  intros A O L. unfold executed_fee. pose proof (fee_nonneg a r A) as F.
  destruct (Z.eqb_spec r 0) as [E|E].
  { repeat split; lia. }
  destruct side; [repeat split; try lia; discriminate|].
  specialize (L eq_refl). destruct (Z.leb_spec locked used); [repeat split; lia|].
  destruct (Z.leb_spec locked (used + fee_for a r)).
  - rewrite subabs_eq by lia. repeat split; lia.
  - repeat split; lia.
Qed.

Lemma fees_of_spec e o a br orr :
  e_fee e = true -> within o -> 0 <= a -> 0 <= br <= 200 -> 0 <= orr <= 200 ->
  let '(f, xb, g, xo) := fees_of e o a br orr in
  0 <= f /\ 0 <= g /\ xb = o_exb o + f /\ xo = o_exo o + g
  /\ (o_side o = false -> xb + xo <= o_lock o) /\ f + g <= a.
Proof.
  intros E (W1 & W2 & W3 & W4 & W5) A B O. unfold fees_of.
  pose proof (executed_fee_spec a br (o_side o) (o_exb o) (o_lock o) (o_exb o + o_exo o) A ltac:(lia)) as X.
  pose proof (proj2 (fee_half a br A ltac:(lia))) as H1. pose proof (proj2 (fee_half a orr A ltac:(lia))) as H2.
  destruct (executed_fee a br (o_side o) (o_exb o) (o_lock o) (o_exb o + o_exo o)) as [[inc ex] lv].
  destruct X as (X1 & X2 & X3 & X4); [intro; destruct W5; auto|].
  destruct lv.
  - pose proof (executed_fee_spec a orr (o_side o) (o_exo o) (o_lock o) (ex + o_exo o) A ltac:(lia)) as Y.
    destruct (executed_fee a orr (o_side o) (o_exo o) (o_lock o) (ex + o_exo o)) as [[inco exo] lv2].
    destruct Y as (Y1 & Y2 & Y3 & Y4); [intro S; specialize (X3 S); lia|].
    repeat split; try lia; intro S; specialize (Y3 S); lia.
  - rewrite E. repeat split; try lia; intro S; specialize (X3 S); lia.
Qed.

(** * Orders through a match *)

Definition stat (o o' : order) : Prop :=
  o_id o' = o_id o /\ o_addr o' = o_addr o /\ o_agent o' = o_agent o /\ o_type o' = o_type o
  /\ o_qty o' = o_qty o /\ o_amt o' = o_amt o /\ o_lock o' = o_lock o /\ o_thr o' = o_thr o
  /\ o_tb o' = o_tb o /\ o_to o' = o_to o /\ o_mb o' = o_mb o /\ o_mo o' = o_mo o.
Lemma stat_refl o : stat o o.
Proof. repeat split. Qed.
Lemma stat_trans a b c : stat a b -> stat b c -> stat a c.
Proof. unfold stat. intuition congruence. Qed.
Lemma stat_side o o' : stat o o' -> o_side o' = o_side o.
Proof. intros (A & _). unfold o_side. now rewrite A. Qed.
Lemma stat_rates o o' : stat o o' -> rates_ok o -> rates_ok o'.
Proof. unfold stat, rates_ok. intuition congruence. Qed.

Lemma exec_qty_spec e m tk mk : within tk -> within mk ->
  0 <= exec_qty e m tk mk <= o_qty tk - o_exq tk /\ exec_qty e m tk mk <= o_qty mk - o_exq mk.
Proof.
  intros W V. unfold exec_qty. rewrite (subabs_eq (o_qty tk)), (subabs_eq (o_qty mk)) by (unfold within in *; lia).
  destruct (e_v12 e && (o_type tk =? Market) && negb (o_side tk)) eqn:C; rewrite !minz_spec.
  - pose proof (raw_qty_nonneg (subabs (o_amt tk) (o_exa tk)) (o_price mk) (- m_diff m)).
    unfold subabs in *. unfold within in *. lia.
  - unfold within in *. lia.
Qed.

Lemma order_amount_spec o q p d : within o ->
  0 <= order_amount o q p d <= raw_amount q p d
  /\ (o_side o = false -> order_amount o q p d <= o_amt o - o_exa o)
  /\ (o_side o = true -> order_amount o q p d = raw_amount q p d)
  /\ (order_amount o q p d = raw_amount q p d \/ o_side o = false /\ order_amount o q p d = o_amt o - o_exa o).
Proof.
  intros (W1 & W2 & W3 & W4 & W5). unfold order_amount. pose proof (raw_amount_nonneg q p d) as R.
  destruct (o_side o); cbn [negb andb]; [repeat split; try lia; try discriminate; auto|].
  destruct (W5 eq_refl) as [W6 W7].
  destruct (Z.ltb_spec (o_amt o) (o_exa o + raw_amount q p d)).
  - rewrite subabs_eq by lia. repeat split; try lia; try discriminate; auto.
  - repeat split; try lia; try discriminate; auto.
Qed.

(** What a transaction takes from the locked funds of taker and maker. *)
Definition red_t (t : tx) : Z := if t_side t then t_qty t else t_amt t + (t_tfee t + t_tofee t).
Definition red_m (t : tx) : Z := if t_side t then t_amt t + (t_mfee t + t_mofee t) else t_qty t.
Definition tx_ok (t : tx) : Prop :=
  0 <= t_qty t /\ 0 <= t_amt t /\ 0 <= t_tfee t /\ 0 <= t_tofee t /\ 0 <= t_mfee t /\ 0 <= t_mofee t
  /\ t_tfee t + t_tofee t <= t_amt t /\ t_mfee t + t_mofee t <= t_amt t.

Lemma upd_spec (e : dexenv) o q a b f d p : within o -> 0 <= q <= o_qty o - o_exq o -> 0 <= a -> 0 <= b -> 0 <= f ->
  (o_side o = false -> a <= o_amt o - o_exa o /\ b + f <= o_lock o) ->
  let o' := (if e_v12 e then update_after else update_before) o q a b f d p in
  stat o o' /\ within o' /\ (o_status o' = FullyExecuted \/ o_status o' = PartialExecuted)
  /\ o_reason o' = o_reason o
  /\ o_exq o' = o_exq o + q /\ o_exa o' = o_exa o + a /\ o_exb o' = b /\ o_exo o' = f.
Proof.
  intros (W1 & W2 & W3 & W4 & W5) Q A B F S o'.
  assert (H : exists s, o' = set_exec o s (o_exq o + q) (o_exa o + a) b f
              /\ (s = FullyExecuted \/ s = PartialExecuted)).
  { unfold o'. destruct (e_v12 e); unfold update_after, update_before;
      (eexists; split; [reflexivity|]); destruct (_ || _); auto. }
  clearbody o'. destruct H as (s & -> & Hs). cbn [set_exec o_status o_exq o_exa o_exb o_exo o_reason].
  split; [repeat split|]. split.
  - unfold within. unfold o_side. cbn [set_exec o_id o_exq o_exa o_exb o_exo o_qty o_amt o_lock]. fold (o_side o).
    repeat split; try lia; destruct (S H); destruct (W5 H); lia.
  - repeat split; auto.
Qed.

Theorem calc_spec e m tk mk : e_fee e = true -> within tk -> within mk -> rates_ok tk -> rates_ok mk ->
  o_side mk = negb (o_side tk) ->
  let '(tk', mk', t) := calc_tx e m tk mk in
  stat tk tk' /\ stat mk mk' /\ within tk' /\ within mk'
  /\ (o_status tk' = FullyExecuted \/ o_status tk' = PartialExecuted)
  /\ (o_status mk' = FullyExecuted \/ o_status mk' = PartialExecuted)
  /\ o_reason tk' = o_reason tk
  /\ held tk = held tk' + red_t t /\ held mk = held mk' + red_m t
  /\ tx_ok t /\ t_side t = o_side tk /\ t_taddr t = o_addr tk /\ t_maddr t = o_addr mk
  /\ t_taker t = o_id tk /\ t_maker t = o_id mk /\ t_price t = o_price mk
  /\ t_amt t <= raw_amount (t_qty t) (t_price t) (m_diff m)
  /\ (t_amt t = raw_amount (t_qty t) (t_price t) (m_diff m)
      \/ o_side tk = false /\ t_amt t = o_amt tk - o_exa tk
      \/ o_side mk = false /\ t_amt t = o_amt mk - o_exa mk)
  /\ o_exq tk' = o_exq tk + t_qty t /\ o_exq mk' = o_exq mk + t_qty t.
Proof.
  intros E Wt Wm Rt Rm S. unfold calc_tx.
  destruct (exec_qty_spec e m tk mk Wt Wm) as [Q1 Q2]. set (q := exec_qty e m tk mk) in *.
  destruct (order_amount_spec tk q (o_price mk) (m_diff m) Wt) as (A1 & A2 & A3 & A4).
  destruct (order_amount_spec mk q (o_price mk) (m_diff m) Wm) as (B1 & B2 & B3 & B4).
  rewrite minz_spec. set (a := Z.min _ _).
  assert (Ha : 0 <= a) by (unfold a; lia).
  destruct Rt as (Rt1 & Rt2 & _ & _). destruct Rm as (_ & _ & Rm1 & Rm2).
  pose proof (fees_of_spec e tk a (o_tb tk) (o_to tk) E Wt Ha Rt1 Rt2) as F1.
  pose proof (fees_of_spec e mk a (o_mb mk) (o_mo mk) E Wm Ha Rm1 Rm2) as F2.
  destruct (fees_of e tk a (o_tb tk) (o_to tk)) as [[[tf txb] tof] txo].
  destruct (fees_of e mk a (o_mb mk) (o_mo mk)) as [[[mf mxb] mof] mxo].
  destruct F1 as (F11 & F12 & F13 & F14 & F15 & F16). destruct F2 as (F21 & F22 & F23 & F24 & F25 & F26).
  pose proof Wt as (Wt1 & Wt2 & Wt3 & Wt4 & Wt5). pose proof Wm as (Wm1 & Wm2 & Wm3 & Wm4 & Wm5).
  pose proof (upd_spec e tk q a txb txo (m_diff m) (o_price mk) Wt Q1 Ha ltac:(lia) ltac:(lia)) as U1.
  pose proof (upd_spec e mk q a mxb mxo (m_diff m) (o_price mk) Wm ltac:(lia) Ha ltac:(lia) ltac:(lia)) as U2.
  cbv zeta in U1, U2.
  destruct U1 as (U11 & U12 & U13 & U14 & U15 & U16 & U17 & U18).
  { intro T. specialize (A2 T). specialize (F15 T). unfold a. lia. }
  destruct U2 as (U21 & U22 & U23 & U24 & U25 & U26 & U27 & U28).
  { intro T. specialize (B2 T). specialize (F25 T). unfold a. lia. }
  set (tk' := (if e_v12 e then update_after else update_before) tk q a txb txo (m_diff m) (o_price mk)) in *.
  set (mk' := (if e_v12 e then update_after else update_before) mk q a mxb mxo (m_diff m) (o_price mk)) in *.
  pose proof (stat_side _ _ U11) as T1. pose proof (stat_side _ _ U21) as T2.
  repeat (match goal with |- _ /\ _ => split end); auto.
  - unfold held, red_t. cbn [t_side t_qty t_amt t_tfee t_tofee]. rewrite T1.
    destruct U11 as (_ & _ & _ & _ & V1 & V2 & V3 & _). rewrite V1, V2, V3, U15, U16, U17, U18.
    destruct (o_side tk); lia.
  - unfold held, red_m. cbn [t_side t_qty t_amt t_mfee t_mofee]. rewrite T2, S.
    destruct U21 as (_ & _ & _ & _ & V1 & V2 & V3 & _). rewrite V1, V2, V3, U25, U26, U27, U28.
    destruct (o_side tk); cbn [negb]; lia.
  - unfold tx_ok. cbn [t_side t_qty t_amt t_tfee t_tofee t_mfee t_mofee]. lia.
  - cbn [t_amt t_qty t_price]. unfold a. lia.
  - cbn [t_amt t_qty t_price]. unfold a. destruct A4 as [A4|[A4 A5]], B4 as [B4|[B4 B5]].
    + left. lia.
    + right. right. split; [exact B4|lia].
    + right. left. split; [exact A4|lia].
    + rewrite A4, B4 in S. discriminate.
Qed.
