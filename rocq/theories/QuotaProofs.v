From Verif Require Import Lib QuotaTables QuotaModel QuotaSpec.

Lemma at_some l i : 0 <= i < zlen l -> exists v, at_ l i = Some v.
Proof.
  intro H. unfold at_. replace (i <? 0) with false by lia.
  destruct (nth_error l (Z.to_nat i)) eqn:E; [eauto|]. apply nth_error_None in E. unfold zlen in H. lia.
Qed.
Lemma at_nth l i v : at_ l i = Some v <-> 0 <= i /\ nth_error l (Z.to_nat i) = Some v.
Proof. unfold at_. destruct (i <? 0) eqn:E; split; intros; try discriminate; try tauto; [lia|]. split; [lia|auto]. Qed.

Section Search.
Variable l : list Z.
Hypothesis R : rising l.
Lemma asc i j a b : 0 <= i -> i < j -> at_ l i = Some a -> at_ l j = Some b -> a < b.
Proof. intros H1 H2 H3 H4. apply at_nth in H3, H4. eapply (proj2 (proj2 R)); [|apply H3|apply H4]. lia. Qed.
Lemma at_zero : at_ l 0 = Some 0.
Proof. destruct R as (_ & H & _). unfold at_. cbn. exact H. Qed.

Definition good (x i : Z) : Prop := 0 <= i <= section_len /\ (forall v, at_ l i = Some v -> i = 0 \/ v <= x) /\
  (forall j v, i < j <= section_len -> at_ l j = Some v -> x < v).
Lemma exact_good x i : 0 <= i <= section_len ->
  (forall v, i < section_len -> at_ l (i + 1) = Some v -> x < v) ->
  (forall v, 1 <= i -> at_ l (i - 1) = Some v -> i - 1 = 0 \/ v <= x) ->
  exists k, exact_index x l i = Some k /\ good x k.
Proof.
  intros Hi Hup Hlo. pose proof R as (Hlen & _).
  assert (Up : forall j v, i < j <= section_len -> at_ l j = Some v -> x < v).
  { intros j v Hj Hv. destruct (Z.eq_dec j (i + 1)) as [->|Hne]; [apply (Hup v); auto; lia|].
    destruct (at_some l (i + 1)) as [w Hw]; [lia|]. pose proof (Hup w ltac:(lia) Hw).
    pose proof (asc (i + 1) j w v ltac:(lia) ltac:(lia) Hw Hv). lia. }
  unfold exact_index. destruct (i =? 0) eqn:E0.
  - exists i. split; [reflexivity|]. split; [lia|]. split; [intros; left; lia|exact Up].
  - destruct (at_some l i) as [v Hv]; [lia|]. rewrite Hv. destruct (v <=? x) eqn:E1.
    + exists i. split; [reflexivity|]. split; [lia|]. split; [|exact Up]. intros w Hw. right. assert (w = v) by congruence. lia.
    + exists (i - 1). split; [reflexivity|]. split; [lia|]. split.
      * intros w Hw. apply Hlo; auto. lia.
      * intros j w Hj Hw. destruct (Z.eq_dec j i) as [->|]; [|apply (Up j w); auto; lia]. assert (w = v) by congruence. lia.
Qed.
(** the binary search finds the step *)
Lemma search_good n : forall x left right, 0 <= left <= right -> right <= section_len ->
  right - left <= Z.of_nat n ->
  (forall v, at_ l left = Some v -> left = 0 \/ v <= x) ->
  (forall v, right < section_len -> at_ l (right + 1) = Some v -> x < v) ->
  exists k, index_in n x l left right = Some k /\ good x k.
Proof.
  induction n as [|n IH]; intros x left right H1 H2 Hn Hlo Hup; cbn [index_in].
  - replace (left =? right) with true by lia. assert (left = right) by lia. subst right.
    apply exact_good; auto; [lia|].
    intros v Hi Hv. destruct (at_some l left) as [w Hw]; [destruct R; lia|].
    pose proof (asc (left - 1) left v w ltac:(lia) ltac:(lia) Hv Hw). destruct (Hlo w Hw); lia.
  - destruct (left =? right) eqn:E.
    { assert (left = right) by lia. subst right. apply exact_good; auto; [lia|].
      intros v Hi Hv. destruct (at_some l left) as [w Hw]; [destruct R; lia|].
      pose proof (asc (left - 1) left v w ltac:(lia) ltac:(lia) Hv Hw). destruct (Hlo w Hw); lia. }
    assert (exists mid, mid = (left + right + 1) / 2) as [mid Dm] by eauto. rewrite <- Dm.
    assert (Hm : left < mid <= right) by lia. clear Dm.
    pose proof R as (Hlen & _).
    destruct (at_some l mid) as [v Hv]; [lia|]. rewrite Hv.
    destruct (v =? x) eqn:E1.
    { exists mid. split; [reflexivity|]. split; [lia|]. split.
      - intros w Hw. right. assert (w = v) by congruence. lia.
      - intros j w Hj Hw. pose proof (asc mid j v w ltac:(lia) ltac:(lia) Hv Hw). lia. }
    destruct (x <? v) eqn:E2.
    + apply IH; auto; try lia. intros w Hw Hat. replace (mid - 1 + 1) with mid in Hat by lia. assert (w = v) by congruence. lia.
    + apply IH; auto; try lia. intros w Hw. right. assert (w = v) by congruence. lia.
Qed.
Lemma fuel_enough : section_len - 0 <= Z.of_nat search_fuel.
Proof. unfold search_fuel, section_len. lia. Qed.
Local Opaque search_fuel.
Lemma search_step x : exists k, index_in search_fuel x l 0 section_len = Some k /\ step_reached l x k.
Proof.
  destruct (search_good search_fuel x 0 section_len) as (k & H1 & H2 & H3 & H4).
  - unfold section_len; lia.
  - lia.
  - apply fuel_enough.
  - intros; now left.
  - intros; lia.
  - exists k. split; [exact H1|]. split; [exact H2|]. pose proof R as (Hlen & _).
    destruct (at_some l k) as [v Hv]; [lia|]. split.
    + destruct (H3 v Hv); [now left|right]. exists v. split; [exact (proj2 (proj1 (at_nth _ _ _) Hv))|assumption].
    + intros j t Hj Ht. apply (H4 j t); auto. apply at_nth. split; [lia|auto].
Qed.
Lemma step_unique x i j : step_reached l x i -> step_reached l x j -> i = j.
Proof.
  intros (A1 & A2 & A3) (B1 & B2 & B3). pose proof R as (Hlen & _).
  destruct (Z.lt_trichotomy i j) as [H|[H|H]]; auto; exfalso.
  - destruct B2 as [->|(t & Ht & Hx)]; [lia|]. pose proof (A3 j t ltac:(lia) Ht). lia.
  - destruct A2 as [->|(t & Ht & Hx)]; [lia|]. pose proof (B3 i t ltac:(lia) Ht). lia.
Qed.
Lemma step_mono x y i j : x <= y -> step_reached l x i -> step_reached l y j -> i <= j.
Proof.
  intros Hxy (A1 & A2 & A3) (B1 & B2 & B3). destruct (Z_lt_le_dec j i) as [H|H]; [|exact H]. exfalso.
  destruct A2 as [->|(t & Ht & Hx)]; [lia|]. pose proof (B3 i t ltac:(lia) Ht). lia.
Qed.
End Search.
Local Opaque search_fuel.

Lemma quota_by_index_val i : 0 <= i <= section_len -> quota_by_index i = i * quota_for_section.
Proof.
  intro H. unfold quota_by_index, section_len in *. replace ((0 <=? i) && (i <=? 3571)) with true by lia.
  unfold wrap64, two64, quota_for_section. rewrite (Z.mod_small i) by (cbn; lia). apply Z.mod_small. cbn. lia.
Qed.
Lemma effective_param qc c x : stake_param qc c x = effective qc c x.
Proof. unfold stake_param, effective. destruct c; reflexivity. Qed.
Lemma effective_mono qc c x y : 0 <= qc -> x <= y -> effective qc c x <= effective qc c y.
Proof.
  intros Hq H. unfold effective, qc_division. destruct c; [|exact H]. apply Z.div_le_mono; [lia|]. now apply Z.mul_le_mono_nonneg_r.
Qed.
Lemma effective_zero qc c : effective qc c 0 = 0.
Proof. unfold effective. now destruct c. Qed.

(** the quota of an amount *)
Definition steps_of (table : list Z) (qc : Z) (congested : bool) (amount : Z) (i : Z) : Prop :=
  step_reached table (effective qc congested (Z.max 0 amount)) i.
Lemma step_at_zero l : rising l -> step_reached l 0 0.
Proof.
  intros (Hlen & H0 & Hr). split; [unfold section_len; lia|]. split; [now left|].
  intros j t Hj Ht. eapply (Hr 0%nat (Z.to_nat j)); eauto. lia.
Qed.
Lemma lookup_spec l qc c a : rising l -> exists i, lookup_quota l qc c a = Some (i * quota_for_section)
  /\ 0 <= i <= section_len /\ steps_of l qc c a i.
Proof.
  intro R. unfold lookup_quota, steps_of. destruct (a <=? 0) eqn:E.
  - exists 0. replace (Z.max 0 a) with 0 by lia. rewrite effective_zero. split; [reflexivity|].
    split; [unfold section_len; lia|]. now apply step_at_zero.
  - destruct (search_step l R (stake_param qc c a)) as (k & Hk & Hs). rewrite Hk. exists k.
    pose proof Hs as (Hr & _). rewrite quota_by_index_val by auto. replace (Z.max 0 a) with a by lia.
    rewrite effective_param in Hs. auto.
Qed.
Lemma lookup_mono l qc c a b qa qb : rising l -> 0 <= qc -> a <= b ->
  lookup_quota l qc c a = Some qa -> lookup_quota l qc c b = Some qb -> qa <= qb.
Proof.
  intros R Hq H Ha Hb. destruct (lookup_spec l qc c a R) as (i & Ei & Ri & Si).
  destruct (lookup_spec l qc c b R) as (j & Ej & Rj & Sj). rewrite Ei in Ha. rewrite Ej in Hb.
  injection Ha as <-. injection Hb as <-. assert (i <= j).
  { eapply step_mono; [|exact Si|exact Sj]. apply effective_mono; auto. lia. }
  unfold quota_for_section. lia.
Qed.
Lemma lookup_bound l qc c a q : rising l -> lookup_quota l qc c a = Some q -> 0 <= q <= 999880.
Proof.
  intros R H. destruct (lookup_spec l qc c a R) as (i & Ei & Ri & _). rewrite Ei in H. injection H as <-.
  unfold section_len, quota_for_section in *. lia.
Qed.

(** ** The tables *)
Fixpoint ascb (l : list Z) : bool :=
  match l with a :: ((b :: _) as r) => (a <? b) && ascb r | _ => true end.
Lemma ascb_lt l : ascb l = true -> forall i j a b, (i < j)%nat -> nth_error l i = Some a -> nth_error l j = Some b -> a < b.
Proof.
  intro H. assert (S : forall l, ascb l = true -> forall a i b, nth_error (a :: l) (S i) = Some b -> ascb (a :: l) = true -> a < b).
  { clear. induction l as [|x l IH]; intros H a i b Hb Hs; [now destruct i|].
    cbn in Hs. apply andb_true_iff in Hs as [H1 H2]. destruct i as [|i]; cbn in Hb.
    - injection Hb as <-. lia.
    - assert (x < b); [|lia]. eapply (IH _ x i b); eauto. Unshelve. destruct l; [reflexivity|]. cbn in H. now apply andb_true_iff in H as [_ H]. }
  induction l as [|x l IH]; intros i j a b Hij Ha Hb; [now destruct i|].
  assert (Hl : ascb l = true) by (destruct l; [reflexivity|]; cbn in H; now apply andb_true_iff in H as [_ H]).
  destruct i as [|i].
  - cbn in Ha. injection Ha as <-. destruct j as [|j]; [lia|]. eapply S; eauto.
  - destruct j as [|j]; [lia|]. cbn in Ha, Hb. eapply (IH Hl i j); eauto. lia.
Qed.
Lemma rising_check l : (zlen l =? section_len + 1) && (match l with 0 :: _ => true | _ => false end) && ascb l = true -> rising l.
Proof.
  intro H. apply andb_true_iff in H as [H H3]. apply andb_true_iff in H as [H1 H2]. split; [lia|].
  split; [|now apply ascb_lt]. destruct l as [|[| |] l]; try discriminate. reflexivity.
Qed.
Lemma mainnet_rising : rising (stake_list mainnet) /\ rising (difficulty_list mainnet).
Proof. split; apply rising_check; vm_compute; reflexivity. Qed.
Lemma testnet_difficulty_rising : rising (difficulty_list testnet).
Proof. apply rising_check; vm_compute; reflexivity. Qed.

(** ** Congestion *)
Lemma qc_table_ok : forallb (fun x => (0 <? x) && (x <? qc_division)) qc_mainnet && ascb (rev qc_mainnet) && (zlen qc_mainnet =? 450) = true.
Proof. vm_compute. reflexivity. Qed.
Lemma calc_qc_range u g : let '(qc, c) := calc_qc u g in (c = true -> 0 < qc < qc_division) /\ 0 <= qc.
Proof.
  unfold calc_qc. destruct (negb u); [split; [discriminate|lia]|]. cbv zeta.
  destruct (wrap64 (g + qc_gap - 1) / qc_gap <? qc_index_min) eqn:E; [split; [discriminate|unfold qc_division; lia]|].
  pose proof qc_table_ok as H. apply andb_true_iff in H as [H HL]. apply andb_true_iff in H as [H _].
  rewrite forallb_forall in H. unfold zlen in HL.
  set (i := if _ <=? _ then _ else _).
  assert (Hi : 51 <= i <= 500) by (unfold i, qc_index_min, qc_index_max in *; destruct (500 <=? wrap64 (g + qc_gap - 1) / qc_gap) eqn:E2; lia).
  clearbody i. assert (In (nth (Z.to_nat (i - qc_index_min)) qc_mainnet 0) qc_mainnet).
  { apply nth_In. unfold qc_index_min. lia. }
  apply H in H0. apply andb_true_iff in H0. lia.
Qed.
