From Verif Require Import Lib SchedModel SchedSpec SchedProofs SchedProofs2 StatsModel StatsSpec StatsProofs StatsProofs2 StatsProofs3 StatsProofs4.
Local Opaque sec Z.pow two64 hour search_fuel.

Section N.
Context (g : group) (OK : group_ok g) (HW : hour_whole g) (elected : Z -> list Z) (votes_of : Z -> votes) (anc : Z -> list sblock).
Notation anc_ok := (anc_ok anc).
Notation start := (start g).
Notation expected_from := (expected_from elected g).
Notation good := (good g elected votes_of anc).
Notation per_hour := (per_hour g).
Notation pure_hour := (pure_hour g elected).
Notation pure_day := (pure_day g elected votes_of).

Definition numok (R : Z) (pure : Z -> list sblock -> point) : Prop :=
  forall i d a, chain_ok g d -> anc_ok d -> d <> [] -> idx_ok (R * round_len g) i -> from_ d (start (R * round_len g) (i + 1)) = [] ->
  map_ok (p_sbps (pure i d)) /\
  look (p_sbps (pure i d)) a = (wrap32 (expected_from d a (i * R) (Z.to_nat R)), wrap32 (produced d a (start (R * round_len g) i) (start (R * round_len g) (i + 1)))).
Lemma empty_ok : map_ok []. Proof. clear elected votes_of anc. split; constructor. Qed.
Lemma round_num : numok 1 (pure_round g elected).
Proof. clear votes_of.
  intros i d a C A N I F. rewrite Z.mul_1_l in *. rewrite Z.mul_1_r. change (start (round_len g)) with (round_start g) in *.
  change (Z.to_nat 1) with 1%nat. cbn [StatsSpec.expected_from]. rewrite Z.add_0_r. unfold expected. unfold produced. rewrite (during_from' d _ _ F). unfold pure_round.
  destruct (from_ d (round_start g i)) as [|x bs] eqn:FD.
  - split; [apply empty_ok|]. reflexivity.
  - cbn [p_sbps]. unfold round_sbps.
    destruct (fold_add b_producer 0 1 (rev (x :: bs)) ltac:(unfold u32; lia) ltac:(unfold u32; lia) [] empty_ok) as [O1 L1].
    destruct (fold_add sl_member 1 0 (gen_plan g i (members elected g d i)) ltac:(unfold u32; lia) ltac:(unfold u32; lia) _ O1) as [O2 L2].
    split; [exact O2|]. rewrite L2, L1. cbn [fst snd]. rewrite plan_count by auto. rewrite map_rev, count_rev. change (look [] a) with (0, 0). cbn [fst snd]. unfold wrap32. rewrite !Zplus_mod_idemp_l. f_equal; f_equal; ring.
Qed.
Lemma pm_num R lower : 0 < R -> shape g anc (R * round_len g) lower -> numok R lower ->
  forall n i d r a, chain_ok g d -> anc_ok d -> d <> [] -> Z.of_nat n <= i -> i * (R * round_len g) < 2 ^ 63 -> from_ d (start (R * round_len g) i) = [] -> map_ok (p_sbps r) ->
  map_ok (p_sbps (pure_merge g lower (R * round_len g) n i d r)) /\
  look (p_sbps (pure_merge g lower (R * round_len g) n i d r)) a =
    (wrap32 (fst (look (p_sbps r) a) + expected_from d a ((i - Z.of_nat n) * R) (n * Z.to_nat R)),
     wrap32 (snd (look (p_sbps r) a) + produced d a (start (R * round_len g) (i - Z.of_nat n)) (start (R * round_len g) i))).
Proof. clear votes_of.
  intros PR SH NU. pose proof (ok_pos g OK) as (P1 & P2 & P3 & P4). set (L := R * round_len g) in *. assert (PL : 0 < L) by (subst L; nia).
  induction n as [|k IH]; intros i d r a C A N NI IL F O.
  - cbn [pure_merge Nat.mul StatsSpec.expected_from]. split; [exact O|]. destruct (look_u _ a O). replace (i - Z.of_nat 0) with i by lia.
    replace (produced d a (start L i) (start L i)) with 0; [rewrite !Z.add_0_r, !wrap32_small by auto; now destruct (look (p_sbps r) a)|].
    unfold produced, during. rewrite filter_none; [reflexivity|]. apply Forall_forall. intros; lia.
  - cbn [pure_merge]. replace (i - Z.of_nat (S k)) with (i - 1 - Z.of_nat k) by lia. set (j := i - 1 - Z.of_nat k).
    assert (EX : expected_from d a (j * R) (S k * Z.to_nat R) = expected_from d a (j * R) (k * Z.to_nat R) + expected_from d a ((i - 1) * R) (Z.to_nat R)).
    { replace (S k * Z.to_nat R)%nat with (k * Z.to_nat R + Z.to_nat R)%nat by lia. rewrite expected_from_app. do 2 f_equal. rewrite Nat2Z.inj_mul, Z2Nat.id by lia. subst j. ring. }
    assert (PX : produced d a (start L j) (start L i) = produced d a (start L j) (start L (i - 1)) + produced d a (start L (i - 1)) (start L i)).
    { apply produced_split; [|apply C]. unfold StatsProofs3.start. subst j. nia. }
    assert (RS : forall x, round_start g (x * R) = start L x) by (intro x; unfold round_start, StatsProofs3.start, L; ring).
    destruct (from_ d (start L (i - 1))) as [|x bs] eqn:FD.
    + destruct (IH (i - 1) d r a C A N ltac:(lia) ltac:(nia) FD O) as [O' L']. split; [exact O'|]. rewrite L', EX, PX. fold j.
      rewrite (expected_from_nil g OK elected d a (Z.to_nat R) ((i - 1) * R)) by (rewrite RS; auto).
      replace (produced d a (start L (i - 1)) (start L i)) with 0; [now rewrite !Z.add_0_r|]. unfold produced. rewrite (during_from' d _ _ F), FD. reflexivity.
    + destruct (cut_ok g anc d (start L (i - 1)) C A N) as (C' & A' & N').
      assert (II : idx_ok L (i - 1)) by (split; [lia|]; replace (i - 1 + 1) with i by lia; auto).
      assert (FE : from_ d (start L (i - 1 + 1)) = []) by (replace (i - 1 + 1) with i by lia; exact F).
      destruct (NU (i - 1) d a C A N II FE) as [NO NL]. fold L in NL. replace (i - 1 + 1) with i in NL by lia.
      assert (MO : map_ok (merge_map (p_sbps r) (p_sbps (lower (i - 1) d)))) by (apply merge_ok; auto; apply NO).
      destruct (IH (i - 1) (cut d (start L (i - 1))) {| p_prev := p_prev (lower (i - 1) d); p_hash := p_hash r; p_sbps := merge_map (p_sbps r) (p_sbps (lower (i - 1) d)); p_votes := p_votes r |} a C' A' N' ltac:(lia) ltac:(nia) (from_cut_nil _ _) MO) as [O' L'].
      split; [exact O'|]. rewrite L'. cbn [p_sbps]. destruct NO as [NO1 NO2]. rewrite (merge_look _ a NO1 NO2 _ O), NL. fold j. cbn [fst snd]. rewrite EX, PX.
      rewrite expected_from_cut; auto; [|subst j; nia|].
      * rewrite produced_cut by lia. unfold wrap32. rewrite !Zplus_mod_idemp_r, !Zplus_mod_idemp_l. f_equal; f_equal; ring.
      * rewrite Nat2Z.inj_mul, Z2Nat.id by lia. rewrite <- RS. unfold round_start. subst j. nia.
Qed.
Lemma up_num R lower rate extra : 0 < R -> 0 < rate -> shape g anc (R * round_len g) lower -> numok R lower -> numok (rate * R) (pure_up g lower (R * round_len g) rate extra).
Proof. clear votes_of.
  intros PR PT SH NU i d a C A N I F. replace (rate * R * round_len g) with (rate * (R * round_len g)) in * by ring. rewrite !(up_start g (R * round_len g) rate) in *. destruct I as [I0 I1]. pose proof (ok_pos g OK) as (P1 & P2 & P3 & P4).
  assert (0 < R * round_len g) by nia.
  destruct (pm_num R lower PR SH NU (Z.to_nat rate) (i * rate + rate) d (empty_point (lasth d)) a C A N) as [O L]; auto; try nia.
  { replace (i * rate + rate) with ((i + 1) * rate) by ring. exact F. }
  { apply empty_ok. }
  replace (i * rate + rate - Z.of_nat (Z.to_nat rate)) with (i * rate) in L by lia. replace (i * rate + rate) with ((i + 1) * rate) in L by ring.
  assert (SB : p_sbps (pure_up g lower (R * round_len g) rate extra i d) = p_sbps (pure_merge g lower (R * round_len g) (Z.to_nat rate) (i * rate + rate) d (empty_point (lasth d)))).
  { unfold pure_up. destruct extra; [|reflexivity]. destruct (is_empty _); reflexivity. }
  rewrite SB. split; [exact O|]. replace (i * rate + rate) with ((i + 1) * rate) by ring. rewrite L. change (look (p_sbps (empty_point (lasth d))) a) with (0, 0). cbn [fst snd]. rewrite !Z.add_0_l.
  replace (i * (rate * R)) with (i * rate * R) by ring. rewrite Z2Nat.inj_mul by lia. reflexivity.
Qed.

(** ** The three levels *)
Lemma sec_pos : 0 < sec. Proof. clear elected votes_of anc. rewrite sec_val. lia. Qed.
Lemma per_hour_eq : per_hour * round_len g = hour /\ 0 < per_hour /\ hour_rate g = per_hour.
Proof. clear elected votes_of anc.
  pose proof (ok_pos g OK) as (P1 & P2 & P3 & P4). pose proof sec_pos. pose proof hour_val as HV. unfold hour_whole in HW.
  assert (E : per_hour * round_len g = hour) by (unfold StatsProofs3.per_hour; pose proof (Z.div_mod hour (round_len g)); lia). split; [exact E|]. split; [nia|].
  unfold hour_rate, StatsProofs3.per_hour. rewrite <- HV. f_equal. pose proof (interval_eq g OK) as IE. cbn [group_index ti_interval] in IE. rewrite Z.mul_comm. exact IE.
Qed.
Lemma round_len_aligned : round_len g mod sec = 0.
Proof. clear elected votes_of anc. unfold round_len, slot_len. replace (slots g * (g_interval g * sec)) with ((slots g * g_interval g) * sec) by ring. apply Z.mod_mul. pose proof sec_pos. lia. Qed.
Lemma hour_shape : shape g anc hour pure_hour.
Proof. clear votes_of.
  pose proof per_hour_eq as (E & P & _). pose proof (ok_pos g OK) as (P1 & P2 & P3 & P4). rewrite <- E. unfold StatsProofs3.pure_hour. apply up_shape; auto. apply round_shape.
Qed.
Lemma hour_num : numok per_hour pure_hour.
Proof. clear votes_of.
  pose proof per_hour_eq as (E & P & _). unfold StatsProofs3.pure_hour. replace per_hour with (per_hour * 1) at 1 by ring. replace (round_len g) with (1 * round_len g) at 1 by ring.
  apply up_num; auto; try lia; [|apply round_num]. rewrite Z.mul_1_l. apply round_shape.
Qed.
Lemma hour_level : level g elected votes_of anc (hour_get elected g) hour pure_hour.
Proof.
  pose proof per_hour_eq as (E & P & R). pose proof (ok_pos g OK) as (P1 & P2 & P3 & P4). rewrite <- E. unfold hour_get, StatsProofs3.pure_hour. rewrite R. apply linked_level; auto.
  - apply round_len_aligned.
  - apply round_shape.
  - apply round_level; auto.
  - unfold hour_index. now rewrite E, hour_val.
  - intros s i p GD. apply (gd_hours _ _ _ _ s GD).
  - intros s x [G1 G2 G3 G4 G5] H. constructor; auto.
Qed.
Lemma day_shape : shape g anc (24 * hour) pure_day.
Proof. unfold StatsProofs3.pure_day. assert (0 < hour) by (rewrite hour_val; pose proof sec_pos; lia). exact (up_shape g anc pure_hour hour 24 (Some votes_of) H ltac:(lia) hour_shape). Qed.
Lemma day_num : numok (24 * per_hour) pure_day.
Proof.
  pose proof per_hour_eq as (E & P & _). unfold StatsProofs3.pure_day. rewrite <- E. apply up_num; auto; try lia; [rewrite E; apply hour_shape|apply hour_num].
Qed.
Lemma day_level : level g elected votes_of anc (day_get elected g votes_of) (24 * hour) pure_day.
Proof.
  unfold day_get, StatsProofs3.pure_day. pose proof sec_pos. apply linked_level; auto; try lia.
  - apply hour_shape.
  - apply hour_level.
  - intros s i p GD. apply (gd_days _ _ _ _ s GD).
  - intros s x [G1 G2 G3 G4 G5] H0. constructor; auto.
Qed.

(** ** Queries without a proof hash *)
Lemma by_index_eq ix f L pure s i : 0 < L -> L mod sec = 0 -> level g elected votes_of anc f L pure -> ix = {| ti_genesis := g_genesis g; ti_interval := L |} -> good s -> idx_ok L i ->
  exists s', by_index ix f s i = (Some (pure i (cut (n_chain s) (start L (i + 1)))), s') /\ good s' /\ n_chain s' = n_chain s.
Proof.
  intros P AL LV IX GD I. pose proof (grown_ok g OK elected _ (gd_chain _ _ _ _ s GD)) as [C _]. pose proof sec_pos.
  assert (GE : g_genesis g < start L (i + 1)) by (destruct I; unfold StatsProofs3.start; nia).
  unfold by_index, proof_hash. rewrite IX, index2time_gen by auto. cbn [snd]. change (g_genesis g + (i + 1) * L) with (start L (i + 1)).
  assert (AT : (start L (i + 1) - g_genesis g) mod sec = 0) by (unfold StatsProofs3.start; replace (g_genesis g + (i + 1) * L - g_genesis g) with ((i + 1) * L) by ring; rewrite Z.mul_mod, AL, Z.mul_0_r by lia; reflexivity).
  rewrite (found_before g (n_chain s) _ C AT GE), (cut_filter g (n_chain s) _ C GE). pose proof (cut_split (n_chain s) (start L (i + 1)) (co_rise g _ C)) as S.
  assert (N : n_chain s <> []) by (destruct (co_first g _ C) as (b & r & -> & _); discriminate).
  rewrite (block_at_top (n_chain s) (cut (n_chain s) (start L (i + 1))) (from_ (n_chain s) (start L (i + 1))) S (cut_nonempty _ _ N)). cbn [option_map].
  apply (LV s i (cut (n_chain s) (start L (i + 1))) (from_ (n_chain s) (start L (i + 1))) GD S (cut_nonempty _ _ N) I).
  apply cut_time; auto. intros b r E. destruct (co_first g _ C) as (b' & r' & E' & B'). rewrite E in E'. injection E' as -> ->. lia.
Qed.
Lemma round_at_eq s i : good s -> idx_ok (round_len g) i ->
  exists s', round_at elected g s i = (Some (pure_round g elected i (cut (n_chain s) (round_start g (i + 1)))), s') /\ good s' /\ n_chain s' = n_chain s.
Proof.
  intros GD I. pose proof (ok_pos g OK) as (P1 & P2 & P3 & P4). apply (by_index_eq (round_index g) (round_get elected g) (round_len g) (pure_round g elected)); auto.
  - apply round_len_aligned.
  - apply round_level; auto.
  - change (round_index g) with (group_index g). unfold group_index. f_equal. apply (interval_eq g OK).
Qed.
Lemma hour_at_eq s i : good s -> idx_ok hour i -> exists s', hour_at elected g s i = (Some (pure_hour i (cut (n_chain s) (hour_start g (i + 1)))), s') /\ good s' /\ n_chain s' = n_chain s.
Proof.
  intros GD I. pose proof sec_pos. apply (by_index_eq (hour_index g) (hour_get elected g) hour pure_hour); auto.
  - apply hour_level.
Qed.
Lemma day_at_eq s i : good s -> idx_ok (24 * hour) i -> exists s', day_at elected g votes_of s i = (Some (pure_day i (cut (n_chain s) (day_start g (i + 1)))), s') /\ good s' /\ n_chain s' = n_chain s.
Proof.
  intros GD I. pose proof sec_pos. apply (by_index_eq (day_index g) (day_get elected g votes_of) (24 * hour) pure_day); auto.
  - apply day_level.
Qed.
End N.
