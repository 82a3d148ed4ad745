(** C13, C14: what quota an account gets and what blocks cost. *)
From Verif Require Import Lib QuotaTables QuotaModel QuotaSpec QuotaProofs QuotaProofs2.
Local Opaque search_fuel.

(** ** C13 *)
(** The tables of the main network, and the PoW table of the test network, are proper step tables. *)
Theorem quota_tables_rising : rising (stake_list mainnet) /\ rising (difficulty_list mainnet) /\ rising (difficulty_list testnet).
Proof. destruct mainnet_rising. split; [|split]; auto using testnet_difficulty_rising. Qed.

(** For every amount and congestion ratio the lookup finds exactly the step reached, never panics, and stays below the cap. *)
Theorem quota_lookup_exact table qc congested amount : rising table ->
  exists q, lookup_quota table qc congested amount = Some q /\ earns table qc congested amount q /\ 0 <= q <= 999880.
Proof. apply lookup_earns. Qed.
(** ... and that is the only value the step function allows. *)
Theorem quota_step_function table qc congested amount q r : rising table ->
  earns table qc congested amount q -> earns table qc congested amount r -> q = r.
Proof. apply earns_unique. Qed.
Example lookup_ex : lookup_quota stake_mainnet 0 false 134000000000000000000 = Some 280
  /\ lookup_quota stake_mainnet 0 false 133999999999999999999 = Some 0.
Proof. Transparent search_fuel. vm_compute. split; reflexivity. Qed.
Local Opaque search_fuel.

(** The congestion ratio is the table row for the quota used by the whole network. *)
Theorem congestion_ratio_exact upgraded used : 0 <= used -> used + unit_ <= two64 ->
  let '(qc, congested) := calc_qc upgraded used in congestion qc_mainnet upgraded used qc congested.
Proof.
  intros H H'. pose proof (calc_qc_spec upgraded used H ltac:(unfold qc_gap, unit_ in *; lia)) as S.
  now destruct (calc_qc upgraded used).
Qed.

(** More stake or more work never earns less, at any congestion. *)
Theorem quota_monotone table upgraded used a b qa qb : rising table -> a <= b ->
  let '(qc, congested) := calc_qc upgraded used in
  lookup_quota table qc congested a = Some qa -> lookup_quota table qc congested b = Some qb -> qa <= qb.
Proof.
  intros R H. pose proof (calc_qc_range upgraded used) as Q. destruct (calc_qc upgraded used) as [qc c].
  destruct Q as [_ Q]. now apply lookup_mono.
Qed.
(** A busier network never lets the same amount earn more. *)
Theorem congestion_never_helps table upgraded used used' a q q' : rising table ->
  0 <= used -> used <= used' -> used' + unit_ <= two64 ->
  (let '(qc, c) := calc_qc upgraded used in lookup_quota table qc c a = Some q) ->
  (let '(qc, c) := calc_qc upgraded used' in lookup_quota table qc c a = Some q') -> q' <= q.
Proof.
  intros R H0 H1 H2. assert (0 <= Z.max 0 a) by lia.
  pose proof (effective_antitone upgraded used used' (Z.max 0 a) H0 H1 ltac:(unfold qc_gap, unit_ in *; lia) H) as E.
  destruct (calc_qc upgraded used) as [qc c], (calc_qc upgraded used') as [qc' c']. cbn [fst snd] in E.
  intros L L'. destruct (lookup_spec table qc c a R) as (i & E1 & _ & S1). destruct (lookup_spec table qc' c' a R) as (j & E2 & _ & S2).
  rewrite E1 in L. rewrite E2 in L'. injection L as <-. injection L' as <-. unfold steps_of in *.
  pose proof (step_mono table _ _ _ _ E S2 S1). unfold quota_for_section. lia.
Qed.
Example congestion_ex : calc_qc true (50 * unit_) = (qc_division, false) /\ snd (calc_qc true (50 * unit_ + 1)) = true
  /\ fst (calc_qc true (50 * unit_ + 1)) < qc_division.
Proof. vm_compute. repeat split. Qed.

(** The quota for a block is what the account saved up in the window, plus what its stake and work earn now, minus what
    is pending, up to a million; overdrawn accounts get an error and blocked contracts get nothing. *)
Theorem block_quota_exact cf db stake difficulty blocked s p : (blocked = true <-> blocked_contract db) -> rising (stake_list cf) -> rising (difficulty_list cf) -> db_ok db ->
  let '(qc, c) := calc_qc (q_upgraded db) (q_global db) in
  earns (stake_list cf) qc c stake s -> earns (difficulty_list cf) qc c difficulty p ->
  (difficulty <= 0 \/ existsb (fun b => b) (q_unconfirmed db) = false) ->
  may_spend blocked (past_of db) (pending_of db) s p (quota_for_block cf db stake difficulty).
Proof.
  intro HB. replace blocked with (fst (is_blocked db)); [apply block_exact|]. unfold is_blocked, blocked_contract, out_of_quota_block_time in *.
  destruct (q_contract db); cbn [negb fst]; [|destruct blocked; [destruct (proj1 HB eq_refl); discriminate|reflexivity]].
  destruct (q_last_failed db) as [n|]; cbn [fst].
  - destruct (n <? 75) eqn:E; cbn [fst]; symmetry; [apply HB; split; [reflexivity|exists n; split; [reflexivity|lia]]|].
    destruct blocked; [|reflexivity]. destruct (proj1 HB eq_refl) as (_ & m & M1 & M2). injection M1 as <-. lia.
  - destruct blocked; [|reflexivity]. destruct (proj1 HB eq_refl) as (_ & m & M1 & _). discriminate.
Qed.
(** A blocked contract is told after how many more confirmations it is released. *)
Theorem block_release_exact db : let '(blocked, release) := is_blocked db in
  (blocked = true <-> blocked_contract db) /\ (blocked = true -> exists n, q_last_failed db = Some n /\ release + n = 75).
Proof.
  unfold is_blocked, blocked_contract, out_of_quota_block_time.
  destruct (q_contract db); cbn [negb]; [|split; [split; [discriminate|intros [? _]; discriminate]|discriminate]].
  destruct (q_last_failed db) as [n|]; [|split; [split; [discriminate|intros (_ & ? & ? & _); discriminate]|discriminate]].
  destruct (n <? 75) eqn:E.
  - split; [split; [intros _; split; [reflexivity|exists n; split; [reflexivity|lia]]|reflexivity]|]. intros _. exists n. split; [reflexivity|lia].
  - split; [split; [discriminate|]|discriminate]. intros (_ & m & M1 & M2). injection M1 as <-. lia.
Qed.
Example blocked_ex : quota_for_block mainnet (mkQdb true 0 [mkQinfo 0 0 0] true (Some 74) []) 10000000000000000000000 0 = BOk 0 0
  /\ quota_for_block mainnet (mkQdb true 0 [mkQinfo 0 0 0] true (Some 75) []) 10000000000000000000000 0 = BOk 21000 0.
Proof. Transparent search_fuel. split; vm_compute; reflexivity. Qed.
Local Opaque search_fuel.
(** An account with an unconfirmed proof-of-work block cannot get quota from another one. *)
Theorem one_pow_per_snapshot cf db stake difficulty : 0 < difficulty -> In true (q_unconfirmed db) ->
  quota_for_block cf db stake difficulty = BErr.
Proof.
  intros H HI. unfold quota_for_block, calc_quota, can_pow.
  replace (existsb (fun b => b) (q_unconfirmed db)) with true by (symmetry; apply existsb_exists; eauto).
  replace (0 <? difficulty) with true by lia. reflexivity.
Qed.
(** The cap, and no panic. *)
Theorem block_quota_capped cf db stake difficulty : rising (stake_list cf) -> rising (difficulty_list cf) -> db_ok db ->
  match quota_for_block cf db stake difficulty with
  | BOk total addition => 0 <= addition <= 999880 /\ 0 <= total <= 1000000
  | BErr => True | BPanic => False
  end.
Proof.
  intros R1 R2 D. pose proof (block_exact cf db stake difficulty) as B.
  destruct (calc_qc (q_upgraded db) (q_global db)) as [qc c].
  destruct (lookup_earns (stake_list cf) qc c stake R1) as (s & _ & E & Hs).
  destruct (lookup_earns (difficulty_list cf) qc c difficulty R2) as (p & _ & F & Hp).
  destruct (Z_lt_le_dec 0 difficulty) as [Hd|Hd]; [destruct (existsb (fun b => b) (q_unconfirmed db)) eqn:EX|].
  - apply existsb_exists in EX as (x & Hx & ->). now rewrite one_pow_per_snapshot.
  - specialize (B s p R1 R2 D E F (or_intror eq_refl)). inversion B; try exact I; lia.
  - specialize (B s p R1 R2 D E F (or_introl Hd)). inversion B; try exact I; lia.
Qed.
(** More stake, or more work on top of work, never yields less quota for a block and never turns a success into an error. *)
Theorem block_quota_monotone cf db stake stake' difficulty difficulty' total addition :
  rising (stake_list cf) -> rising (difficulty_list cf) -> db_ok db ->
  stake <= stake' -> difficulty <= difficulty' -> (0 < difficulty \/ difficulty' <= 0 \/ ~ In true (q_unconfirmed db)) ->
  quota_for_block cf db stake difficulty = BOk total addition ->
  exists total' addition', quota_for_block cf db stake' difficulty' = BOk total' addition' /\ total <= total' /\ addition <= addition'.
Proof.
  intros R1 R2 D H1 H2 HP HQ. pose proof (block_exact cf db stake difficulty) as B. pose proof (block_exact cf db stake' difficulty') as B'.
  pose proof (calc_qc_range (q_upgraded db) (q_global db)) as Q.
  destruct (calc_qc (q_upgraded db) (q_global db)) as [qc c]. destruct Q as [_ Q].
  destruct (lookup_earns (stake_list cf) qc c stake R1) as (s & L1 & E1 & _).
  destruct (lookup_earns (stake_list cf) qc c stake' R1) as (s' & L2 & E2 & _).
  destruct (lookup_earns (difficulty_list cf) qc c difficulty R2) as (p & L3 & E3 & P3).
  destruct (lookup_earns (difficulty_list cf) qc c difficulty' R2) as (p' & L4 & E4 & P4).
  pose proof (lookup_mono _ _ _ _ _ _ _ R1 Q H1 L1 L2) as Ms. pose proof (lookup_mono _ _ _ _ _ _ _ R2 Q H2 L3 L4) as Mp.
  assert (NP : 0 < difficulty -> existsb (fun b => b) (q_unconfirmed db) = false).
  { intro Hd. destruct (existsb (fun b => b) (q_unconfirmed db)) eqn:EX; [|reflexivity]. apply existsb_exists in EX as (x & Hx & ->).
    rewrite one_pow_per_snapshot in HQ; auto; discriminate. }
  assert (C : difficulty <= 0 \/ existsb (fun b => b) (q_unconfirmed db) = false).
  { destruct (Z_lt_le_dec 0 difficulty); auto. }
  assert (C' : difficulty' <= 0 \/ existsb (fun b => b) (q_unconfirmed db) = false).
  { destruct HP as [HP|[HP|HP]]; auto. right. destruct (existsb (fun b => b) (q_unconfirmed db)) eqn:EX; [|reflexivity].
    apply existsb_exists in EX as (x & Hx & ->). tauto. }
  specialize (B s p R1 R2 D E1 E3 C). specialize (B' s' p' R1 R2 D E2 E4 C'). rewrite HQ in B.
  destruct B' as [Z1 Z2 Z3|Z1 Z2 Z3|sv u Z1 Z2 Z3|sv u Z1 Z2 Z3 Z4|sv u Z1 Z2 Z3 Z4]; inversion B; subst; try congruence;
    try match goal with A : pending_of db = Some ?u, A' : pending_of db = Some ?v |- _ => assert (u = v) by congruence; subst end;
    try match goal with A : saved_up s _ ?x, A' : saved_up s' _ ?y |- _ => pose proof (saved_mono _ _ _ _ _ Ms A A') end;
    try (exfalso; lia); eexists _, _; (split; [reflexivity|]); lia.
Qed.
Definition ex_db : qdb := mkQdb true 0 [mkQinfo 1 21000 21000; mkQinfo 0 0 0; mkQinfo 1 21000 21000] false None [].
Example ex_block : db_ok ex_db /\ quota_for_block mainnet ex_db 10000000000000000000000 0 = BOk 21000 0
  /\ quota_for_block mainnet ex_db 20000000000000000000000 0 = BOk 83160 0.
Proof.
  split; [split; [vm_compute; discriminate|repeat (apply Forall_cons || apply Forall_nil); cbn; lia]|].
  Transparent search_fuel. split; vm_compute; reflexivity.
Qed.
Local Opaque search_fuel.

(** The work reported as needed for a quota earns it, no smaller difficulty does, and "limit reached" is reported only when
    no 256-bit difficulty would. *)
Theorem pow_difficulty_exact cf upgraded used required current : rising (difficulty_list cf) ->
  0 <= current < required ->
  let '(qc, c) := calc_qc upgraded used in
  match pow_difficulty cf upgraded used required current with
  | QOk d => (exists q, lookup_quota (difficulty_list cf) qc c d = Some q /\ required <= q) /\
             (forall d' q, d' < d -> lookup_quota (difficulty_list cf) qc c d' = Some q -> q < required)
  | QLimit => forall d q, d < two256 -> lookup_quota (difficulty_list cf) qc c d = Some q -> q < required
  | QPanic => False
  end.
Proof.
  intros R Hc. unfold pow_difficulty. pose proof (calc_qc_range upgraded used) as Q.
  destruct (calc_qc upgraded used) as [qc c]. destruct Q as [Q Qn].
  assert (NB : forall d q, lookup_quota (difficulty_list cf) qc c d = Some q -> q <= 999880) by (intros d q L; apply (lookup_bound _ _ _ _ _ R L)).
  destruct (quota_limit_block <? required) eqn:E1.
  { intros d q _ L. specialize (NB d q L). unfold quota_limit_block in E1. lia. }
  replace (required <=? current) with false by lia. unfold quota_limit_block in E1. rewrite index_by_quota_spec by (unfold quota_limit_block; lia).
  unfold max_quota, section_len, quota_for_section. destruct (3571 * 280 <? required) eqn:E2.
  { intros d q _ L. specialize (NB d q L). lia. }
  assert (Hi : 1 <= (required + 279) / 280 <= 3571) by lia.
  assert (HR : forall q k, q = 280 * k -> (required <= q <-> 280 * ((required + 279) / 280) <= q)) by (intros q k ->; lia).
  destruct (at_some (difficulty_list cf) ((required + 279) / 280)) as [t Ht]; [destruct R as (R1 & _); unfold section_len in *; lia|].
  rewrite Ht. pose proof Ht as Hn. apply at_nth in Hn as [_ Hn].
  assert (Htp : 0 < t).
  { assert (A := asc _ R 0 ((required + 279) / 280) 0 t ltac:(lia) ltac:(lia) (at_zero _ R) Ht). exact A. }
  assert (KEY : forall d q, 0 <= d -> lookup_quota (difficulty_list cf) qc c d = Some q -> (required <= q <-> t <= effective qc c d)).
  { intros d q Hd L. destruct (lookup_earns _ qc c d R) as (q' & L' & E & _). assert (q' = q) by congruence. subst q'.
    rewrite <- (earns_iff _ qc c d ((required + 279) / 280) t q R ltac:(unfold section_len; lia) Hn Hd E). destruct E as (k & _ & Ek). apply (HR q k Ek). }
  assert (NEG : forall d q, d < 0 -> lookup_quota (difficulty_list cf) qc c d = Some q -> q < required).
  { intros d q Hd L. unfold lookup_quota in L. replace (d <=? 0) with true in L by lia. injection L as <-. lia. }
  destruct c; cbn [negb].
  - specialize (Q eq_refl). destruct (target_spec qc t ltac:(lia) ltac:(lia)) as (d & T1 & T2 & T3). rewrite T1.
    assert (Hd : 0 <= d).
    { destruct (Z_lt_le_dec d 0) as [Hd|Hd]; [|exact Hd]. exfalso. unfold stake_param in T2. cbn [negb] in T2.
      assert (d * qc / qc_division < 0) by (apply Z.div_lt_upper_bound; [reflexivity|nia]). lia. }
    rewrite effective_param in T2.
    assert (MIN : forall d' q, d' < d -> lookup_quota (difficulty_list cf) qc true d' = Some q -> q < required).
    { intros d' q Hd' L. destruct (Z_lt_le_dec d' 0) as [Hn'|Hn']; [now apply (NEG d')|].
      specialize (T3 d' Hd'). rewrite effective_param in T3. pose proof (KEY d' q Hn' L). lia. }
    unfold fits256. destruct (d <? two256) eqn:E3.
    + split; [|exact MIN]. destruct (lookup_earns _ qc true d R) as (q & L & _). exists q. split; [exact L|]. apply (KEY d q Hd L). exact T2.
    + intros d' q Hd' L. apply (MIN d'); auto. lia.
  - split.
    + destruct (lookup_earns _ qc false t R) as (q & L & _). exists q. split; [exact L|]. apply (KEY t q ltac:(lia) L). cbn. lia.
    + intros d' q Hd' L. destruct (Z_lt_le_dec d' 0) as [Hn'|Hn']; [now apply (NEG d')|]. pose proof (KEY d' q Hn' L). cbn in H. lia.
Qed.
(** With enough quota no work is asked for. *)
Theorem pow_not_needed cf upgraded used required current : required <= 1000000 -> required <= current ->
  pow_difficulty cf upgraded used required current = QOk 0.
Proof.
  intros H1 H2. unfold pow_difficulty, quota_limit_block. replace (1000000 <? required) with false by lia.
  now replace (required <=? current) with true by lia.
Qed.
Example pow_ex : pow_difficulty mainnet true 0 21000 0 = QOk 67108863 /\ calc_qc true 0 = (qc_division, false).
Proof. vm_compute. split; reflexivity. Qed.

(** The stake reported for a quota earns it in an uncongested network, and no smaller stake does. *)
Theorem stake_amount_exact cf q : rising (stake_list cf) -> 1 <= q ->
  match stake_amount_by_quota cf q with
  | QOk a => (exists r, lookup_quota (stake_list cf) 0 false a = Some r /\ q <= r) /\
             (forall a' r, a' < a -> lookup_quota (stake_list cf) 0 false a' = Some r -> r < q)
  | QLimit => forall a r, lookup_quota (stake_list cf) 0 false a = Some r -> r < q
  | QPanic => False
  end.
Proof.
  intros R Hq. unfold stake_amount_by_quota, max_quota, section_len, quota_for_section.
  destruct (3571 * 280 <? q) eqn:E1. { intros a r L. pose proof (lookup_bound _ _ _ _ _ R L). lia. }
  replace (q =? 0) with false by lia. replace (q + 280 - 1) with (q + 279) by lia.
  assert (Hi : 1 <= (q + 279) / 280 <= 3571) by lia.
  assert (HR : forall r k, r = 280 * k -> (q <= r <-> 280 * ((q + 279) / 280) <= r)) by (intros r k ->; lia).
  destruct (at_some (stake_list cf) ((q + 279) / 280)) as [t Ht]; [destruct R as (R1 & _); unfold section_len in *; lia|].
  rewrite Ht. pose proof Ht as Hn. apply at_nth in Hn as [_ Hn].
  assert (Htp : 0 < t) by (exact (asc _ R 0 ((q + 279) / 280) 0 t ltac:(lia) ltac:(lia) (at_zero _ R) Ht)).
  assert (KEY : forall d r, 0 <= d -> lookup_quota (stake_list cf) 0 false d = Some r -> (q <= r <-> t <= d)).
  { intros d r Hd L. destruct (lookup_earns _ 0 false d R) as (r' & L' & E & _). assert (r' = r) by congruence. subst r'.
    change d with (effective 0 false d) at 1. rewrite <- (earns_iff _ 0 false d ((q + 279) / 280) t r R ltac:(unfold section_len; lia) Hn Hd E).
    destruct E as (k & _ & Ek). apply (HR r k Ek). }
  split.
  - destruct (lookup_earns _ 0 false t R) as (r & L & _). exists r. split; [exact L|]. apply (KEY t r ltac:(lia) L). lia.
  - intros a' r Ha L. destruct (Z_lt_le_dec a' 0) as [Hn'|Hn'].
    + unfold lookup_quota in L. replace (a' <=? 0) with true in L by lia. injection L as <-. lia.
    + pose proof (KEY a' r Hn' L). lia.
Qed.
Transparent search_fuel.
Example stake_ex : stake_amount_by_quota mainnet 21000 = QOk 10000000000000000000000.
Proof. vm_compute. reflexivity. Qed.
(** On the test network the stake table repeats its entries: the lookup does not return the step reached, and the stake
    reported for a quota is not enough for it. *)
Theorem testnet_stake_refuted : exists amount q i, lookup_quota (stake_list testnet) 0 false amount = Some q
  /\ q < 280 * i /\ nth_error (stake_list testnet) (Z.to_nat i) = Some amount
  /\ exists want a got, stake_amount_by_quota testnet want = QOk a /\ lookup_quota (stake_list testnet) 0 false a = Some got /\ got < want.
Proof.
  exists 1000000000000000000, 1680, 7. do 3 (split; [vm_compute; reflexivity|]).
  exists 200000, 97000000000000000000, 199080. do 2 (split; [vm_compute; reflexivity|]). reflexivity.
Qed.

(** ** C14 *)
(** exact: the mathematical value, or an error if it does not fit *)
Definition exact_or_error (r : option Z) (v : Z) : Prop :=
  match r with Some x => x = v /\ 0 <= v <= max_u64 | None => max_u64 < v end.
Theorem data_cost_exact len price : 0 <= len -> 1 <= price -> exact_or_error (data_cost len price) (len * price).
Proof.
  intros H H'. unfold data_cost, exact_or_error. destruct (0 <? len) eqn:E; [|assert (len = 0) by lia; subst; unfold max_u64, two64; lia].
  destruct (max_u64 / price <? len) eqn:E1.
  - pose proof (Z.mul_succ_div_gt max_u64 price ltac:(lia)). nia.
  - pose proof (Z.mul_div_le max_u64 price ltac:(lia)). assert (len * price <= max_u64) by nia.
    assert (0 <= len * price) by nia. rewrite wrap64_small by (unfold max_u64 in *; lia). lia.
Qed.
(** data, base and confirmation prices add up exactly or fail *)
Theorem block_cost_exact len base snapshots price snapshot_price : 0 <= len -> 1 <= price -> is_u64 base ->
  0 <= snapshots < 256 -> 0 <= snapshot_price < 2 ^ 56 ->
  exact_or_error (block_cost len base snapshots price snapshot_price) (base + len * price + snapshots * snapshot_price).
Proof.
  intros H1 H2 H3 H4 H5. pose proof (data_cost_exact len price H1 H2) as D. unfold block_cost, exact_or_error, is_u64, max_u64 in *.
  assert (0 <= snapshots * snapshot_price < two64) by (unfold two64; change (2 ^ 64) with (256 * 2 ^ 56); nia).
  destruct (data_cost len price) as [d|]; [|lia]. destruct D as [-> D]. cbv zeta. unfold two64 in *.
  rewrite (wrap64_small (2 ^ 64 - 1 - base)) by (unfold two64; lia).
  destruct (2 ^ 64 - 1 - base <? len * price) eqn:E; [lia|]. rewrite (wrap64_small (base + len * price)) by (unfold two64; lia).
  destruct (snapshots =? 0) eqn:E1; [assert (snapshots = 0) by lia; subst; lia|].
  rewrite (wrap64_small (snapshots * snapshot_price)) by (unfold two64; lia).
  rewrite (wrap64_small (2 ^ 64 - 1 - (base + len * price))) by (unfold two64; lia).
  destruct (2 ^ 64 - 1 - (base + len * price) <? snapshots * snapshot_price) eqn:E2; [lia|].
  rewrite wrap64_small by (unfold two64; lia). lia.
Qed.
(** A quota multiplier of 1.0 or more prices exactly: floor(cost * multiplier / 10). An error is possible only if cost * multiplier
    itself does not fit, or the multiplier is below 1.0. *)
Theorem multiple_cost_exact cost mult : is_u64 cost -> 0 <= mult < 256 ->
  match multiple_cost cost mult with
  | Some x => 10 <= mult /\ x = cost * mult / 10 /\ is_u64 x /\ cost <= x
  | None => mult < 10 \/ max_u64 < cost * mult
  end.
Proof.
  intros H1 H2. unfold multiple_cost, common_multiplier, is_u64 in *. destruct (mult <? 10) eqn:E; [lia|].
  destruct (mult =? 10) eqn:E1; [assert (mult = 10) by lia; subst; rewrite Z.div_mul by lia; lia|].
  unfold max_u64 in *. destruct ((two64 - 1) / mult <? cost) eqn:E2.
  - right. pose proof (Z.mul_succ_div_gt (two64 - 1) mult ltac:(lia)). nia.
  - pose proof (Z.mul_div_le (two64 - 1) mult ltac:(lia)). assert (cost * mult < two64) by nia.
    rewrite wrap64_small by nia. assert (cost * 10 <= cost * mult) by nia.
    assert (cost <= cost * mult / 10) by (apply Z.div_le_lower_bound; lia).
    assert (cost * mult / 10 <= cost * mult) by (apply Z.div_le_upper_bound; lia).
    split; [lia|]. split; [reflexivity|]. lia.
Qed.
(** spending never wraps below zero *)
Theorem use_quota_exact left cost : is_u64 left -> is_u64 cost ->
  match use_quota left cost with Some r => r + cost = left /\ is_u64 r | None => left < cost end.
Proof.
  unfold use_quota, is_u64. intros H1 H2. destruct (left <? cost) eqn:E; [lia|]. rewrite wrap64_small by lia. lia.
Qed.
(** the price of a request is exact whenever it fits ... *)
Theorem request_cost_exact_partial len base price : 0 <= len -> 1 <= price -> is_u64 base ->
  (base + len * price <= max_u64 -> request_cost len base price = Some (base + len * price)) /\
  (max_u64 < len * price -> request_cost len base price = None).
Proof.
  intros H1 H2 H3. pose proof (data_cost_exact len price H1 H2) as D. unfold request_cost, exact_or_error, is_u64, max_u64 in *.
  assert (0 <= len * price) by nia.
  destruct (data_cost len price) as [d|]; [|split; intro; [lia|reflexivity]]. destruct D as [-> D]. split; intro; [|lia].
  rewrite (wrap64_small (two64 - 1 - base)) by lia. replace (two64 - 1 - base <? len * price) with false by lia.
  now rewrite wrap64_small by lia.
Qed.
(** ... but when adding the base price overflows, the request is free of charge and no error is returned. *)
Theorem request_cost_overflow_refuted : exists len base price, 0 <= len /\ is_u64 base /\ 1 <= price /\
  max_u64 < base + len * price /\ request_cost len base price = Some 0.
Proof. exists (max_u64 / 68), 21000, 68. vm_compute. repeat split; discriminate. Qed.
(** a refund into the quota left can wrap around *)
Theorem refund_wraps_refuted : exists left cost, is_u64 left /\ is_u64 cost /\ use_quota_flag left cost false = Some 0 /\ 0 < left.
Proof. exists max_u64, 1. vm_compute. repeat split; discriminate. Qed.
(** What a block is charged: everything used, and the part beyond its proof of work against the stake. *)
Theorem quota_used_exact use out_of_quota total addition left : is_u64 total -> 0 <= left <= total -> 0 <= addition ->
  let '(stake_used, used) := quota_used use out_of_quota total addition left in
  if use && negb out_of_quota then used = total - left /\ stake_used = Z.max 0 (used - addition) else used = 0 /\ stake_used = 0.
Proof.
  intros H1 H2 H3. unfold quota_used, is_u64 in *. destruct use; cbn [negb andb]; [|auto]. destruct out_of_quota; cbn [negb]; [auto|].
  cbv zeta. rewrite (wrap64_small (total - left)) by lia. destruct (total - left <? addition) eqn:E; [lia|]. rewrite wrap64_small by lia. lia.
Qed.
(** The use recorded against the stake of a block is what it used beyond the quota its work earns now. *)
Theorem recorded_use_exact cf db is_pow difficulty used p : rising (difficulty_list cf) -> is_u64 used ->
  (let '(qc, c) := calc_qc (q_upgraded db) (q_global db) in earns (difficulty_list cf) qc c difficulty p) ->
  block_quota_used cf db is_pow difficulty used = Some (if is_pow then Z.max 0 (used - p) else used).
Proof.
  intros R Hu HE. unfold block_quota_used. destruct is_pow; cbn [negb]; [|reflexivity].
  destruct (calc_qc (q_upgraded db) (q_global db)) as [qc c].
  destruct (lookup_earns _ qc c difficulty R) as (q & -> & E & _). rewrite (earns_unique _ _ _ _ _ _ R HE E). f_equal.
  destruct (q <? used) eqn:E1; lia.
Qed.
(** Quota excluding unconfirmed blocks: what is saved up plus one more share of the stake. *)
Theorem snapshot_quota_exact cf db stake s saved : rising (stake_list cf) -> rising (difficulty_list cf) -> db_ok db ->
  (let '(qc, c) := calc_qc (q_upgraded db) (q_global db) in earns (stake_list cf) qc c stake s) ->
  saved_up s (past_of db) saved ->
  snapshot_current cf db stake = Some (match q_used db with [] => 0 | _ => saved + s end).
Proof.
  intros R1 R2 (D1 & D2) HE HS. unfold snapshot_current, calc_quota. change (0 <? 0) with false. cbn [andb].
  unfold quota_total. destruct (is_blocked db) as [bl rel]. destruct (calc_qc (q_upgraded db) (q_global db)) as [qc c].
  destruct (lookup_earns _ qc c stake R1) as (s' & -> & E & B). rewrite <- (earns_unique _ _ _ _ _ _ R1 HE E) in *. clear s' E HE.
  destruct (lookup_earns _ qc c 0 R2) as (p & -> & _ & _). unfold past_of in HS.
  destruct (q_used db) as [|x l'] eqn:EL.
  - cbn. destruct bl; reflexivity.
  - assert (exists l y, x :: l' = l ++ [y]) as (l & y & Ely).
    { destruct (@exists_last _ (x :: l') ltac:(discriminate)) as (l & y & H). eauto. }
    rewrite Ely in *. clear x l' Ely EL. rewrite rev_app_distr. rewrite removelast_app1 in *. cbn [rev app].
    apply Forall_app in D2 as [D2 _]. rewrite zlen_app in *. change (zlen [y]) with 1 in *. assert (0 <= zlen l) by (unfold zlen; lia).
    destruct (accumulate_saved s l B D2 ltac:(lia)) as [Sv Sb]. pose proof (saved_unique _ _ _ _ HS Sv). subst saved.
    assert (EB : (if 1 <? zlen l + 1 then accumulate s l 0 else 0) = accumulate s l 0).
    { destruct (1 <? zlen l + 1) eqn:E; [reflexivity|]. destruct l; [reflexivity|]. rewrite zlen_cons in *. unfold zlen in *. lia. }
    rewrite EB. cbv zeta. rewrite (wrap64_small (accumulate s l 0 + s)) by (unfold two64; lia).
    assert (exists t, t = accumulate s l 0 + s) as [t Dt] by eauto. rewrite <- Dt.
    destruct (qi_total y <=? t); destruct bl; destruct l; reflexivity.
Qed.
Example price_ex : data_cost 100 68 = Some 6800 /\ block_cost 100 21000 2 68 40000 = Some 107800 /\ multiple_cost 21001 15 = Some 31501
  /\ multiple_cost max_u64 11 = None /\ request_cost 100 21000 68 = Some 27800 /\ quota_used true false 100000 21000 60000 = (19000, 40000).
Proof. vm_compute. repeat split. Qed.

Print Assumptions quota_lookup_exact.
Print Assumptions block_quota_exact.
Print Assumptions block_quota_monotone.
Print Assumptions congestion_never_helps.
Print Assumptions pow_difficulty_exact.
Print Assumptions stake_amount_exact.
Print Assumptions testnet_stake_refuted.
Print Assumptions block_cost_exact.
Print Assumptions multiple_cost_exact.
