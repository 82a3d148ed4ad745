(** Block production statistics (C24). *)
From Verif Require Import Lib SchedModel SchedSpec SchedProofs SchedProofs2 StatsModel StatsSpec StatsProofs StatsProofs2 StatsProofs3 StatsProofs4 StatsProofs5 StatsProofs6.
Local Opaque sec Z.pow two64 hour search_fuel.

(** ** No more blocks than planned *)
(** In any whole rounds nobody produces more blocks than expected, and expectations are bounded by the number of slots. *)
Theorem produced_at_most_expected elected g c a i n : group_ok g -> grown elected g c -> 0 <= i -> (i + Z.of_nat n) * round_len g < 2 ^ 63 ->
  0 <= produced c a (round_start g i) (round_start g (i + Z.of_nat n)) <= expected_from elected g c a i n /\ expected_from elected g c a i n <= Z.of_nat n * slots g.
Proof.
  intros OK GR I B. split; [split|].
  - unfold produced. apply count_nonneg.
  - apply produced_le_expected; auto.
  - apply expected_bound; auto.
Qed.

Lemma slots_hour g : group_ok g -> hour_whole g -> per_hour g * slots g <= 3600 /\ 0 < per_hour g.
Proof.
  intros OK HW. pose proof (per_hour_eq g OK HW) as (E & P & _). split; [|auto]. pose proof hour_val as HV. pose proof sec_val as SV. unfold round_len in E. pose proof (ok_pos g OK) as (P1 & _).
  assert (S1 : sec <= slot_len g) by (destruct OK; unfold slot_len; nia). assert (per_hour g * slots g * slot_len g = 3600 * sec) by lia. assert (0 < per_hour g * slots g) by nia. nia.
Qed.
Lemma unwrap elected g c a i n R : group_ok g -> grown elected g c -> R = round_start g (i + Z.of_nat n) -> 0 <= i -> (i + Z.of_nat n) * round_len g < 2 ^ 63 -> Z.of_nat n * slots g <= 86400 ->
  (wrap32 (expected_from elected g c a i n), wrap32 (produced c a (round_start g i) R)) = (expected_from elected g c a i n, produced c a (round_start g i) R).
Proof.
  intros OK GR -> I B S. destruct (produced_at_most_expected elected g c a i n OK GR I B) as [[H1 H2] H3]. assert (86400 < 2 ^ 32) by reflexivity. rewrite !wrap32_small by (unfold u32; lia). reflexivity.
Qed.

(** ** Queries *)
(** A round's statistics: for everybody the planned slots (if anyone produced) and the blocks produced. *)
Theorem round_statistics_exact elected g votes_of anc s i : group_ok g -> hour_whole g -> history elected g votes_of anc s -> idx_ok (round_len g) i ->
  exists p, fst (round_at elected g s i) = Some p /\
  forall a, num p a = (expected elected g (n_chain s) a i, produced (n_chain s) a (round_start g i) (round_start g (i + 1))).
Proof.
  intros OK HW H I. pose proof (history_good g OK HW elected votes_of anc s H) as GD. destruct (round_at_eq g OK elected votes_of anc s i GD I) as (s' & -> & _). eexists. split; [reflexivity|]. intro a.
  destruct (good_chain g OK elected votes_of anc s GD) as [C N]. destruct (cut_ok g anc (n_chain s) (round_start g (i + 1)) C (gd_anc _ _ _ _ s GD) N) as (C' & A' & N'). destruct I as [I0 I1].
  destruct (round_num g OK elected anc i _ a C' A' N') as [_ L]; [rewrite Z.mul_1_l; split; auto|rewrite Z.mul_1_l; apply from_cut_nil|]. change (num (pure_round g elected i (cut (n_chain s) (round_start g (i + 1)))) a) with (look (p_sbps (pure_round g elected i (cut (n_chain s) (round_start g (i + 1))))) a).
  rewrite L, Z.mul_1_r, Z.mul_1_l. change (start g (round_len g)) with (round_start g). change (Z.to_nat 1) with 1%nat. rewrite produced_cut by lia.
  rewrite (expected_from_cut g OK elected (n_chain s) a _ 1 C i) by (lia || (change (Z.of_nat 1) with 1; lia)).
  rewrite (unwrap elected g (n_chain s) a i 1); auto; [cbn [expected_from]; now rewrite Z.add_0_r|apply GD|]. destruct (slots_hour g OK HW) as [S P]. pose proof (ok_pos g OK) as (P1 & _). change (Z.of_nat 1) with 1. nia.
Qed.
Theorem hour_statistics_exact elected g votes_of anc s i : group_ok g -> hour_whole g -> history elected g votes_of anc s -> idx_ok hour i ->
  exists p, fst (hour_at elected g s i) = Some p /\
  forall a, num p a = (expected_from elected g (n_chain s) a (i * (hour / round_len g)) (Z.to_nat (hour / round_len g)), produced (n_chain s) a (hour_start g i) (hour_start g (i + 1))).
Proof.
  intros OK HW H I. pose proof (history_good g OK HW elected votes_of anc s H) as GD. destruct (hour_at_eq g OK HW elected votes_of anc s i GD I) as (s' & -> & _). eexists. split; [reflexivity|]. intro a.
  destruct (good_chain g OK elected votes_of anc s GD) as [C N]. destruct (cut_ok g anc (n_chain s) (hour_start g (i + 1)) C (gd_anc _ _ _ _ s GD) N) as (C' & A' & N').
  pose proof (per_hour_eq g OK HW) as (E & P & _). destruct I as [I0 I1]. fold (per_hour g).
  assert (RS : forall x, hour_start g x = round_start g (x * per_hour g)) by (intro x; unfold hour_start, round_start; rewrite <- E; ring).
  assert (RE : (i + 1) * per_hour g = i * per_hour g + Z.of_nat (Z.to_nat (per_hour g))) by lia.
  destruct (hour_num g OK HW elected anc i _ a C' A' N') as [_ L]; [rewrite E; split; auto|rewrite E; apply from_cut_nil|].
  change (num (pure_hour g elected i (cut (n_chain s) (hour_start g (i + 1)))) a) with (look (p_sbps (pure_hour g elected i (cut (n_chain s) (hour_start g (i + 1))))) a).
  rewrite L, E. change (start g hour) with (hour_start g). rewrite produced_cut by lia. rewrite (expected_from_cut g OK elected (n_chain s) a _ _ C (i * per_hour g)) by (try nia; rewrite <- RE, RS; lia).
  rewrite !RS. apply (unwrap elected g (n_chain s) a (i * per_hour g)); auto; [apply GD|now rewrite RE|nia| |].
  - rewrite <- RE, <- Z.mul_assoc, E. auto.
  - rewrite Z2Nat.id by lia. destruct (slots_hour g OK HW). lia.
Qed.
(** What a day's point is. [head_before] is the last block before the end of the day. *)
Definition head_before (c : list sblock) (t : Z) : Z := match rev (filter (fun b => b_time b <? t) c) with b :: _ => b_hash b | [] => 0 end.
Definition day_exact (elected : Z -> list Z) (g : group) (votes_of : Z -> votes) (c : list sblock) (i : Z) (p : point) : Prop :=
  (forall a, num p a = (expected_from elected g c a (i * 24 * (hour / round_len g)) (Z.to_nat (24 * (hour / round_len g))), produced c a (day_start g i) (day_start g (i + 1)))) /\
  NoDup (map fst (p_sbps p)) /\
  (p_votes p = match during c (day_start g i) (day_start g (i + 1)) with [] => None | _ => Some (votes_of (head_before c (day_start g (i + 1)))) end).
Lemma lasth_head c t d : rising (times c) -> filter (lt_ t) c = d -> d <> [] -> head_before c t = lasth d.
Proof.
  intros R <- N. unfold head_before. change (fun b : sblock => b_time b <? t) with (lt_ t). destruct (snoc_of _ N) as (r & E). rewrite E at 1. rewrite rev_app_distr. reflexivity.
Qed.
Lemma day_start_eq g i : start g (24 * hour) i = day_start g i. Proof. reflexivity. Qed.
Lemma up_votes g lower L n f i d : is_empty (pure_up g lower L n (Some f) i d) = false -> p_votes (pure_up g lower L n (Some f) i d) = Some (f (lasth d)).
Proof. unfold pure_up. destruct (is_empty (pure_merge _ _ _ _ _ _ _)) eqn:E; [congruence|reflexivity]. Qed.
Lemma day_votes g elected f i d : is_empty (pure_day g elected f i d) = false -> p_votes (pure_day g elected f i d) = Some (f (lasth d)).
Proof. apply up_votes. Qed.
Lemma pure_day_exact elected g votes_of anc s i : group_ok g -> hour_whole g -> good g elected votes_of anc s -> idx_ok (24 * hour) i ->
  day_exact elected g votes_of (n_chain s) i (pure_day g elected votes_of i (cut (n_chain s) (day_start g (i + 1)))).
Proof.
  intros OK HW GD I. destruct (good_chain g OK elected votes_of anc s GD) as [C N]. destruct (cut_ok g anc (n_chain s) (day_start g (i + 1)) C (gd_anc _ _ _ _ s GD) N) as (C' & A' & N').
  pose proof (per_hour_eq g OK HW) as (E & P & _). pose proof I as II. destruct I as [I0 I1]. fold (per_hour g).
  assert (HP : 0 < hour) by (rewrite hour_val; pose proof sec_pos; lia). unfold day_exact. fold (per_hour g).
  assert (RS : forall x, day_start g x = round_start g (x * 24 * per_hour g)) by (intro x; unfold day_start, round_start; rewrite <- E; ring).
  assert (RE : (i + 1) * 24 * per_hour g = i * 24 * per_hour g + Z.of_nat (Z.to_nat (24 * per_hour g))) by lia.
  assert (E24 : 24 * per_hour g * round_len g = 24 * hour) by (rewrite <- E; ring).
  assert (NUM : forall a, map_ok (p_sbps (pure_day g elected votes_of i (cut (n_chain s) (day_start g (i + 1))))) /\ look (p_sbps (pure_day g elected votes_of i (cut (n_chain s) (day_start g (i + 1))))) a =
     (expected_from elected g (n_chain s) a (i * 24 * per_hour g) (Z.to_nat (24 * per_hour g)), produced (n_chain s) a (day_start g i) (day_start g (i + 1)))).
  { intro a. destruct (day_num g OK HW elected votes_of anc i _ a C' A' N') as [O L]; [rewrite E24; auto|rewrite E24; apply from_cut_nil|]. split; [exact O|]. rewrite L, E24, !day_start_eq.
    rewrite produced_cut by lia. replace (i * (24 * per_hour g)) with (i * 24 * per_hour g) by ring.
    rewrite (expected_from_cut g OK elected (n_chain s) a _ _ C (i * 24 * per_hour g)) by (try nia; rewrite <- RE, RS; lia).
    rewrite !RS. apply (unwrap elected g (n_chain s) a (i * 24 * per_hour g)); auto; [apply GD|now rewrite RE|nia| |].
    - rewrite <- RE. replace ((i + 1) * 24 * per_hour g * round_len g) with ((i + 1) * (24 * (per_hour g * round_len g))) by ring. rewrite E. auto.
    - rewrite Z2Nat.id by lia. destruct (slots_hour g OK HW). lia. }
  split; [intro a; apply NUM|]. split; [apply (NUM 0)|].
  assert (SE : day_start g i <= day_start g (i + 1)) by (unfold day_start; nia). assert (GE : g_genesis g < day_start g (i + 1)) by (unfold day_start; nia).
  pose proof (during_empty_cut (n_chain s) (day_start g i) (day_start g (i + 1)) SE (co_rise g _ C)) as DE.
  pose proof (shape_empty g anc (24 * hour) (pure_day g elected votes_of) i _ (day_shape g OK HW elected votes_of anc) C' A' N' II (from_cut_nil _ _)) as EM. rewrite day_start_eq in EM.
  destruct (day_shape g OK HW elected votes_of anc i _ C' A' N' II (from_cut_nil _ _)) as (H1 & H2 & _). rewrite day_start_eq in H2.
  destruct (from_ (cut (n_chain s) (day_start g (i + 1))) (day_start g i)) as [|x bs].
  - rewrite (proj2 DE eq_refl), H2 by auto. reflexivity.
  - destruct (during (n_chain s) (day_start g i) (day_start g (i + 1))) as [|y l]; [now discriminate (proj1 DE eq_refl)|].
    rewrite (lasth_head (n_chain s) _ (cut (n_chain s) (day_start g (i + 1)))); [|apply C|now apply (cut_filter g)|auto].
    apply day_votes. rewrite EM. reflexivity.
Qed.
Theorem day_statistics_exact elected g votes_of anc s i : group_ok g -> hour_whole g -> history elected g votes_of anc s -> idx_ok (24 * hour) i ->
  exists p, fst (day_at elected g votes_of s i) = Some p /\ day_exact elected g votes_of (n_chain s) i p.
Proof.
  intros OK HW H I. pose proof (history_good g OK HW elected votes_of anc s H) as GD. destruct (day_at_eq g OK HW elected votes_of anc s i GD I) as (s' & -> & _). eexists. split; [reflexivity|].
  apply (pure_day_exact elected g votes_of anc); auto.
Qed.
(** Several days at once: exactly the days in which a block was produced, each with exact numbers. *)
Theorem days_statistics_exact elected g votes_of anc s n i : group_ok g -> hour_whole g -> history elected g votes_of anc s -> idx_ok (24 * hour) i -> Z.of_nat n <= i + 1 ->
  exists l, fst (day_points elected g votes_of n i None s) = Some l /\
  (forall j p, In (j, p) l -> day_exact elected g votes_of (n_chain s) j p) /\
  NoDup (map fst l) /\
  (forall j, In j (map fst l) <-> i - Z.of_nat n < j <= i /\ during (n_chain s) (day_start g j) (day_start g (j + 1)) <> []).
Proof.
  intros OK HW H I NI. pose proof (history_good g OK HW elected votes_of anc s H) as GD. destruct (day_points_eq g OK HW elected votes_of anc n i None s GD (or_introl I) NI Logic.I) as (s' & -> & _). eexists. split; [reflexivity|].
  assert (HP : 0 < hour) by (rewrite hour_val; pose proof sec_pos; lia). clear H. revert i I NI. induction n as [|k IH]; intros i I NI.
  - cbn. split; [easy|]. split; [constructor|]. intro j. split; [easy|]. intros [? _]. lia.
  - cbn [days_of]. assert (I' : k <> O -> idx_ok (24 * hour) (i - 1)) by (intro; destruct I; split; [lia|nia]).
    assert (IH' : (forall j p, In (j, p) (days_of g elected votes_of (n_chain s) k (i - 1)) -> day_exact elected g votes_of (n_chain s) j p) /\ NoDup (map fst (days_of g elected votes_of (n_chain s) k (i - 1))) /\
       (forall j, In j (map fst (days_of g elected votes_of (n_chain s) k (i - 1))) <-> i - 1 - Z.of_nat k < j <= i - 1 /\ during (n_chain s) (day_start g j) (day_start g (j + 1)) <> [])).
    { destruct k; [|apply IH; [apply I'; discriminate|lia]]. cbn. split; [easy|]. split; [constructor|]. intro j. split; [easy|]. intros [? _]. lia. }
    destruct IH' as (H1 & H2 & H3). destruct (during (n_chain s) (day_start g i) (day_start g (i + 1))) as [|x bs] eqn:D.
    + split; [exact H1|]. split; [exact H2|]. intro j. rewrite H3. split; intros [A B]; (split; [|exact B]); [lia|]. destruct (Z.eq_dec j i) as [->|]; [congruence|lia].
    + cbn [map fst]. split; [|split].
      * intros j p [[= <- <-]|J]; [|auto]. apply (pure_day_exact elected g votes_of anc); auto.
      * constructor; [|exact H2]. intro J. apply H3 in J. lia.
      * intro j. cbn [In]. rewrite H3. split.
        -- intros [<-|[A B]]; [rewrite D; split; [lia|discriminate]|split; [lia|auto]].
        -- intros [A B]. destruct (Z.eq_dec j i) as [->|]; [now left|right; split; [lia|auto]].
Qed.
(** ** Success rates *)
(** The share of the expected blocks produced in the last 48 rounds, in millionths. Nobody who was expected to produce is missing. *)
Theorem success_rates_exact elected g votes_of anc s i : group_ok g -> hour_whole g -> history elected g votes_of anc s -> idx_ok (round_len g) i -> 48 * slots g <= 4294 ->
  exists l, fst (success_rates elected g s i) = Some l /\
  forall a, let first := Z.max 0 (i - 47) in
    let e := expected_from elected g (n_chain s) a first (Z.to_nat (i + 1 - first)) in
    let p := produced (n_chain s) a (round_start g first) (round_start g (i + 1)) in
    match get a l with
    | Some r => e = 0 /\ p = 0 /\ r = -1 \/ 0 < e /\ r = p * 1000000 / e
    | None => e = 0 /\ p = 0
    end.
Proof.
  intros OK HW H I S. pose proof (history_good g OK HW elected votes_of anc s H) as GD. unfold success_rates. pose proof I as [I0 I1].
  destruct (rate_rounds_eq g OK elected votes_of anc 48 i None [] s GD (fun _ => I) ltac:(lia) empty_ok Logic.I) as (m & s' & -> & _ & _ & O & L). eexists. split; [reflexivity|]. intro a. set (first := Z.max 0 (i - 47)). set (e := expected_from elected g (n_chain s) a first (Z.to_nat (i + 1 - first))). set (p := produced (n_chain s) a (round_start g first) (round_start g (i + 1))).
  assert (FI : rounds_back 48 i = first) by (unfold rounds_back, first; change (Z.of_nat 48) with 48; lia). specialize (L a). rewrite FI in L. change (look [] a) with (0, 0) in L. cbn [fst snd] in L. rewrite !Z.add_0_l in L.
  assert (F0 : 0 <= first <= i) by (unfold first; lia).
  destruct (produced_at_most_expected elected g (n_chain s) a first (Z.to_nat (i + 1 - first)) OK) as [[B1 B2] B3]; [apply GD|lia| |].
  { rewrite Z2Nat.id by lia. replace (first + (i + 1 - first)) with (i + 1) by ring. auto. }
  rewrite Z2Nat.id in * by lia. replace (first + (i + 1 - first)) with (i + 1) in B1, B2 by ring. fold e p in B1, B2, B3, L.
  assert (EB : e <= 4294) by (pose proof (ok_pos g OK) as (P1 & _); assert (i + 1 - first <= 48) by (unfold first; lia); nia).
  assert (T32 : 2 ^ 32 = 4294967296) by reflexivity. assert (T31 : 2 ^ 31 = 2147483648) by reflexivity.
  rewrite !wrap32_small in L by (unfold u32; lia).
  assert (GM : get a (map (fun x => (fst x, rate (snd x))) m) = option_map rate (get a m)).
  { clear. induction m as [|[k v] m IH]; [reflexivity|]. cbn. destruct (a =? k); auto. }
  rewrite GM. unfold look in L. destruct (get a m) as [x|]; cbn [option_map].
  - rewrite L. unfold rate. cbn [fst snd]. destruct (e =? 0) eqn:E0; [left; lia|]. right. split; [lia|]. destruct (p =? 0) eqn:PZ; [assert (p = 0) as -> by lia; reflexivity|].
    rewrite wrap32_small by (unfold u32; lia). assert (Q : 0 <= p * 1000000 / e <= 1000000).
    { split; [apply Z.div_pos; lia|]. apply Z.div_le_upper_bound; [lia|]. nia. }
    rewrite Z.mod_small; lia.
  - injection L as L1 L2. auto.
Qed.
(** ** Caches and earlier branches never show *)
(** What a node answers depends only on the chain it has now: not on what was asked before, on evicted entries or on blocks rolled back. *)
Theorem statistics_forget_history elected g votes_of anc s s' : group_ok g -> hour_whole g -> history elected g votes_of anc s -> history elected g votes_of anc s' -> n_chain s = n_chain s' ->
  (forall i, idx_ok (round_len g) i -> fst (round_at elected g s i) = fst (round_at elected g s' i)) /\
  (forall i, idx_ok hour i -> fst (hour_at elected g s i) = fst (hour_at elected g s' i)) /\
  (forall i, idx_ok (24 * hour) i -> fst (day_at elected g votes_of s i) = fst (day_at elected g votes_of s' i)).
Proof.
  intros OK HW H H' E. pose proof (history_good g OK HW elected votes_of anc s H) as GD. pose proof (history_good g OK HW elected votes_of anc s' H') as GD'. split; [|split]; intros i I.
  - destruct (round_at_eq g OK elected votes_of anc s i GD I) as (? & -> & _). destruct (round_at_eq g OK elected votes_of anc s' i GD' I) as (? & -> & _). cbn. now rewrite E.
  - destruct (hour_at_eq g OK HW elected votes_of anc s i GD I) as (? & -> & _). destruct (hour_at_eq g OK HW elected votes_of anc s' i GD' I) as (? & -> & _). cbn. now rewrite E.
  - destruct (day_at_eq g OK HW elected votes_of anc s i GD I) as (? & -> & _). destruct (day_at_eq g OK HW elected votes_of anc s' i GD' I) as (? & -> & _). cbn. now rewrite E.
Qed.

(** ** A concrete node *)
(** Rounds of six slots of one second, two members; two blocks, one rolled back and replaced after the statistics were asked for. *)
Definition eg_g : group := {| g_genesis := 0; g_nodes := 2; g_interval := 1; g_per := 3; g_repeat := 1; g_level := 0 |}.
Definition eg_elected (h : Z) : list Z := [11; 12].
Definition eg_votes (h : Z) : votes := {| v_details := [([97], 5); ([98], 7)]; v_total := 12 |}.
Definition eg_b (h k p : Z) : sblock := {| b_hash := h; b_time := k * 1000000000; b_producer := p |}.
Definition eg_anc (h : Z) : list sblock :=
  if h =? 100 then [eg_b 100 0 0] else if h =? 101 then [eg_b 100 0 0; eg_b 101 2 11] else if h =? 102 then [eg_b 100 0 0; eg_b 101 2 11; eg_b 102 4 12]
  else if h =? 103 then [eg_b 100 0 0; eg_b 101 2 11; eg_b 103 16 12] else [].
Definition eg_start : node := {| n_chain := [eg_b 100 0 0]; n_rounds := []; n_hours := []; n_days := [] |}.
Definition eg_ops : list op := [OAppend (eg_b 101 2 11); OAppend (eg_b 102 4 12); ORound 0; OHour 0; ODay 0; ORollback 1; OAppend (eg_b 103 16 12); OEvict (fun i => i =? 0)].
Definition eg_node : node := fold_left (n_step eg_elected eg_g eg_votes) eg_ops eg_start.
Lemma eg_ok : group_ok eg_g. Proof. unfold group_ok. split; [cbn; lia|]. split; [cbn; lia|]. split; [cbn; lia|]. split; [cbn; lia|]. vm_compute. reflexivity. Qed.
Lemma eg_hour : hour_whole eg_g. Proof. vm_compute. reflexivity. Qed.
Lemma eg_history : history eg_elected eg_g eg_votes eg_anc eg_node.
Proof.
  unfold eg_node, eg_ops. cbn [fold_left].
  assert (A : forall s b, history eg_elected eg_g eg_votes eg_anc s -> eg_anc (b_hash b) = n_chain s ++ [b] -> b_time b + 2 * round_len eg_g < g_genesis eg_g + 2 ^ 63 -> history eg_elected eg_g eg_votes eg_anc (n_step eg_elected eg_g eg_votes s (OAppend b))).
  { intros s b H1 H2 H3. apply h_step; [exact H1|]. intros _. split; [exact H2|exact H3]. }
  apply h_step; [|exact I]. apply A; [|vm_compute; reflexivity|vm_compute; reflexivity].
  apply h_step; [|exact I]. apply h_step; [|split; vm_compute; congruence]. apply h_step; [|split; vm_compute; congruence]. apply h_step; [|split; vm_compute; congruence].
  apply A; [|vm_compute; reflexivity|vm_compute; reflexivity]. apply A; [|vm_compute; reflexivity|vm_compute; reflexivity]. apply h_start; reflexivity.
Qed.
Example eg_chain : n_chain eg_node = [eg_b 100 0 0; eg_b 101 2 11; eg_b 103 16 12] /\ map fst (n_rounds eg_node) = [0] /\ map fst (n_hours eg_node) = [0] /\ map fst (n_days eg_node) = [0].
Proof. vm_compute. auto. Qed.
Example eg_hour_answer : exists p, fst (hour_at eg_elected eg_g eg_node 0) = Some p /\ num p 11 = (6, 1) /\ num p 12 = (6, 1) /\ num p 13 = (0, 0).
Proof. eexists. split; [vm_compute; reflexivity|]. vm_compute. auto. Qed.
Example eg_day_answer : exists p, fst (day_at eg_elected eg_g eg_votes eg_node 0) = Some p /\ num p 12 = (6, 1) /\ p_votes p = Some (eg_votes 0).
Proof. eexists. split; [vm_compute; reflexivity|]. vm_compute. auto. Qed.
Example eg_rates_answer : fst (success_rates eg_elected eg_g eg_node 2) = Some [(12, 166666); (11, 166666)] /\ 48 * slots eg_g <= 4294.
Proof. split; [vm_compute; reflexivity|vm_compute; congruence]. Qed.
Example eg_days_answer : exists l, fst (day_points eg_elected eg_g eg_votes 1 0 None eg_node) = Some l /\ map fst l = [0].
Proof. eexists. split; [vm_compute; reflexivity|]. vm_compute. reflexivity. Qed.

(** ** Where the claim fails *)
(** When an hour is not a whole number of rounds, the rounds counted for an hour drift away from it and a block is counted in two hours. *)
Definition od_g : group := {| g_genesis := 0; g_nodes := 1; g_interval := 7; g_per := 1; g_repeat := 1; g_level := 0 |}.
Definition od_elected (h : Z) : list Z := [11].
Definition od_chain : list sblock := [eg_b 100 0 0; eg_b 101 3598 11; eg_b 102 4200 11].
Definition od_anc (h : Z) : list sblock := if h =? 100 then firstn 1 od_chain else if h =? 101 then firstn 2 od_chain else if h =? 102 then od_chain else [].
Definition od_node : node := fold_left (n_step od_elected od_g eg_votes) [OAppend (eg_b 101 3598 11); OAppend (eg_b 102 4200 11)] eg_start.
Theorem hours_of_odd_rounds_refuted : exists elected g votes_of anc s p0 p1 a, group_ok g /\ history elected g votes_of anc s /\ idx_ok hour 1 /\
  fst (hour_at elected g s 0) = Some p0 /\ fst (hour_at elected g s 1) = Some p1 /\
  snd (num p1 a) <> produced (n_chain s) a (hour_start g 1) (hour_start g 2) /\ snd (num p0 a) + snd (num p1 a) > produced (n_chain s) a (hour_start g 0) (hour_start g 2).
Proof.
  exists od_elected, od_g, eg_votes, od_anc, od_node, {| p_prev := 100; p_hash := 101; p_sbps := [(11, (1, 1))]; p_votes := None |}, {| p_prev := 100; p_hash := 102; p_sbps := [(11, (2, 2))]; p_votes := None |}, 11.
  split; [split; [cbn; lia|]; split; [cbn; lia|]; split; [cbn; lia|]; split; [cbn; lia|]; vm_compute; reflexivity|]. split.
  - unfold od_node. cbn [fold_left]. apply h_step; [|intros _; split; vm_compute; reflexivity]. apply h_step; [|intros _; split; vm_compute; reflexivity]. apply h_start; reflexivity.
  - split; [split; vm_compute; congruence|]. split; [vm_compute; reflexivity|]. split; [vm_compute; reflexivity|]. split; vm_compute; congruence.
Qed.
(** Asking for the blocks of one producer after a time never returns any. *)
Theorem headers_by_producer_refuted c e t a l : headers_after_by c e t a = Some l -> l = [].
Proof.
  unfold headers_after_by. destruct (headers_after c e t) as [[bs h]|]; [|discriminate]. intros [= <-].
  assert (F : forall r : list sblock, fold_left (fun r b => if b_producer b =? a then r ++ [] else r) bs r = r) by (induction bs as [|b bs IH]; intro r; cbn [fold_left]; [auto|]; rewrite app_nil_r, IH; destruct (b_producer b =? a); auto).
  apply F.
Qed.
Example headers_by_producer_eg : exists h, headers_after (n_chain eg_node) 3 sec = Some (rev (tl (n_chain eg_node)), h) /\ headers_after_by (n_chain eg_node) 3 sec 11 = Some [].
Proof. exists 1. vm_compute. auto. Qed.
(** The rate overflows its 32-bit product for a producer with more than 4294 blocks. *)
Theorem rate_overflow_refuted : exists e, 0 < e /\ rate (e, e) <> 1000000.
Proof. exists 4295. split; [lia|]. vm_compute. congruence. Qed.

Print Assumptions produced_at_most_expected. Print Assumptions round_statistics_exact. Print Assumptions hour_statistics_exact. Print Assumptions day_statistics_exact.
Print Assumptions days_statistics_exact. Print Assumptions success_rates_exact. Print Assumptions statistics_forget_history. Print Assumptions hours_of_odd_rounds_refuted.
Print Assumptions headers_by_producer_refuted. Print Assumptions rate_overflow_refuted.
