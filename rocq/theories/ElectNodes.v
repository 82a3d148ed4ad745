(** Nodes that share a chain prefix elect the same producers on it. *)
From Verif Require Import Lib VmModel VmDbModel VmDbSpec ElectModel ElectSpec ElectProofs ElectProofs2 ElectProofs3 ElectProps.
From Verif Require Import SchedModel SchedSpec SchedProofs SchedProofs2 StatsModel StatsSpec StatsProofs StatsProofs2 StatsProofs3 StatsProofs4 StatsProofs5 StatsProofs6 StatsProps.
From Coq Require Import Permutation Sorting.Sorted.

(** The contract state at a block as the election reads it: registrations (name, producing address), votes (account, name), balances in
    the counting token. The state at a block hash is immutable; only the order of the two lists is left open. *)
Record estate : Type := { t_regs : list (list Z * Z); t_votes : list (Z * list Z); t_balance : Z -> Z }.

(** ledger/consensus/consensus_snapshot.go:275-326 (calVotes without its cache, whose entries are results of this) for the block [b] at
    [height]. [seeds] stands for GetSeedsBeforeHashH (chain_rw.go:197-199), which walks back from the hash. [None] is an error or a panic. *)
Definition node_elect sort intn (eg : egroup) (st : Z -> estate) (seeds : Z -> Z) (elected : Z -> list Z) (g : group) (s : node) (height : Z) (b : sblock) : option (list Z) :=
  let i := time2index (group_index g) (b_time b) in
  let pi := if i <? 2 then 0 else i - 2 in
  let t := st (b_hash b) in
  match (if 0 <? pi then fst (success_rates elected g s pi) else Some []) with
  | None => None
  | Some rates => option_map (map c_addr) (elect sort intn eg (cal_votes (t_balance t) (t_regs t) (t_votes t)) height (seeds (b_hash b)) rates)
  end.

(** The rates as a function of the chain *)
Fixpoint pure_rates (g : group) (elected : Z -> list Z) (n : nat) (i : Z) (m : list (Z * (Z * Z))) (c : list sblock) : list (Z * (Z * Z)) :=
  match n with
  | O => m
  | S k => if i <? 0 then m else pure_rates g elected k (i - 1) (merge_map m (p_sbps (pure_round g elected i (cut c (round_start g (i + 1)))))) c
  end.
Lemma rate_rounds_pure g elected votes_of anc (OK : group_ok g) n : forall i proof m s, StatsProofs3.good g elected votes_of anc s -> (0 <= i -> idx_ok (round_len g) i) -> -1 <= i ->
  match proof with None => True | Some h => h = lasth (cut (n_chain s) (round_start g (i + 1))) end ->
  exists s', rate_rounds elected g n i proof m s = (Some (pure_rates g elected n i m (n_chain s)), s').
Proof.
  pose proof (ok_pos g OK) as (P1 & P2 & P3 & P4).
  induction n as [|k IH]; intros i proof m s GD I I1 PF; cbn [rate_rounds pure_rates]; [eauto|]. destruct (i <? 0) eqn:IN; [eauto|].
  specialize (I ltac:(lia)). destruct (good_chain g OK elected votes_of anc s GD) as [C N]. set (c := n_chain s) in *. assert (GE : g_genesis g < round_start g (i + 1)) by (unfold round_start; nia).
  assert (Q : exists s1, match proof with None => round_at elected g s i | Some h => round_get elected g s i h end = (Some (pure_round g elected i (cut c (round_start g (i + 1)))), s1) /\ StatsProofs3.good g elected votes_of anc s1 /\ n_chain s1 = c).
  { destruct proof as [h|].
    - subst h. apply (round_level g OK elected votes_of anc s i (cut c (round_start g (i + 1))) (from_ c (round_start g (i + 1))) GD); auto; [apply cut_split, C|now apply cut_nonempty|]. now apply (cut_before g).
    - apply (round_at_eq g OK elected votes_of anc); auto. }
  destruct Q as (s1 & -> & G1 & C1). assert (AD : anc_ok anc c) by apply GD. destruct (cut_ok g anc c (round_start g (i + 1)) C AD N) as (C' & A' & N').
  set (p := pure_round g elected i (cut c (round_start g (i + 1)))). assert (SE : round_start g i <= round_start g (i + 1)) by (unfold round_start; nia).
  destruct (IH (i - 1) (Some (p_prev p)) (merge_map m (p_sbps p)) s1 G1) as (s2 & ->); [intro I0; destruct I; split; [lia|nia]|lia| |rewrite C1; eauto].
  replace (i - 1 + 1) with i by lia. rewrite C1. destruct (round_shape g elected anc i _ C' A' N' I (from_cut_nil _ _)) as (H1 & H2 & H3). change (start g (round_len g)) with (round_start g) in *. fold p in H1, H2, H3.
  destruct (from_ (cut c (round_start g (i + 1))) (round_start g i)) as [|x bs] eqn:F.
  - rewrite H2 by auto. cbn [p_prev empty_point]. f_equal. rewrite <- (cut_cut c (round_start g (i + 1)) (round_start g i)) by auto. symmetry. apply cut_all; auto. apply C'.
  - rewrite H3 by discriminate. now rewrite cut_cut.
Qed.
Lemma pure_round_local g e1 e2 i d : (forall b, In b d -> e1 (b_hash b) = e2 (b_hash b)) -> pure_round g e1 i d = pure_round g e2 i d.
Proof.
  intro H. unfold pure_round. destruct (from_ d (round_start g i)); [reflexivity|]. unfold round_sbps.
  assert (M : members e1 g d i = members e2 g d i); [|now rewrite M].
  unfold members. destruct (rev (filter (fun b => b_time b <? count_time g i) d)) as [|b r] eqn:E; [reflexivity|]. apply H.
  assert (I : In b (rev (filter (fun b => b_time b <? count_time g i) d))) by (rewrite E; left; auto). apply in_rev in I. apply filter_In in I. tauto.
Qed.
Lemma cut_incl c t : incl (cut c t) c.
Proof. destruct c as [|x r]; [easy|]. intros b [<- |B]; [left; auto|]. apply filter_In in B. right. tauto. Qed.
Lemma pure_rates_local g e1 e2 c c' n : group_ok g -> forall i m, cut c (round_start g (i + 1)) = cut c' (round_start g (i + 1)) -> (forall b, In b (cut c (round_start g (i + 1))) -> e1 (b_hash b) = e2 (b_hash b)) ->
  pure_rates g e1 n i m c = pure_rates g e2 n i m c'.
Proof.
  intro OK. pose proof (ok_pos g OK) as (P1 & P2 & P3 & P4). induction n as [|k IH]; intros i m E H; cbn [pure_rates]; [reflexivity|]. destruct (i <? 0); [reflexivity|]. rewrite <- E, (pure_round_local g e1 e2) by auto.
  assert (SE : round_start g i <= round_start g (i + 1)) by (unfold round_start; nia).
  apply IH; replace (i - 1 + 1) with i by lia; rewrite <- (cut_cut c (round_start g (i + 1))) by auto; [rewrite E; now apply cut_cut|]. intros b B. apply H. now apply cut_incl in B.
Qed.

Lemma rates_range g elected votes_of anc s i l : group_ok g -> hour_whole g -> history elected g votes_of anc s -> idx_ok (round_len g) i -> 48 * slots g <= 4294 ->
  fst (success_rates elected g s i) = Some l -> small_rates l.
Proof.
  intros OK HW H I SL E c. destruct (success_rates_exact elected g votes_of anc s i OK HW H I SL) as (l' & E' & X). rewrite E in E'. injection E' as <-. specialize (X (c_addr c)). cbv zeta in X. unfold rate_of.
  change (assoc (c_addr c) l) with (get (c_addr c) l). pose proof I as [I0 I1]. pose proof (ok_pos g OK) as (P1 & P2 & P3 & P4).
  destruct (get (c_addr c) l) as [r|]; [|lia]. destruct X as [(_ & _ & ->)|(E0 & ->)]; [lia|]. set (first := Z.max 0 (i - 47)) in *.
  destruct (produced_at_most_expected elected g (n_chain s) (c_addr c) first (Z.to_nat (i + 1 - first)) OK) as [B _]; [apply (history_good g OK HW elected votes_of anc s H)|lia| |].
  { rewrite Z2Nat.id by lia. replace (first + (i + 1 - first)) with (i + 1) by ring. auto. }
  rewrite Z2Nat.id in B by lia. replace (first + (i + 1 - first)) with (i + 1) in B by ring.
  set (p := produced (n_chain s) (c_addr c) (round_start g first) (round_start g (i + 1))) in *. set (e := expected_from elected g (n_chain s) (c_addr c) first (Z.to_nat (i + 1 - first))) in *.
  clearbody p e. assert (0 <= p * 1000000 / e) by (apply Z.div_pos; lia). assert (p * 1000000 / e <= 1000000) by (apply Z.div_le_upper_bound; nia). lia.
Qed.

(** ** Agreement *)
(** The nodes' contract states at a block may list registrations and votes in different orders, nothing else *)
Definition same_state (t t' : estate) : Prop := Permutation (t_regs t) (t_regs t') /\ Permutation (t_votes t) (t_votes t') /\ forall a, t_balance t a = t_balance t' a.
(** A node whose elections are what it computes: for every block of its chain the producers it goes by are those of [node_elect] *)
Definition computes sort intn eg st seeds elected g s : Prop :=
  forall k b, nth_error (n_chain s) k = Some b -> node_elect sort intn eg st seeds elected g s (Z.of_nat k + 1) b = Some (elected (b_hash b)).

Lemma vote_total_perm balance balance' votes votes' n : Permutation votes votes' -> (forall a, balance a = balance' a) -> vote_total balance votes n = vote_total balance' votes' n.
Proof.
  intros P B. unfold vote_total. rewrite (map_ext balance balance') by auto. apply zadd_perm, Permutation_map, NoDup_Permutation; try apply NoDup_nodup.
  intro a. rewrite !nodup_In, !in_map_iff. split; intros (x & X & F); exists x; (split; [auto|]); apply filter_In in F as [F1 F2]; apply filter_In; (split; [|auto]); [apply (Permutation_in _ P)|apply (Permutation_in _ (Permutation_sym P))]; auto.
Qed.
Lemma cal_votes_perm t t' : same_state t t' -> Permutation (cal_votes (t_balance t) (t_regs t) (t_votes t)) (cal_votes (t_balance t') (t_regs t') (t_votes t')).
Proof.
  intros (R & V & B). unfold cal_votes. erewrite map_ext; [apply Permutation_map, R|]. intro r. cbn. f_equal. now apply vote_total_perm.
Qed.
Lemma nth_split_hash {A} (c : list A) k b : nth_error c k = Some b -> exists d e, c = (d ++ [b]) ++ e /\ length d = k.
Proof. intro H. apply nth_error_split in H as (d & e & -> & L). exists d, e. split; [now rewrite <- app_assoc|auto]. Qed.

(** Two nodes, whatever each of them asked, cached, rolled back or listed in another order, and whichever sorting routine it was built
    with: on every block both have they elect the same producers in the same order. *)
Theorem nodes_elect_same sort1 sort2 intn eg st1 st2 seeds e1 e2 g v1 v2 anc s1 s2 b : sorts sort1 -> sorts sort2 -> draws intn ->
  group_ok g -> hour_whole g -> 48 * slots g <= 4294 -> (forall h, same_state (st1 h) (st2 h) /\ NoDup (map fst (t_regs (st1 h)))) ->
  history e1 g v1 anc s1 -> history e2 g v2 anc s2 -> computes sort1 intn eg st1 seeds e1 g s1 -> computes sort2 intn eg st2 seeds e2 g s2 ->
  In b (n_chain s1) -> In b (n_chain s2) -> e1 (b_hash b) = e2 (b_hash b).
Proof.
  intros S1 S2 D OK HW SL ST H1 H2 C1 C2. pose proof (history_good g OK HW e1 v1 anc s1 H1) as G1. pose proof (history_good g OK HW e2 v2 anc s2 H2) as G2.
  pose proof (ok_pos g OK) as (P1 & P2 & P3 & P4).
  assert (IND : forall k b, nth_error (n_chain s1) k = Some b -> In b (n_chain s2) -> e1 (b_hash b) = e2 (b_hash b)).
  { induction k as [k IH] using lt_wf_ind. intros x X1 X2. apply In_nth_error in X2 as (k2 & X2).
    destruct (nth_split_hash _ _ _ X1) as (d & r1 & E1 & L1). destruct (nth_split_hash _ _ _ X2) as (d2 & r2 & E2 & L2).
    assert (A1 : anc (b_hash x) = d ++ [x]) by (rewrite <- (gd_anc _ _ _ _ _ G1 (d ++ [x]) r1 E1); [unfold lasth; now rewrite top_snoc|destruct d; discriminate]).
    assert (A2 : anc (b_hash x) = d2 ++ [x]) by (rewrite <- (gd_anc _ _ _ _ _ G2 (d2 ++ [x]) r2 E2); [unfold lasth; now rewrite top_snoc|destruct d2; discriminate]).
    rewrite A1 in A2. apply app_inj_tail in A2 as [<- _]. rewrite L1 in L2. subst k2.
    pose proof (C1 k x X1) as V1. pose proof (C2 k x X2) as V2. unfold node_elect in V1, V2. cbv zeta in V1, V2.
    set (i := time2index (group_index g) (b_time x)) in *. set (pi := if i <? 2 then 0 else i - 2) in *.
    destruct (good_chain g OK e1 v1 anc s1 G1) as [O1 N1]. destruct (good_chain g OK e2 v2 anc s2 G2) as [O2 N2].
    assert (RT : exists r, (if 0 <? pi then fst (success_rates e1 g s1 pi) else Some []) = Some r /\ (if 0 <? pi then fst (success_rates e2 g s2 pi) else Some []) = Some r /\ small_rates r).
    { destruct (0 <? pi) eqn:PI; [|exists []; repeat split; auto; intros; cbn; lia].
      assert (IN : In x (n_chain s1)) by (now apply nth_error_In in X1).
      assert (TM : g_genesis g <= b_time x < g_genesis g + 2 ^ 63).
      { clear -G1 IN OK. pose proof (gd_chain _ _ _ _ _ G1) as G. revert x IN. induction G as [b B|c b G IHG A T]; intros x IN.
        - destruct IN as [<- |[]]. rewrite B. lia.
        - pose proof (ok_pos g OK) as (P1 & _). apply in_app_or in IN as [IN|[<- |[]]]; [auto|]. destruct (grown_ok g OK e1 _ (gr_block e1 g c b G A T)) as [Ck _]. destruct (co_slot g _ Ck b ltac:(apply in_or_app; right; left; auto)) as (q & Q1 & Q2).
          assert (g_genesis g <= slot_at g q) by (unfold slot_at; pose proof (ok_pos g OK) as (_ & P2 & _); nia). pose proof (ok_pos g OK) as (_ & _ & P3 & _). lia. }
      pose proof (time2index_eq g OK (b_time x) TM) as TI. fold i in TI.
      assert (PE : pi = i - 2 /\ 2 < i) by (unfold pi in *; destruct (i <? 2); lia). destruct PE as [PE I2].
      assert (LE : round_start g (pi + 1) <= b_time x).
      { unfold round_start. rewrite PE, TI in *. pose proof (Z.mul_div_le (b_time x - g_genesis g) (round_len g) P3). nia. }
      assert (IX : idx_ok (round_len g) pi) by (split; [lia|unfold round_start in LE; lia]).
      destruct (rate_rounds_pure g e1 v1 anc OK 48 pi None [] s1 G1 (fun _ => IX) ltac:(lia) Logic.I) as (s1' & R1).
      destruct (rate_rounds_pure g e2 v2 anc OK 48 pi None [] s2 G2 (fun _ => IX) ltac:(lia) Logic.I) as (s2' & R2).
      assert (CUT : forall c r, c = (d ++ [x]) ++ r -> chain_ok g c -> g_genesis g < round_start g (pi + 1) -> cut c (round_start g (pi + 1)) = filter (lt_ (round_start g (pi + 1))) d).
      { intros c r E O GT. rewrite <- (cut_filter g) by auto. subst c. rewrite <- app_assoc, filter_app. rewrite (filter_none (lt_ (round_start g (pi + 1))) ([x] ++ r)); [apply app_nil_r|].
        apply Forall_forall. intros y Y. unfold lt_. assert (b_time x <= b_time y); [|lia]. apply co_rise in O. rewrite <- app_assoc in O. unfold times in O. rewrite map_app in O.
        destruct Y as [<- |Y]; [lia|]. clear -O Y. cbn [app map] in O. induction d as [|z d IHd]; cbn [map app] in O; [|apply rising_cons in O; tauto].
        revert O Y. generalize (b_time x). induction r as [|w r IHr]; intros t O Y; [easy|]. cbn [map] in O. destruct Y as [-> |Y].
        - destruct O. lia.
        - destruct O as [O1 O2]. specialize (IHr _ O2 Y). lia. }
      assert (GT : g_genesis g < round_start g (pi + 1)) by (unfold round_start; nia).
      assert (SAME : pure_rates g e1 48 pi [] (n_chain s1) = pure_rates g e2 48 pi [] (n_chain s2)).
      { apply pure_rates_local; [auto| |]; rewrite (CUT _ _ E1 O1 GT); [now rewrite (CUT _ _ E2 O2 GT)|]. intros y Y. apply filter_In in Y as [Y _]. apply In_nth_error in Y as (j & Y).
        assert (JL : (j < k)%nat) by (rewrite <- L1; apply nth_error_Some; congruence).
        apply (IH j JL); [rewrite E1, <- app_assoc; rewrite nth_error_app1 by lia; auto|]. rewrite E2. apply in_or_app. left. apply in_or_app. left. now apply nth_error_In in Y. }
      exists (map (fun x => (fst x, rate (snd x))) (pure_rates g e1 48 pi [] (n_chain s1))).
      assert (F1 : fst (success_rates e1 g s1 pi) = Some (map (fun x => (fst x, rate (snd x))) (pure_rates g e1 48 pi [] (n_chain s1)))) by (unfold success_rates; rewrite R1; reflexivity).
      split; [auto|]. split; [unfold success_rates; rewrite R2, SAME; reflexivity|]. apply (rates_range g e1 v1 anc s1 pi _ OK HW H1 IX SL F1). }
    destruct RT as (r & R1 & R2 & SM). rewrite R1 in V1. rewrite R2 in V2. destruct (ST (b_hash x)) as [SS NN].
    unfold elect in V1, V2. rewrite (filter_votes_same sort1 sort2 intn eg _ (cal_votes (t_balance (st2 (b_hash x))) (t_regs (st2 (b_hash x))) (t_votes (st2 (b_hash x)))) _ _ r r) in V1; auto.
    - rewrite V1 in V2. injection V2. auto.
    - unfold cal_votes. rewrite map_map. cbn. exact NN.
    - now apply cal_votes_perm.
    - split; auto. }
  intros I1 I2. apply In_nth_error in I1 as (k & I1). now apply (IND k).
Qed.

(** ** Two concrete nodes *)
(** They share two blocks, then each has its own third; one lists registrations and votes the other way round, one has asked for statistics. *)
Definition ne_eg : egroup := {| e_nodes := 2; e_rand := 1; e_rank := 3; e_seed := 1 |}.
Definition ne_st (h : Z) : estate := {| t_regs := [([97], 11); ([98], 12); ([99], 13)]; t_votes := [(1, [97]); (2, [98]); (3, [99]); (4, [97])]; t_balance := fun a => 100 - a |}.
Definition ne_st' (h : Z) : estate := {| t_regs := rev (t_regs (ne_st h)); t_votes := rev (t_votes (ne_st h)); t_balance := fun a => 100 - a |}.
Definition ne_intn (s : Z) (i : nat) : nat := i.
Definition ne_anc (h : Z) : list sblock := if h =? 104 then [eg_b 100 0 0; eg_b 101 2 11; eg_b 104 20 11] else StatsProps.eg_anc h.
Definition ne_node1 : node := fold_left (n_step eg_elected StatsProps.eg_g StatsProps.eg_votes) eg_ops eg_start.
Definition ne_node2 : node := fold_left (n_step eg_elected StatsProps.eg_g StatsProps.eg_votes) [OAppend (eg_b 101 2 11); OAppend (eg_b 104 20 11)] eg_start.
Example ne_chains : n_chain ne_node1 = [eg_b 100 0 0; eg_b 101 2 11; eg_b 103 16 12] /\ n_chain ne_node2 = [eg_b 100 0 0; eg_b 101 2 11; eg_b 104 20 11].
Proof. vm_compute. auto. Qed.
Lemma ne_history : history eg_elected StatsProps.eg_g StatsProps.eg_votes ne_anc ne_node1 /\ history eg_elected StatsProps.eg_g StatsProps.eg_votes ne_anc ne_node2.
Proof.
  unfold ne_node1, ne_node2, eg_ops. cbn [fold_left].
  assert (A : forall s b, history eg_elected StatsProps.eg_g StatsProps.eg_votes ne_anc s -> ne_anc (b_hash b) = n_chain s ++ [b] -> b_time b + 2 * round_len StatsProps.eg_g < g_genesis StatsProps.eg_g + 2 ^ 63 -> history eg_elected StatsProps.eg_g StatsProps.eg_votes ne_anc (n_step eg_elected StatsProps.eg_g StatsProps.eg_votes s (OAppend b))).
  { intros s b H1 H2 H3. apply h_step; [exact H1|]. intros _. split; [exact H2|exact H3]. }
  split.
  - apply h_step; [|exact I]. apply A; [|vm_compute; reflexivity|vm_compute; reflexivity].
    apply h_step; [|exact I]. apply h_step; [|split; vm_compute; congruence]. apply h_step; [|split; vm_compute; congruence]. apply h_step; [|split; vm_compute; congruence].
    apply A; [|vm_compute; reflexivity|vm_compute; reflexivity]. apply A; [|vm_compute; reflexivity|vm_compute; reflexivity]. apply h_start; reflexivity.
  - apply A; [|vm_compute; reflexivity|vm_compute; reflexivity]. apply A; [|vm_compute; reflexivity|vm_compute; reflexivity]. apply h_start; reflexivity.
Qed.
Example ne_computes : computes (@isort cand) ne_intn ne_eg ne_st (fun h => h) eg_elected StatsProps.eg_g ne_node1 /\ computes (@isort cand) ne_intn ne_eg ne_st' (fun h => h) eg_elected StatsProps.eg_g ne_node2.
Proof.
  split; intros k b K.
  - rewrite (proj1 ne_chains) in K. destruct k as [|[|[|k]]]; [injection K as <-; vm_compute; reflexivity..|destruct k; discriminate].
  - rewrite (proj2 ne_chains) in K. destruct k as [|[|[|k]]]; [injection K as <-; vm_compute; reflexivity..|destruct k; discriminate].
Qed.
Example ne_states h : same_state (ne_st h) (ne_st' h) /\ NoDup (map fst (t_regs (ne_st h))).
Proof.
  split; [split; [apply Permutation_rev|]; split; [apply Permutation_rev|reflexivity]|]. cbn. repeat (constructor; [intro H; repeat (destruct H as [H|H]; [congruence|]); exact H|]); constructor.
Qed.
Print Assumptions nodes_elect_same.
