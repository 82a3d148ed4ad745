From Verif Require Import Lib SchedModel SchedSpec SchedProofs SchedProofs2 StatsModel StatsSpec StatsProofs StatsProofs2 StatsProofs3 StatsProofs4 StatsProofs5.
Local Opaque sec Z.pow two64 hour search_fuel.

Lemma get_filter {A} (keep : Z -> bool) (l : list (Z * A)) i p : get i (filter (fun x => keep (fst x)) l) = Some p -> get i l = Some p.
Proof.
  induction l as [|[k v] l IH]; intro H; [discriminate|]. cbn [filter fst] in H. cbn [VmModel.assoc]. destruct (keep k) eqn:K; cbn [VmModel.assoc] in H.
  - destruct (i =? k); auto.
  - destruct (i =? k) eqn:E; [|auto]. exfalso. assert (i = k) by lia. subst. clear IH. induction l as [|[k' v'] l IH]; cbn [filter fst] in H; [discriminate|].
    destruct (keep k') eqn:K'; cbn [VmModel.assoc] in H; [|auto]. destruct (k =? k') eqn:E'; [|auto]. assert (k = k') by lia. congruence.
Qed.

Section H.
Context (g : group) (OK : group_ok g) (HW : hour_whole g) (elected : Z -> list Z) (votes_of : Z -> votes) (anc : Z -> list sblock).
Notation anc_ok := (anc_ok anc).
Notation start := (start g).
Notation good := (good g elected votes_of anc).
Notation pure_hour := (pure_hour g elected).
Notation pure_day := (pure_day g elected votes_of).
Notation pure_round := (pure_round g elected).

(** ** Several days, several rounds *)
Fixpoint days_of (c : list sblock) (n : nat) (i : Z) : list (Z * point) :=
  match n with
  | O => []
  | S k => match during c (day_start g i) (day_start g (i + 1)) with [] => days_of c k (i - 1) | _ => (i, pure_day i (cut c (day_start g (i + 1)))) :: days_of c k (i - 1) end
  end.
Lemma good_chain s : good s -> chain_ok g (n_chain s) /\ n_chain s <> [].
Proof. intro GD. pose proof (grown_ok g OK elected _ (gd_chain _ _ _ _ s GD)) as [C _]. split; [auto|]. destruct (co_first g _ C) as (b & r & -> & _). discriminate. Qed.
Lemma cut_before c t : chain_ok g c -> g_genesis g < t -> b_time (top (cut c t)) < t.
Proof. clear elected votes_of anc.
  intros C T. destruct (co_first g c C) as (b' & r' & E' & B'). apply cut_time; [rewrite E'; discriminate|]. intros b r E. rewrite E in E'. injection E' as -> ->. lia.
Qed.
Lemma during_empty_cut c s e : s <= e -> rising (times c) -> (during c s e = [] <-> from_ (cut c e) s = []).
Proof. clear elected votes_of anc. intros L R. rewrite <- (during_cut c e s e) by lia. rewrite during_from' by apply from_cut_nil. tauto. Qed.
Lemma day_points_eq n : forall i proof s, good s -> idx_ok (24 * hour) i \/ n = O -> Z.of_nat n <= i + 1 ->
  match proof with None => True | Some h => h = lasth (cut (n_chain s) (day_start g (i + 1))) end ->
  exists s', day_points elected g votes_of n i proof s = (Some (days_of (n_chain s) n i), s') /\ good s' /\ n_chain s' = n_chain s.
Proof.
  assert (HP : 0 < hour) by (rewrite hour_val; pose proof sec_pos; lia).
  induction n as [|k IH]; intros i proof s GD I NI PF; [exists s; auto|]. destruct I as [I|I]; [|discriminate]. cbn [day_points days_of].
  destruct (good_chain s GD) as [C N]. set (c := n_chain s) in *.
  assert (GE : g_genesis g < day_start g (i + 1)) by (destruct I; unfold day_start; nia).
  assert (Q : exists s1, match proof with None => day_at elected g votes_of s i | Some h => day_get elected g votes_of s i h end = (Some (pure_day i (cut c (day_start g (i + 1)))), s1) /\ good s1 /\ n_chain s1 = c).
  { destruct proof as [h|].
    - subst h. apply (day_level g OK HW elected votes_of anc s i (cut c (day_start g (i + 1))) (from_ c (day_start g (i + 1))) GD); auto; [apply cut_split, C|now apply cut_nonempty|]. now apply cut_before.
    - apply day_at_eq; auto. }
  destruct Q as (s1 & -> & G1 & C1).
  assert (AD : anc_ok c) by apply GD. destruct (cut_ok g anc c (day_start g (i + 1)) C AD N) as (C' & A' & N').
  rewrite (shape_empty g anc (24 * hour) pure_day i _ (day_shape g OK HW elected votes_of anc) C' A' N' I (from_cut_nil _ _)).
  change (start (24 * hour) i) with (day_start g i). assert (SE : day_start g i <= day_start g (i + 1)) by (unfold day_start; nia).
  pose proof (during_empty_cut c (day_start g i) (day_start g (i + 1)) SE (co_rise g c C)) as DE.
  assert (I' : idx_ok (24 * hour) (i - 1) \/ k = O) by (destruct I; destruct k; [now right|left; split; [lia|nia]]).
  destruct (from_ (cut c (day_start g (i + 1))) (day_start g i)) as [|x bs] eqn:F.
  - rewrite (proj2 DE eq_refl). destruct (IH (i - 1) proof s1) as (s2 & -> & G2 & C2); auto; [lia| |].
    + destruct proof as [h|]; [|auto]. rewrite PF, C1. replace (i - 1 + 1) with i by lia. f_equal. rewrite <- (cut_cut c (day_start g (i + 1)) (day_start g i)) by auto. symmetry. apply cut_all; auto. apply C'.
    + rewrite C1. exists s2. split; [auto|]. split; [auto|congruence].
  - destruct (during c (day_start g i) (day_start g (i + 1))) as [|y l]; [now discriminate (proj1 DE eq_refl)|].
    destruct (IH (i - 1) (Some (p_prev (pure_day i (cut c (day_start g (i + 1)))))) s1) as (s2 & -> & G2 & C2); auto; [lia| |].
    + destruct (day_shape g OK HW elected votes_of anc i _ C' A' N' I (from_cut_nil _ _)) as (_ & _ & H3). rewrite H3 by (change (start (24 * hour) i) with (day_start g i); rewrite F; discriminate).
      rewrite C1. replace (i - 1 + 1) with i by lia. change (start (24 * hour) i) with (day_start g i). now rewrite cut_cut.
    + rewrite C1. exists s2. split; [auto|]. split; [auto|congruence].
Qed.

(** The rounds merged for the success rates: [n] rounds ending with [i], or all up to round 0. *)
Definition rounds_back (n : nat) (i : Z) : Z := Z.max 0 (i + 1 - Z.of_nat n).
Lemma rate_rounds_eq n : forall i proof m s, good s -> (0 <= i -> idx_ok (round_len g) i) -> -1 <= i -> map_ok m ->
  match proof with None => True | Some h => h = lasth (cut (n_chain s) (round_start g (i + 1))) end ->
  exists m' s', rate_rounds elected g n i proof m s = (Some m', s') /\ good s' /\ n_chain s' = n_chain s /\ map_ok m' /\
    forall a, look m' a = (wrap32 (fst (look m a) + expected_from elected g (n_chain s) a (rounds_back n i) (Z.to_nat (i + 1 - rounds_back n i))),
                           wrap32 (snd (look m a) + produced (n_chain s) a (round_start g (rounds_back n i)) (round_start g (i + 1)))).
Proof.
  pose proof (ok_pos g OK) as (P1 & P2 & P3 & P4).
  assert (NIL : forall i m s, map_ok m -> forall a, look m a = (wrap32 (fst (look m a) + expected_from elected g (n_chain s) a (i + 1) (Z.to_nat (i + 1 - (i + 1)))), wrap32 (snd (look m a) + produced (n_chain s) a (round_start g (i + 1)) (round_start g (i + 1))))).
  { intros i m s O a. destruct (look_u m a O). rewrite Z.sub_diag. cbn [Z.to_nat StatsSpec.expected_from]. unfold produced, during. rewrite filter_none by (apply Forall_forall; intros; lia). cbn [map].
    rewrite count_nil, !Z.add_0_r, !wrap32_small by auto. now destruct (look m a). }
  induction n as [|k IH]; intros i proof m s GD I I1 O PF.
  - cbn [rate_rounds]. exists m, s. split; [auto|]. split; [auto|]. split; [auto|]. split; [auto|]. intro a. replace (rounds_back 0 i) with (i + 1) by (unfold rounds_back; lia). apply NIL; auto.
  - cbn [rate_rounds]. destruct (i <? 0) eqn:IN.
    + exists m, s. split; [auto|]. split; [auto|]. split; [auto|]. split; [auto|]. intro a. replace (rounds_back (S k) i) with (i + 1) by (unfold rounds_back; lia). apply NIL; auto.
    + specialize (I ltac:(lia)). destruct (good_chain s GD) as [C N]. set (c := n_chain s) in *. assert (GE : g_genesis g < round_start g (i + 1)) by (unfold round_start; nia).
      assert (Q : exists s1, match proof with None => round_at elected g s i | Some h => round_get elected g s i h end = (Some (pure_round i (cut c (round_start g (i + 1)))), s1) /\ good s1 /\ n_chain s1 = c).
      { destruct proof as [h|].
        - subst h. apply (round_level g OK elected votes_of anc s i (cut c (round_start g (i + 1))) (from_ c (round_start g (i + 1))) GD); auto; [apply cut_split, C|now apply cut_nonempty|]. now apply cut_before.
        - apply round_at_eq; auto. }
      destruct Q as (s1 & -> & G1 & C1). assert (AD : anc_ok c) by apply GD. destruct (cut_ok g anc c (round_start g (i + 1)) C AD N) as (C' & A' & N').
      set (p := pure_round i (cut c (round_start g (i + 1)))).
      destruct (round_num g OK elected anc i (cut c (round_start g (i + 1))) 0 C' A' N') as [PO _]; [rewrite Z.mul_1_l; auto|rewrite Z.mul_1_l; apply from_cut_nil|].
      assert (SE : round_start g i <= round_start g (i + 1)) by (unfold round_start; nia).
      destruct (IH (i - 1) (Some (p_prev p)) (merge_map m (p_sbps p)) s1) as (m' & s2 & -> & G2 & C2 & O2 & L2); auto.
      * intro I0. destruct I. split; [lia|nia].
      * lia.
      * apply merge_ok; auto. apply PO.
      * replace (i - 1 + 1) with i by lia. rewrite C1. destruct (round_shape g elected anc i _ C' A' N' I (from_cut_nil _ _)) as (H1 & H2 & H3). change (start (round_len g)) with (round_start g) in *. fold p in H1, H2, H3.
        destruct (from_ (cut c (round_start g (i + 1))) (round_start g i)) as [|x bs] eqn:F.
        -- rewrite H2 by auto. cbn [p_prev empty_point]. f_equal. rewrite <- (cut_cut c (round_start g (i + 1)) (round_start g i)) by auto. symmetry. apply cut_all; auto. apply C'.
        -- rewrite H3 by discriminate. now rewrite cut_cut.
      * exists m', s2. split; [auto|]. split; [auto|]. split; [congruence|]. split; [auto|]. intro a. rewrite L2, C1.
        destruct (round_num g OK elected anc i (cut c (round_start g (i + 1))) a C' A' N') as [_ PL]; [rewrite Z.mul_1_l; auto|rewrite Z.mul_1_l; apply from_cut_nil|].
        fold p in PL, PO. destruct PO as [PO1 PO2]. rewrite (merge_look _ a PO1 PO2 m O), PL. rewrite Z.mul_1_l, Z.mul_1_r. change (start (round_len g)) with (round_start g). change (Z.to_nat 1) with 1%nat.
        replace (i - 1 + 1) with i by lia. rewrite produced_cut by lia. rewrite (expected_from_cut g OK elected c a (round_start g (i + 1)) 1 C i) by (lia || (change (Z.of_nat 1) with 1; lia)). cbn [fst snd].
        assert (RB : rounds_back (S k) i = rounds_back k (i - 1)) by (unfold rounds_back; lia). rewrite RB. set (b := rounds_back k (i - 1)). assert (B : 0 <= b <= i) by (subst b; unfold rounds_back; lia).
        replace (Z.to_nat (i + 1 - b)) with (Z.to_nat (i - b) + 1)%nat by lia. rewrite expected_from_app. replace (b + Z.of_nat (Z.to_nat (i - b))) with i by lia.
        rewrite (produced_split c a (round_start g b) (round_start g i) (round_start g (i + 1))); [|unfold round_start; nia|apply C].
        unfold wrap32. rewrite !Zplus_mod_idemp_r, !Zplus_mod_idemp_l. f_equal; f_equal; ring.
Qed.

(** ** Every history *)
Lemma good_step s o : good s ->
  match o with
  | OAppend b => accepts elected g (n_chain s) b = true -> anc (b_hash b) = n_chain s ++ [b] /\ b_time b + 2 * round_len g < g_genesis g + 2 ^ 63
  | ORound i => idx_ok (round_len g) i
  | OHour i => idx_ok hour i
  | ODay i => idx_ok (24 * hour) i
  | ODays n i => idx_ok (24 * hour) i /\ Z.of_nat n <= i + 1
  | ORates i => idx_ok (round_len g) i
  | _ => True
  end -> good (n_step elected g votes_of s o).
Proof.
  intros GD H. destruct o as [b|n|keep|i|i|i|n i|i]; cbn [n_step].
  - destruct (accepts elected g (n_chain s) b) eqn:A; [|auto]. destruct (H eq_refl) as [H1 H2]. destruct GD as [G1 G2 G3 G4 G5]. constructor; cbn [n_chain n_rounds n_hours n_days]; auto.
    + now constructor.
    + intros d e E N. destruct e as [|y e _] using rev_ind.
      * rewrite app_nil_r in E. subst d. unfold lasth. rewrite top_snoc. exact H1.
      * rewrite app_assoc in E. apply app_inj_tail in E as [E _]. eapply G2; eauto.
  - destruct (good_chain s GD) as [C N]. destruct GD as [G1 G2 G3 G4 G5]. assert (FN : firstn (S n) (n_chain s) <> []) by (destruct (n_chain s); [easy|discriminate]).
    constructor; cbn [n_chain n_rounds n_hours n_days]; auto.
    + apply (grown_prefix g elected _ G1 _ (skipn (S n) (n_chain s))); auto. symmetry. apply firstn_skipn.
    + apply (anc_prefix anc _ (skipn (S n) (n_chain s))). now rewrite firstn_skipn.
  - destruct GD as [G1 G2 G3 G4 G5]. constructor; cbn [set_rounds n_chain n_rounds n_hours n_days]; auto. intros i p E. apply get_filter in E. eauto.
  - destruct (round_at_eq g OK elected votes_of anc s i GD H) as (s' & -> & G' & _). exact G'.
  - destruct (hour_at_eq g OK HW elected votes_of anc s i GD H) as (s' & -> & G' & _). exact G'.
  - destruct (day_at_eq g OK HW elected votes_of anc s i GD H) as (s' & -> & G' & _). exact G'.
  - destruct H as [H1 H2]. destruct (day_points_eq n i None s GD (or_introl H1) H2 I) as (s' & -> & G' & _). exact G'.
  - unfold success_rates. destruct H as [H1 H2]. destruct (rate_rounds_eq 48 i None [] s GD (fun _ => conj H1 H2) ltac:(lia) empty_ok I) as (m' & s' & -> & G' & _). exact G'.
Qed.
Lemma history_good s : history elected g votes_of anc s -> good s.
Proof.
  induction 1 as [b B A|s o H IH C].
  - constructor; cbn; try discriminate; [now constructor|]. intros d e E N. destruct d as [|x d]; [easy|]. injection E as -> E. symmetry in E. apply app_eq_nil in E as [-> _]. exact A.
  - now apply good_step.
Qed.
End H.
