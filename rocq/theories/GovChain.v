(** The statistics of a node's chain as the statistics rewards are computed from. *)
From Verif Require Import Lib SchedModel SchedSpec SchedProofs SchedProofs2 StatsModel StatsSpec StatsProofs StatsProofs2 StatsProofs3 StatsProofs4 StatsProofs5 StatsProofs6 StatsProps.
From Verif Require Import GovModel GovSpec GovProofs GovProofs4 GovProofs5.
Local Opaque sec Z.pow two64 hour search_fuel.

(** The days a node answers for, as SBPStatReader sees them (ledger/consensus/consensus_snapshot.go:145-170): days without blocks are left out. *)
Definition node_days (elected : Z -> list Z) (g : group) (votes_of : Z -> votes) (s : node) (i : Z) : option point :=
  if (0 <=? i) && ((i + 1) * (24 * hour) <? 2 ^ 63) then
    match fst (day_at elected g votes_of s i) with Some p => if is_empty p then None else Some p | None => None end
  else None.
(** The votes are balances with their total. *)
Definition votes_ok (votes_of : Z -> votes) : Prop := forall h, NoDup (map fst (v_details (votes_of h))) /\ Forall (fun x => 0 <= snd x) (v_details (votes_of h)) /\ v_total (votes_of h) = zsum (map snd (v_details (votes_of h))).

Lemma get_of_in {A} (l : list (Z * A)) x : NoDup (map fst l) -> In x l -> get (fst x) l = Some (snd x).
Proof.
  induction l as [|[k v] l IH]; cbn; [easy|]. intro N. inversion N as [|? ? N1 N2]; subst. intros [<-|I]; cbn [fst snd].
  - now rewrite Z.eqb_refl.
  - destruct (Z.eqb_spec (fst x) k) as [E|E]; [exfalso; apply N1; rewrite <- E; now apply in_map|auto].
Qed.
Lemma sum_counts ns l : NoDup ns -> zsum (map (fun a => count a l) ns) <= zlen l.
Proof.
  intro N. induction l as [|x l IH].
  - rewrite (GovProofs4.zsum_ext _ (fun _ => 0)) by (intros; apply count_nil). rewrite zsum_zero. cbn. lia.
  - rewrite (GovProofs4.zsum_ext _ (fun a => (if a =? x then 1 else 0) + count a l)) by (intros; apply count_cons). rewrite zsum_add, zlen_cons. enough (zsum (map (fun a => if a =? x then 1 else 0) ns) <= 1) by lia. clear - N.
    induction N as [|n ns I N IH]; cbn [map zsum]; [lia|]. destruct (Z.eqb_spec n x) as [->|E]; [|lia]. rewrite (GovProofs4.zsum_ext _ (fun _ => 0)); [rewrite zsum_zero; lia|]. intros y Y. destruct (Z.eqb_spec y x); [subst; contradiction|auto].
Qed.
Section Chain.
Context (elected : Z -> list Z) (g : group) (votes_of : Z -> votes).
Lemma sum_expected c ns n : group_ok g -> NoDup ns -> forall i, zsum (map (fun a => expected_from elected g c a i n) ns) <= Z.of_nat n * slots g.
Proof.
  intros OK N. destruct (ok_pos g OK) as (P1 & _). induction n as [|n IH]; intro i; cbn [expected_from]; [rewrite zsum_zero; lia|]. rewrite zsum_add. specialize (IH (i + 1)).
  enough (zsum (map (fun a => expected elected g c a i) ns) <= slots g) by lia. unfold expected. destruct (during c (round_start g i) (round_start g (i + 1))); [rewrite zsum_zero; lia|]. unfold planned.
  destruct (Z.ltb_spec (g_nodes g) (zlen (members elected g c i))) as [L|L]; [rewrite zsum_zero; lia|]. rewrite zsum_mul. pose proof (sum_counts ns (members elected g c i) N) as C. destruct OK as (A1 & A2 & A3 & A4 & A5). unfold slots.
  pose proof (zlen_nonneg (members elected g c i)). assert (0 <= g_per g * g_repeat g) by nia. nia.
Qed.
Lemma day_of anc s i p : group_ok g -> hour_whole g -> history elected g votes_of anc s -> node_days elected g votes_of s i = Some p ->
  idx_ok (24 * hour) i /\ day_exact elected g votes_of (n_chain s) i p.
Proof.
  intros OK HW H E. unfold node_days in E. destruct (Z.leb_spec 0 i); [|discriminate]. destruct (Z.ltb_spec ((i + 1) * (24 * hour)) (2 ^ 63)); [|discriminate]. cbn [andb] in E. assert (I : idx_ok (24 * hour) i) by (split; auto). split; [exact I|].
  destruct (day_statistics_exact elected g votes_of anc s i OK HW H I) as (p' & E' & DX). rewrite E' in E. destruct (is_empty p'); [discriminate|]. now injection E as <-.
Qed.
Lemma day_numbers anc s i p : group_ok g -> hour_whole g -> history elected g votes_of anc s -> idx_ok (24 * hour) i -> day_exact elected g votes_of (n_chain s) i p ->
  Forall (fun x => 0 <= snd (snd x) <= fst (snd x)) (p_sbps p) /\ zsum (map (fun x => fst (snd x)) (p_sbps p)) <= 86400 /\
  zsum (map (fun x => snd (snd x)) (p_sbps p)) = zsum (map (fun a => produced (n_chain s) a (day_start g i) (day_start g (i + 1))) (map fst (p_sbps p))).
Proof.
  intros OK HW H I (D1 & D2 & _). pose proof (history_good g OK HW elected votes_of anc s H) as GD. pose proof (per_hour_eq g OK HW) as (E & P & _). fold (per_hour g) in D1. destruct I as [I0 I1].
  assert (HP : 0 < hour) by (rewrite hour_val; pose proof sec_pos; lia).
  assert (RS : forall x, day_start g x = round_start g (x * 24 * per_hour g)) by (intro x; unfold day_start, round_start; rewrite <- E; ring).
  assert (RE : (i + 1) * 24 * per_hour g = i * 24 * per_hour g + Z.of_nat (Z.to_nat (24 * per_hour g))) by lia.
  assert (V : forall x, In x (p_sbps p) -> snd x = (expected_from elected g (n_chain s) (fst x) (i * 24 * per_hour g) (Z.to_nat (24 * per_hour g)), produced (n_chain s) (fst x) (day_start g i) (day_start g (i + 1)))).
  { intros x X. rewrite <- D1. unfold num. now rewrite (get_of_in _ x D2 X). }
  split; [|split].
  - apply Forall_forall. intros x X. rewrite (V x X). cbn [fst snd]. rewrite !RS, RE. apply produced_at_most_expected; auto; [apply GD|nia|]. rewrite <- RE. replace ((i + 1) * 24 * per_hour g * round_len g) with ((i + 1) * (24 * (per_hour g * round_len g))) by ring. now rewrite E.
  - rewrite (GovProofs4.zsum_ext _ (fun x => expected_from elected g (n_chain s) (fst x) (i * 24 * per_hour g) (Z.to_nat (24 * per_hour g)))) by (intros x X; now rewrite (V x X)).
    rewrite <- (map_map fst (fun a => expected_from elected g (n_chain s) a (i * 24 * per_hour g) (Z.to_nat (24 * per_hour g)))). eapply Z.le_trans; [apply sum_expected; auto|]. rewrite Z2Nat.id by lia. destruct (slots_hour g OK HW). lia.
  - rewrite map_map. apply GovProofs4.zsum_ext. intros x X. now rewrite (V x X).
Qed.
Lemma node_days_ok anc s i p : group_ok g -> hour_whole g -> votes_ok votes_of -> history elected g votes_of anc s -> node_days elected g votes_of s i = Some p -> day_ok p.
Proof.
  intros OK HW VO H E. destruct (day_of anc s i p OK HW H E) as [I DX]. destruct (day_numbers anc s i p OK HW H I DX) as (N1 & N2 & _). destruct DX as (_ & D2 & D3). split; [exact D2|]. split; [exact N1|]. split.
  - Local Transparent two64. unfold two64. Local Transparent Z.pow. cbn. lia. 
  - rewrite D3. destruct (during _ _ _); [auto|]. apply VO.
Qed.
(** The blocks rewards are computed from are blocks of the chain. *)
Lemma day_blocks_chain anc s i : group_ok g -> hour_whole g -> history elected g votes_of anc s -> 0 <= day_blocks (node_days elected g votes_of s) i <= zlen (during (n_chain s) (day_start g i) (day_start g (i + 1))).
Proof.
  intros OK HW H. unfold day_blocks. pose proof (zlen_nonneg (during (n_chain s) (day_start g i) (day_start g (i + 1)))) as L. destruct (node_days elected g votes_of s i) as [p|] eqn:E; [|lia]. destruct (day_of anc s i p OK HW H E) as [I DX].
  destruct (day_numbers anc s i p OK HW H I DX) as (N1 & N2 & N3). split; [apply zsum_nonneg; eapply Forall_impl; [|exact N1]; cbn; lia|]. rewrite N3. unfold produced. destruct DX as (_ & D2 & _). eapply Z.le_trans; [apply sum_counts; exact D2|]. now rewrite zlen_map.
Qed.
Lemma blocks_chain anc s k : group_ok g -> hour_whole g -> history elected g votes_of anc s -> blocks_before (node_days elected g votes_of s) k <= zlen (during (n_chain s) (day_start g 0) (day_start g (Z.of_nat k))).
Proof.
  intros OK HW H. pose proof (history_good g OK HW elected votes_of anc s H) as GD. destruct (good_chain g OK elected votes_of anc s GD) as [C _]. assert (HP : 0 < hour) by (rewrite hour_val; pose proof sec_pos; lia).
  induction k as [|k IH]; cbn [blocks_before]; [apply zlen_nonneg|]. rewrite (during_split (n_chain s) (day_start g 0) (day_start g (Z.of_nat k)) (day_start g (Z.of_nat (S k)))); [|unfold day_start; nia|apply C]. rewrite zlen_app.
  pose proof (day_blocks_chain anc s (Z.of_nat k) OK HW H) as D. replace (Z.of_nat (S k)) with (Z.of_nat k + 1) by lia. lia.
Qed.
End Chain.
