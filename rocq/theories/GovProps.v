(** The governance contract: rewards (C18), deposits (C47), addresses and votes (C48), the producers of a withdraw address (C49), days paid once (C50). *)
From Verif Require Import Lib SchedModel SchedSpec StatsModel StatsSpec GovModel GovSpec GovProofs GovProofs2 GovProofs3 GovProofs4 GovProofs5 GovProofs6 GovChain.
Local Opaque sec reward_per_block.

(** ** C18: rewards and the budget *)
(** The statistics of a day in which nobody produced more blocks than expected. *)
Definition detail_ok (d : detail) : Prop :=
  NoDup (map fst (d_stats d)) /\ Forall (fun x => 0 <= sb_votes (snd x) /\ 0 <= sb_num (snd x) <= sb_exp (snd x)) (d_stats d) /\
  zsum (map (fun x => sb_num (snd x)) (d_stats d)) <= d_total d /\ zsum (map (fun x => sb_votes (snd x)) (d_stats d)) <= d_votesum d.
Lemma get_sbp_in l x : NoDup (map fst l) -> In x l -> get_sbp (fst x) l = Some (snd x).
Proof.
  induction l as [|y l IH]; cbn; [easy|]. intro N. inversion N as [|? ? N1 N2]; subst. intros [->|I]; [now rewrite zlist_eqb_refl|].
  destruct (zlist_eqb (fst y) (fst x)) eqn:E; [apply zlist_eqb_eq in E; exfalso; apply N1; rewrite E; now apply in_map|auto].
Qed.
(** For every distribution of votes and blocks, all producers of a day together get at most the reward of its blocks, and nobody a negative one. *)
Theorem day_rewards_within_budget d s : detail_ok d -> 0 < s ->
  zsum (map (fun x => fst (day_reward d (fst x) s) + snd (day_reward d (fst x) s)) (d_stats d)) <= reward_per_block * d_total d /\
  forall n, 0 <= fst (day_reward d n s) /\ 0 <= snd (day_reward d n s).
Proof.
  intros (N & F & T & V) S. pose proof reward_pos as RP. rewrite Forall_forall in F.
  assert (T0 : 0 <= zsum (map (fun x => sb_num (snd x)) (d_stats d))) by (apply zsum_nonneg, Forall_forall; intros x X; apply (F x X)).
  assert (V0 : 0 <= zsum (map (fun x => sb_votes (snd x)) (d_stats d))) by (apply zsum_nonneg, Forall_forall; intros x X; apply (F x X)).
  split; [|intro n; apply day_reward_nonneg; [lia|lia|lia|apply Forall_forall; auto]].
  destruct (Z.eq_dec (zlen (d_stats d)) 0) as [L|L]; [destruct (d_stats d); [cbn; nia|rewrite zlen_cons in L; pose proof (zlen_nonneg l); lia]|]. pose proof (zlen_nonneg (d_stats d)) as LN.
  set (D := zlen (d_stats d) * s + d_votesum d). assert (DP : 0 < D) by (subst D; nia).
  assert (DE : zsum (map (fun x => sb_votes (snd x) + s) (d_stats d)) <= D). { rewrite zsum_add. subst D. enough (zsum (map (fun _ => s) (d_stats d)) = zlen (d_stats d) * s) by lia. clear. induction (d_stats d) as [|x l IH]; cbn [map zsum]; [cbn; lia|]. rewrite zlen_cons. lia. }
  assert (C : (2 * D) * zsum (map (fun x => fst (day_reward d (fst x) s) + snd (day_reward d (fst x) s)) (d_stats d)) <=
     (d_total d * reward_per_block) * zsum (map (fun x => sb_votes (snd x) + s) (d_stats d)) + (D * reward_per_block) * zsum (map (fun x => sb_num (snd x)) (d_stats d))).
  { rewrite <- !zsum_mul, <- zsum_add. apply zsum_le. intros x X. destruct (F x X) as [F1 F2]. unfold day_reward. rewrite (get_sbp_in _ x N X). fold D. assert (P1 : 0 <= (sb_votes (snd x) + s) * d_total d * reward_per_block) by (repeat apply Z.mul_nonneg_nonneg; lia). assert (P2 : 0 <= sb_num (snd x) * reward_per_block) by nia.
    destruct (Z.eqb_spec (sb_exp (snd x)) 0) as [E|E]; cbn [fst snd]; [nia|].
    destruct (quot3_le ((sb_votes (snd x) + s) * d_total d * 50 * reward_per_block) D (sb_num (snd x)) (sb_exp (snd x))) as [Q1 Q2]; [nia|lia|lia|lia|].
    set (A := Z.quot (Z.quot ((sb_votes (snd x) + s) * d_total d * 50 * reward_per_block * sb_num (snd x)) D) (sb_exp (snd x))) in *.
    assert (QA : 100 * Z.quot A 100 <= A) by (rewrite Z.quot_div_nonneg by lia; apply Z.mul_div_le; lia).
    replace ((sb_votes (snd x) + s) * d_total d * 50 * reward_per_block) with ((sb_votes (snd x) + s) * d_total d * reward_per_block * 50) in Q2 by ring. set (X1 := (sb_votes (snd x) + s) * d_total d * reward_per_block) in *.
    assert (QD : D * Z.quot (X1 * 50) D <= X1 * 50) by (rewrite Z.quot_div_nonneg by lia; apply Z.mul_div_le; lia).
    assert (QB : 100 * Z.quot (sb_num (snd x) * 50 * reward_per_block) 100 <= sb_num (snd x) * 50 * reward_per_block) by (rewrite Z.quot_div_nonneg by nia; apply Z.mul_div_le; lia).
    set (B := Z.quot (sb_num (snd x) * 50 * reward_per_block) 100) in *. assert (B2 : 2 * B <= sb_num (snd x) * reward_per_block) by lia. assert (A2 : 100 * (D * Z.quot A 100) <= X1 * 50) by nia.
    replace (d_total d * reward_per_block * (sb_votes (snd x) + s)) with X1 by (subst X1; ring). assert (D * (2 * B) <= D * (sb_num (snd x) * reward_per_block)) by (apply Z.mul_le_mono_nonneg_l; lia). lia. }
  assert (C1 : d_total d * reward_per_block * zsum (map (fun x => sb_votes (snd x) + s) (d_stats d)) <= d_total d * reward_per_block * D) by (apply Z.mul_le_mono_nonneg_l; nia).
  assert (C2 : D * reward_per_block * zsum (map (fun x => sb_num (snd x)) (d_stats d)) <= D * reward_per_block * d_total d) by (apply Z.mul_le_mono_nonneg_l; nia).
  set (Q := zsum (map (fun x => fst (day_reward d (fst x) s) + snd (day_reward d (fst x) s)) (d_stats d))) in *. assert (D * Q <= D * (reward_per_block * d_total d)) by lia. eapply Z.mul_le_mono_pos_l; eauto.
Qed.
(** More blocks produced, all else equal, never mean less reward. *)
Theorem day_reward_monotone d d' n s x x' : detail_ok d -> 0 < s -> get_sbp n (d_stats d) = Some x -> get_sbp n (d_stats d') = Some x' ->
  sb_votes x' = sb_votes x -> sb_exp x' = sb_exp x -> sb_num x <= sb_num x' -> d_total d <= d_total d' -> d_votesum d' = d_votesum d -> zlen (d_stats d') = zlen (d_stats d) ->
  fst (day_reward d n s) <= fst (day_reward d' n s) /\ snd (day_reward d n s) <= snd (day_reward d' n s).
Proof.
  intros (N & F & T & V) S G G' EV EE LN LT EW EL. unfold day_reward. rewrite G, G', EV, EE, EW, EL. pose proof reward_pos as RP. destruct (sb_exp x =? 0) eqn:E0; [lia|]. apply Z.eqb_neq in E0. cbn [fst snd].
  assert (I : In (n, x) (d_stats d)). { clear - G. induction (d_stats d) as [|[k y] l IH]; [discriminate|]. cbn in G. destruct (zlist_eqb k n) eqn:E; [apply zlist_eqb_eq in E; injection G as ->; subst; now left|right; auto]. }
  rewrite Forall_forall in F. destruct (F _ I) as [F1 F2]. cbn [snd] in F1, F2.
  assert (T0 : 0 <= zsum (map (fun x => sb_num (snd x)) (d_stats d))) by (apply zsum_nonneg, Forall_forall; intros y Y; apply (F y Y)).
  assert (V0 : 0 <= zsum (map (fun x => sb_votes (snd x)) (d_stats d))) by (apply zsum_nonneg, Forall_forall; intros y Y; apply (F y Y)).
  assert (L : 1 <= zlen (d_stats d)) by (destruct (d_stats d); [contradiction|rewrite zlen_cons; pose proof (zlen_nonneg l); lia]).
  assert (P : (sb_votes x + s) * d_total d * 50 * reward_per_block * sb_num x <= (sb_votes x + s) * d_total d' * 50 * reward_per_block * sb_num x').
  { assert (d_total d * sb_num x <= d_total d' * sb_num x') by nia. replace ((sb_votes x + s) * d_total d * 50 * reward_per_block * sb_num x) with ((sb_votes x + s) * 50 * reward_per_block * (d_total d * sb_num x)) by ring.
    replace ((sb_votes x + s) * d_total d' * 50 * reward_per_block * sb_num x') with ((sb_votes x + s) * 50 * reward_per_block * (d_total d' * sb_num x')) by ring. apply Z.mul_le_mono_nonneg_l; nia. }
  split; [repeat (apply Z.quot_le_mono; [nia|]); exact P|apply Z.quot_le_mono; [lia|nia]].
Qed.
Definition eg_detail : detail := {| d_index := 3; d_stats := [([97], {| sb_votes := 5; sb_num := 8; sb_exp := 10 |}); ([98], {| sb_votes := 7; sb_num := 10; sb_exp := 10 |})]; d_total := 18; d_votesum := 12 |}.
Example eg_detail_ok : detail_ok eg_detail /\ fst (day_reward eg_detail [97] stake_main) = 3424657534246575341 /\ snd (day_reward eg_detail [97] stake_main) = 3805175038051750380.
Proof. split; [|vm_compute; auto]. split; [repeat constructor; cbn; intuition discriminate|]. split; [repeat constructor; cbn; lia|]. cbn. lia. Qed.

(** Over every history in which requests are received in the order they were confirmed: all rewards issued so far are covered by the blocks of the days that
    ended at least an hour ago. *)
Theorem rewards_issued_within_budget g days fork sh w : gen_ok g -> (forall i p, days i = Some p -> day_ok p) -> hist g days fork sh (in_order g fork) w ->
  0 <= issued w <= reward_per_block * blocks_before days (Z.to_nat (settled (genesis_time g) (w_time w))).
Proof. intros OK DOK H. exact (issued_bound g OK days fork sh DOK w H). Qed.
(** The same with the statistics of a node: the rewards are covered by blocks of its chain. *)
Theorem rewards_issued_within_chain elected g votes_of anc s fork sh w : group_ok g -> hour_whole g -> gen_ok g -> votes_ok votes_of -> history elected g votes_of anc s ->
  hist g (node_days elected g votes_of s) fork sh (in_order g fork) w ->
  0 <= issued w <= reward_per_block * zlen (during (n_chain s) (g_genesis g) (day_start g (settled (genesis_time g) (w_time w)))).
Proof.
  intros OK HW GO VO H HW'. destruct (rewards_issued_within_budget g _ fork sh w GO (fun i p E => node_days_ok elected g votes_of anc s i p OK HW VO H E) HW') as [A B]. split; [exact A|].
  eapply Z.le_trans; [exact B|]. pose proof reward_pos. pose proof (blocks_chain elected g votes_of anc s (Z.to_nat (settled (genesis_time g) (w_time w))) OK HW H) as C. rewrite Z2Nat.id in C by (unfold settled; lia). unfold day_start at 1 in C. rewrite Z.mul_0_l, Z.add_0_r in C. nia.
Qed.

(** ** C47: deposits *)
Definition run g days fork sh (xs : list op) (w : world) : world := fold_left (w_step g days fork sh) xs w.
(** Whatever happens, the contract's VITE beyond the deposits stays the same: deposits are neither lent out nor paid twice. *)
Theorem deposits_backed g days fork sh w xs : gen_ok g -> genesis_ok (genesis_time g) w -> Forall (base g sh) xs ->
  w_bal (run g days fork sh xs w) - deposits (run g days fork sh xs w) = w_bal w - deposits w.
Proof.
  intros OK G F. assert (GD : good (genesis_time g) w) by now apply genesis_good. clear G. revert w GD. induction F as [|x xs B F IH]; intros w GD; [reflexivity|]. cbn [run fold_left]. change (fold_left (w_step g days fork sh) xs ?v) with (run g days fork sh xs v).
  rewrite IH by now apply step_good. now apply step_deposits.
Qed.
Definition deposit_of (n : name) (w : world) : Z := match get_reg n (g_regs (w_st w)) with Some r => r_amount r | None => 0 end.
(** From the lock's end on, the owner of an active registration gets exactly its deposit back. *)
Theorem revoke_returns_deposit g days fork sh w e n r : gen_ok g -> hist g days fork sh any w -> deposits w <= w_bal w -> base g sh (ORequest e (CRevoke n)) -> e_amount e = 0 -> name_ok n = true ->
  get_reg n (g_regs (w_st w)) = Some r -> is_active r = true -> r_owner r = e_caller e -> r_exp r <= e_height e ->
  snd (request g days fork sh w e (CRevoke n)) = (if 0 <? r_amount r then Pay (e_caller e) (r_amount r) else Nothing) /\
  deposit_of n (w_step g days fork sh w (ORequest e (CRevoke n))) = 0 /\ w_bal (w_step g days fork sh w (ORequest e (CRevoke n))) = w_bal w - r_amount r.
Proof.
  intros OK H B BS A NO G AC OW EX. pose proof (hist_good g OK days fork sh any w H) as GD. pose proof (gd_regs _ _ GD) as RG. destruct (get_reg_in _ _ _ G) as [I E]. assert (AL : Forall (fun x => 0 <= r_amount x) (g_regs (w_st w))) by (eapply Forall_impl; [|exact RG]; unfold reg_good; cbn; tauto).
  pose proof (deposit_in r _ AL I) as D. change (zsum (map r_amount (g_regs (w_st w)))) with (deposits w) in D.
  cbn [w_step do_send exists_method]. rewrite A, NO. cbn [Z.eqb andb]. unfold request. cbn [receive]. rewrite G, AC, OW, Z.eqb_refl. destruct (Z.ltb_spec (e_height e) (r_exp r)); [lia|]. cbn [negb orb].
  assert (AM : amount_of e = 0) by (unfold amount_of; rewrite A; destruct (e_token e =? vite); auto). rewrite AM.
  destruct (Z.ltb_spec 0 (r_amount r)) as [P|P]; cbv zeta iota beta.
  - destruct (Z.ltb_spec (w_bal w + 0) (r_amount r)); [lia|]. cbn [fst snd]. unfold deposit_of. cbn [w_st g_regs w_bal]. rewrite put_reg_get, stored_name. cbn [r_name]. rewrite E, zlist_eqb_refl, stored_amount. cbn. split; [auto|]. split; [auto|lia].
  - destruct (Z.ltb_spec (w_bal w + 0) 0); [lia|]. cbn [fst snd]. unfold deposit_of. cbn [w_st g_regs w_bal]. rewrite put_reg_get, stored_name. cbn [r_name]. rewrite E, zlist_eqb_refl, stored_amount. cbn. split; [auto|]. split; [auto|lia].
Qed.
(** Nothing else lowers a deposit. *)
Theorem only_revoking_lowers_deposit g days fork sh w x n : gen_ok g -> hist g days fork sh any w -> base g sh x -> deposit_of n (w_step g days fork sh w x) < deposit_of n w ->
  exists e r, x = ORequest e (CRevoke n) /\ get_reg n (g_regs (w_st w)) = Some r /\ r_owner r = e_caller e /\ r_exp r <= e_height e /\ snd (request g days fork sh w e (CRevoke n)) = Pay (r_owner r) (r_amount r).
Proof.
  intros OK H B L. pose proof (hist_good g OK days fork sh any w H) as GD. pose proof (gd_regs _ _ GD) as RG. rewrite Forall_forall in RG. destruct x as [e c|]; [|cbn in L; unfold deposit_of in L; cbn in L; lia]. cbn [w_step] in L.
  destruct (do_send (e_amount e) c) eqn:DS; [|cbn [andb] in L; lia]. destruct (exists_method e c); [|cbn [andb] in L; lia]. cbn [andb] in L. unfold request in L. destruct (receive g days fork sh e (w_snap w) (w_st w) c) as [[s o]|] eqn:R; [|unfold deposit_of in L; cbn in L; lia].
  destruct (w_bal w + amount_of e <? _) eqn:PB; [unfold deposit_of in L; cbn in L; lia|]. cbn [fst] in L. unfold deposit_of in L. cbn [w_st] in L. destruct B as (A0 & _).
  assert (SAME : forall r o', get_reg (r_name o') (g_regs (w_st w)) = Some o' -> r_name r = r_name o' -> r_amount r = r_amount o' -> g_regs s = put_reg r (g_regs (w_st w)) -> False).
  { intros r o' G E1 E2 ES. rewrite ES, put_reg_get in L. destruct (zlist_eqb (r_name r) n) eqn:EN; [|lia]. apply zlist_eqb_eq in EN. rewrite <- EN, E1, G in L. lia. }
  destruct c as [wd m prod|m|m to|m prod|m wd|m|]; cbn [receive do_send] in R, DS.
  - exfalso. destruct (_ || _); [discriminate|]. cbv zeta in R. destruct (match get_reg m (g_regs (w_st w)) with Some _ => _ | None => _ end) eqn:CK; [discriminate|]. destruct (claim _ _ _ _) as [[his hm]|]; [|discriminate]. injection R as <- <-. cbn [g_regs] in L. rewrite put_reg_get, stored_name in L. cbn [r_name] in L.
    destruct (zlist_eqb m n) eqn:EN; [|lia]. apply zlist_eqb_eq in EN. subst m. rewrite stored_amount in L. cbn [r_amount] in L. destruct (get_reg n (g_regs (w_st w))) as [o'|] eqn:G; [|lia]. destruct (get_reg_in _ _ _ G) as [I E].
    apply orb_false_elim in CK. destruct CK as [CK _]. apply orb_false_elim in CK. destruct CK as [CK _]. unfold is_active in CK. apply Z.eqb_neq in CK. destruct (RG o' I) as (_ & _ & _ & _ & _ & _ & [?|Z0] & _); [contradiction|]. lia.
  - destruct (get_reg m (g_regs (w_st w))) as [o'|] eqn:G; [|discriminate]. destruct (get_reg_in _ _ _ G) as [I E]. destruct (_ || _) eqn:CK in R; [discriminate|]. pose proof R as R0. injection R as <- <-. cbn [g_regs] in L. rewrite put_reg_get, stored_name in L. cbn [r_name] in L. rewrite E in L.
    destruct (zlist_eqb m n) eqn:EN; [|lia]. apply zlist_eqb_eq in EN. subst m. rewrite stored_amount, G in L. cbn [r_amount] in L. apply orb_false_elim in CK. destruct CK as [CK EX]. apply orb_false_elim in CK. destruct CK as [AC OW]. apply negb_false_iff in OW. apply Z.eqb_eq in OW. apply Z.ltb_ge in EX.
    exists e, o'. split; [auto|]. split; [auto|]. split; [auto|]. split; [auto|]. unfold request. cbn [receive]. rewrite G, AC, OW, Z.eqb_refl. destruct (Z.ltb_spec (e_height e) (r_exp o')); [lia|]. cbn [negb orb].
    replace (0 <? r_amount o') with true in * by (symmetry; apply Z.ltb_lt; lia). rewrite PB. cbn. congruence.
  - exfalso. destruct (get_reg m (g_regs (w_st w))) as [o'|] eqn:G; [|discriminate]. destruct (get_reg_in _ _ _ G) as [I E]. destruct (_ || _); [discriminate|]. destruct (calc_reward _ _ _ _ _ _) as [[et rw] dr]. cbv zeta in R. match type of R with (if ?b then _ else _) = _ => destruct b end; injection R as <- <-; [lia|].
    eapply (SAME _ o'); [now rewrite E| | |cbn [g_regs]; reflexivity]; now rewrite ?stored_name, ?stored_amount.
  - exfalso. destruct (get_reg m (g_regs (w_st w))) as [o'|] eqn:G; [|discriminate]. destruct (get_reg_in _ _ _ G) as [I E]. destruct (_ || _); [discriminate|]. destruct (claim _ _ _ _) as [[his hm]|]; [|discriminate]. injection R as <- <-.
    eapply (SAME _ o'); [now rewrite E| | |cbn [g_regs]; reflexivity]; now rewrite ?stored_name, ?stored_amount.
  - exfalso. destruct (get_reg m (g_regs (w_st w))) as [o'|] eqn:G; [|discriminate]. destruct (get_reg_in _ _ _ G) as [I E]. destruct (_ || _); [discriminate|]. injection R as <- <-. eapply (SAME _ o'); [now rewrite E| | |cbn [g_regs]; reflexivity]; reflexivity.
  - exfalso. destruct (get_reg m (g_regs (w_st w))) as [o'|]; [|discriminate]. destruct (is_active o'); [|discriminate]. injection R as <- <-. cbn in L. lia.
  - exfalso. injection R as <- <-. cbn in L. lia.
Qed.
(** A successful registration records who paid how much and when it can be taken back. *)
Theorem register_records_deposit g days fork sh w e wd n prod s o : 0 <= e_height e -> 0 <= sh -> e_height e + sh < two64 -> receive g days fork sh e (w_snap w) (w_st w) (CRegister wd n prod) = Some (s, o) ->
  e_token e = vite /\ e_amount e = (if e_leaf e then 1000000 * 10 ^ 18 else 500000 * 10 ^ 18) /\
  exists r, get_reg n (g_regs s) = Some r /\ r_owner r = e_caller e /\ r_amount r = e_amount e /\ r_exp r = e_height e + sh /\ r_prod r = prod /\ is_active r = true.
Proof.
  change (1000000 * 10 ^ 18) with stake_main. change (500000 * 10 ^ 18) with stake_pre.
  intros HP SP HB R. cbn [receive] in R. destruct (_ || _) eqn:CK in R; [discriminate|]. apply orb_false_elim in CK. destruct CK as [C1 C2]. apply negb_false_iff in C1, C2. apply Z.eqb_eq in C1, C2. cbv zeta in R. destruct (match get_reg n (g_regs (w_st w)) with Some _ => _ | None => _ end); [discriminate|]. destruct (claim _ _ _ _) as [[his hm]|]; [|discriminate]. injection R as <- <-.
  split; [auto|]. split; [auto|]. eexists. cbn [g_regs]. rewrite put_reg_get, stored_name. cbn [r_name]. rewrite zlist_eqb_refl. split; [reflexivity|]. rewrite stored_owner, stored_amount, stored_exp, stored_prod. unfold is_active. rewrite stored_rv. cbn. split; [auto|]. split; [auto|]. split; [unfold wrap64; apply Z.mod_small; lia|auto].
Qed.

(** ** C48: producing addresses belong to one name; votes *)
Theorem producing_address_unique g days fork sh w r1 r2 a : gen_ok g -> hist g days fork sh any w -> In r1 (g_regs (w_st w)) -> In r2 (g_regs (w_st w)) -> In a (r_his r1) -> In a (r_his r2) -> r1 = r2.
Proof.
  intros OK H I1 I2 A1 A2. pose proof (hist_good g OK days fork sh any w H) as GD. pose proof (gd_regs _ _ GD) as RG. rewrite Forall_forall in RG. destruct (RG r1 I1) as (_ & _ & _ & _ & F1 & _). destruct (RG r2 I2) as (_ & _ & _ & _ & F2 & _). rewrite Forall_forall in F1, F2.
  pose proof (get_reg_of _ _ (gd_names _ _ GD) I1) as G1. pose proof (get_reg_of _ _ (gd_names _ _ GD) I2) as G2. rewrite <- (F1 a A1), (F2 a A2), G2 in G1. congruence.
Qed.
(** The current address is among a registration's addresses, and an address never changes hands: what it produced always counts for the same name. *)
Theorem producing_address_stays g days fork sh w x r a : gen_ok g -> hist g days fork sh any w -> base g sh x -> In r (g_regs (w_st w)) -> In a (r_his r) ->
  In (r_prod r) (r_his r) /\ exists r', In r' (g_regs (w_st (w_step g days fork sh w x))) /\ r_name r' = r_name r /\ In a (r_his r').
Proof.
  intros OK H B I A. pose proof (hist_good g OK days fork sh any w H) as GD. pose proof (gd_regs _ _ GD) as RG. rewrite Forall_forall in RG. destruct (RG r I) as (NE & _ & _ & P & F & _). split; [exact P|].
  pose proof (step_good g OK days fork sh w x GD B) as GD'. rewrite Forall_forall in F. assert (HA : g_his (w_st (w_step g days fork sh w x)) a = r_name r).
  { destruct x as [e c|]; [|cbn; auto]. cbn [w_step]. destruct (do_send (e_amount e) c); [|auto]. destruct (exists_method e c); [|auto]. cbn [andb]. unfold request. destruct (receive g days fork sh e (w_snap w) (w_st w) c) as [[s o]|] eqn:R; [|auto]. destruct (_ <? _); [auto|]. cbn [fst w_st].
    assert (CL : forall prod m his l hm, claim (w_st w) prod m his = Some (l, hm) -> hm a = r_name r).
    { intros prod m his l hm C. specialize (F a A). unfold claim in C. destruct (g_his (w_st w) prod) eqn:E; [injection C as <- <-; rewrite upd_other; [auto|intros ->; congruence]|]. rewrite <- E in C. destruct (zlist_eqb (g_his (w_st w) prod) m); [|discriminate]. now injection C as <- <-. }
    destruct c as [wd m prod|m|m to|m prod|m wd|m|]; cbn [receive] in R.
    - destruct (_ || _); [discriminate|]. cbv zeta in R. destruct (match get_reg m (g_regs (w_st w)) with Some _ => _ | None => _ end); [discriminate|]. destruct (claim _ _ _ _) as [[his hm]|] eqn:C; [|discriminate]. injection R as <- <-. cbn. eapply CL; eauto.
    - destruct (get_reg m (g_regs (w_st w))); [|discriminate]. destruct (_ || _); [discriminate|]. injection R as <- <-. cbn. auto.
    - destruct (get_reg m (g_regs (w_st w))); [|discriminate]. destruct (_ || _); [discriminate|]. destruct (calc_reward _ _ _ _ _ _) as [[et rw] dr]. cbv zeta in R. match type of R with (if ?b then _ else _) = _ => destruct b end; injection R as <- <-; cbn; auto.
    - destruct (get_reg m (g_regs (w_st w))); [|discriminate]. destruct (_ || _); [discriminate|]. destruct (claim _ _ _ _) as [[his hm]|] eqn:C; [|discriminate]. injection R as <- <-. cbn. eapply CL; eauto.
    - destruct (get_reg m (g_regs (w_st w))); [|discriminate]. destruct (_ || _); [discriminate|]. injection R as <- <-. cbn. auto.
    - destruct (get_reg m (g_regs (w_st w))) as [o'|]; [|discriminate]. destruct (is_active o'); [|discriminate]. injection R as <- <-. cbn. auto.
    - injection R as <- <-. cbn. auto. }
  destruct (gd_his _ _ GD' a) as (r' & I' & E1 & E2); [congruence|]. exists r'. split; [auto|]. split; [congruence|auto].
Qed.
(** Votes are for registered names only; a vote is accepted only for an active registration, and the newest one counts. *)
Theorem votes_registered g days fork sh w a : gen_ok g -> hist g days fork sh any w -> g_votes (w_st w) a = [] \/ exists r, In r (g_regs (w_st w)) /\ r_name r = g_votes (w_st w) a.
Proof. intros OK H. apply (gd_votes _ _ (hist_good g OK days fork sh any w H)). Qed.
Theorem vote_counts g days fork sh w e n : e_amount e = 0 -> name_ok n = true -> 0 <= w_bal w ->
  let w' := w_step g days fork sh w (ORequest e (CVote n)) in
  (forall a, a <> e_caller e -> g_votes (w_st w') a = g_votes (w_st w) a) /\ g_regs (w_st w') = g_regs (w_st w) /\
  match get_reg n (g_regs (w_st w)) with
  | Some r => if is_active r then g_votes (w_st w') (e_caller e) = n else g_votes (w_st w') (e_caller e) = g_votes (w_st w) (e_caller e)
  | None => g_votes (w_st w') (e_caller e) = g_votes (w_st w) (e_caller e)
  end.
Proof.
  intros A NO BP w'. subst w'. cbn [w_step do_send exists_method]. rewrite A, NO. cbn [Z.eqb andb]. unfold request. cbn [receive]. destruct (get_reg n (g_regs (w_st w))) as [r|]; [|cbn; auto]. destruct (is_active r); [|cbn; auto].
  assert (AM : amount_of e = 0) by (unfold amount_of; rewrite A; destruct (e_token e =? vite); auto). rewrite AM. destruct (Z.ltb_spec (w_bal w + 0) 0); [lia|]. cbn [fst w_st g_votes g_regs]. split; [intros a D; now apply upd_other|]. split; [auto|apply upd_same].
Qed.

(** ** C49: the producers of a withdraw address *)
(** As long as no request confirmed before the Earth upgrade is received after it: the query for an address lists exactly the registrations whose rewards it may withdraw
    without owning them, each once. *)
Theorem withdraw_list_exact g days fork sh w a : gen_ok g -> hist g days fork sh earth_once w ->
  NoDup (paying_to (w_st w) a) /\ forall r, In r (paying_to (w_st w) a) <-> In r (g_regs (w_st w)) /\ r_wd r = a /\ r_owner r <> a.
Proof.
  intros OK H. pose proof (hist_good g OK days fork sh earth_once w H) as GD. destruct (hist_names g OK days fork sh w H) as [LO LI _]. specialize (LO a). pose proof (gd_names _ _ GD) as N.
  assert (PT : paying_to (w_st w) a = flat_map (fun n => match get_reg n (g_regs (w_st w)) with Some r => [r] | None => [] end) (names_at (g_names (w_st w)) a)) by (unfold paying_to, names_at; destruct (g_names (w_st w) a); reflexivity).
  rewrite PT. split.
  - destruct LO as [ND _]. assert (Q : forall l, NoDup l -> NoDup (flat_map (fun n => match get_reg n (g_regs (w_st w)) with Some r => [r] | None => [] end) l)); [|auto].
    induction 1 as [|n l I D IH]; cbn; [constructor|]. destruct (get_reg n (g_regs (w_st w))) as [r|] eqn:G; [|auto]. cbn. constructor; [|auto]. intro X. apply in_flat_map in X. destruct X as (m & M & X). destruct (get_reg m (g_regs (w_st w))) as [r'|] eqn:G'; [|contradiction]. destruct X as [->|[]].
    destruct (get_reg_in _ _ _ G) as [_ E]. destruct (get_reg_in _ _ _ G') as [_ E']. congruence.
  - intro r. rewrite in_flat_map. split.
    + intros (n & M & X). destruct (get_reg n (g_regs (w_st w))) as [r'|] eqn:G; [|contradiction]. destruct X as [->|[]]. destruct (get_reg_in _ _ _ G) as [I E]. split; [auto|]. apply LI in M. destruct M as (r2 & I2 & E2 & E3). pose proof (get_reg_of _ _ N I2) as G2. rewrite E2, G in G2. injection G2 as ->. auto.
    + intros (I & E1 & E2). exists (r_name r). split; [apply LI; exists r; auto|]. rewrite (get_reg_of _ _ N I). now left.
Qed.

(** ** C50: every day is paid once *)
(** A withdrawal pays exactly what was earned on the days from the recorded reward time on that ended at least an hour ago (and before the registration was
    revoked), to the address given, and only the owner or the withdraw address can ask for it. *)
Theorem withdraw_exact g days fork sh w e n to m t x : gen_ok g -> hist g days fork sh any w -> base g sh (ORequest e (CWithdraw n to)) -> e_panic e = false -> e_amount e = 0 ->
  snd (request g days fork sh w e (CWithdraw n to)) = Mint m t x ->
  exists o, get_reg n (g_regs (w_st w)) = Some o /\ (e_caller e = r_owner o \/ e_caller e = r_wd o) /\ m = n /\ t = to /\ 0 < x /\
    x = zsum (map (fun d => earned days (w_snap w) (e_leaf e) fork n (snd d)) (paid_days g days fork sh w (ORequest e (CWithdraw n to)))) /\
    forall k d, In (k, d) (paid_days g days fork sh w (ORequest e (CWithdraw n to))) <->
      k = n /\ first_day (genesis_time g) (r_rt o) <= d < settled (genesis_time g) (e_time e) /\ (is_active o = false -> d < (r_rv o - genesis_time g) / 86400).
Proof.
  intros OK H B NP A RQ. assert (DS : do_send (e_amount e) (CWithdraw n to) = true) by (cbn; rewrite A; reflexivity). pose proof (hist_good g OK days fork sh any w H) as GD.
  destruct (withdraw_spec g OK days fork sh w e n to m t x GD B NP DS RQ) as (o & ne & G & R0 & CA & -> & -> & X & ET & NE & EX & NEQ & _). exists o. split; [auto|]. split; [auto|]. split; [auto|]. split; [auto|]. split; [auto|].
  cbn [paid_days]. rewrite DS, RQ, G, ET. replace ((genesis_time g + ne * 86400 - genesis_time g) / 86400) with ne by lia. assert (FD : 0 <= first_day (genesis_time g) (r_rt o)) by (unfold first_day; destruct (Z.leb_spec (r_rt o) (genesis_time g)); lia). split.
  - rewrite map_map. cbn [snd]. exact EX.
  - intros k d. rewrite in_map_iff. split.
    + intros (j & Q & J). injection Q as <- <-. apply in_seq in J. split; [auto|]. destruct (is_active o); (split; [lia|]); [discriminate|]. intros _. lia.
    + intros (-> & D & R). exists (Z.to_nat (d - first_day (genesis_time g) (r_rt o))). split; [f_equal; lia|]. apply in_seq. destruct (is_active o); [lia|]. specialize (R eq_refl). lia.
Qed.
(** In every run in which requests are received in the order they were confirmed, no day is paid twice to the same producer. *)
Theorem days_paid_once g days fork sh w xs : gen_ok g -> genesis_ok (genesis_time g) w -> Forall (base g sh) xs -> along g days fork sh (in_order g fork) w xs -> NoDup (all_paid g days fork sh w xs).
Proof.
  intros OK G F AL. apply (log_run g OK days fork sh xs w [] (genesis_good _ _ G) F AL). split; [constructor|easy].
Qed.

(** ** Concrete cases *)
Lemma run_hist g days fork sh ok xs : forall w, hist g days fork sh ok w -> Forall (base g sh) xs -> along g days fork sh ok w xs -> hist g days fork sh ok (run g days fork sh xs w).
Proof.
  induction xs as [|x xs IH]; intros w H F AL; [exact H|]. inversion F as [|? ? B F']; subst. destruct AL as [O AL]. cbn [run fold_left]. apply IH; auto. apply h_next; auto.
Qed.
Definition eg_g : group := {| g_genesis := 0; g_nodes := 2; g_interval := 1; g_per := 3; g_repeat := 1; g_level := 0 |}.
Definition eg_point : point := {| p_prev := 0; p_hash := 0; p_sbps := [(11, (10, 10)); (13, (4, 0))]; p_votes := Some {| v_details := [([97], 5)]; v_total := 5 |} |}.
Definition eg_days (i : Z) : option point := if (0 <=? i) && (i <? 4) then Some eg_point else None.
Definition eg_a : reg := {| r_name := [97]; r_prod := 11; r_wd := 1; r_owner := 1; r_amount := stake_main; r_exp := 100; r_rt := 0; r_rv := 0; r_his := [11] |}.
Definition eg_w : world := {| w_st := {| g_regs := [eg_a]; g_his := fun a => if a =? 11 then [97] else []; g_names := fun _ => []; g_votes := fun _ => [] |}; w_snap := [eg_a]; w_bal := stake_main; w_time := 0; w_earth := true; w_mints := [] |}.
Definition eg_e (caller amount height t : Z) : env := {| e_caller := caller; e_amount := amount; e_token := vite; e_height := height; e_time := t; e_leaf := true; e_earth := true; e_earth_c := true; e_panic := false |}.
Lemma eg_gen : gen_ok eg_g. Proof. Local Transparent sec. split; vm_compute; congruence. Local Opaque sec. Qed.
Lemma eg_days_ok : forall i p, eg_days i = Some p -> day_ok p.
Proof.
  unfold eg_days. intros i p. destruct (_ && _); [|discriminate]. intros [= <-]. split; [repeat constructor; cbn; intuition discriminate|]. split; [repeat constructor; cbn; lia|]. split; [reflexivity|]. cbn. split; [repeat constructor; cbn; intuition discriminate|]. split; [repeat constructor; cbn; lia|reflexivity].
Qed.
Lemma eg_genesis : genesis_ok (genesis_time eg_g) eg_w.
Proof.
  replace (genesis_time eg_g) with 0 by (vm_compute; reflexivity). constructor; cbn.
  - repeat constructor; auto.
  - constructor; [|constructor]. cbn [eg_a r_name r_wd r_owner r_amount r_prod r_his r_rv r_rt]. split; [discriminate|]. split; [intros [?|[]]; discriminate|]. split; [reflexivity|]. split; [vm_compute; congruence|]. split; [now left|]. split; [repeat constructor|]. split; [repeat constructor; intros []|].
    split; [now left|]. split; [lia|]. Local Transparent sec. split; [intros _|]; split; vm_compute; congruence. Local Opaque sec.
  - intro a. destruct (Z.eqb_spec a 11) as [->|]; [|congruence]. intros _. exists eg_a. cbn. auto.
  - auto.
  - auto.
  - auto.
  - auto.
  - auto.
Qed.
(** A registers elsewhere, sets a withdraw address, is voted for, and rewards of two and then one more day are withdrawn; then its deposit is taken back. *)
Definition eg_run : list op :=
  [ORequest (eg_e 1 0 10 1000) (CUpdateWd [97] 5); ORequest (eg_e 5 0 20 (2 * 86400 + 3600)) (CWithdraw [97] 6); OSnapshot; ORequest (eg_e 2 stake_main 30 (2 * 86400 + 3700)) (CRegister (Some 5) [98; 32; 98] 12);
   ORequest (eg_e 7 0 30 (2 * 86400 + 3700)) (CVote [97]); ORequest (eg_e 1 0 30 (3 * 86400 + 3700)) (CWithdraw [97] 1); ORequest (eg_e 1 0 100 (3 * 86400 + 3800)) (CRevoke [97])].
Lemma eg_base : Forall (base eg_g 7776000) eg_run.
Proof. Local Transparent sec. repeat (apply Forall_cons || apply Forall_nil); try exact Logic.I; (split; [|split; [|split; [split|split]]]); vm_compute; congruence. Local Opaque sec. Qed.
Lemma eg_along : along eg_g eg_days 0 7776000 (in_order eg_g 0) eg_w eg_run.
Proof. cbn [along eg_run]. repeat split; try (vm_compute; congruence). Qed.
Lemma eg_earth : along eg_g eg_days 0 7776000 earth_once eg_w eg_run.
Proof. cbn [along eg_run]. repeat split. Qed.
Example eg_history : hist eg_g eg_days 0 7776000 (in_order eg_g 0) (run eg_g eg_days 0 7776000 eg_run eg_w) /\ hist eg_g eg_days 0 7776000 earth_once (run eg_g eg_days 0 7776000 eg_run eg_w).
Proof. split; (apply run_hist; [apply h_gen; exact eg_genesis|exact eg_base|first [exact eg_along|exact eg_earth]]). Qed.
Example eg_result : let w := run eg_g eg_days 0 7776000 eg_run eg_w in
  all_paid eg_g eg_days 0 7776000 eg_w eg_run = [([97], 0); ([97], 1); ([97], 2)] /\ issued w = 3 * (951293759512937595 * 10) /\ deposits w = stake_main /\ w_bal w = stake_main /\
  map r_name (paying_to (w_st w) 5) = [[97]; [98; 32; 98]] /\ g_votes (w_st w) 7 = [97].
Proof. vm_compute. auto 10. Qed.

(** ** Where the claims fail *)
(** Only requests of the same account are received in order; both the owner and the withdraw address may ask for rewards. When a request confirmed
    earlier is received after one confirmed later, the recorded reward time moves back and days are paid again: more is issued than the budget. *)
Definition tw_run : list op :=
  [ORequest (eg_e 1 0 10 1000) (CUpdateWd [97] 5); ORequest (eg_e 1 0 20 (3 * 86400 + 3600)) (CWithdraw [97] 6); ORequest (eg_e 5 0 15 (86400 + 3600)) (CWithdraw [97] 6); ORequest (eg_e 1 0 20 (3 * 86400 + 3600)) (CWithdraw [97] 6)].
Theorem days_paid_twice_refuted : exists g days fork sh w xs, gen_ok g /\ (forall i p, days i = Some p -> day_ok p) /\ genesis_ok (genesis_time g) w /\ Forall (base g sh) xs /\
  Forall (fun x => match x with ORequest e _ => e_panic e = false /\ e_leaf e = true | OSnapshot => True end) xs /\
  ~ NoDup (all_paid g days fork sh w xs) /\ issued (run g days fork sh xs w) > reward_per_block * blocks_before days (Z.to_nat (settled (genesis_time g) (w_time (run g days fork sh xs w)))).
Proof.
  exists eg_g, eg_days, 0, 7776000, eg_w, tw_run. split; [exact eg_gen|]. split; [exact eg_days_ok|]. split; [exact eg_genesis|]. split.
  { Local Transparent sec. repeat (apply Forall_cons || apply Forall_nil); (split; [|split; [|split; [split|split]]]); vm_compute; congruence. Local Opaque sec. }
  split; [repeat constructor|]. split.
  - assert (E : all_paid eg_g eg_days 0 7776000 eg_w tw_run = [([97], 0); ([97], 1); ([97], 2); ([97], 1); ([97], 2)]) by (vm_compute; reflexivity). rewrite E. intro N. inversion N as [|? ? _ N2]; subst. inversion N2 as [|? ? N3 _]; subst. apply N3. cbn. auto.
  - vm_compute. reflexivity.
Qed.
(** A panic while rewards are calculated is recovered without an error: the reward time becomes zero, and all days since genesis are paid again. *)
Definition pn_run : list op :=
  [ORequest (eg_e 1 0 20 (3 * 86400 + 3600)) (CWithdraw [97] 6);
   ORequest {| e_caller := 1; e_amount := 0; e_token := vite; e_height := 20; e_time := 3 * 86400 + 3600; e_leaf := true; e_earth := true; e_earth_c := true; e_panic := true |} (CWithdraw [97] 6);
   ORequest (eg_e 1 0 20 (3 * 86400 + 3600)) (CWithdraw [97] 6)].
Theorem panic_pays_again_refuted : exists g days fork sh w xs, gen_ok g /\ (forall i p, days i = Some p -> day_ok p) /\ genesis_ok (genesis_time g) w /\ Forall (base g sh) xs /\
  Forall (fun x => match x with ORequest e _ => e_time e = 3 * 86400 + 3600 | OSnapshot => True end) xs /\
  ~ NoDup (all_paid g days fork sh w xs) /\ issued (run g days fork sh xs w) > reward_per_block * blocks_before days (Z.to_nat (settled (genesis_time g) (w_time (run g days fork sh xs w)))).
Proof.
  exists eg_g, eg_days, 0, 7776000, eg_w, pn_run. split; [exact eg_gen|]. split; [exact eg_days_ok|]. split; [exact eg_genesis|]. split.
  { Local Transparent sec. repeat (apply Forall_cons || apply Forall_nil); (split; [|split; [|split; [split|split]]]); vm_compute; congruence. Local Opaque sec. }
  split; [repeat constructor|]. split.
  - assert (E : all_paid eg_g eg_days 0 7776000 eg_w pn_run = [([97], 0); ([97], 1); ([97], 2); ([97], 0); ([97], 1); ([97], 2)]) by (vm_compute; reflexivity). rewrite E. intro N. inversion N as [|? ? N3 _]; subst. apply N3. cbn. auto.
  - vm_compute. reflexivity.
Qed.
(** Rewards start with the first whole day after the registration; but who asks for rewards at once moves the recorded time back to the last midnight and is paid for
    the day of the registration too. *)
Definition rg_run (early : bool) : list op :=
  [ORequest (eg_e 2 stake_main 30 (86400 + 7200)) (CRegister None [98] 13)] ++ (if early then [ORequest (eg_e 2 0 31 (86400 + 7300)) (CWithdraw [98] 2)] else []) ++ [OSnapshot; ORequest (eg_e 2 0 40 (3 * 86400 + 3600)) (CWithdraw [98] 2)].
Definition rg_days (i : Z) : option point := if (0 <=? i) && (i <? 4) then Some {| p_prev := 0; p_hash := 0; p_sbps := [(11, (10, 10)); (13, (4, 4))]; p_votes := Some {| v_details := [([97], 5); ([98], 6)]; v_total := 11 |} |} else None.
Theorem registration_day_refuted : exists g days fork sh w t, gen_ok g /\ (forall i p, days i = Some p -> day_ok p) /\ genesis_ok (genesis_time g) w /\
  (exists e, hd_error (rg_run true) = Some (ORequest e (CRegister None [98] 13)) /\ e_time e = t) /\
  (forall b, Forall (base g sh) (rg_run b) /\ along g days fork sh (in_order g fork) w (rg_run b)) /\
  all_paid g days fork sh w (rg_run false) = [([98], first_day (genesis_time g) t)] /\ all_paid g days fork sh w (rg_run true) = [([98], first_day (genesis_time g) t - 1); ([98], first_day (genesis_time g) t)].
Proof.
  exists eg_g, rg_days, 0, 7776000, eg_w, (86400 + 7200). split; [exact eg_gen|]. split.
  { unfold rg_days. intros i p. destruct (_ && _); [|discriminate]. intros [= <-]. split; [repeat constructor; cbn; intuition discriminate|]. split; [repeat constructor; cbn; lia|]. split; [reflexivity|]. cbn. split; [repeat constructor; cbn; intuition discriminate|]. split; [repeat constructor; cbn; lia|reflexivity]. }
  split; [exact eg_genesis|]. split; [eexists; split; reflexivity|]. split.
  { intro b. split.
    - Local Transparent sec. destruct b; repeat (apply Forall_cons || apply Forall_nil); try exact Logic.I; (split; [|split; [|split; [split|split]]]); vm_compute; congruence. Local Opaque sec.
    - destruct b; cbn [along rg_run app]; repeat split; try (vm_compute; congruence). }
  split; vm_compute; reflexivity.
Qed.
(** A revocation confirmed before the Earth upgrade and received after it drops the withdraw address but leaves the name in that address's list. *)
Definition wl_run : list op :=
  [ORequest (eg_e 1 0 110 1000) (CUpdateWd [97] 5);
   ORequest {| e_caller := 1; e_amount := 0; e_token := vite; e_height := 105; e_time := 990; e_leaf := true; e_earth := true; e_earth_c := false; e_panic := false |} (CRevoke [97])].
Theorem withdraw_list_refuted : exists g days fork sh w xs r, gen_ok g /\ genesis_ok (genesis_time g) w /\ Forall (base g sh) xs /\
  In r (paying_to (w_st (run g days fork sh xs w)) 5) /\ r_wd r <> 5.
Proof.
  exists eg_g, eg_days, 0, 7776000, eg_w, wl_run. eexists. split; [exact eg_gen|]. split; [exact eg_genesis|]. split.
  { Local Transparent sec. repeat (apply Forall_cons || apply Forall_nil); (split; [|split; [|split; [split|split]]]); vm_compute; congruence. Local Opaque sec. }
  split; [vm_compute; left; reflexivity|vm_compute; discriminate].
Qed.

Print Assumptions day_rewards_within_budget.
Print Assumptions day_reward_monotone.
Print Assumptions rewards_issued_within_budget.
Print Assumptions rewards_issued_within_chain.
Print Assumptions deposits_backed.
Print Assumptions revoke_returns_deposit.
Print Assumptions only_revoking_lowers_deposit.
Print Assumptions register_records_deposit.
Print Assumptions producing_address_unique.
Print Assumptions producing_address_stays.
Print Assumptions votes_registered.
Print Assumptions vote_counts.
Print Assumptions withdraw_list_exact.
Print Assumptions withdraw_exact.
Print Assumptions days_paid_once.
Print Assumptions days_paid_twice_refuted.
Print Assumptions panic_pays_again_refuted.
Print Assumptions registration_day_refuted.
Print Assumptions withdraw_list_refuted.
