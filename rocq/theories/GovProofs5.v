From Verif Require Import Lib SchedModel StatsModel GovModel GovSpec GovProofs GovProofs4.

(** ** Rewards over histories *)
(** The days from [i] on, [n] of them. *)
Definition over (f : Z -> Z) (i : Z) (n : nat) : Z := zsum (map (fun j => f (i + Z.of_nat j)) (seq 0 n)).
Lemma over_S f i n : over f i (S n) = f i + over f (i + 1) n.
Proof. unfold over. cbn [seq map zsum]. rewrite Z.add_0_r. f_equal. rewrite <- seq_shift, map_map. f_equal. apply map_ext. intro j. f_equal. lia. Qed.
Lemma over_app f i n m : over f i (n + m) = over f i n + over f (i + Z.of_nat n) m.
Proof. revert i. induction n as [|n IH]; intro i; cbn [Nat.add]; [unfold over at 2; cbn; f_equal; lia|]. rewrite !over_S, IH. replace (i + 1 + Z.of_nat n) with (i + Z.of_nat (S n)) by lia. lia. Qed.
Lemma over_le f h i n : (forall j, i <= j < i + Z.of_nat n -> f j <= h j) -> over f i n <= over h i n.
Proof. intro H. unfold over. apply zsum_le. intros j J. apply in_seq in J. apply H. lia. Qed.
Lemma over_nonneg f i n : (forall j, 0 <= f j) -> 0 <= over f i n.
Proof. intro H. unfold over. apply zsum_nonneg, Forall_forall. intros. apply H. Qed.
Lemma day_stats_sum days regs leaf fork n k : forall i acc, fold_left (fun acc d => acc + (fst (day_reward d n (stake_of leaf fork (d_index d))) + snd (day_reward d n (stake_of leaf fork (d_index d))))) (day_stats days regs i k) acc = acc + over (earned days regs leaf fork n) i k.
Proof.
  induction k as [|k IH]; intros i acc; [cbn; unfold over; cbn; lia|]. cbn [day_stats]. rewrite fold_left_app, IH, over_S. unfold earned at 2. destruct (days i) as [p|]; [|cbn; lia]. destruct (p_votes p) as [v|]; [|cbn; lia]. cbn [fold_left d_index day_detail]. lia.
Qed.
Lemma rewards_over days regs leaf fork n i k : sum_rewards leaf fork n (day_stats days regs i k) = over (earned days regs leaf fork n) i k.
Proof. unfold sum_rewards. rewrite day_stats_sum. lia. Qed.

Section Rewards.
Context (g : group).
Let gt := genesis_time g.
Local Notation first_day := (GovSpec.first_day gt).
Lemma settled_mono t t' : t <= t' -> settled gt t <= settled gt t'.
Proof. unfold settled. lia. Qed.
Lemma settled_first t : settled gt t <= first_day t.
Proof. unfold settled, GovSpec.first_day. destruct (Z.leb_spec t gt); lia. Qed.
Lemma first_midnight k : 0 <= k -> first_day (gt + k * 86400) = k.
Proof. intro. unfold GovSpec.first_day. destruct (Z.leb_spec (gt + k * 86400) gt); lia. Qed.

Context (OK : gen_ok g) (days : Z -> option point) (fork sh : Z).
(** What a calculation gives: the days from the first one not settled. *)
Lemma calc_days e regs o et rw d : 0 < e_time e -> time_ok gt (e_time e) -> 0 <= r_rt o -> time_ok gt (r_rt o) -> time_ok gt (r_rv o) -> calc g days fork e regs o = (et, rw, d) ->
  exists ne, 0 <= ne <= settled gt (e_time e) /\ rw = Some (over (earned days regs (e_leaf e) fork (r_name o)) (first_day (r_rt o)) (Z.to_nat (ne - first_day (r_rt o)))) /\ et = gt + ne * 86400 /\
    (d = false -> ne = settled gt (e_time e)) /\ (is_active o = true -> d = false) /\ (is_active o = false -> ne = Z.min (settled gt (e_time e)) (Z.max 0 ((r_rv o - gt) / 86400))).
Proof.
  intros TP TO R0 RT RV C. unfold calc in C. rewrite by_start_eq in C by auto. fold gt in C. destruct (gt_eq g OK) as [_ GP]. fold gt in GP.
  assert (FD : exists x, (if r_rt o <=? gt then (0, gt, false) else ((r_rt o - gt - 1) / 86400 + 1, gt + ((r_rt o - gt - 1) / 86400 + 1) * 86400, false)) = (first_day (r_rt o), x, false)) by (unfold GovSpec.first_day; destruct (r_rt o <=? gt); eexists; reflexivity).
  destruct FD as [x FD]. rewrite FD in C. clear x FD. set (si := first_day (r_rt o)) in *. assert (S0 : 0 <= si) by (subst si; unfold GovSpec.first_day; destruct (Z.leb_spec (r_rt o) gt); lia).
  assert (BL : by_end g (e_time e - reward_limit) = if settled gt (e_time e) =? 0 then (0, gt, true) else (settled gt (e_time e) - 1, gt + settled gt (e_time e) * 86400, false)).
  { destruct (by_end_time g OK (e_time e - reward_limit)) as [_ E]; [now rewrite Z.sub_add|]. rewrite E. unfold settled, reward_limit. fold gt. destruct (Z.ltb_spec (e_time e - 3600 - gt) 86400); destruct (Z.eqb_spec (Z.max 0 ((e_time e - 3600 - gt) / 86400)) 0); try lia; [auto|]. rewrite Z.max_r by lia. auto. }
  assert (BR : exists kr, kr = Z.max 0 ((r_rv o - gt) / 86400) /\ by_end g (r_rv o) = if kr =? 0 then (0, gt, true) else (kr - 1, gt + kr * 86400, false)).
  { eexists. split; [reflexivity|]. rewrite by_end_eq by auto. fold gt. destruct (Z.ltb_spec (r_rv o - gt) 86400); destruct (Z.eqb_spec (Z.max 0 ((r_rv o - gt) / 86400)) 0); try lia; [auto|]. rewrite Z.max_r by lia. auto. }
  destruct BR as (kr & KR & BR). assert (SP : 0 <= settled gt (e_time e)) by (unfold settled; lia). 
  assert (FIN : forall k dr, 0 <= k <= settled gt (e_time e) -> (let '(ei, et0, within, drained) := ((if k =? 0 then (0, gt, true) else (k - 1, gt + k * 86400, false)), dr) in
     if within || (ei <? si) then (et0, Some 0, drained) else (et0, Some (sum_rewards (e_leaf e) fork (r_name o) (day_stats days regs si (Z.to_nat (ei - si + 1)))), drained)) = (et, rw, d) ->
     rw = Some (over (earned days regs (e_leaf e) fork (r_name o)) si (Z.to_nat (k - si))) /\ et = gt + k * 86400 /\ d = dr).
  { intros k dr K0 E. destruct (Z.eqb_spec k 0) as [->|K].
    - cbn [orb] in E. injection E as <- <- <-. replace (Z.to_nat (0 - si)) with O by lia. split; [reflexivity|]. split; [lia|auto].
    - cbn [orb] in E. destruct (Z.ltb_spec (k - 1) si) as [L|L].
      + injection E as <- <- <-. replace (Z.to_nat (k - si)) with O by lia. auto.
      + injection E as <- <- <-. rewrite rewards_over. replace (k - 1 - si + 1) with (k - si) by lia. auto. }
  destruct (is_active o) eqn:AC.
  - rewrite BL in C. apply FIN in C; [|lia]. destruct C as (C1 & C2 & ->). exists (settled gt (e_time e)). repeat split; auto; try lia; discriminate.
  - rewrite BR in C. assert (EN : snd (fst (if kr =? 0 then (0, gt, true) else (kr - 1, gt + kr * 86400, false))) = gt + kr * 86400) by (destruct (Z.eqb_spec kr 0); cbn; lia). rewrite EN in C.
    unfold reward_limit in C at 1. destruct (Z.leb_spec (gt + kr * 86400) (e_time e - 3600)) as [L|L].
    + apply FIN in C; [|unfold settled; lia]. destruct C as (C1 & C2 & ->). exists kr. repeat split; auto; try lia; try discriminate; unfold settled; lia.
    + rewrite BL in C. apply FIN in C; [|lia]. destruct C as (C1 & C2 & ->). exists (settled gt (e_time e)). repeat split; auto; try lia; try discriminate. intros _. assert (settled gt (e_time e) <= kr) by (unfold settled in *; lia). lia.
Qed.

Context (DOK : forall i p, days i = Some p -> day_ok p).
Definition upto (h : Z -> name) (n : name) (k : Z) : Z := over (cap days fork h n) 0 (Z.to_nat k).
Lemma upto_mono h n k k' : k <= k' -> upto h n k <= upto h n k'.
Proof.
  intro H. unfold upto. replace (Z.to_nat k') with (Z.to_nat k + (Z.to_nat k' - Z.to_nat k))%nat by lia. rewrite over_app. enough (0 <= over (cap days fork h n) (0 + Z.of_nat (Z.to_nat k)) (Z.to_nat k' - Z.to_nat k)) by lia.
  apply over_nonneg. intro j. apply cap_nonneg. apply DOK.
Qed.
Lemma upto_his h h' n k : n <> [] -> (forall a, h a <> [] -> h' a = h a) -> upto h n k <= upto h' n k.
Proof. intros NE H. apply over_le. intros j _. apply cap_mono; auto. apply DOK. Qed.

Lemma name_of_his regs h : Forall (fun r => r_name r <> [] /\ Forall (fun a => h a = r_name r) (r_his r)) regs -> forall a, name_of regs a <> [] -> h a = name_of regs a.
Proof.
  intros F a. unfold name_of. assert (Q : forall acc, (acc <> [] -> h a = acc) -> fold_left (fun acc r => if zin a (r_his r) then r_name r else acc) regs acc <> [] -> h a = fold_left (fun acc r => if zin a (r_his r) then r_name r else acc) regs acc).
  2: { apply Q. congruence. }
  induction F as [|r l [N R] F IH]; intros acc A; cbn [fold_left]; [auto|]. apply IH. destruct (zin a (r_his r)) eqn:E; [|auto]. intros _. unfold zin in E. apply existsb_exists in E. destruct E as (b & I & E). apply Z.eqb_eq in E. subst b. rewrite Forall_forall in R. auto.
Qed.
Lemma earned_cap h regs leaf n i : n <> [] -> (forall a, name_of regs a <> [] -> h a = name_of regs a) -> (leaf = true \/ i <= fork) -> 0 <= earned days regs leaf fork n i <= cap days fork h n i.
Proof.
  intros NE HN LF. unfold earned. destruct (days i) as [p|] eqn:ED; [|unfold cap; rewrite ED; lia]. destruct (p_votes p) as [v|] eqn:EV; [|unfold cap; rewrite ED, EV; lia].
  assert (ES : stake_of leaf fork i = stake_of true fork i). { destruct LF as [->|L]; [auto|]. unfold stake_of. cbn [negb]. destruct (Z.leb_spec i fork); [|lia]. now destruct leaf. }
  rewrite ES. apply day_reward_cap; auto. now apply (DOK i).
Qed.

Record paid (w : world) : Prop := {
  pd_now : forall n, n <> [] -> issued_for n (w_mints w) <= upto (g_his (w_st w)) n (settled gt (w_time w));
  pd_next : forall r, In r (g_regs (w_st w)) -> 0 <= r_rt r -> issued_for (r_name r) (w_mints w) <= upto (g_his (w_st w)) (r_name r) (first_day (r_rt r));
  pd_reg : forall x, In x (w_mints w) -> In (fst x) (map r_name (g_regs (w_st w)));
  pd_pos : Forall (fun x => 0 < snd x) (w_mints w) }.
Lemma genesis_paid w : genesis_ok gt w -> paid w.
Proof.
  intros [N R H L V S T M]. assert (Z0 : forall n k, 0 <= upto (g_his (w_st w)) n k) by (intros n k; apply over_nonneg; intro j; apply cap_nonneg, DOK). constructor; rewrite M; [intros; apply Z0|intros; apply Z0|easy|constructor].
Qed.
Lemma issued_for_app n l l' : issued_for n (l ++ l') = issued_for n l + issued_for n l'.
Proof. unfold issued_for. now rewrite filter_app, map_app, zsum_app. Qed.
Lemma issued_for_none n l : (forall x, In x l -> fst x <> n) -> issued_for n l = 0.
Proof. intro H. unfold issued_for. induction l as [|x l IH]; cbn [filter]; [auto|]. assert (zlist_eqb (fst x) n = false) as -> by (apply zlist_eqb_neq, H; now left). apply IH. intros y I. apply H. now right. Qed.

(** A step that issues nothing and puts one registration. *)
Lemma paid_put w s r t ea bal : good gt w -> paid w -> g_regs s = put_reg r (g_regs (w_st w)) -> w_time w <= t -> r_name r <> [] ->
  (forall a, g_his (w_st w) a <> [] -> g_his s a = g_his (w_st w) a) ->
  (0 <= r_rt r -> issued_for (r_name r) (w_mints w) <= upto (g_his s) (r_name r) (first_day (r_rt r))) ->
  paid {| w_st := s; w_snap := w_snap w; w_bal := bal; w_time := t; w_earth := ea; w_mints := w_mints w |}.
Proof.
  intros GD PD ES LT NE HK RR. pose proof (gd_names _ _ GD) as N. constructor; cbn [w_st w_time w_mints].
  - intros n NN. eapply Z.le_trans; [exact (pd_now w PD n NN)|]. eapply Z.le_trans; [apply upto_mono, settled_mono, LT|apply upto_his; auto].
  - intros x I X. rewrite ES in I. apply put_reg_in in I; [|auto]. destruct I as [->|[I D]]; [auto|]. eapply Z.le_trans; [exact (pd_next w PD x I X)|]. apply upto_his; auto. pose proof (gd_regs _ _ GD) as RG. rewrite Forall_forall in RG. now destruct (RG x I).
  - intros x I. rewrite ES. apply put_reg_some. now apply (pd_reg w PD).
  - exact (pd_pos w PD).
Qed.
Lemma step_paid w x : good gt w -> paid w -> base g sh x -> in_order g fork w x -> paid (w_step g days fork sh w x).
Proof.
  intros GD PD B IO. destruct x as [e c|]; cbn [w_step].
  2: { destruct PD as [A1 A2 A3 A4]. constructor; auto. }
  destruct (do_send (e_amount e) c) eqn:DS; [|auto]. destruct (exists_method e c) eqn:EX; [|auto]. cbn [andb]. destruct IO as (LT & NP & LF). fold gt in LF. unfold request. destruct B as (A0 & TP & TO & _).
  assert (RF : forall bal s, g_regs s = g_regs (w_st w) -> g_his s = g_his (w_st w) -> paid {| w_st := s; w_snap := w_snap w; w_bal := bal; w_time := e_time e; w_earth := e_earth e; w_mints := w_mints w |}).
  { intros bal s E1 E2. destruct PD as [A1 A2 A3 A4]. constructor; cbn; rewrite ?E1, ?E2; auto. intros n NN. eapply Z.le_trans; [exact (A1 n NN)|]. apply upto_mono, settled_mono, LT. }
  destruct (receive g days fork sh e (w_snap w) (w_st w) c) as [[s o]|] eqn:R; [|apply RF; auto]. destruct (_ <? _); [apply RF; auto|]. cbn [fst].
  pose proof (gd_names _ _ GD) as N. pose proof (gd_regs _ _ GD) as RG. rewrite Forall_forall in RG. assert (NAMES : forall r, In r (g_regs (w_st w)) -> r_name r <> []) by (intros r I; now destruct (RG r I)).
  destruct c as [wd n prod|n|n to|n prod|n wd|n|]; cbn [receive do_send exists_method] in R, DS, EX.
  - destruct (_ || _); [discriminate|]. cbv zeta in R. destruct (match get_reg n (g_regs (w_st w)) with Some _ => _ | None => _ end); [discriminate|].
    destruct (claim _ _ _ _) as [[his hm]|] eqn:CL; [|discriminate]. injection R as <- <-. destruct (name_ok_plain n DS) as [NE NC].
    apply claim_spec in CL; [|auto| |].
    2, 3: destruct (get_reg n (g_regs (w_st w))) as [o'|] eqn:G; [|constructor]; destruct (get_reg_in _ _ _ G) as [I E]; destruct (RG o' I) as (_ & _ & _ & _ & F & ND & _); ((rewrite <- E; exact F) || exact ND).
    destruct CL as (H1 & _). eapply paid_put; [exact GD|exact PD|cbn [g_regs]; reflexivity|exact LT|now rewrite stored_name|exact H1|].
    rewrite stored_name, stored_rt. cbn [r_rt r_name g_his]. intros _. eapply Z.le_trans; [exact (pd_now w PD n NE)|]. eapply Z.le_trans; [apply upto_his; [exact NE|exact H1]|]. apply upto_mono. pose proof (settled_mono _ _ LT). pose proof (settled_first (e_time e)). lia.
  - destruct (get_reg n (g_regs (w_st w))) as [o'|] eqn:G; [|discriminate]. destruct (get_reg_in _ _ _ G) as [I E]. destruct (_ || _); [discriminate|]. injection R as <- <-.
    assert (forall m, m = w_mints w -> paid {| w_st := {| g_regs := put_reg (stored (e_earth_c e) {| r_name := r_name o'; r_prod := r_prod o'; r_wd := r_wd o'; r_owner := r_owner o'; r_amount := 0; r_exp := 0; r_rt := if drained_of g days fork e (w_snap w) o' then -1 else r_rt o'; r_rv := e_time e; r_his := r_his o' |}) (g_regs (w_st w)); g_his := g_his (w_st w); g_names := g_names (w_st w); g_votes := g_votes (w_st w) |};
       w_snap := w_snap w; w_bal := w_bal w + amount_of e - match (if 0 <? r_amount o' then Pay (e_caller e) (r_amount o') else Nothing) with Pay _ x => x | _ => 0 end; w_time := e_time e; w_earth := e_earth e; w_mints := m |}).
    { intros m ->. eapply paid_put; [exact GD|exact PD|cbn [g_regs]; reflexivity|exact LT|rewrite stored_name; cbn; auto|auto|]. rewrite stored_name, stored_rt. cbn [r_rt r_name g_his]. destruct (drained_of _ _ _ _ _ _); [lia|]. apply (pd_next w PD). auto. }
    apply H. destruct (0 <? r_amount o'); auto.
  - destruct (get_reg n (g_regs (w_st w))) as [o'|] eqn:G; [|discriminate]. destruct (get_reg_in _ _ _ G) as [I E]. destruct (_ || _) eqn:CK; [discriminate|]. apply orb_false_elim in CK. destruct CK as [CK _]. apply Z.eqb_neq in CK.
    destruct (RG o' I) as (NE & NC & _ & _ & _ & _ & _ & RM & RT & RV). assert (R0 : 0 <= r_rt o') by lia. destruct (calc_reward _ _ _ _ _ _) as [[et rw] dr] eqn:C. unfold calc_reward in C. rewrite NP in C.
    apply calc_days in C; auto. destruct C as (ne & NE1 & -> & -> & ND & NA & NI). cbv zeta in R.
    set (x := over (earned days (w_snap w) (e_leaf e) fork (r_name o')) (first_day (r_rt o')) (Z.to_nat (ne - first_day (r_rt o')))) in *.
    match type of R with (if ?b then _ else _) = _ => destruct b end; [injection R as <- <-; apply RF; auto|]. injection R as <- <-.
    set (h := g_his (w_st w)) in *. assert (HN : forall a, name_of (w_snap w) a <> [] -> h a = name_of (w_snap w) a) by (apply name_of_his; exact (gd_snap _ _ GD)).
    assert (FD : 0 <= first_day (r_rt o')) by (unfold GovSpec.first_day; destruct (Z.leb_spec (r_rt o') gt); lia).
    assert (LF' : e_leaf e = true \/ settled gt (e_time e) <= Z.max 0 (fork + 1)) by (destruct (e_leaf e); [auto|]; right; specialize (LF eq_refl); unfold settled; pose proof (Z.div_le_mono (e_time e - 3600 - gt) (e_time e - gt) 86400 ltac:(lia) ltac:(lia)); lia).
    assert (EC : forall j, first_day (r_rt o') <= j < first_day (r_rt o') + Z.of_nat (Z.to_nat (ne - first_day (r_rt o'))) -> 0 <= earned days (w_snap w) (e_leaf e) fork (r_name o') j <= cap days fork h (r_name o') j).
    { intros j J. apply earned_cap; auto. destruct LF' as [?|LF']; [auto|]. right. lia. }
    assert (X1 : x <= over (cap days fork h (r_name o')) (first_day (r_rt o')) (Z.to_nat (ne - first_day (r_rt o')))) by (apply over_le; intros j J; specialize (EC j J); lia).
    assert (IS : issued_for (r_name o') (w_mints w) <= upto h (r_name o') (first_day (r_rt o'))) by now apply (pd_next w PD).
    assert (X2 : 0 < x -> issued_for (r_name o') (w_mints w) + x <= upto h (r_name o') ne).
    { intro X0. assert (L : first_day (r_rt o') <= ne). { destruct (Z_le_gt_dec (first_day (r_rt o')) ne); [auto|]. subst x. replace (Z.to_nat (ne - first_day (r_rt o'))) with O in X0 by lia. unfold over in X0. cbn in X0. lia. }
      unfold upto in *. replace (Z.to_nat ne) with (Z.to_nat (first_day (r_rt o')) + Z.to_nat (ne - first_day (r_rt o')))%nat by lia. rewrite over_app. rewrite Z.add_0_l, Z2Nat.id by lia. lia. }
    assert (X3 : dr = false -> issued_for (r_name o') (w_mints w) <= upto h (r_name o') ne). { intro D. rewrite (ND D). eapply Z.le_trans; [exact (pd_now w PD _ NE)|]. apply upto_mono, settled_mono, LT. }
    assert (TR : r_rt (stored (e_earth e) {| r_name := r_name o'; r_prod := r_prod o'; r_wd := r_wd o'; r_owner := r_owner o'; r_amount := r_amount o'; r_exp := r_exp o'; r_rt := if dr then -1 else gt + ne * 86400; r_rv := r_rv o'; r_his := r_his o' |}) = if dr then -1 else gt + ne * 86400) by (rewrite stored_rt; auto).
    set (nr := stored (e_earth e) _) in *. assert (NN : r_name nr = r_name o') by (subst nr; now rewrite stored_name). clearbody nr.
    assert (KEEP : forall mi mi' bal st, st = {| g_regs := put_reg nr (g_regs (w_st w)); g_his := h; g_names := g_names (w_st w); g_votes := g_votes (w_st w) |} -> mi = w_mints w ++ mi' -> Forall (fun y => fst y = r_name o' /\ 0 < snd y) mi' -> (mi' = [] \/ issued_for (r_name o') mi <= upto h (r_name o') ne) -> 
      paid {| w_st := st; w_snap := w_snap w; w_bal := bal; w_time := e_time e; w_earth := e_earth e; w_mints := mi |}).
    { intros mi mi' bal st -> -> F MI. assert (MO : forall m, m <> r_name o' -> issued_for m (w_mints w ++ mi') = issued_for m (w_mints w)) by (intros m M; rewrite issued_for_app, (issued_for_none m mi'); [lia|]; intros y Y; rewrite Forall_forall in F; destruct (F y Y); congruence).
      assert (BND : forall m, m <> [] -> issued_for m (w_mints w ++ mi') <= upto h m (settled gt (e_time e))).
      { intros m M. destruct (zlist_eqb m (r_name o')) eqn:EM; [apply zlist_eqb_eq in EM; subst m|apply zlist_eqb_neq in EM].
        - destruct MI as [-> | MI]; [rewrite app_nil_r; eapply Z.le_trans; [exact (pd_now w PD _ M)|]; apply upto_mono, settled_mono, LT|]. eapply Z.le_trans; [exact MI|]. apply upto_mono. lia.
        - rewrite MO by auto. eapply Z.le_trans; [exact (pd_now w PD _ M)|]; apply upto_mono, settled_mono, LT. }
      constructor; cbn [w_st w_time w_mints g_his g_regs].
      - exact BND.
      - intros y Y Y0. apply put_reg_in in Y; [|auto]. destruct Y as [->|[Y D]].
        + rewrite TR in Y0 |- *. rewrite NN. destruct dr; [lia|]. rewrite first_midnight by lia. destruct MI as [-> | MI]; [|exact MI]. rewrite app_nil_r. auto.
        + rewrite MO by congruence. now apply (pd_next w PD).
      - intros y Y. apply in_app_iff in Y. destruct Y as [Y|Y]; [apply put_reg_some; now apply (pd_reg w PD)|]. rewrite Forall_forall in F. destruct (F y Y) as [-> _]. apply put_reg_some. now apply in_map.
      - apply Forall_app. split; [exact (pd_pos w PD)|]. eapply Forall_impl; [|exact F]. cbn. tauto. }
    destruct (Z.ltb_spec 0 x) as [X0|X0].
    + eapply (KEEP _ [(n, x)]); [reflexivity|reflexivity|constructor; [cbn; rewrite E; auto|constructor]|]. right. rewrite issued_for_app. unfold issued_for at 2. cbn [filter fst]. rewrite E, zlist_eqb_refl. cbn [map zsum snd]. rewrite Z.add_0_r, <- E. auto.
    + eapply (KEEP _ []); [reflexivity|now rewrite app_nil_r|constructor|auto].
  - apply andb_prop in DS. destruct DS as [_ DS]. destruct (get_reg n (g_regs (w_st w))) as [o'|] eqn:G; [|discriminate]. destruct (get_reg_in _ _ _ G) as [I E]. destruct (_ || _); [discriminate|]. destruct (RG o' I) as (NE & NC & _ & _ & FH & NDH & _).
    destruct (claim _ _ _ _) as [[his hm]|] eqn:CL; [|discriminate]. injection R as <- <-. apply claim_spec in CL; [|congruence|rewrite <- E; auto|auto]. destruct CL as (H1 & _).
    eapply paid_put; [exact GD|exact PD|cbn [g_regs]; reflexivity|exact LT|now rewrite stored_name|exact H1|]. rewrite stored_name, stored_rt. cbn [r_rt r_name g_his]. intro R0. eapply Z.le_trans; [exact (pd_next w PD o' I R0)|]. apply upto_his; auto.
  - destruct (get_reg n (g_regs (w_st w))) as [o'|] eqn:G; [|discriminate]. destruct (get_reg_in _ _ _ G) as [I E]. destruct (_ || _); [discriminate|]. injection R as <- <-.
    eapply paid_put; [exact GD|exact PD|cbn [g_regs]; reflexivity|exact LT|cbn; auto|auto|]. cbn [r_rt r_name g_his]. apply (pd_next w PD). auto.
  - destruct (get_reg n (g_regs (w_st w))) as [o'|] eqn:G; [|discriminate]. destruct (is_active o'); [|discriminate]. injection R as <- <-. apply RF; auto.
  - injection R as <- <-. apply RF; auto.
Qed.
Lemma hist_paid w : hist g days fork sh (in_order g fork) w -> good gt w /\ paid w.
Proof.
  intro H. induction H as [w G|w x H [GD PD] O B].
  - split; [now apply genesis_good|now apply genesis_paid].
  - split; [now apply step_good|now apply step_paid].
Qed.

(** Over all names. *)
Lemma issued_split l ns : NoDup ns -> (forall x, In x l -> In (fst x) ns) -> zsum (map snd l) = zsum (map (fun n => issued_for n l) ns).
Proof.
  intros N H. induction l as [|x l IH].
  - cbn. unfold issued_for. cbn. symmetry. apply zsum_zero.
  - cbn [map zsum]. rewrite IH by (intros y Y; apply H; now right). assert (E : zsum (map (fun n => issued_for n (x :: l)) ns) = zsum (map (fun n => if zlist_eqb (fst x) n then snd x else 0) ns) + zsum (map (fun n => issued_for n l) ns)).
    { rewrite <- zsum_add. apply zsum_ext. intros n _. unfold issued_for. cbn [filter]. destruct (zlist_eqb (fst x) n); cbn [map zsum]; lia. }
    rewrite E. enough (zsum (map (fun n => if zlist_eqb (fst x) n then snd x else 0) ns) = snd x) by lia. pose proof (H x (or_introl eq_refl)) as I. clear - N I. induction N as [|n ns NI N IH]; [contradiction|]. cbn [map zsum].
    destruct (zlist_eqb (fst x) n) eqn:E.
    + apply zlist_eqb_eq in E. rewrite (zsum_ext _ (fun _ => 0)); [rewrite zsum_zero; lia|]. intros m M. destruct (zlist_eqb (fst x) m) eqn:E2; [|auto]. apply zlist_eqb_eq in E2. congruence.
    + destruct I as [I|I]; [apply zlist_eqb_neq in E; congruence|]. rewrite IH; auto.
Qed.
Lemma upto_total h ns k : NoDup ns -> zsum (map (fun n => upto h n k) ns) <= reward_per_block * blocks_before days (Z.to_nat k).
Proof.
  intro N. unfold upto. induction (Z.to_nat k) as [|m IH].
  - unfold over. cbn. rewrite zsum_zero. lia.
  - cbn [blocks_before]. rewrite (zsum_ext _ (fun n => over (cap days fork h n) 0 m + cap days fork h n (Z.of_nat m))).
    2: { intros n _. replace (S m) with (m + 1)%nat by lia. rewrite over_app, Z.add_0_l. unfold over at 2. cbn [seq map zsum]. change (Z.of_nat 0) with 0. rewrite !Z.add_0_r. lia. }
    rewrite zsum_add. pose proof (cap_total days fork h (Z.of_nat m) ns (DOK _) N). lia.
Qed.
Lemma issued_bound w : hist g days fork sh (in_order g fork) w -> 0 <= issued w <= reward_per_block * blocks_before days (Z.to_nat (settled gt (w_time w))).
Proof.
  intro H. destruct (hist_paid w H) as [GD PD]. pose proof (gd_names _ _ GD) as N. split; [apply zsum_nonneg; eapply Forall_impl; [|exact (pd_pos w PD)]; cbn; lia|].
  unfold issued. rewrite (issued_split _ _ N (pd_reg w PD)). eapply Z.le_trans; [|apply (upto_total (g_his (w_st w)) _ _ N)]. apply zsum_le. intros n I. apply (pd_now w PD). apply in_map_iff in I. destruct I as (r & <- & I). pose proof (gd_regs _ _ GD) as RG. rewrite Forall_forall in RG. now destruct (RG r I).
Qed.
End Rewards.
