From Verif Require Import Lib SchedModel StatsModel GovModel GovSpec GovProofs GovProofs2.

(** ** The lists of names over histories *)
Record names_good (w : world) : Prop := {
  ng_ok : list_ok (g_names (w_st w));
  ng_in : forall a n, In n (names_at (g_names (w_st w)) a) <-> listed (w_st w) a n;
  ng_earth : forall r, In r (g_regs (w_st w)) -> r_wd r <> r_owner r -> w_earth w = true }.

Lemma listed_put s s' r a k : NoDup (map r_name (g_regs s)) -> g_regs s' = put_reg r (g_regs s) ->
  (k <> r_name r -> listed s' a k <-> listed s a k) /\ (listed s' a (r_name r) <-> r_wd r = a /\ r_owner r <> a).
Proof.
  intros N E. unfold listed. rewrite E. split.
  - intro K. split; intros (x & I & X1 & X2).
    + apply put_reg_in in I; [|auto]. destruct I as [->|[I _]]; [congruence|]. exists x. auto.
    + exists x. rewrite put_reg_in by auto. split; [right; split; [auto|congruence]|auto].
  - split.
    + intros (x & I & X1 & X2). apply put_reg_in in I; [|auto]. destruct I as [->|[I D]]; [auto|contradiction].
    + intros H. exists r. rewrite put_reg_in by auto. auto.
Qed.
Lemma names_put w s r t bal m snap : names_good w -> NoDup (map r_name (g_regs (w_st w))) -> g_regs s = put_reg r (g_regs (w_st w)) -> ~ In comma (r_name r) -> r_name r <> [] ->
  (r_wd r <> r_owner r -> t = true) -> (w_earth w = true -> t = true) ->
  g_names s = g_names (w_st w) /\ (forall a, listed (w_st w) a (r_name r) <-> r_wd r = a /\ r_owner r <> a) \/
  (exists old, g_names s = save_name (g_names (w_st w)) old (r_wd r) (r_owner r) (r_name r) /\ (forall a, listed (w_st w) a (r_name r) <-> match old with Some o => o = a /\ r_owner r <> a | None => False end)) ->
  forall t0, names_good {| w_st := s; w_snap := snap; w_bal := bal; w_time := t0; w_earth := t; w_mints := m |}.
Proof.
  intros [LO LI LE] N ES NC NE TW TE CASES t0. assert (EARTH : forall r0, In r0 (g_regs s) -> r_wd r0 <> r_owner r0 -> t = true).
  { intros r0 I D. rewrite ES in I. apply put_reg_in in I; [|auto]. destruct I as [->|[I _]]; [auto|]. apply TE. exact (LE r0 I D). }
  destruct CASES as [[EN LS]|(old & EN & LS)].
  - constructor; cbn [w_st w_earth]; [now rewrite EN| |auto]. intros a k. rewrite EN, LI. destruct (listed_put (w_st w) s r a k N ES) as [H1 H2]. destruct (zlist_eqb k (r_name r)) eqn:E; [apply zlist_eqb_eq in E; subst k|apply zlist_eqb_neq in E].
    + rewrite H2. apply LS.
    + symmetry. auto.
  - destruct (save_name_spec (g_names (w_st w)) old (r_wd r) (r_owner r) (r_name r) NC NE LO) as (S1 & S2 & S3); [intro a; now rewrite LI|]. constructor; cbn [w_st w_earth]; [now rewrite EN| |auto].
    intros a k. rewrite EN. destruct (listed_put (w_st w) s r a k N ES) as [H1 H2]. destruct (zlist_eqb k (r_name r)) eqn:E; [apply zlist_eqb_eq in E; subst k|apply zlist_eqb_neq in E].
    + now rewrite S3, H2.
    + rewrite S2, LI, H1 by auto. tauto.
Qed.

Section Names.
Context (g : group) (OK : gen_ok g) (days : Z -> option point) (fork sh : Z).
Lemma genesis_names gt w : genesis_ok gt w -> names_good w.
Proof.
  intros [N R H L V S T M]. assert (NA : forall a, names_at (g_names (w_st w)) a = []) by (intro a; apply names_at_nil; auto). rewrite Forall_forall in R. constructor.
  - intro a. rewrite NA. split; [constructor|easy].
  - intros a n. rewrite NA. split; [easy|]. intros (r & I & _ & E1 & E2). specialize (R r I). destruct R as (_ & _ & E3 & _). congruence.
  - intros r I D. specialize (R r I). destruct R as (_ & _ & E3 & _). contradiction.
Qed.
Lemma step_names w x : good (genesis_time g) w -> names_good w -> base g sh x -> earth_once w x -> names_good (w_step g days fork sh w x).
Proof.
  intros GD NG B EO. destruct x as [e c|]; cbn [w_step].
  2: { destruct NG as [A1 A2 A3]. constructor; auto. }
  destruct (do_send (e_amount e) c) eqn:DS; [|auto]. destruct (exists_method e c) eqn:EX; [|auto]. cbn [andb]. destruct EO as [EM EC]. unfold request.
  assert (RF : names_good {| w_st := w_st w; w_snap := w_snap w; w_bal := w_bal w; w_time := e_time e; w_earth := e_earth e; w_mints := w_mints w |}) by (destruct NG as [A1 A2 A3]; constructor; cbn; eauto).
  assert (LIFT : forall s o, receive g days fork sh e (w_snap w) (w_st w) c = Some (s, o) ->
     (forall bal m, names_good {| w_st := s; w_snap := w_snap w; w_bal := bal; w_time := e_time e; w_earth := e_earth e; w_mints := m |})).
  2: { destruct (receive g days fork sh e (w_snap w) (w_st w) c) as [[s o]|]; [|exact RF]. destruct (_ <? _); [exact RF|]. cbn [fst]. apply (LIFT s o eq_refl). }
  intros s o R bal m. pose proof (gd_names _ _ GD) as N. pose proof (gd_regs _ _ GD) as RG. rewrite Forall_forall in RG.
  assert (LS : forall n o', get_reg n (g_regs (w_st w)) = Some o' -> forall a, listed (w_st w) a n <-> r_wd o' = a /\ r_owner o' <> a).
  { intros n o' G a. destruct (get_reg_in _ _ _ G) as [I E]. split.
    - intros (r & I2 & E2 & E3). pose proof (get_reg_of _ _ N I2) as G2. rewrite E2, G in G2. now injection G2 as ->.
    - intro H. exists o'. auto. }
  (* a stored registration that keeps owner and withdraw address *)
  assert (KEEP : forall n o' r b, get_reg n (g_regs (w_st w)) = Some o' -> r_name r = r_name o' -> r_wd r = r_wd o' -> r_owner r = r_owner o' -> b = e_earth e -> forall s', g_regs s' = put_reg (stored b r) (g_regs (w_st w)) -> g_names s' = g_names (w_st w) ->
     names_good {| w_st := s'; w_snap := w_snap w; w_bal := bal; w_time := e_time e; w_earth := e_earth e; w_mints := m |}).
  { intros n o' r b G E1 E2 E3 -> s' ES EN. destruct (get_reg_in _ _ _ G) as [I E]. destruct (RG o' I) as (NE & NC & _).
    assert (WD : r_wd (stored (e_earth e) r) = r_wd o'). { rewrite stored_wd. destruct (e_earth e) eqn:EE; [auto|]. rewrite E3. destruct (Z.eq_dec (r_wd o') (r_owner o')) as [H|H]; [auto|]. pose proof (ng_earth _ NG o' I H) as W. apply EM in W. congruence. }
    eapply names_put; [exact NG|exact N|exact ES|rewrite stored_name, E1; exact NC|rewrite stored_name, E1; exact NE| |exact EM|].
    - rewrite WD, stored_owner, E3. intro H. apply EM. exact (ng_earth _ NG o' I H).
    - left. split; [auto|]. intro a. rewrite WD, stored_owner, stored_name, E1, E3, E. now apply LS. }
  destruct c as [wd n prod|n|n to|n prod|n wd|n|]; cbn [receive do_send exists_method] in R, DS, EX.
  - destruct (_ || _); [discriminate|]. cbv zeta in R. destruct (match get_reg n (g_regs (w_st w)) with Some _ => _ | None => _ end) eqn:CK; [discriminate|].
    destruct (claim _ _ _ _) as [[his hm]|] eqn:CL; [|discriminate]. injection R as <- <-. destruct (name_ok_plain n DS) as [NE NC].
    assert (OW : match get_reg n (g_regs (w_st w)) with Some o' => r_owner o' = e_caller e | None => True end).
    { destruct (get_reg n (g_regs (w_st w))) as [o'|]; [|auto]. apply orb_false_elim in CK. destruct CK as [CK _]. apply orb_false_elim in CK. destruct CK as [_ CK]. apply negb_false_iff, Z.eqb_eq in CK. auto. }
    eapply names_put; [exact NG|exact N|cbn [g_regs]; reflexivity|rewrite stored_name; exact NC|rewrite stored_name; exact NE| |exact EM|].
    + rewrite stored_wd, stored_owner. cbn [r_wd r_owner]. destruct (e_earth e); [auto|contradiction].
    + cbn [g_names]. rewrite stored_wd, stored_owner, stored_name. cbn [r_wd r_owner r_name]. destruct (e_earth e) eqn:EE.
      * right. eexists. split; [reflexivity|]. intro a. destruct (get_reg n (g_regs (w_st w))) as [o'|] eqn:G; cbn [option_map].
        -- rewrite (LS n o' G), OW. tauto.
        -- split; [|easy]. intros (r & I & E & _). apply (proj1 (get_reg_none n _) G). rewrite <- E. now apply in_map.
      * left. split; [auto|]. intro a. destruct (get_reg n (g_regs (w_st w))) as [o'|] eqn:G.
        -- rewrite (LS n o' G), OW. destruct (get_reg_in _ _ _ G) as [I _]. destruct (Z.eq_dec (r_wd o') (r_owner o')) as [H|H]; [rewrite H, OW; tauto|]. pose proof (ng_earth _ NG o' I H) as W. apply EM in W. congruence.
        -- split; [|tauto]. intros (r & I & E & _). exfalso. apply (proj1 (get_reg_none n _) G). rewrite <- E. now apply in_map.
  - destruct (get_reg n (g_regs (w_st w))) as [o'|] eqn:G; [|discriminate]. destruct (_ || _); [discriminate|]. injection R as <- <-. eapply (KEEP n o'); [exact G| | | |exact EC|reflexivity|reflexivity]; reflexivity.
  - destruct (get_reg n (g_regs (w_st w))) as [o'|] eqn:G; [|discriminate]. destruct (_ || _); [discriminate|]. destruct (calc_reward _ _ _ _ _ _) as [[et rw] dr]. cbv zeta in R.
    match type of R with (if ?b then _ else _) = _ => destruct b end; injection R as <- <-; [destruct NG as [A1 A2 A3]; constructor; cbn; eauto|]. eapply (KEEP n o'); [exact G| | | |reflexivity|reflexivity|reflexivity]; reflexivity.
  - destruct (get_reg n (g_regs (w_st w))) as [o'|] eqn:G; [|discriminate]. destruct (_ || _); [discriminate|]. destruct (claim _ _ _ _) as [[his hm]|]; [|discriminate]. injection R as <- <-. eapply (KEEP n o'); [exact G| | | |reflexivity|reflexivity|reflexivity]; reflexivity.
  - destruct (get_reg n (g_regs (w_st w))) as [o'|] eqn:G; [|discriminate]. destruct (get_reg_in _ _ _ G) as [I E]. destruct (RG o' I) as (NE & NC & _). destruct (_ || _); [discriminate|]. injection R as <- <-.
    eapply names_put; [exact NG|exact N|cbn [g_regs]; reflexivity|exact NC|exact NE|intros _; exact EX|exact EM|]. right. exists (Some (r_wd o')). cbn [r_wd r_owner r_name g_names]. split; [auto|]. intro a. rewrite E. now apply LS.
  - destruct (get_reg n (g_regs (w_st w))) as [o'|]; [|discriminate]. destruct (is_active o'); [|discriminate]. injection R as <- <-. destruct NG as [A1 A2 A3]. constructor; cbn; eauto.
  - injection R as <- <-. destruct NG as [A1 A2 A3]. constructor; cbn; eauto.
Qed.
Lemma hist_names w : hist g days fork sh earth_once w -> names_good w.
Proof.
  intro H. assert (good (genesis_time g) w /\ names_good w) as [_ ?]; [|auto]. induction H as [w G|w x H [GD NG] O B].
  - split; [now apply genesis_good|]. now apply genesis_names in G.
  - split; [now apply step_good|]. now apply step_names.
Qed.
End Names.
