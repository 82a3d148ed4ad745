From Verif Require Import Lib SchedModel StatsModel GovModel GovSpec GovProofs GovProofs4 GovProofs5.
From Verif Require ChainProofs.
From Coq Require FinFun.

(** ** The days paid *)
Section Days.
Context (g : group) (OK : gen_ok g) (days : Z -> option point) (fork sh : Z).
Let gt := genesis_time g.
(** What a withdrawal does. *)
Lemma withdraw_spec w e n to m t x : good gt w -> base g sh (ORequest e (CWithdraw n to)) -> e_panic e = false -> do_send (e_amount e) (CWithdraw n to) = true -> snd (request g days fork sh w e (CWithdraw n to)) = Mint m t x ->
  exists o ne, get_reg n (g_regs (w_st w)) = Some o /\ 0 <= r_rt o /\ (e_caller e = r_owner o \/ e_caller e = r_wd o) /\ m = n /\ t = to /\ 0 < x /\
    fst (fst (calc_reward g days fork e (w_snap w) o)) = gt + ne * 86400 /\ 0 <= ne <= settled gt (e_time e) /\
    x = over (earned days (w_snap w) (e_leaf e) fork n) (first_day gt (r_rt o)) (Z.to_nat (ne - first_day gt (r_rt o))) /\
    (ne = if is_active o then settled gt (e_time e) else Z.min (settled gt (e_time e)) (Z.max 0 ((r_rv o - gt) / 86400))) /\
    forall r, In r (g_regs (w_st (fst (request g days fork sh w e (CWithdraw n to))))) -> r_name r <> n /\ In r (g_regs (w_st w)) \/ r_name r = n /\ (r_rt r = -1 \/ r_rt r = gt + ne * 86400 /\ ne = settled gt (e_time e)).
Proof.
  intros GD (A0 & TP & TO & _) NP DS RQ. pose proof (gd_names _ _ GD) as N. pose proof (gd_regs _ _ GD) as RG. rewrite Forall_forall in RG. unfold request in RQ |- *. cbn [receive] in RQ |- *.
  destruct (get_reg n (g_regs (w_st w))) as [o|] eqn:G; [|discriminate]. destruct (get_reg_in _ _ _ G) as [I E]. destruct ((r_rt o =? -1) || (negb (e_caller e =? r_owner o) && negb (e_caller e =? r_wd o))) eqn:CK; [discriminate|].
  apply orb_false_elim in CK. destruct CK as [C1 C2]. apply Z.eqb_neq in C1. destruct (RG o I) as (NE & NC & _ & _ & _ & _ & _ & RM & RT & RV). assert (R0 : 0 <= r_rt o) by lia.
  destruct (calc_reward g days fork e (w_snap w) o) as [[et rw] dr] eqn:C. pose proof C as CE. unfold calc_reward in C. rewrite NP in C. apply calc_days in C; auto. fold gt in C. destruct C as (ne & NE1 & -> & -> & ND & NA & NI). cbv zeta in RQ |- *. cbn [fst].
  set (y := over (earned days (w_snap w) (e_leaf e) fork (r_name o)) (first_day gt (r_rt o)) (Z.to_nat (ne - first_day gt (r_rt o)))) in *.
  match type of RQ with context [if ?b then Some (w_st w, Nothing) else _] => destruct b end; [destruct (_ <? _) in RQ; discriminate|].
  destruct (Z.ltb_spec 0 y) as [Y|Y]; [|destruct (_ <? _) in RQ; discriminate]. destruct (_ <? _) in RQ |- *; [discriminate|]. cbn [snd fst w_st g_regs] in RQ |- *. injection RQ as <- <- <-.
  exists o, ne. split; [auto|]. split; [auto|]. split. { apply andb_false_elim in C2. destruct C2 as [C2|C2]; apply negb_false_iff, Z.eqb_eq in C2; auto. }
  split; [auto|]. split; [auto|]. split; [auto|]. split; [now rewrite CE|]. split; [auto|]. split; [subst y; now rewrite E|]. split.
  - destruct (is_active o); [apply ND; auto|auto].
  - intros r R. apply put_reg_in in R; [|auto]. destruct R as [->|[R D]].
    + right. rewrite stored_name, stored_rt. cbn [r_name r_rt]. split; [auto|]. destruct dr; [auto|right; auto].
    + left. rewrite stored_name in D. cbn in D. split; [congruence|auto].
Qed.
Lemma mint_withdraw w e c m t x : snd (request g days fork sh w e c) = Mint m t x -> exists n to, c = CWithdraw n to.
Proof.
  unfold request. destruct (receive g days fork sh e (w_snap w) (w_st w) c) as [[s o]|] eqn:R; [|discriminate]. destruct (_ <? _); [discriminate|]. cbn [snd]. intros ->.
  destruct c as [wd k prod|k|k to|k prod|k wd|k|]; cbn [receive] in R; [| |eauto| | | |].
  - destruct (_ || _); [discriminate|]. cbv zeta in R. destruct (match get_reg k (g_regs (w_st w)) with Some _ => _ | None => _ end); [discriminate|]. destruct (claim _ _ _ _) as [[his hm]|]; discriminate.
  - destruct (get_reg k (g_regs (w_st w))) as [o|]; [|discriminate]. destruct (_ || _); [discriminate|]. destruct (0 <? r_amount o); discriminate.
  - destruct (get_reg k (g_regs (w_st w))) as [o|]; [|discriminate]. destruct (_ || _); [discriminate|]. destruct (claim _ _ _ _) as [[his hm]|]; discriminate.
  - destruct (get_reg k (g_regs (w_st w))) as [o|]; [|discriminate]. destruct (_ || _); discriminate.
  - destruct (get_reg k (g_regs (w_st w))) as [o|]; [|discriminate]. destruct (is_active o); discriminate.
  - discriminate.
Qed.
(** How reward times change otherwise. *)
Lemma rt_step w e c : good gt w -> base g sh (ORequest e c) -> e_panic e = false -> forall r, In r (g_regs (w_st (fst (request g days fork sh w e c)))) ->
  (exists o, In o (g_regs (w_st w)) /\ r_name o = r_name r /\ (r_rt r = r_rt o \/ r_rt r = -1)) \/ r_rt r = e_time e \/ r_rt r = -1 \/ r_rt r = gt + settled gt (e_time e) * 86400.
Proof.
  intros GD (A0 & TP & TO & _) NP r. pose proof (gd_names _ _ GD) as N. pose proof (gd_regs _ _ GD) as RG. rewrite Forall_forall in RG. unfold request. destruct (receive g days fork sh e (w_snap w) (w_st w) c) as [[s o]|] eqn:R; [|cbn; intro I; left; exists r; auto].
  destruct (_ <? _); [cbn; intro I; left; exists r; auto|]. cbn [fst w_st]. assert (OLD : In r (g_regs (w_st w)) -> exists o, In o (g_regs (w_st w)) /\ r_name o = r_name r /\ (r_rt r = r_rt o \/ r_rt r = -1)) by (intro I; exists r; auto).
  destruct c as [wd n prod|n|n to|n prod|n wd|n|]; cbn [receive] in R.
  - destruct (_ || _); [discriminate|]. cbv zeta in R. destruct (match get_reg n (g_regs (w_st w)) with Some _ => _ | None => _ end); [discriminate|]. destruct (claim _ _ _ _) as [[his hm]|]; [|discriminate]. injection R as <- <-. cbn [g_regs]. intro I. apply put_reg_in in I; [|auto]. destruct I as [->|[I _]]; [|auto].
    right. left. now rewrite stored_rt.
  - destruct (get_reg n (g_regs (w_st w))) as [o'|] eqn:G; [|discriminate]. destruct (get_reg_in _ _ _ G) as [IO E]. destruct (_ || _); [discriminate|]. injection R as <- <-. cbn [g_regs]. intro I. apply put_reg_in in I; [|auto]. destruct I as [->|[I _]]; [|auto].
    left. exists o'. split; [auto|]. rewrite stored_name, stored_rt. cbn. split; [auto|]. destruct (drained_of _ _ _ _ _ _); auto.
  - destruct (get_reg n (g_regs (w_st w))) as [o'|] eqn:G; [|discriminate]. destruct (get_reg_in _ _ _ G) as [IO E]. destruct (_ || _) eqn:CK; [discriminate|]. apply orb_false_elim in CK. destruct CK as [C1 _]. apply Z.eqb_neq in C1. destruct (RG o' IO) as (_ & _ & _ & _ & _ & _ & _ & RM & RT & RV). assert (R0 : 0 <= r_rt o') by lia.
    destruct (calc_reward g days fork e (w_snap w) o') as [[et rw] dr] eqn:C. unfold calc_reward in C. rewrite NP in C. apply calc_days in C; auto. fold gt in C. destruct C as (ne & NE1 & -> & -> & ND & NA & NI). cbv zeta in R.
    match type of R with (if ?b then _ else _) = _ => destruct b end; injection R as <- <-; [auto|]. cbn [g_regs]. intro I. apply put_reg_in in I; [|auto]. destruct I as [->|[I _]]; [|auto]. right. right. rewrite stored_rt. cbn. destruct dr; [auto|]. right. now rewrite ND.
  - destruct (get_reg n (g_regs (w_st w))) as [o'|] eqn:G; [|discriminate]. destruct (get_reg_in _ _ _ G) as [IO E]. destruct (_ || _); [discriminate|]. destruct (claim _ _ _ _) as [[his hm]|]; [|discriminate]. injection R as <- <-. cbn [g_regs]. intro I. apply put_reg_in in I; [|auto]. destruct I as [->|[I _]]; [|auto].
    left. exists o'. split; [auto|]. rewrite stored_name, stored_rt. cbn. auto.
  - destruct (get_reg n (g_regs (w_st w))) as [o'|] eqn:G; [|discriminate]. destruct (get_reg_in _ _ _ G) as [IO E]. destruct (_ || _); [discriminate|]. injection R as <- <-. cbn [g_regs]. intro I. apply put_reg_in in I; [|auto]. destruct I as [->|[I _]]; [|auto]. left. exists o'. cbn. auto.
  - destruct (get_reg n (g_regs (w_st w))) as [o'|] eqn:G; [|discriminate]. destruct (is_active o'); [|discriminate]. injection R as <- <-. cbn. auto.
  - injection R as <- <-. cbn. auto.
Qed.
Lemma request_time w e c : w_time (fst (request g days fork sh w e c)) = e_time e.
Proof. unfold request. destruct (receive _ _ _ _ _ _ _ _) as [[s o]|]; [|auto]. destruct (_ <? _); auto. Qed.

Definition log_ok (w : world) (l : list (name * Z)) : Prop :=
  NoDup l /\ forall n d, In (n, d) l -> d < settled gt (w_time w) /\ forall r, In r (g_regs (w_st w)) -> r_name r = n -> 0 <= r_rt r -> d < first_day gt (r_rt r).
Lemma log_step w x l : good gt w -> base g sh x -> in_order g fork w x -> log_ok w l -> log_ok (w_step g days fork sh w x) (l ++ paid_days g days fork sh w x).
Proof.
  intros GD B IO LO. destruct x as [e c|]; [|cbn [paid_days]; rewrite app_nil_r; cbn; exact LO]. destruct IO as (LT & NP & _). cbn [w_step].
  assert (NOP : (do_send (e_amount e) c && exists_method e c = false) -> log_ok w l) by (intros _; exact LO).
  assert (SM : settled gt (w_time w) <= settled gt (e_time e)) by (unfold settled; lia).
  destruct (do_send (e_amount e) c) eqn:DS.
  2: { cbn [andb]. destruct c; cbn [paid_days]; rewrite ?DS, ?app_nil_r; exact LO. }
  destruct (exists_method e c) eqn:EX.
  2: { cbn [andb]. destruct c; cbn [paid_days]; rewrite ?app_nil_r; try exact LO. cbn in EX. discriminate. }
  cbn [andb].
  assert (NOMINT : (forall m t x, snd (request g days fork sh w e c) <> Mint m t x) -> log_ok (fst (request g days fork sh w e c)) l).
  { intros NM. destruct LO as [N1 N2]. split; [exact N1|]. intros n d I. destruct (N2 n d I) as [D1 D2]. rewrite request_time. split; [lia|]. intros r R E R0. destruct (rt_step w e c GD B NP r R) as [(o & IO & EO & [RO|RO])|[RO|[RO|RO]]].
    - rewrite RO. apply (D2 o); [auto|congruence|lia].
    - lia.
    - rewrite RO. pose proof (settled_first g (e_time e)) as SF. fold gt in SF. lia.
    - lia.
    - rewrite RO. pose proof (first_midnight g (settled gt (e_time e))) as FM. fold gt in FM. rewrite FM by (unfold settled; lia). lia. }
  assert (PD : paid_days g days fork sh w (ORequest e c) = [] \/ exists n to m t x, c = CWithdraw n to /\ snd (request g days fork sh w e c) = Mint m t x).
  { destruct c as [wd n prod|n|n to|n prod|n wd|n|]; auto. cbn [paid_days]. rewrite DS. destruct (snd (request g days fork sh w e (CWithdraw n to))) as [| |m t x] eqn:Q; auto. right. exists n, to, m, t, x. auto. }
  destruct (snd (request g days fork sh w e c)) as [|pt pa|m t x] eqn:RQ.
  1, 2: destruct PD as [PD|(n & to & m & t & x & _ & Q)]; [|discriminate]; rewrite PD, app_nil_r; apply NOMINT; discriminate.
  destruct (mint_withdraw w e c m t x RQ) as (n & to & ->). destruct (withdraw_spec w e n to m t x GD B NP DS RQ) as (o & ne & G & R0 & _ & _ & _ & _ & ET & NE & _ & _ & RS). cbn [paid_days]. rewrite DS, RQ, G, ET. fold gt. replace ((gt + ne * 86400 - gt) / 86400) with ne by lia.
  destruct (get_reg_in _ _ _ G) as [I E]. destruct LO as [N1 N2]. set (fd := first_day gt (r_rt o)) in *. split.
  - apply ChainProofs.NoDup_app_iff. split; [exact N1|]. split.
    + apply FinFun.Injective_map_NoDup; [|apply seq_NoDup]. intros a b Q. injection Q. lia.
    + intros [k d] I1 I2. apply in_map_iff in I2. destruct I2 as (j & Q & _). injection Q as <- <-. destruct (N2 n (fd + Z.of_nat j) I1) as [_ D2]. specialize (D2 o I E R0). subst fd. lia.
  - intros k d K. rewrite request_time. apply in_app_iff in K. destruct K as [K|K].
    + destruct (N2 k d K) as [D1 D2]. split; [lia|]. intros r R ER RR. destruct (RS r R) as [[A1 A2]|[A1 [A2|[A2 A3]]]]; [apply D2; auto|lia|]. rewrite A2. pose proof (first_midnight g ne) as FM. fold gt in FM. rewrite FM by lia. lia.
    + apply in_map_iff in K. destruct K as (j & Q & J). injection Q as <- <-. apply in_seq in J. split; [lia|]. intros r R ER RR. destruct (RS r R) as [[A1 A2]|[A1 [A2|[A2 A3]]]]; [congruence|lia|]. rewrite A2. pose proof (first_midnight g ne) as FM. fold gt in FM. rewrite FM by lia. lia.
Qed.
Lemma log_run xs : forall w l, good gt w -> Forall (base g sh) xs -> along g days fork sh (in_order g fork) w xs -> log_ok w l -> NoDup (l ++ all_paid g days fork sh w xs).
Proof.
  induction xs as [|x xs IH]; intros w l GD F AL LO; cbn [all_paid]; [rewrite app_nil_r; apply LO|]. inversion F as [|? ? B F']; subst. destruct AL as [IO AL]. rewrite app_assoc. apply IH; auto; [now apply step_good|now apply log_step].
Qed.
End Days.
