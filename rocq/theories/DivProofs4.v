(** The invariant of the records over every history. *)
From Verif Require Import Lib DexFloat DivModel DivSpec DivProofs DivProofs2 DivProofs3.
From Coq Require Import Sorted.
Import ListNotations.

Definition day_from (c : Z) (ops : list op) : Z := fold_left (fun c o => match o with OPeriod p => p | _ => c end) ops c.
Lemma held_from_app u q ops o : forall c h, held_from c (ops ++ [o]) u q h =
  match o with OVx v x => if (v =? u) && (day_from c ops <=? q) then held_from c ops u q h + x else held_from c ops u q h | OEarth => 0 | _ => held_from c ops u q h end.
Proof. induction ops as [|x ops IH]; intros c h; [now destruct o|]. cbn [app]. destruct x; cbn [held_from]; rewrite IH; reflexivity. Qed.
Lemma held_app u q ops o : held (ops ++ [o]) u q = match o with OVx v x => if (v =? u) && (day ops <=? q) then held ops u q + x else held ops u q | OEarth => 0 | _ => held ops u q end.
Proof. apply held_from_app. Qed.
Lemma day_app ops o : day (ops ++ [o]) = match o with OPeriod p => p | _ => day ops end.
Proof. unfold day. rewrite fold_left_app. now destruct o. Qed.
Lemma collected_app t a b : collected t (a ++ b) = collected t a + collected t b.
Proof. induction a as [|o a IH]; [reflexivity|]. cbn [app]. destruct o; cbn [collected]; lia. Qed.
Lemma cs_nonneg l q : 0 <= cs l q.
Proof. induction l as [|[u f] l IH]; cbn [cs]; [lia|]. pose proof (counts_nonneg (at_ f q)). lia. Qed.

Record inv (ops : list op) (d : dex) : Prop := {
  i_day : d_cur d = day ops;
  i_cur : 0 <= d_cur d;
  i_job : 0 <= d_job d;
  i_job_cur : d_cur d = 0 /\ d_job d = 0 \/ d_job d < d_cur d;
  i_users : good (d_cur d) (d_users d);
  i_sum : sf (d_cur d) (d_sum d);
  i_held : forall u q, d_job d < q -> counts (at_ (uget u (d_users d)) q) = counts (held ops u q);
  i_total : forall q, d_job d < q -> cs (d_users d) q = at_ (d_sum d) q;
  i_bal : forall u q, d_cur d <= q -> held ops u q = bal (d_bal d) u;
  i_fees : finv (d_cur d) (d_fees d) (d_roll d);
  i_kept : forall t, collected t ops = paid t (d_paid d) + (if t =? vite then d_burned d else 0) + pooled t (d_fees d)
}.
Lemma good_weak c c' l : good c l -> c <= c' -> good c' l.
Proof. intros [A B] L. split; [exact A|]. intros e E. apply (sf_weak c); auto. Qed.
Lemma good_nil c : good c []. Proof. split; [constructor|intros e []]. Qed.
Lemma sf_nil c : sf c []. Proof. split; [constructor|intros e []]. Qed.
Lemma inv_start : inv [] start.
Proof.
  split; cbn [d_cur d_job d_users d_sum d_bal d_fees d_roll d_paid d_burned start]; try lia; try reflexivity; auto; [apply good_nil|apply sf_nil|now left|]. intros t. cbn [collected paid pooled]. destruct (t =? vite); lia.
Qed.
Lemma inv_period ops d p : inv ops d -> 1 <= p -> d_cur d < p -> exists d', step d (OPeriod p) = Some d' /\ inv (ops ++ [OPeriod p]) d'.
Proof.
  intros V P L. cbn [step]. unfold new_period, roll. destruct (i_fees _ _ V) as [(C & F & R)|(h & U & F & z & E & R & S)].
  - rewrite R. cbn [Z.ltb Z.compare]. eexists. split; [reflexivity|]. destruct (shape_first p P) as [S W]. cbn zeta in S, W. split; cbn [d_cur d_job d_users d_sum d_bal d_fees d_roll d_paid d_burned].
    + now rewrite day_app.
    + lia.
    + apply V.
    + right. destruct (i_job_cur _ _ V); lia.
    + apply (good_weak (d_cur d)); [apply V|lia].
    + apply (sf_weak (d_cur d)); [apply V|lia].
    + intros u q Q. rewrite held_app. now apply V.
    + apply V.
    + intros u q Q. rewrite held_app. apply V. lia.
    + right. exists (Fees p [Pool vite 0 false] false false 0), [], [], 0. rewrite F. auto.
    + intros t. rewrite collected_app, (i_kept _ _ V t). cbn [collected]. rewrite F. change (pooled t []) with 0. rewrite W. lia.
  - assert (S' := S). destruct S' as (C & D & PP & _). assert (C1 : 1 <= d_cur d) by (rewrite C; apply PP; now left). rewrite R. rewrite (proj2 (Z.ltb_lt 0 (d_cur d))) by lia. rewrite E. assert (FA : fees_at (h :: U ++ F) (d_cur d) = Some h) by (rewrite C; apply (fees_at_mid []); exact D). rewrite FA. eexists. split; [reflexivity|].
    destruct (shape_new _ z h U F (d_earth d) p S L) as [S1 W]. cbn zeta in S1, W. split; cbn [d_cur d_job d_users d_sum d_bal d_fees d_roll d_paid d_burned].
    + now rewrite day_app.
    + lia.
    + apply V.
    + right. destruct (i_job_cur _ _ V); lia.
    + apply (good_weak (d_cur d)); [apply V|lia].
    + apply (sf_weak (d_cur d)); [apply V|lia].
    + intros u q Q. rewrite held_app. now apply V.
    + apply V.
    + intros u q Q. rewrite held_app. apply V. lia.
    + right. do 4 eexists. split; [|split; [reflexivity|exact S1]]. reflexivity.
    + intros t. rewrite collected_app, (i_kept _ _ V t). cbn [collected]. rewrite E. rewrite <- (W t). cbn [app]. lia.
Qed.
Lemma inv_fee ops d t a : inv ops d -> 1 <= d_cur d -> 0 <= a -> exists d', step d (OFee t a) = Some d' /\ inv (ops ++ [OFee t a]) d'.
Proof.
  intros V C A. cbn [step]. unfold settle_fees. destruct (i_fees _ _ V) as [(C0 & _)|(h & U & F & z & E & R & S)]; [lia|]. destruct (shape_fee _ z h U F t a S A) as (X1 & X2 & X3 & X4). cbn zeta in *. rewrite E, X1, X2. eexists. split; [reflexivity|]. unfold set_fees.
  split; cbn [d_cur d_job d_users d_sum d_bal d_fees d_roll d_paid d_burned]; try apply V.
  - rewrite day_app. apply V.
  - intros u q Q. rewrite held_app. now apply V.
  - intros u q Q. rewrite held_app. now apply V.
  - right. do 4 eexists. split; [|split; [exact R|exact X3]]. reflexivity.
  - intros t'. rewrite collected_app, (i_kept _ _ V t'), E, X4. cbn [collected]. lia.
Qed.
Lemma inv_vx ops d u x : inv ops d -> 1 <= d_cur d -> 0 <= bal (d_bal d) u + x -> exists d', step d (OVx u x) = Some d' /\ inv (ops ++ [OVx u x]) d'.
Proof.
  intros V C B. cbn [step]. unfold settle_vx. assert (J : d_job d < d_cur d) by (destruct (i_job_cur _ _ V); lia). destruct (i_users _ _ V) as [US UF]. set (f := uget u (d_users d)).
  assert (W : sf (d_cur d) f).
  { unfold f. clear - UF. induction (d_users d) as [|[v g] l IH]; cbn [uget]; [apply sf_nil|]. destruct (v =? u); [apply (UF (v, g)); now left|]. apply IH. intros e E. apply UF. now right. }
  assert (HB : counts (at_ f (d_cur d)) = counts (bal (d_bal d) u)) by (unfold f; rewrite (i_held _ _ V u _ J), (i_bal _ _ V u) by lia; reflexivity).
  destruct (settle_user f (d_cur d) (bal (d_bal d) u + x) x) as [f' s] eqn:E. destruct (settle_user_ok _ _ _ _ _ _ W HB B E) as (W' & A1 & A2 & A3). destruct (uset_ok u f' (d_users d) US) as (U1 & U2 & U3 & U4).
  assert (N : 0 <= at_ (d_sum d) (d_cur d) + s).
  { rewrite <- (i_total _ _ V _ J). pose proof (cs_nonneg (uset u f' (d_users d)) (d_cur d)) as X. rewrite U3 in X. fold f in X. rewrite HB, A1 in X. lia. }
  destruct (settle_sum_ok _ _ _ (i_sum _ _ V) N) as (m & -> & M1 & M2 & M3). eexists. split; [reflexivity|].
  assert (LATE : forall q, d_cur d <= q -> at_ f' q = at_ f' (d_cur d)) by (intros q Q; apply (at_late (d_cur d)); auto; lia).
  assert (LATE2 : forall q, d_cur d <= q -> at_ f q = at_ f (d_cur d)) by (intros q Q; apply (at_late (d_cur d)); auto; lia).
  assert (LATES : forall q, d_cur d <= q -> at_ m q = at_ m (d_cur d)) by (intros q Q; apply (at_late (d_cur d)); auto; lia).
  assert (LATES2 : forall q, d_cur d <= q -> at_ (d_sum d) q = at_ (d_sum d) (d_cur d)) by (intros q Q; apply (at_late (d_cur d)); [apply V|lia|lia]).
  split; cbn [d_cur d_job d_users d_sum d_bal d_fees d_roll d_paid d_burned]; try apply V.
  - rewrite day_app. apply V.
  - split; [exact U1|]. intros e I. destruct (U4 e I) as [->|I']; [exact W'|now apply UF].
  - exact M1.
  - intros v q Q. rewrite U2, held_app, <- (i_day _ _ V). rewrite (Z.eqb_sym u v). destruct (Z.eqb_spec v u) as [->|NE]; cbn [andb]; [|now apply V]. destruct (Z.leb_spec (d_cur d) q) as [L|L].
    + rewrite (LATE q L), A1. now rewrite (i_bal _ _ V u q L).
    + rewrite (A2 q L). unfold f. now apply V.
  - intros q Q. rewrite U3. fold f. destruct (Z.le_gt_cases (d_cur d) q) as [L|L].
    + rewrite (LATE q L), (LATE2 q L), (LATES q L), M2, A1, HB, (i_total _ _ V q Q), (LATES2 q L). lia.
    + rewrite (A2 q L), (M3 q L), (i_total _ _ V q Q). lia.
  - intros v q Q. rewrite held_app, <- (i_day _ _ V), (proj2 (Z.leb_le _ _) Q). rewrite andb_true_r. unfold bal. cbn [find fst]. destruct (Z.eqb_spec u v) as [->|NE]; cbn [snd]; rewrite (i_bal _ _ V) by exact Q; reflexivity.
  - intros t. rewrite collected_app, (i_kept _ _ V t). cbn [collected]. lia.
Qed.
Lemma inv_earth ops d : inv ops d -> exists d', step d OEarth = Some d' /\ inv (ops ++ [OEarth]) d'.
Proof.
  intros V. cbn [step]. eexists. split; [reflexivity|]. split; cbn [d_cur d_job d_users d_sum d_bal d_fees d_roll d_paid d_burned]; try apply V; try apply good_nil; try apply sf_nil.
  - rewrite day_app. apply V.
  - intros u q _. now rewrite held_app.
  - reflexivity.
  - intros u q _. now rewrite held_app.
  - intros t. rewrite collected_app, (i_kept _ _ V t). cbn [collected]. lia.
Qed.
Lemma inv_mine ops d p : inv ops d -> exists d', step d (OMine p) = Some d' /\ inv (ops ++ [OMine p]) d'.
Proof.
  intros V. cbn [step]. eexists. split; [reflexivity|]. unfold set_fees.
  assert (X : finv (d_cur d) (mark_mined (length (d_fees d)) (d_fees d) p) (d_roll d) /\ forall t, pooled t (mark_mined (length (d_fees d)) (d_fees d) p) = pooled t (d_fees d)).
  { destruct (i_fees _ _ V) as [(C0 & F & R)|(h & U & F & z & E & R & S)]; [rewrite F; cbn; split; [left; auto|reflexivity]|]. rewrite E. destruct (shape_mined (length (h :: U ++ F)) _ _ _ _ _ p S) as (h' & U' & F' & -> & S' & W). split; [|exact W]. right. exists h', U', F', z. auto. }
  destruct X as [X1 X2]. split; cbn [d_cur d_job d_users d_sum d_bal d_fees d_roll d_paid d_burned]; try apply V; try exact X1.
  - rewrite day_app. apply V.
  - intros u q Q. rewrite held_app. now apply V.
  - intros u q Q. rewrite held_app. now apply V.
  - intros t. rewrite collected_app, (i_kept _ _ V t), X2. cbn [collected]. lia.
Qed.
Lemma inv_divide ops d p : inv ops d -> 1 <= p < d_cur d -> (0 < d_job d -> p = d_job d + 1) -> inv (ops ++ [ODivide p]) (divide_fees d p) /\
  exists pays, d_paid (divide_fees d p) = d_paid d ++ pays /\ forall u t a, In (u, t, a) pays -> threshold <= held ops u p /\ 0 <= a.
Proof.
  intros V P J. assert (JP : d_job d < p) by (pose proof (i_job _ _ V); lia). unfold divide_fees.
  set (skip := Dex (d_cur d) (d_earth d) (d_bal d) (d_users d) (d_sum d) (d_fees d) (d_roll d) p (d_paid d) (d_burned d)).
  assert (SK : inv (ops ++ [ODivide p]) skip /\ exists pays, d_paid skip = d_paid d ++ pays /\ forall u t a, In (u, t, a) pays -> threshold <= held ops u p /\ 0 <= a).
  { split; [|exists []; cbn [d_paid skip]; unfold skip; cbn [d_paid]; rewrite app_nil_r; split; [reflexivity|intros u t a []]]. unfold skip. split; cbn [d_cur d_job d_users d_sum d_bal d_fees d_roll d_paid d_burned]; try apply V; try lia.
    - rewrite day_app. apply V.
    - intros u q Q. rewrite held_app. apply V. lia.
    - intros q Q. apply V. lia.
    - intros u q Q. rewrite held_app. now apply V.
    - intros t. rewrite collected_app, (i_kept _ _ V t). cbn [collected]. lia. }
  destruct (unfinished (Datatypes.S (Z.to_nat p)) (d_fees d) p false) as [|r0 todo0] eqn:TD; [exact SK|]. pose proof (match_ok (d_cur d) (d_sum d) p (i_sum _ _ V)) as M. destruct (match_funds (d_sum d) p) as [[total sum']|]; [|exact SK]. destruct M as (ET & TP & MS & _ & MA). rewrite <- TD. clear skip SK TD r0 todo0.
  destruct (i_fees _ _ V) as [(C0 & _)|(h & U & F & z & E & R & S)]; [lia|]. rewrite E. destruct (todo_ok _ _ _ _ _ p S ltac:(lia)) as (A & B & EU & _ & _ & ->). subst U. destruct (shape_divide _ _ _ _ _ _ S) as (F' & z' & -> & S').
  assert (OB : forall r, In r B -> open r) by (destruct S as (_ & _ & _ & O & _); intros r I; apply (O r); right; apply in_or_app; now right).
  destruct (sums_ok B OB) as (K1 & K2 & K3). destruct (burn_ok (d_earth d) (sums B) K1 K2) as (L1 & L2 & L3). cbn zeta in *. destruct (burn (d_earth d) (sums B)) as [b m]. cbn [fst snd] in *.
  assert (FT : Forall (fit total p (d_users d)) (map (fun e => Item (fst e) (snd e) (snd e) 0 false) m)).
  { apply Forall_forall. intros i I. apply in_map_iff in I. destruct I as (e & <- & I). split; cbn [i_left i_over i_done]; [now apply L1|]. rewrite (i_total _ _ V p JP), <- ET. lia. }
  destruct (walk_ok total p (d_cur d) (d_users d) _ (i_users _ _ V) FT) as (W1 & _ & W3 & W4 & W5 & W6). cbn zeta in *. destruct (walk total p _ (d_users d)) as [us pays]. cbn [fst snd] in *. split.
  - split; cbn [d_cur d_job d_users d_sum d_bal d_fees d_roll d_paid d_burned]; try apply V; try lia; try assumption.
    + rewrite day_app. apply V.
    + intros u q Q. rewrite held_app, W3 by lia. apply V. lia.
    + intros q Q. rewrite W4, MA by lia. apply V. lia.
    + intros u q Q. rewrite held_app. now apply V.
    + right. exists h, A, F', z'. auto.
    + intros t. rewrite collected_app, (i_kept _ _ V t), E. cbn [collected]. rewrite paid_app, W5, left_items. rewrite (pooled_shape t _ _ _ _ _ S), (pooled_shape t _ _ _ _ _ S'), dues_app, <- (K3 t), L3. destruct (t =? vite); lia.
  - exists pays. split; [reflexivity|]. intros u t a I. destruct (W6 u t a I) as [T X]. split; [|exact X]. pose proof (i_held _ _ V u p JP) as HH. unfold counts in HH. rewrite (proj2 (Z.leb_le _ _) T) in HH. pose proof threshold_pos. destruct (Z.leb_spec threshold (held ops u p)); lia.
Qed.
Lemma inv_step ops d o : inv ops d -> allowed d o -> exists d', step d o = Some d' /\ inv (ops ++ [o]) d'.
Proof.
  intros V A. destruct o; cbn [allowed] in A.
  - now apply inv_period.
  - now apply inv_fee.
  - now apply inv_vx.
  - exists (divide_fees d p). split; [reflexivity|]. now apply inv_divide.
  - now apply inv_mine.
  - now apply inv_earth.
Qed.
Lemma run_inv ops d : run ops d -> inv ops d.
Proof. induction 1 as [|ops d o d' R IH A E]; [exact inv_start|]. destruct (inv_step _ _ _ IH A) as (d1 & E1 & V). rewrite E in E1. now injection E1 as <-. Qed.

(** The recorded total against any list of users. *)
Definition gsum (g : Z -> Z) (us : list Z) : Z := fold_right (fun u s => g u + s) 0 us.
Lemma gsum_ext g g' us : (forall u, In u us -> g u = g' u) -> gsum g us = gsum g' us.
Proof. unfold gsum. induction us as [|u us IH]; cbn [fold_right]; intros H; [reflexivity|]. rewrite (H u) by now left. rewrite IH; [reflexivity|]. intros v I. apply H. now right. Qed.
Lemma gsum_upd g v a us : NoDup us -> g v = 0 -> gsum (fun u => if v =? u then a else g u) us = gsum g us + if in_dec Z.eq_dec v us then a else 0.
Proof.
  unfold gsum. induction us as [|u us IH]; cbn [fold_right]; intros N G; [destruct (in_dec Z.eq_dec v []); [contradiction|lia]|]. inversion N as [|? ? NI N']; subst. rewrite IH by auto. destruct (in_dec Z.eq_dec v us) as [I|I], (in_dec Z.eq_dec v (u :: us)) as [I'|I'], (Z.eqb_spec v u) as [EQ|NE]; try subst u; try lia; exfalso; cbn in I'; tauto || (destruct I'; [congruence|contradiction]).
Qed.
Lemma cs_sum l q us : usorted l -> NoDup us -> (forall u, counts (at_ (uget u l) q) <> 0 -> In u us) -> gsum (fun u => counts (at_ (uget u l) q)) us = cs l q.
Proof.
  induction l as [|[v f] l IH]; intros S N C.
  - unfold gsum. cbn [uget cs]. clear. induction us as [|u us IH]; cbn [fold_right]; [reflexivity|]. rewrite IH, at_nil. reflexivity.
  - inversion S as [|? ? S' F]; subst. rewrite Forall_forall in F. assert (NV : uget v l = []) by (apply uget_below; exact F).
    rewrite (gsum_ext _ (fun u => if v =? u then counts (at_ f q) else counts (at_ (uget u l) q))) by (intros u _; cbn [uget]; now destruct (v =? u)). rewrite (gsum_upd (fun u => counts (at_ (uget u l) q))) by (auto; now rewrite NV). cbn [cs]. rewrite IH; auto.
    + destruct (in_dec Z.eq_dec v us) as [I|I]; [lia|]. destruct (Z.eq_dec (counts (at_ f q)) 0) as [->|NZ]; [lia|]. destruct I. apply C. cbn [uget]. now rewrite Z.eqb_refl.
    + intros u NZ. apply C. cbn [uget]. destruct (Z.eqb_spec v u) as [<-|]; [|exact NZ]. rewrite NV in NZ. now rewrite at_nil in NZ.
Qed.
