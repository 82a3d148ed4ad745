(** Every step keeps the state in agreement with the accepted operations. *)
From Verif Require Import Lib PendModel PendSpec PendProofs PendProofs2.
Import ListNotations.
Open Scope Z_scope.

Lemma book_ext rq rq' cur b : book_ok rq cur b -> (forall u, rq' u = rq u) -> book_ok rq' cur b.
Proof. intros B H. destruct B. constructor; auto; intros u; rewrite H; auto. Qed.

Lemma inv_init : inv init [].
Proof.
  constructor; cbn; try reflexivity; auto.
  - intros t. destruct t; constructor; cbn; try constructor; try reflexivity; try lia; intros; try constructor; try congruence.
  - intros t. destruct t; reflexivity.
  - intros [|] u; reflexivity.
  - intros d o id [].
  - discriminate.
  - constructor.
  - split; [intros (u & a & H); discriminate|intros [H _]; discriminate].
  - split; [intros (u & a & H); discriminate|intros [H _]; congruence].
Qed.

Definition quiet (o : op) : Prop := match o with OPeriod _ | OEarth | OAuto _ _ => True | _ => False end.
Lemma inv_quiet s es o s' : inv s es -> quiet o -> s_vx s' = s_vx s -> s_vite s' = s_vite s -> s_stakes s' = s_stakes s -> s_mining s' = s_mining s ->
  s_cur s <= s_cur s' < 2 ^ 63 -> s_earth s' = earth (es ++ [(s_cur s, o)]) -> (forall u, existsb (fun v => v =? u) (s_auto s') = auto u (es ++ [(s_cur s, o)])) ->
  (s_earth s' = false -> s_earth s = false) -> inv s' (es ++ [(s_cur s, o)]).
Proof.
  intros V P E1 E2 E3 E4 CU HE HA HP.
  assert (RQ : forall t u, rq t (es ++ [(s_cur s, o)]) u = rq t es u).
  { intros t u. rewrite rq_snoc by apply V. unfold reqs1, is_req. destruct t, o; try contradiction P; apply app_nil_r. }
  assert (LJ : forall t, last_job t (es ++ [(s_cur s, o)]) = last_job t es).
  { intros t. rewrite last_snoc. destruct o; try contradiction P; reflexivity. }
  assert (ST : forall id, stake_of id (es ++ [(s_cur s, o)]) = stake_of id es).
  { intros id. rewrite stake_snoc. destruct (stake_of id es); [reflexivity|]. destruct o; try contradiction P; reflexivity. }
  assert (BK : forall t, bk t s' = bk t s) by (intros [|]; assumption).
  assert (MI : forall u, mining u s' = mining u s) by (intros u; unfold mining; now rewrite E4).
  constructor.
  - intros t. rewrite BK. apply (book_ext (rq t es)); [|apply RQ].
    pose proof (other_ok _ _ (s_cur s') _ (b_accts (bk t s)) (i_book _ _ V t) CU (fun v => eq_refl) (fun v H => H)) as Q. now destruct (bk t s).
  - intros t. rewrite BK, LJ. apply V.
  - intros t u. rewrite BK, LJ, RQ, av0_snoc, (i_avail _ _ V). destruct o; try contradiction P; unfold av1; destruct (same t VX); cbn; ring.
  - intros u. rewrite E1, locked_snoc, (i_locked _ _ V). destruct o; try contradiction P; cbn; ring.
  - exact HE.
  - exact HA.
  - intros E. destruct (i_pre _ _ V (HP E)) as [A1 A2]. rewrite E3. split; [exact A1|]. intros. rewrite RQ. apply A2.
  - apply ids_snoc; [apply V|]. intros id N. destruct o; contradiction.
  - intros id u a c G. rewrite ST, E2. rewrite E3 in G. exact (i_stakes _ _ V _ _ _ _ G).
  - rewrite E3. apply V.
  - intros u. rewrite MI, E3. apply V.
  - intros u. rewrite MI, staked_snoc by apply V. destruct o; try contradiction P; rewrite Z.add_0_r; apply (i_staked _ _ V).
  - intros id. rewrite E3, confirmed_snoc, cancelled_snoc. destruct o; try contradiction P; rewrite !orb_false_r; apply (i_there _ _ V).
  - intros id. rewrite E3, ST, confirmed_snoc. destruct o; try contradiction P; rewrite !orb_false_r; apply (i_new _ _ V).
  - intros id. rewrite confirmed_snoc, cancelled_snoc. destruct o; try contradiction P; rewrite !orb_false_r; apply (i_order _ _ V).
Qed.

(** * What the account functions do *)
Lemma update_some u f l l' : update u f l = Some l' -> exists x y, get u l = Some x /\ f x = Some y /\ l' = put u y l.
Proof. unfold update. destruct (get u l) as [x|]; [|discriminate]. destruct (f x) as [y|] eqn:E; [|discriminate]. intros H. injection H as <-. eauto. Qed.
Lemma fld_get f u l x : get u l = Some x -> fld f u l = f x.
Proof. intros G. unfold fld. now rewrite G. Qed.

Lemma inv_job s es t p s' : inv s es -> step s (OJob t p) = Some s' -> inv s' (es ++ [(s_cur s, OJob t p)]).
Proof.
  intros V H. cbn [step] in H. destruct (job (s_earth s) (s_cur s) p (bk t s)) as [b'|] eqn:J; [|discriminate]. injection H as <-.
  pose proof (i_book _ _ V t) as B.
  assert (C : p < s_cur s /\ (0 < b_last (bk t s) -> p = b_last (bk t s) + 1)).
  { unfold job in J. destruct (Z.leb_spec (s_cur s) p); [discriminate|]. split; [assumption|]. intros Q. apply Z.ltb_lt in Q. rewrite Q in J. apply Z.ltb_lt in Q. cbn in J.
    destruct (Z.eqb_spec p (wrap64 (b_last (bk t s) + 1))) as [E|]; [|discriminate]. rewrite E. unfold wrap64. apply Z.mod_small.
    pose proof (bo_last _ _ _ B). pose proof (bo_cur _ _ _ B). unfold two64. change (2 ^ 63) with 9223372036854775808 in *. lia. }
  assert (Q : book_ok (rq t es) (s_cur s) b' /\ b_last b' = p
    /\ (forall u, fld a_avail u (b_accts b') = fld a_avail u (b_accts (bk t s)) + (lsum (past p (rq t es u)) - lsum (past (b_last (bk t s)) (rq t es u))))
    /\ (forall u, fld a_locked u (b_accts b') = fld a_locked u (b_accts (bk t s))) /\ (forall u, has u (b_accts b') <-> has u (b_accts (bk t s)))).
  { destruct (s_earth s) eqn:EA.
    - destruct (job_ok _ _ _ _ B (proj1 C) (proj2 C)) as (b2 & E & R). rewrite E in J. injection J as <-. exact R.
    - unfold job in J. destruct (s_cur s <=? p); [discriminate|]. destruct (_ && _); [discriminate|]. injection J as <-. cbn.
      destruct (i_pre _ _ V EA) as [_ Z0]. assert (Z1 : forall u, rq t es u = []) by auto.
      split; [|split; [reflexivity|split; [intros u; rewrite Z1; cbn; ring|split; [auto|intros; tauto]]]].
      destruct B as [B1 B2 B3 B4 B5 B6 B7 B8 B9]. constructor; cbn [b_recs b_last b_accts]; auto; try lia.
      + intros u. rewrite B1, Z1. reflexivity.
      + intros u. rewrite B2, Z1. reflexivity. }
  destruct Q as (Q1 & Q2 & Q3 & Q4 & Q5). set (o := OJob t p). 
  assert (RQ : forall t' u, rq t' (es ++ [(s_cur s, o)]) u = rq t' es u).
  { intros t' u. rewrite rq_snoc by apply V. unfold reqs1, is_req. destruct t'; apply app_nil_r. }
  assert (ST : forall id, stake_of id (es ++ [(s_cur s, o)]) = stake_of id es).
  { intros id. rewrite stake_snoc. destruct (stake_of id es); reflexivity. }
  assert (BK : forall t', bk t' (set_bk t b' s) = if same t' t then b' else bk t' s) by (intros t'; destruct t, t'; reflexivity).
  assert (LJ : forall t', last_job t' (es ++ [(s_cur s, o)]) = if same t' t then p else last_job t' es) by (intros t'; rewrite last_snoc; reflexivity).
  constructor.
  - intros t'. rewrite BK. assert (CU : s_cur (set_bk t b' s) = s_cur s) by now destruct t. rewrite CU. apply (book_ext (rq t' es)); [|apply RQ].
    destruct (same t' t) eqn:E; [apply same_eq in E; subst t'; exact Q1|apply V].
  - intros t'. rewrite BK, LJ. destruct (same t' t); [exact Q2|apply V].
  - intros t' u. rewrite BK, LJ, RQ, av0_snoc. assert (Z0 : av1 t' u es o = 0) by (unfold av1; destruct (same t' VX); reflexivity). rewrite Z0.
    destruct (same t' t) eqn:E; [|rewrite (i_avail _ _ V); ring]. apply same_eq in E. subst t'. rewrite Q3, (i_avail _ _ V), <- (i_last _ _ V). ring.
  - intros u. rewrite locked_snoc. cbn [lock1 mined1 o]. destruct t; cbn [s_vx set_bk]; [rewrite Q4|]; cbn [bk]; rewrite (i_locked _ _ V); ring.
  - rewrite earth_snoc, <- (i_earth _ _ V). destruct t; cbn; now rewrite orb_false_r.
  - intros u. rewrite auto_snoc, <- (i_auto _ _ V). destruct t; reflexivity.
  - intros E. assert (E' : s_earth s = false) by (destruct t; exact E). destruct (i_pre _ _ V E') as [E1 E2]. split; [destruct t; exact E1|]. intros. rewrite RQ. apply E2.
  - apply ids_snoc; [apply V|]. intros id N. contradiction.
  - intros id u a c G. rewrite ST. assert (G' : get id (s_stakes s) = Some (Stake u a c)) by (destruct t; exact G).
    destruct (i_stakes _ _ V _ _ _ _ G') as (A1 & A2 & A3). repeat split; auto. destruct t; cbn; auto. apply Q5. exact A3.
  - destruct t; apply V.
  - destruct t; apply V.
  - intros u. rewrite staked_snoc by apply V. destruct t; rewrite Z.add_0_r; apply (i_staked _ _ V).
  - intros id. rewrite confirmed_snoc, cancelled_snoc. destruct t; rewrite !orb_false_r; apply (i_there _ _ V).
  - intros id. rewrite confirmed_snoc, ST. destruct t; rewrite !orb_false_r; apply (i_new _ _ V).
  - intros id. rewrite confirmed_snoc, cancelled_snoc, !orb_false_r. apply (i_order _ _ V).
Qed.

Lemma inv_unlock s es u a s' : inv s es -> step s (OUnlock u a) = Some s' -> inv s' (es ++ [(s_cur s, OUnlock u a)]).
Proof.
  intros V H. cbn [step] in H. destruct (negb (s_earth s) || (a <? one_vx)) eqn:G; [discriminate|]. apply orb_false_iff in G. destruct G as [EA AM].
  apply negb_false_iff in EA. apply Z.ltb_ge in AM. assert (A0 : 0 < a) by (unfold one_vx in AM; lia). clear AM.
  destruct (schedule_unlock u a (b_accts (s_vx s))) as [l|] eqn:U; [|discriminate]. injection H as <-.
  unfold schedule_unlock in U. apply update_some in U. destruct U as (x & y & G & F & ->).
  destruct (a_locked x <? a); [discriminate|]. cbv zeta in F. destruct (_ && _); [discriminate|]. injection F as <-.
  set (y := Acct (a_avail x) (a_locked x - a) (a_held x + a)). set (o := OUnlock u a).
  assert (RQ : forall t v, rq t (es ++ [(s_cur s, o)]) v = match t with VX => add_rq (rq VX es) u (s_cur s) a v | VITE => rq VITE es v end).
  { intros t v. rewrite rq_snoc by apply V. unfold reqs1, is_req, add_rq. destruct t; cbn; [|apply app_nil_r]. destruct (u =? v); [reflexivity|apply app_nil_r]. }
  assert (ST : forall id, stake_of id (es ++ [(s_cur s, o)]) = stake_of id es).
  { intros id. rewrite stake_snoc. destruct (stake_of id es); reflexivity. }
  assert (LJ : forall t', last_job t' (es ++ [(s_cur s, o)]) = last_job t' es) by (intros t'; rewrite last_snoc; reflexivity).
  assert (FY : forall f v, fld f v (put u y (b_accts (s_vx s))) = fld f v (b_accts (s_vx s)) + if u =? v then f y - f x else 0).
  { intros f v. rewrite fld_put. destruct (Z.eqb_spec u v) as [<-|N]; [|ring]. rewrite (fld_get _ _ _ _ G). ring. }
  pose proof (i_book _ _ V VX) as B. cbn [bk] in B.
  constructor; cbn [s_cur s_stakes s_vx s_vite s_earth s_auto set_bk].
  - intros [|]; cbn [bk set_bk s_vx s_vite]; (eapply book_ext; [|apply RQ]); [|apply V].
    apply request_ok; auto; [| |apply has_put_same].
    + intros v. rewrite FY. destruct (u =? v); cbn; ring.
    + intros v. apply has_put.
  - intros t. rewrite LJ, <- (i_last _ _ V). destruct t; reflexivity.
  - intros t v. rewrite LJ, RQ, av0_snoc. assert (Z0 : av1 t v es o = 0) by (unfold av1; destruct (same t VX); reflexivity). rewrite Z0.
    destruct t; cbn [bk set_bk s_vx s_vite b_accts]; [|rewrite (i_avail _ _ V VITE); ring].
    rewrite FY, (i_avail _ _ V VX). cbn [a_avail y]. unfold add_rq. destruct (u =? v); [|ring]. rewrite past_snoc; [ring|]. pose proof (bo_last _ _ _ B) as Q. rewrite <- (i_last _ _ V VX). exact Q.
  - intros v. rewrite locked_snoc, FY, (i_locked _ _ V). cbn [lock1 mined1 o a_locked y]. destruct (u =? v); ring.
  - rewrite earth_snoc, <- (i_earth _ _ V). cbn. now rewrite orb_false_r.
  - intros v. rewrite auto_snoc. apply V.
  - congruence.
  - apply ids_snoc; [apply V|]. intros id N. contradiction.
  - intros id v b c K. rewrite ST. exact (i_stakes _ _ V _ _ _ _ K).
  - apply V.
  - apply V.
  - intros v. rewrite staked_snoc by apply V. rewrite Z.add_0_r. apply (i_staked _ _ V).
  - intros id. rewrite confirmed_snoc, cancelled_snoc, !orb_false_r. apply (i_there _ _ V).
  - intros id. rewrite confirmed_snoc, ST, !orb_false_r. apply (i_new _ _ V).
  - intros id. rewrite confirmed_snoc, cancelled_snoc, !orb_false_r. apply (i_order _ _ V).
Qed.
