(** Stakes, and all histories. *)
From Verif Require Import Lib PendModel PendSpec PendProofs PendProofs2 PendProofs3.
Import ListNotations.
Open Scope Z_scope.

Lemma confirmed_in id es : confirmed id es = true -> exists d ok, In (d, OStaked id ok) es.
Proof. unfold confirmed. rewrite existsb_exists. intros ([d o] & X & E). destruct o; try discriminate. cbn in E. apply Z.eqb_eq in E. subst. eauto. Qed.
Lemma cancelled_in id es : cancelled id es = true -> exists d, In (d, OCancelled id) es.
Proof. unfold cancelled. rewrite existsb_exists. intros ([d o] & X & E). destruct o; try discriminate. cbn in E. apply Z.eqb_eq in E. subst. eauto. Qed.

Lemma inv_stake s es u id a s' : inv s es -> stake_of id es = None -> step s (OStake u id a) = Some s' -> inv s' (es ++ [(s_cur s, OStake u id a)]).
Proof.
  intros V FR H. cbn [step] in H. destruct (negb (s_earth s) || (a <? min_stake)) eqn:G; [discriminate|]. apply orb_false_iff in G. destruct G as [EA AM].
  apply negb_false_iff in EA. apply Z.ltb_ge in AM. assert (A0 : 0 < a) by (unfold min_stake in AM; lia). clear AM.
  destruct (get id (s_stakes s)) as [k|] eqn:K; [discriminate|].
  destruct (reduce u a (b_accts (s_vite s))) as [l|] eqn:U; [|discriminate]. injection H as <-.
  unfold reduce in U. apply update_some in U. destruct U as (x & y & G & F & ->).
  destruct (a_avail x <? a); [discriminate|]. injection F as <-.
  set (y := Acct (a_avail x - a) (a_locked x) (a_held x)). set (o := OStake u id a).
  assert (RQ : forall t v, rq t (es ++ [(s_cur s, o)]) v = rq t es v).
  { intros t v. rewrite rq_snoc by apply V. unfold reqs1, is_req. destruct t; apply app_nil_r. }
  assert (ST : forall i, stake_of i (es ++ [(s_cur s, o)]) = match stake_of i es with Some z => Some z | None => if id =? i then Some (u, a) else None end).
  { intros i. rewrite stake_snoc. reflexivity. }
  assert (LJ : forall t', last_job t' (es ++ [(s_cur s, o)]) = last_job t' es) by (intros t'; rewrite last_snoc; reflexivity).
  assert (FY : forall f v, fld f v (put u y (b_accts (s_vite s))) = fld f v (b_accts (s_vite s)) + if u =? v then f y - f x else 0).
  { intros f v. rewrite fld_put. destruct (Z.eqb_spec u v) as [<-|N]; [|ring]. rewrite (fld_get _ _ _ _ G). ring. }
  assert (NC : confirmed id es = false).
  { destruct (confirmed id es) eqn:C; [|reflexivity]. apply confirmed_in in C. destruct C as (d & ok & C). now elim (i_ids _ _ V _ _ id C eq_refl). }
  assert (NX : cancelled id es = false).
  { destruct (cancelled id es) eqn:C; [|reflexivity]. apply cancelled_in in C. destruct C as (d & C). now elim (i_ids _ _ V _ _ id C eq_refl). }
  constructor; cbn [s_cur s_stakes s_vx s_vite s_earth s_auto set_bk set_stakes].
  - intros t. apply (book_ext (rq t es)); [|apply RQ]. destruct t; cbn [bk set_bk set_stakes s_vx s_vite]; [apply (i_book _ _ V VX)|].
    unfold set_accts. apply (other_ok _ (s_cur s)); [apply (i_book _ _ V VITE)| | |].
    + pose proof (bo_cur _ _ _ (i_book _ _ V VITE)). lia.
    + intros v. rewrite FY. destruct (u =? v); cbn; ring.
    + intros v. apply has_put.
  - intros t. rewrite LJ, <- (i_last _ _ V). destruct t; reflexivity.
  - intros t v. rewrite LJ, RQ, av0_snoc. destruct t; cbn [bk set_bk set_stakes s_vx s_vite b_accts set_accts].
    + rewrite (i_avail _ _ V VX). unfold av1. cbn. ring.
    + rewrite FY, (i_avail _ _ V VITE). unfold av1. cbn. destruct (u =? v); ring.
  - intros v. rewrite locked_snoc, (i_locked _ _ V). cbn. ring.
  - rewrite earth_snoc, <- (i_earth _ _ V). cbn. now rewrite orb_false_r.
  - intros v. rewrite auto_snoc. apply V.
  - congruence.
  - apply ids_snoc; [apply V|]. intros i N. contradiction.
  - intros i v b c Q. rewrite get_put in Q. rewrite ST. destruct (Z.eqb_spec id i) as [<-|N].
    + injection Q as <- <- <-. rewrite FR. repeat split; auto. apply has_put_same.
    + destruct (i_stakes _ _ V _ _ _ _ Q) as (A1 & A2 & A3). rewrite A1. repeat split; auto. now apply has_put.
  - apply put_nodup, V.
  - intros v. rewrite ksum_put, K. cbn. rewrite andb_false_r, Z.sub_0_r, Z.add_0_r. apply (i_mining _ _ V).
  - intros v. rewrite staked_snoc by apply V. rewrite Z.add_0_r. apply (i_staked _ _ V).
  - intros i. rewrite confirmed_snoc, cancelled_snoc, !orb_false_r, get_put. destruct (Z.eqb_spec id i) as [<-|N]; [|apply (i_there _ _ V)].
    rewrite NC. split; [intros (v & b & Q); discriminate|intros [Q _]; discriminate].
  - intros i. rewrite confirmed_snoc, orb_false_r, get_put, ST. destruct (Z.eqb_spec id i) as [<-|N].
    + rewrite FR, NC. split; [intros _; split; [discriminate|reflexivity]|eauto].
    + rewrite (i_new _ _ V i). destruct (stake_of i es); tauto.
  - intros i. rewrite confirmed_snoc, cancelled_snoc, !orb_false_r. apply (i_order _ _ V).
Qed.

Lemma inv_staked s es id ok s' : inv s es -> step s (OStaked id ok) = Some s' -> inv s' (es ++ [(s_cur s, OStaked id ok)]).
Proof.
  intros V H. cbn [step] in H. destruct (get id (s_stakes s)) as [[u a [|]]|] eqn:K; try discriminate. destruct ok; [|discriminate]. injection H as <-.
  destruct (i_stakes _ _ V _ _ _ _ K) as (SO & A0 & HU). set (o := OStaked id true).
  assert (RQ : forall t v, rq t (es ++ [(s_cur s, o)]) v = rq t es v).
  { intros t v. rewrite rq_snoc by apply V. unfold reqs1, is_req. destruct t; apply app_nil_r. }
  assert (ST : forall i, stake_of i (es ++ [(s_cur s, o)]) = stake_of i es).
  { intros i. rewrite stake_snoc. destruct (stake_of i es); reflexivity. }
  assert (LJ : forall t', last_job t' (es ++ [(s_cur s, o)]) = last_job t' es) by (intros t'; rewrite last_snoc; reflexivity).
  assert (MI : forall v, mining v (set_stakes (put id (Stake u a true) (s_stakes s)) (put u (mining u s + a) (s_mining s)) s) = mining v s + if u =? v then a else 0).
  { intros v. unfold mining at 1. cbn [s_mining set_stakes]. rewrite get_put. destruct (Z.eqb_spec u v) as [<-|N]; [reflexivity|]. unfold mining. ring. }
  constructor; cbn [s_cur s_stakes s_vx s_vite s_earth s_auto set_stakes].
  - intros t. apply (book_ext (rq t es)); [|apply RQ]. destruct t; apply V.
  - intros t. rewrite LJ, <- (i_last _ _ V). destruct t; reflexivity.
  - intros t v. rewrite LJ, RQ, av0_snoc. assert (Z0 : av1 t v es o = 0) by (unfold av1; destruct (same t VX); reflexivity). rewrite Z0, Z.add_0_r, <- (i_avail _ _ V). destruct t; reflexivity.
  - intros v. rewrite locked_snoc, (i_locked _ _ V). cbn. ring.
  - rewrite earth_snoc, <- (i_earth _ _ V). cbn. now rewrite orb_false_r.
  - intros v. rewrite auto_snoc. apply V.
  - intros E. destruct (i_pre _ _ V E) as [E1 _]. rewrite E1 in K. discriminate.
  - apply ids_snoc; [apply V|]. intros i N. cbn in N. subst i. congruence.
  - intros i v b c Q. rewrite get_put in Q. rewrite ST. destruct (Z.eqb_spec id i) as [<-|N].
    + injection Q as <- <- <-. auto.
    + exact (i_stakes _ _ V _ _ _ _ Q).
  - apply put_nodup, V.
  - intros v. rewrite MI, ksum_put, K, (i_mining _ _ V). cbn. rewrite andb_false_r, andb_true_r. ring.
  - intros v. rewrite MI, staked_snoc by apply V. cbn [o]. rewrite SO, (i_staked _ _ V). reflexivity.
  - intros i. rewrite confirmed_snoc, cancelled_snoc, orb_false_r, get_put. cbn [o]. destruct (Z.eqb_spec id i) as [<-|N].
    + rewrite orb_true_r. split; [|eauto]. intros _. split; [reflexivity|].
      destruct (cancelled id es) eqn:C; [|reflexivity]. exfalso.
      assert (Q : confirmed id es = false) by (apply (i_new _ _ V); eauto).
      apply (i_order _ _ V) in C. congruence.
    + rewrite orb_false_r. apply (i_there _ _ V).
  - intros i. rewrite confirmed_snoc, ST, get_put. cbn [o]. destruct (Z.eqb_spec id i) as [<-|N].
    + rewrite orb_true_r. split; [intros (v & b & Q); discriminate|intros [_ Q]; discriminate].
    + rewrite orb_false_r. apply (i_new _ _ V).
  - intros i. rewrite confirmed_snoc, cancelled_snoc, orb_false_r. intros Q. apply (i_order _ _ V) in Q. now rewrite Q.
Qed.

Lemma inv_cancelled s es id s' : inv s es -> step s (OCancelled id) = Some s' -> inv s' (es ++ [(s_cur s, OCancelled id)]).
Proof.
  intros V H. cbn [step] in H. destruct (get id (s_stakes s)) as [[u a [|]]|] eqn:K; try discriminate. cbv zeta in H.
  destruct (mining u s - a <? 0) eqn:LE; [discriminate|]. clear LE.
  destruct (i_stakes _ _ V _ _ _ _ K) as (SO & A0 & HU). unfold has in HU.
  unfold schedule_cancel, update in H. destruct (get u (b_accts (s_vite s))) as [x|] eqn:G; [|congruence]. clear HU.
  set (y := Acct (a_avail x) (a_locked x) (a_held x + a)) in *.
  set (mi := if mining u s - a =? 0 then del u (s_mining s) else put u (mining u s - a) (s_mining s)) in *. injection H as <-.
  set (o := OCancelled id).
  assert (RQ : forall t v, rq t (es ++ [(s_cur s, o)]) v = match t with VITE => add_rq (rq VITE es) u (s_cur s) a v | VX => rq VX es v end).
  { intros t v. rewrite rq_snoc by apply V. unfold reqs1, is_req, asked, add_rq. destruct t; cbn [o]; [apply app_nil_r|].
    rewrite stake_snoc, SO. destruct (u =? v); [reflexivity|apply app_nil_r]. }
  assert (ST : forall i, stake_of i (es ++ [(s_cur s, o)]) = stake_of i es).
  { intros i. rewrite stake_snoc. destruct (stake_of i es); reflexivity. }
  assert (LJ : forall t', last_job t' (es ++ [(s_cur s, o)]) = last_job t' es) by (intros t'; rewrite last_snoc; reflexivity).
  assert (FY : forall f v, fld f v (put u y (b_accts (s_vite s))) = fld f v (b_accts (s_vite s)) + if u =? v then f y - f x else 0).
  { intros f v. rewrite fld_put. destruct (Z.eqb_spec u v) as [<-|N]; [|ring]. rewrite (fld_get _ _ _ _ G). ring. }
  assert (MI : forall v, match get v mi with Some b => b | None => 0 end = mining v s - if u =? v then a else 0).
  { intros v. unfold mi. destruct (Z.eqb_spec (mining u s - a) 0) as [E|E].
    - rewrite get_del. destruct (Z.eqb_spec u v) as [<-|N]; [lia|]. unfold mining. ring.
    - rewrite get_put. destruct (Z.eqb_spec u v) as [<-|N]; [reflexivity|]. unfold mining. ring. }
  pose proof (i_book _ _ V VITE) as B. cbn [bk] in B.
  assert (CO : confirmed id es = true) by (apply (i_there _ _ V); eauto).
  constructor; cbn [s_cur s_stakes s_vx s_vite s_earth s_auto set_bk set_stakes].
  - intros [|]; cbn [bk set_bk set_stakes s_vx s_vite]; (eapply book_ext; [|apply RQ]); [apply (i_book _ _ V VX)|].
    apply request_ok; auto; [| |apply has_put_same].
    + intros v. rewrite FY. destruct (u =? v); cbn; ring.
    + intros v. apply has_put.
  - intros t. rewrite LJ, <- (i_last _ _ V). destruct t; reflexivity.
  - intros t v. rewrite LJ, RQ, av0_snoc. assert (Z0 : av1 t v es o = 0) by (unfold av1; destruct (same t VX); reflexivity). rewrite Z0.
    destruct t; cbn [bk set_bk set_stakes s_vx s_vite b_accts]; [rewrite (i_avail _ _ V VX); ring|].
    rewrite FY, (i_avail _ _ V VITE). cbn [a_avail y]. unfold add_rq. destruct (u =? v); [|ring]. rewrite past_snoc; [ring|].
    pose proof (bo_last _ _ _ B) as Q. rewrite <- (i_last _ _ V VITE). exact Q.
  - intros v. rewrite locked_snoc, (i_locked _ _ V). cbn. ring.
  - rewrite earth_snoc, <- (i_earth _ _ V). cbn. now rewrite orb_false_r.
  - intros v. rewrite auto_snoc. apply V.
  - intros E. destruct (i_pre _ _ V E) as [E1 _]. rewrite E1 in K. discriminate.
  - apply ids_snoc; [apply V|]. intros i N. cbn in N. subst i. congruence.
  - intros i v b c Q. rewrite get_del in Q. rewrite ST. destruct (Z.eqb_spec id i) as [<-|N]; [discriminate|].
    destruct (i_stakes _ _ V _ _ _ _ Q) as (A1 & A2 & A3). repeat split; auto. now apply has_put.
  - apply del_nodup, V.
  - intros v. unfold mining. cbn [s_mining set_stakes]. rewrite MI, ksum_del, K, (i_mining _ _ V) by apply V. cbn. rewrite andb_true_r. ring.
  - intros v. unfold mining. cbn [s_mining set_stakes]. rewrite MI, staked_snoc by apply V. cbn [o]. rewrite SO, (i_staked _ _ V). cbn. destruct (u =? v); ring.
  - intros i. rewrite confirmed_snoc, cancelled_snoc, orb_false_r, get_del. cbn [o]. destruct (Z.eqb_spec id i) as [<-|N].
    + rewrite orb_true_r. split; [intros (v & b & Q); discriminate|intros [_ Q]; discriminate].
    + rewrite orb_false_r. apply (i_there _ _ V).
  - intros i. rewrite confirmed_snoc, ST, get_del, orb_false_r. destruct (Z.eqb_spec id i) as [<-|N]; [|apply (i_new _ _ V)].
    rewrite CO. split; [intros (v & b & Q); discriminate|intros [_ Q]; discriminate].
  - intros i. rewrite confirmed_snoc, cancelled_snoc, orb_false_r. cbn [o]. destruct (Z.eqb_spec id i) as [<-|N]; [auto|]. rewrite orb_false_r. apply (i_order _ _ V).
Qed.

(** * Amounts that move *)
Lemma inv_moves s es t f o s' : inv s es -> plain o -> on_accts t f s = Some s' ->
  (forall t', t' <> t -> forall u, av1 t' u es o = 0) ->
  (t = VITE -> forall u, lock1 u o + mined1 true u es o = 0) ->
  (forall l', f (b_accts (bk t s)) = Some l' -> exists w y, l' = put w y (b_accts (bk t s))
     /\ a_held y = fld a_held w (b_accts (bk t s))
     /\ (forall u, av1 t u es o = if w =? u then a_avail y - fld a_avail w (b_accts (bk t s)) else 0)
     /\ (t = VX -> forall u, lock1 u o + mined1 true u es o = if w =? u then a_locked y - fld a_locked w (b_accts (bk t s)) else 0)) ->
  inv s' (es ++ [(s_cur s, o)]).
Proof.
  intros V P H H0 H4 HF. unfold on_accts in H. destruct (f (b_accts (bk t s))) as [l|]; [|discriminate]. injection H as <-.
  destruct (HF l eq_refl) as (w & y & -> & E1 & E2 & E3).
  apply inv_plain; auto.
  - intros u. rewrite fld_put, E2. destruct (Z.eqb_spec w u) as [<-|N]; ring.
  - intros u. rewrite fld_put. destruct (Z.eqb_spec w u) as [<-|N]; [exact E1|reflexivity].
  - intros -> u. rewrite fld_put. specialize (E3 eq_refl u). cbn [bk] in *. destruct (Z.eqb_spec w u) as [Q|Q]; [subst u|]; lia.
  - intros u. apply has_put.
Qed.
Lemma deposit_put u a l : exists y, deposit u a l = put u y l /\ a_avail y = fld a_avail u l + a /\ a_locked y = fld a_locked u l /\ a_held y = fld a_held u l.
Proof. unfold deposit, fld. destruct (get u l) as [x|]; eexists; (split; [reflexivity|]); cbn; auto. Qed.
Lemma lock_mined_put u a l : exists y, lock_mined u a l = put u y l /\ a_avail y = fld a_avail u l /\ a_locked y = fld a_locked u l + a /\ a_held y = fld a_held u l.
Proof. unfold lock_mined, fld. destruct (get u l) as [x|]; eexists; (split; [reflexivity|]); cbn; auto. Qed.

Lemma auto_off u v : forall l, existsb (fun w => w =? v) (filter (fun w => negb (w =? u)) l) = if u =? v then false else existsb (fun w => w =? v) l.
Proof.
  induction l as [|w l IH]; cbn; [now destruct (u =? v)|].
  destruct (Z.eqb_spec w u) as [->|N]; cbn; rewrite IH; destruct (Z.eqb_spec u v) as [<-|M]; try reflexivity.
  destruct (Z.eqb_spec w u); [congruence|reflexivity].
Qed.

Theorem inv_step s es o s' : inv s es -> (forall u id a, o = OStake u id a -> stake_of id es = None) -> step s o = Some s' -> inv s' (es ++ [(s_cur s, o)]).
Proof.
  intros V FR H. destruct o.
  - cbn [step] in H. destruct (s_cur s <=? p) eqn:E1; [|discriminate]. cbn [andb] in H. destruct (p <? 2 ^ 63) eqn:E2; [|discriminate]. injection H as <-.
    apply (inv_quiet s); auto; cbn; try exact Logic.I.
    + apply Z.leb_le in E1. apply Z.ltb_lt in E2. lia.
    + rewrite earth_snoc, orb_false_r. apply V.
    + intros u. rewrite auto_snoc. apply V.
  - cbn [step] in H. injection H as <-. apply (inv_quiet s); auto; cbn; try exact Logic.I.
    + pose proof (bo_cur _ _ _ (i_book _ _ V VX)). lia.
    + now rewrite earth_snoc, orb_true_r.
    + intros u. rewrite auto_snoc. apply V.
    + discriminate.
  - cbn [step] in H. destruct (a <=? 0); [discriminate|]. eapply (inv_moves s es t); [exact V|exact Logic.I|exact H| | |].
    + intros t' N v. unfold av1. destruct t, t'; try congruence; reflexivity.
    + intros -> v. reflexivity.
    + intros l' E. injection E as <-. destruct (deposit_put u a (b_accts (bk t s))) as (y & -> & Y1 & Y2 & Y3). exists u, y. split; [reflexivity|]. split; [assumption|]. split.
      * intros v. rewrite Y1. unfold av1. cbn. destruct t; cbn; destruct (u =? v); ring.
      * intros _ v. rewrite Y2. cbn. destruct (u =? v); ring.
  - cbn [step] in H. destruct (a <=? 0); [discriminate|]. eapply (inv_moves s es t); [exact V|exact Logic.I|exact H| | |].
    + intros t' N v. unfold av1. destruct t, t'; try congruence; reflexivity.
    + intros -> v. reflexivity.
    + intros l' E. apply update_some in E. destruct E as (x & y & G & F & ->). exists u, y. destruct (a_avail x <? a); [discriminate|]. injection F as <-.
      rewrite !(fld_get _ _ _ _ G). split; [reflexivity|]. split; [reflexivity|]. split.
      * intros v. unfold av1. cbn. destruct t; cbn; destruct (u =? v); ring.
      * intros _ v. cbn. destruct (u =? v); ring.
  - cbn [step] in H. injection H as <-. apply (inv_quiet s); auto; cbn; try exact Logic.I.
    + pose proof (bo_cur _ _ _ (i_book _ _ V VX)). lia.
    + rewrite earth_snoc, orb_false_r. apply V.
    + intros v. rewrite auto_snoc. pose proof (i_auto _ _ V v) as Q. destruct on; cbn.
      * destruct (u =? v); [reflexivity|exact Q].
      * rewrite auto_off, Q. reflexivity.
  - cbn [step] in H. destruct (a <=? 0); [discriminate|]. eapply (inv_moves s es VX); [exact V|exact Logic.I|exact H| | |].
    + intros t' N v. unfold av1. destruct t'; try congruence; reflexivity.
    + discriminate.
    + intros l' E. injection E as <-. pose proof (i_earth _ _ V) as HE. pose proof (i_auto _ _ V u) as HA. rewrite HE, HA.
      destruct (earth es && auto u es) eqn:EA.
      * cbn [bk]. destruct (lock_mined_put u a (b_accts (s_vx s))) as (y & -> & Y1 & Y2 & Y3). exists u, y. split; [reflexivity|]. split; [assumption|]. split.
        -- intros v. rewrite Y1. unfold av1. cbn. destruct (Z.eqb_spec u v) as [<-|]; [rewrite EA; cbn; ring|reflexivity].
        -- intros _ v. rewrite Y2. cbn. destruct (Z.eqb_spec u v) as [<-|]; [rewrite EA; cbn; ring|reflexivity].
      * cbn [bk]. destruct (deposit_put u a (b_accts (s_vx s))) as (y & -> & Y1 & Y2 & Y3). exists u, y. split; [reflexivity|]. split; [assumption|]. split.
        -- intros v. rewrite Y1. unfold av1. cbn. destruct (Z.eqb_spec u v) as [<-|]; [rewrite EA; cbn; ring|reflexivity].
        -- intros _ v. rewrite Y2. cbn. destruct (Z.eqb_spec u v) as [<-|]; [rewrite EA; cbn; ring|reflexivity].
  - cbn [step] in H. destruct (_ || _); [discriminate|]. eapply (inv_moves s es VX); [exact V|exact Logic.I|exact H| | |].
    + intros t' N v. unfold av1. destruct t'; try congruence; reflexivity.
    + discriminate.
    + intros l' E. apply update_some in E. destruct E as (x & y & G & F & ->). exists u, y. destruct (a_avail x <? a); [discriminate|]. injection F as <-.
      rewrite !(fld_get _ _ _ _ G). split; [reflexivity|]. split; [reflexivity|]. split.
      * intros v. unfold av1. cbn. destruct (u =? v); ring.
      * intros _ v. cbn. destruct (u =? v); ring.
  - now apply inv_unlock.
  - now apply inv_job.
  - apply inv_stake; auto. now apply (FR u i a).
  - now apply inv_staked.
  - now apply inv_cancelled.
Qed.

(** * Histories *)
Definition new_id (o : op) : list Z := match o with OStake _ id _ => [id] | _ => [] end.
Lemma run_inv : forall ops s es, inv s es -> NoDup (flat_map new_id ops) -> (forall id, In id (flat_map new_id ops) -> stake_of id es = None) ->
  inv (fst (run s ops)) (es ++ snd (run s ops)).
Proof.
  induction ops as [|o ops IH]; intros s es V N F; cbn [run]; [cbn; now rewrite app_nil_r|].
  cbn [flat_map] in N, F. assert (N2 : NoDup (flat_map new_id ops)) by (destruct o; cbn in N; try assumption; now inversion N).
  destruct (step s o) as [s'|] eqn:E.
  - cbn [fst snd]. replace (es ++ (s_cur s, o) :: snd (run s' ops)) with ((es ++ [(s_cur s, o)]) ++ snd (run s' ops)) by now rewrite <- app_assoc.
    apply IH; [|assumption|].
    + apply inv_step; auto. intros u id a ->. apply F. now left.
    + intros id X. rewrite stake_snoc, (F id) by (apply in_or_app; now right). destruct o; try reflexivity. cbn [stake1 new_id app] in *.
      destruct (Z.eqb_spec i id) as [->|]; [|reflexivity]. inversion N; contradiction.
  - apply IH; auto. intros id X. apply F. apply in_or_app. now right.
Qed.
Theorem run_ok ops : NoDup (flat_map new_id ops) -> inv (fst (run init ops)) (snd (run init ops)).
Proof. intros N. apply (run_inv ops init []); [apply inv_init|assumption|reflexivity]. Qed.

