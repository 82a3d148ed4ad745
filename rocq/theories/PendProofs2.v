(** The state after a history and the accepted operations. *)
From Verif Require Import Lib PendModel PendSpec PendProofs.
Import ListNotations.
Open Scope Z_scope.

(** * The requests of a user *)
Definition is_req (t : token) (u : Z) (all : events) (o : op) : bool :=
  match t, o with
  | VX, OUnlock v _ => v =? u
  | VITE, OCancelled id => match stake_of id all with Some (v, _) => v =? u | None => false end
  | _, _ => false
  end.
Definition reqs1 (t : token) (u : Z) (all : events) (d : Z) (o : op) : list (Z * Z) := if is_req t u all o then [(d, asked t u all o)] else [].
Fixpoint reqs (t : token) (u : Z) (all es : events) : list (Z * Z) := match es with [] => [] | (d, o) :: r => reqs1 t u all d o ++ reqs t u all r end.
Lemma reqs_app t u all : forall es es', reqs t u all (es ++ es') = reqs t u all es ++ reqs t u all es'.
Proof. induction es as [|[d o] es IH]; intros es'; cbn; [reflexivity|]. now rewrite IH, app_assoc. Qed.
Lemma not_req t u all o : is_req t u all o = false -> asked t u all o = 0.
Proof.
  destruct t, o; cbn; try reflexivity.
  - intros E. now rewrite E.
  - destruct (stake_of i all) as [[v a]|]; [|reflexivity]. intros E. now rewrite E.
Qed.
Lemma total_reqs t u all (c : Z -> bool) : forall es, total (fun d o => if c d then asked t u all o else 0) es = lsum (keep c (reqs t u all es)).
Proof.
  induction es as [|[d o] es IH]; [reflexivity|]. cbn [total reqs]. rewrite keep_app, lsum_app, IH. f_equal. unfold reqs1.
  destruct (is_req t u all o) eqn:E; cbn; [destruct (c d); cbn; ring|]. rewrite (not_req _ _ _ _ E). now destruct (c d).
Qed.
Lemma total_ext f g : forall es, (forall d o, In (d, o) es -> f d o = g d o) -> total f es = total g es.
Proof. induction es as [|[d o] es IH]; intros H; cbn; [reflexivity|]. rewrite (H d o) by now left. f_equal. apply IH. intros. apply H. now right. Qed.
Lemma total_snoc f : forall es d o, total f (es ++ [(d, o)]) = total f es + f d o.
Proof. induction es as [|[e p] es IH]; intros d o; cbn; [ring|]. rewrite IH. ring. Qed.
Lemma ready_eq t u es : ready t u es = lsum (past (last_job t es) (reqs t u es es)).
Proof. unfold ready, past. apply (total_reqs t u es (is_due (last_job t es))). Qed.
Lemma waiting_eq t u es : waiting t u es = lsum (live (last_job t es) (reqs t u es es)).
Proof.
  unfold waiting, live. rewrite <- (total_reqs t u es (not_due (last_job t es))). apply total_ext. intros d o _. unfold not_due, is_due. now destruct (_ <=? _).
Qed.

(** * One more operation *)
Definition stake1 (id : Z) (o : op) : option (Z * Z) := match o with OStake u i a => if i =? id then Some (u, a) else None | _ => None end.
Lemma stake_snoc id d o : forall es, stake_of id (es ++ [(d, o)]) = match stake_of id es with Some x => Some x | None => stake1 id o end.
Proof.
  induction es as [|[e p] es IH]; [destruct o; reflexivity|]. cbn. destruct p; try exact IH. destruct (_ =? id); [reflexivity|exact IH].
Qed.
Definition named (o : op) (id : Z) : Prop := match o with OStaked i _ | OCancelled i => i = id | _ => False end.
Definition ids_ok (es : events) : Prop := forall d o id, In (d, o) es -> named o id -> stake_of id es <> None.
Lemma ids_snoc es d o : ids_ok es -> (forall id, named o id -> stake_of id es <> None) -> ids_ok (es ++ [(d, o)]).
Proof.
  intros H1 H2 e p id X N. rewrite stake_snoc. assert (Q : stake_of id es <> None).
  { apply in_app_or in X. destruct X as [X|[X|[]]]; [now apply (H1 e p)|]. injection X as <- <-. auto. }
  now destruct (stake_of id es).
Qed.
Lemma reqs_more t u x : forall all es, (forall d o id, In (d, o) es -> named o id -> stake_of id all <> None) -> reqs t u (all ++ [x]) es = reqs t u all es.
Proof.
  intros all. induction es as [|[d o] es IH]; intros H; [reflexivity|]. cbn [reqs]. f_equal.
  - unfold reqs1, is_req, asked. destruct t, o; try reflexivity. destruct x as [e p]. rewrite stake_snoc.
    assert (Q : stake_of i all <> None) by (apply (H d (OCancelled i)); [now left|reflexivity]).
    destruct (stake_of i all) as [[v a]|]; [reflexivity|congruence].
  - apply IH. intros e p id X. apply (H e p). now right.
Qed.
Definition rq (t : token) (es : events) (u : Z) : list (Z * Z) := reqs t u es es.
Lemma rq_snoc t u es d o : ids_ok es -> rq t (es ++ [(d, o)]) u = rq t es u ++ reqs1 t u (es ++ [(d, o)]) d o.
Proof. intros H. unfold rq. rewrite reqs_app, reqs_more by exact H. cbn. now rewrite app_nil_r. Qed.
Lemma last_snoc t es d o : last_job t (es ++ [(d, o)]) = match o with OJob t' p => if same t t' then p else last_job t es | _ => last_job t es end.
Proof. unfold last_job. now rewrite fold_left_app. Qed.
Lemma earth_snoc es d o : earth (es ++ [(d, o)]) = earth es || match o with OEarth => true | _ => false end.
Proof. unfold earth. rewrite existsb_app. cbn. now rewrite orb_false_r. Qed.
Lemma auto_snoc u es d o : auto u (es ++ [(d, o)]) = match o with OAuto v on => if v =? u then on else auto u es | _ => auto u es end.
Proof. unfold auto. now rewrite fold_left_app. Qed.
Lemma mined_from_snoc lk u d o : forall es e b,
  mined_from e b lk u (es ++ [(d, o)]) = mined_from e b lk u es
    + match o with OMined v a => if (v =? u) && Bool.eqb ((e || earth es) && fold_left (fun b x => match snd x with OAuto v on => if v =? u then on else b | _ => b end) es b) lk then a else 0 | _ => 0 end.
Proof.
  induction es as [|[e' p] es IH]; intros e b.
  - cbn. rewrite orb_false_r. destruct o; cbn; ring.
  - cbn [app]. destruct p; cbn [mined_from]; rewrite IH; unfold earth; cbn [existsb snd fold_left]; rewrite ?orb_false_l; try reflexivity.
    + rewrite orb_true_r. reflexivity.
    + destruct o; ring.
Qed.
Definition mined1 (lk : bool) (u : Z) (es : events) (o : op) : Z := match o with OMined v a => if (v =? u) && Bool.eqb (earth es && auto u es) lk then a else 0 | _ => 0 end.
Lemma mined_snoc lk u es d o : mined lk u (es ++ [(d, o)]) = mined lk u es + mined1 lk u es o.
Proof. unfold mined. rewrite mined_from_snoc. reflexivity. Qed.
Definition move1 (t : token) (u : Z) (o : op) : Z :=
  match o with
  | OIn t' v a => if same t t' && (v =? u) then a else 0
  | OOut t' v a => if same t t' && (v =? u) then - a else 0
  | OLock v a => if same t VX && (v =? u) then - a else 0
  | OStake v _ a => if same t VITE && (v =? u) then - a else 0
  | _ => 0
  end.
Lemma moved_snoc t u es d o : moved t u (es ++ [(d, o)]) = moved t u es + move1 t u o.
Proof. unfold moved. rewrite total_snoc. reflexivity. Qed.
Definition lock1 (u : Z) (o : op) : Z := match o with OLock v a => if v =? u then a else 0 | OUnlock v a => if v =? u then - a else 0 | _ => 0 end.
Lemma locked_snoc u es d o : locked u (es ++ [(d, o)]) = locked u es + lock1 u o + mined1 true u es o.
Proof. unfold locked. rewrite total_snoc, mined_snoc. unfold lock1. ring. Qed.
Definition own (u : Z) (k : option (Z * Z)) : Z := match k with Some (v, a) => if v =? u then a else 0 | None => 0 end.
Lemma staked_snoc u es d o : ids_ok es ->
  staked u (es ++ [(d, o)]) = staked u es + match o with OStaked id _ => own u (stake_of id es) | OCancelled id => - own u (stake_of id es) | _ => 0 end.
Proof.
  intros H. unfold staked. rewrite total_snoc. f_equal.
  - apply total_ext. intros e p X. destruct p; try reflexivity; rewrite stake_snoc.
    + destruct (stake_of i es) as [[v a]|] eqn:E; [reflexivity|]. now elim (H e (OStaked i ok) i X eq_refl).
    + destruct (stake_of i es) as [[v a]|] eqn:E; [reflexivity|]. now elim (H e (OCancelled i) i X eq_refl).
  - destruct o; try reflexivity; rewrite stake_snoc; cbn [stake1]; unfold own; destruct (stake_of i es) as [[v a]|]; try reflexivity. destruct (v =? u); ring.
Qed.
Definition av1 (t : token) (u : Z) (es : events) (o : op) : Z := move1 t u o + (if same t VX then mined1 false u es o else 0).
Definition av0 (t : token) (u : Z) (es : events) : Z := moved t u es + (if same t VX then mined false u es else 0).
Lemma av0_snoc t u es d o : av0 t u (es ++ [(d, o)]) = av0 t u es + av1 t u es o.
Proof. unfold av0, av1. rewrite moved_snoc. destruct (same t VX); [rewrite mined_snoc|]; ring. Qed.
Lemma available_eq t u es : available t u es = av0 t u es + lsum (past (last_job t es) (rq t es u)).
Proof. unfold available, av0. rewrite ready_eq. reflexivity. Qed.

(** * The invariant *)
Fixpoint ksum (u : Z) (l : list (Z * stake)) : Z := match l with [] => 0 | (_, k) :: r => (if (k_owner k =? u) && k_there k then k_amount k else 0) + ksum u r end.
Definition kval (u : Z) (k : option stake) : Z := match k with Some k => if (k_owner k =? u) && k_there k then k_amount k else 0 | None => 0 end.
Lemma ksum_put u id k : forall l, ksum u (put id k l) = ksum u l - kval u (get id l) + kval u (Some k).
Proof. induction l as [|[i j] l IH]; cbn; [ring|]. destruct (i =? id); cbn; [ring|]. rewrite IH. cbn. ring. Qed.
Lemma ksum_del u id : forall l, NoDup (map fst l) -> ksum u (del id l) = ksum u l - kval u (get id l).
Proof.
  induction l as [|[i j] l IH]; intros N; cbn; [ring|]. cbn in N. inversion N as [|? ? N1 N2]; subst.
  destruct (Z.eqb_spec i id) as [->|Q]; cbn.
  - rewrite IH by assumption. apply get_none in N1. rewrite N1. cbn. ring.
  - rewrite IH by assumption. ring.
Qed.
Lemma ksum_ge u id : forall l, (forall i k, get i l = Some k -> 0 < k_amount k) -> NoDup (map fst l) -> kval u (get id l) <= ksum u l.
Proof.
  assert (P : forall l, (forall i k, get i l = Some k -> 0 < k_amount k) -> NoDup (map fst l) -> 0 <= ksum u l).
  { induction l as [|[i j] l IH]; intros H N; cbn; [lia|]. cbn in N. inversion N as [|? ? N1 N2]; subst.
    assert (Q : 0 < k_amount j) by (apply (H i); cbn; now rewrite Z.eqb_refl).
    assert (Q2 : 0 <= ksum u l). { apply IH; [|assumption]. intros m k G. apply (H m). cbn. destruct (Z.eqb_spec i m) as [->|]; [|assumption]. apply get_none in N1. congruence. }
    destruct (_ && _); lia. }
  intros l H N. rewrite <- (Z.sub_0_r (kval u (get id l))). pose proof (P (del id l)) as Q. rewrite ksum_del in Q by assumption.
  assert (0 <= ksum u l - kval u (get id l)); [|lia]. apply Q; [|now apply del_nodup].
  intros i k G. rewrite get_del in G. destruct (id =? i); [discriminate|]. now apply (H i).
Qed.
Record inv (s : state) (es : events) : Prop := {
  i_book : forall t, book_ok (rq t es) (s_cur s) (bk t s);
  i_last : forall t, b_last (bk t s) = last_job t es;
  i_avail : forall t u, fld a_avail u (b_accts (bk t s)) = av0 t u es + lsum (past (last_job t es) (rq t es u));
  i_locked : forall u, fld a_locked u (b_accts (s_vx s)) = locked u es;
  i_earth : s_earth s = earth es;
  i_auto : forall u, existsb (fun v => v =? u) (s_auto s) = auto u es;
  i_pre : s_earth s = false -> s_stakes s = [] /\ forall t u, rq t es u = [];
  i_ids : ids_ok es;
  i_stakes : forall id u a c, get id (s_stakes s) = Some (Stake u a c) -> stake_of id es = Some (u, a) /\ 0 < a /\ has u (b_accts (s_vite s));
  i_keys : NoDup (map fst (s_stakes s));
  i_mining : forall u, mining u s = ksum u (s_stakes s);
  i_staked : forall u, mining u s = staked u es;
  i_there : forall id, (exists u a, get id (s_stakes s) = Some (Stake u a true)) <-> confirmed id es = true /\ cancelled id es = false;
  i_new : forall id, (exists u a, get id (s_stakes s) = Some (Stake u a false)) <-> stake_of id es <> None /\ confirmed id es = false;
  i_order : forall id, cancelled id es = true -> confirmed id es = true }.

Lemma fld_put f u x l v : fld f v (put u x l) = if u =? v then f x else fld f v l.
Proof. unfold fld. rewrite get_put. destruct (u =? v); reflexivity. Qed.
Lemma has_put u x l v : has v l -> has v (put u x l).
Proof. unfold has. rewrite get_put. destruct (u =? v); congruence. Qed.
Lemma has_put_same u x l : has u (put u x l).
Proof. unfold has. rewrite get_put, Z.eqb_refl. discriminate. Qed.
Lemma confirmed_snoc id es d o : confirmed id (es ++ [(d, o)]) = confirmed id es || match o with OStaked i _ => i =? id | _ => false end.
Proof. unfold confirmed. rewrite existsb_app. cbn. now rewrite orb_false_r. Qed.
Lemma cancelled_snoc id es d o : cancelled id (es ++ [(d, o)]) = cancelled id es || match o with OCancelled i => i =? id | _ => false end.
Proof. unfold cancelled. rewrite existsb_app. cbn. now rewrite orb_false_r. Qed.

Lemma same_eq t t' : same t t' = true -> t' = t.
Proof. destruct t, t'; cbn; congruence. Qed.
(** Operations that only move amounts of one token *)
Definition plain (o : op) : Prop := match o with OIn _ _ _ | OOut _ _ _ | OMined _ _ | OLock _ _ => True | _ => False end.
Lemma inv_plain s es o t l : inv s es -> plain o ->
  (forall t', t' <> t -> forall u, av1 t' u es o = 0) ->
  (forall u, fld a_avail u l = fld a_avail u (b_accts (bk t s)) + av1 t u es o) ->
  (forall u, fld a_held u l = fld a_held u (b_accts (bk t s))) ->
  (t = VX -> forall u, fld a_locked u l = fld a_locked u (b_accts (s_vx s)) + lock1 u o + mined1 true u es o) ->
  (t = VITE -> forall u, lock1 u o + mined1 true u es o = 0) ->
  (forall u, has u (b_accts (bk t s)) -> has u l) ->
  inv (set_bk t (set_accts (bk t s) l) s) (es ++ [(s_cur s, o)]).
Proof.
  intros V P H0 H1 H2 H3 H4 H5.
  assert (RQ : forall t' u, rq t' (es ++ [(s_cur s, o)]) u = rq t' es u).
  { intros t' u. rewrite rq_snoc by apply V. unfold reqs1, is_req. destruct t', o; try contradiction P; apply app_nil_r. }
  assert (LJ : forall t', last_job t' (es ++ [(s_cur s, o)]) = last_job t' es).
  { intros t'. rewrite last_snoc. destruct o; try contradiction P; reflexivity. }
  assert (ST : forall id, stake_of id (es ++ [(s_cur s, o)]) = stake_of id es).
  { intros id. rewrite stake_snoc. destruct (stake_of id es); [reflexivity|]. destruct o; try contradiction P; reflexivity. }
  assert (CU : s_cur (set_bk t (set_accts (bk t s) l) s) = s_cur s) by now destruct t.
  assert (BK : forall t', bk t' (set_bk t (set_accts (bk t s) l) s) = if same t t' then set_accts (bk t s) l else bk t' s) by (intros t'; destruct t, t'; reflexivity).
  assert (BO : forall t', book_ok (rq t' es) (s_cur s) (if same t t' then set_accts (bk t s) l else bk t' s)).
  { intros t'. destruct (same t t') eqn:E; [|apply V]. apply same_eq in E. subst t'.
    unfold set_accts. apply (other_ok _ (s_cur s)); auto; [apply V|]. pose proof (bo_cur _ _ _ (i_book _ _ V t)). lia. }
  constructor.
  - intros t'. rewrite BK, CU. specialize (BO t'). destruct BO. constructor; auto; intros u; specialize (RQ t' u); rewrite RQ; auto.
  - intros t'. rewrite BK, LJ. destruct (same t t') eqn:E; [|apply V]. apply same_eq in E. subst t'. apply V.
  - intros t' u. rewrite BK, LJ, RQ, av0_snoc. destruct (same t t') eqn:E.
    + apply same_eq in E. subst t'. cbn [set_accts b_accts]. rewrite H1, (i_avail _ _ V). ring.
    + rewrite (i_avail _ _ V), H0; [ring|]. intros ->. destruct t; discriminate.
  - intros u. rewrite locked_snoc, <- (i_locked _ _ V). destruct t; cbn [s_vx set_bk].
    + apply H3. reflexivity.
    + specialize (H4 eq_refl u). lia.
  - rewrite earth_snoc, <- (i_earth _ _ V). destruct t, o; try contradiction P; cbn; now rewrite orb_false_r.
  - intros u. rewrite auto_snoc, <- (i_auto _ _ V). destruct t, o; try contradiction P; reflexivity.
  - intros E. assert (E' : s_earth s = false) by (destruct t; exact E). destruct (i_pre _ _ V E') as [E1 E2]. split; [destruct t; exact E1|]. intros. rewrite RQ. apply E2.
  - apply ids_snoc; [apply V|]. intros id N. destruct o; contradiction.
  - intros id u a c G. rewrite ST. assert (G' : get id (s_stakes s) = Some (Stake u a c)) by (destruct t; exact G).
    destruct (i_stakes _ _ V _ _ _ _ G') as (A1 & A2 & A3). repeat split; auto. destruct t; cbn; auto.
  - destruct t; apply V.
  - destruct t; apply V.
  - intros u. rewrite staked_snoc by apply V. destruct t, o; try contradiction P; rewrite Z.add_0_r; apply (i_staked _ _ V).
  - intros id. rewrite confirmed_snoc, cancelled_snoc. destruct t, o; try contradiction P; rewrite !orb_false_r; apply (i_there _ _ V).
  - intros id. rewrite confirmed_snoc, ST. destruct t, o; try contradiction P; rewrite !orb_false_r; apply (i_new _ _ V).
  - intros id. rewrite confirmed_snoc, cancelled_snoc. destruct t, o; try contradiction P; rewrite !orb_false_r; apply (i_order _ _ V).
Qed.
