(** Lists by day, sums, and when jobs run. *)
From Verif Require Import Lib PendModel PendSpec PendProofs PendProofs2 PendProofs3 PendProofs4.
Import ListNotations.
Open Scope Z_scope.

Lemma entered_keep d : forall l, entered d l = lsum (keep (fun e => e =? d) l).
Proof. unfold keep. induction l as [|[e a] l IH]; cbn; [reflexivity|]. destruct (e =? d); cbn; rewrite IH; reflexivity. Qed.
Lemma add_pos d a : forall g, 0 < a -> Forall (fun x => 0 < snd x) g -> Forall (fun x => 0 < snd x) (add_pending d a g).
Proof.
  induction g as [|[e b] r IH]; intros A F; [repeat constructor; assumption|]. inversion F as [|? ? F1 F2]; subst. cbn in F1.
  destruct r as [|y r].
  - cbn. destruct (e =? d); repeat constructor; cbn; lia.
  - change (Forall (fun x => 0 < snd x) ((e, b) :: add_pending d a (y :: r))). constructor; auto.
Qed.
Lemma group_pos : forall l, Forall (fun x => 0 < snd x) l -> Forall (fun x => 0 < snd x) (group l).
Proof.
  induction l as [|[d a] l IH] using rev_ind; intros F; [constructor|]. apply Forall_app in F. destruct F as [F1 F2]. inversion F2; subst.
  rewrite group_snoc. apply add_pos; auto.
Qed.
Lemma listed_eq s es t u : inv s es -> listed u (bk t s) = group (live (last_job t es) (rq t es u)).
Proof. intros V. unfold listed. rewrite (bo_recs _ _ _ (i_book _ _ V t)), (i_last _ _ V). now destruct (group _). Qed.
Lemma listed_entered s es t u d : inv s es -> entered d (listed u (bk t s)) = if d + 7 <=? last_job t es then 0 else asked_on t u d es.
Proof.
  intros V. rewrite (listed_eq s es) by assumption. rewrite entered_keep.
  assert (O : ordered (live (last_job t es) (rq t es u))) by apply ordered_keep, (bo_order _ _ _ (i_book _ _ V t)).
  destruct (group_ok _ O) as (_ & _ & _ & G & _). rewrite G. assert (O2 : ordered (keep (fun e => e =? d) (live (last_job t es) (rq t es u)))) by now apply ordered_keep.
  destruct (group_ok _ O2) as (_ & _ & S & _). rewrite S. unfold asked_on. rewrite (total_reqs t u es (fun e => e =? d)). fold (rq t es u).
  unfold live. rewrite keep_keep. destruct (d + 7 <=? last_job t es) eqn:E.
  - rewrite keep_none; [reflexivity|]. rewrite Forall_forall. intros x _. destruct (Z.eqb_spec (fst x) d) as [->|]; [|apply andb_false_r]. unfold not_due, is_due. now rewrite E.
  - f_equal. apply keep_ext. rewrite Forall_forall. intros x _. destruct (Z.eqb_spec (fst x) d) as [->|]; [|now rewrite andb_false_r]. unfold not_due, is_due. now rewrite E.
Qed.

(** * Sums *)
Lemma mined_both u : forall es e b, mined_from e b true u es + mined_from e b false u es = total (fun _ o => match o with OMined v a => if v =? u then a else 0 | _ => 0 end) es.
Proof.
  induction es as [|[d o] es IH]; intros e b; cbn; [reflexivity|]. destruct o; cbn; try (rewrite <- (IH e b); ring); try (rewrite <- (IH true b); ring); try (rewrite <- (IH e (if u0 =? u then on else b)); ring).
  rewrite <- (IH e b). destruct (u0 =? u), (e && b); cbn; ring.
Qed.
Lemma total_add f g : forall es, total f es + total g es = total (fun d o => f d o + g d o) es.
Proof. induction es as [|[d o] es IH]; cbn; [reflexivity|]. rewrite <- IH. ring. Qed.
Lemma vx_sum u es : available VX u es + locked u es + waiting VX u es = net u es.
Proof.
  unfold available, locked. cbn [same].
  assert (R : ready VX u es + waiting VX u es = total (fun d o => asked VX u es o) es).
  { unfold ready, waiting. rewrite total_add. apply total_ext. intros d o _. destruct (_ <=? _); ring. }
  assert (M := mined_both u es false false). fold (mined true u es) in M. fold (mined false u es) in M.
  match goal with |- moved VX u es + _ + _ + (?L + _) + _ = _ => set (lk := L) end.
  transitivity (moved VX u es + lk + (ready VX u es + waiting VX u es) + (mined true u es + mined false u es)); [ring|].
  rewrite R, M. unfold moved, lk, net. rewrite !total_add. apply total_ext. intros d o _. destruct o as [| |[|]|[|]| | | | | | | |]; cbn; try reflexivity; try (destruct (u0 =? u)); try ring.
Qed.

(** * The day of the last job *)
Definition job_before (s : state) : Prop := 0 <= s_cur s /\ forall t, b_last (bk t s) < s_cur s \/ b_last (bk t s) = 0.
Lemma last_set t b s t' : b_last (bk t' (set_bk t b s)) = if same t t' then b_last b else b_last (bk t' s).
Proof. destruct t, t'; reflexivity. Qed.
Lemma cur_set t b s : s_cur (set_bk t b s) = s_cur s.
Proof. destruct t; reflexivity. Qed.
Lemma on_accts_last t f s s' : on_accts t f s = Some s' -> s_cur s' = s_cur s /\ forall t', b_last (bk t' s') = b_last (bk t' s).
Proof.
  unfold on_accts. destruct (f _) as [l|]; [|discriminate]. intros H. injection H as <-. split; [apply cur_set|]. intros t'. rewrite last_set.
  destruct (same t t') eqn:E; [|reflexivity]. apply same_eq in E. now subst t'.
Qed.
Lemma before_step s o s' : job_before s -> step s o = Some s' -> job_before s'.
Proof.
  intros [C J] H.
  assert (KEEP : s_cur s' = s_cur s -> (forall t', b_last (bk t' s') = b_last (bk t' s)) -> job_before s').
  { intros E1 E2. split; [lia|]. intros t. rewrite E1, E2. apply J. }
  destruct o; cbn [step] in H.
  - destruct (Z.leb_spec (s_cur s) p) as [L|]; [|discriminate]. cbn [andb] in H. destruct (p <? 2 ^ 63); [|discriminate]. injection H as <-. cbn. split; [cbn; lia|].
    intros t. cbn. specialize (J t). destruct t; cbn in *; lia.
  - injection H as <-. apply KEEP; [reflexivity|intros [|]; reflexivity].
  - destruct (a <=? 0); [discriminate|]. apply on_accts_last in H. apply KEEP; tauto.
  - destruct (a <=? 0); [discriminate|]. apply on_accts_last in H. apply KEEP; tauto.
  - injection H as <-. apply KEEP; [reflexivity|intros [|]; reflexivity].
  - destruct (a <=? 0); [discriminate|]. apply on_accts_last in H. apply KEEP; tauto.
  - destruct (_ || _); [discriminate|]. apply on_accts_last in H. apply KEEP; tauto.
  - destruct (_ || _); [discriminate|]. destruct (schedule_unlock _ _ _); [|discriminate]. injection H as <-. apply KEEP; [reflexivity|intros [|]; reflexivity].
  - unfold job in H. destruct (Z.leb_spec (s_cur s) p) as [L|L]; [discriminate|]. destruct (_ && _); [discriminate|].
    assert (Q : exists b, s' = set_bk t b s /\ b_last b = p).
    { destruct (s_earth s); [destruct (release _ _ _ _) as [[r l]|]; [|discriminate]|]; injection H as <-; eexists; split; reflexivity. }
    destruct Q as (b & -> & E). split; [now rewrite cur_set|]. intros t'. rewrite last_set, cur_set. destruct (same t t'); [lia|apply J].
  - destruct (_ || _); [discriminate|]. destruct (get i (s_stakes s)); [discriminate|]. destruct (reduce _ _ _); [|discriminate]. injection H as <-. apply KEEP; [reflexivity|intros [|]; reflexivity].
  - destruct (get i (s_stakes s)) as [[v b [|]]|]; try discriminate. destruct ok; [|discriminate]. injection H as <-. apply KEEP; [reflexivity|intros [|]; reflexivity].
  - destruct (get i (s_stakes s)) as [[v b [|]]|]; try discriminate. cbv zeta in H. destruct (_ <? 0); [discriminate|]. injection H as <-. apply KEEP; [reflexivity|intros [|]; reflexivity].
Qed.
Lemma before_run : forall ops s, job_before s -> job_before (fst (run s ops)).
Proof.
  induction ops as [|o ops IH]; intros s J; [exact J|]. cbn [run]. destruct (step s o) as [s'|] eqn:E; [|now apply IH]. cbn [fst]. apply IH. now apply (before_step s o).
Qed.
