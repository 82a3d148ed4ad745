(** Staking for quota (C16, C17, C44). [sh] is the lock-up of an ordinary stake. *)
From Verif Require Import Lib AssetModel AssetProofs StakeModel StakeSpec StakeProofs StakeProofs2.
Lemma stake_min_value : stake_min = 134 * 10 ^ 18. Proof. reflexivity. Qed.
Lemma stake_height_max_value : stake_height_max = 365 * 24 * 3600. Proof. reflexivity. Qed.
Local Opaque stake_min.

(** ** Amounts *)
(** What a beneficiary is credited with is the sum of the stakes naming it. *)
Theorem stake_credit_exact sh w0 used w b : 0 <= sh <= stake_height_max -> stake_start w0 -> shist sh w0 used w -> credit w b = staked_for w b.
Proof.
  intros SH S H. pose proof (hist_inv _ _ _ _ SH S H) as I. unfold credit. rewrite (iv_ben _ _ I). destruct (staked_for w b =? 0) eqn:E; lia.
Qed.
(** The contract holds exactly the sum of all stakes. *)
Theorem stake_funds_exact sh w0 used w : 0 <= sh <= stake_height_max -> stake_start w0 -> shist sh w0 used w -> v_bal w = staked w.
Proof. intros SH S H. apply (iv_bal _ _ (hist_inv _ _ _ _ SH S H)). Qed.
(** No stake is ever below the minimum of 134 VITE; the lock-up is at most a year of snapshot blocks. *)
Theorem stake_at_least_min sh w0 used w r : 0 <= sh <= 365 * 24 * 3600 -> stake_start w0 -> shist sh w0 used w -> In r (recs w) -> 134 * 10 ^ 18 <= r_amount r.
Proof. rewrite <- stake_min_value, <- stake_height_max_value. intros SH S H IN. pose proof (iv_min _ _ (hist_inv _ _ _ _ SH S H)) as M. rewrite Forall_forall in M. auto. Qed.
(** What a call pays out or takes in is what the stakes change by. A refused call changes neither stakes nor funds. *)
Theorem stake_call_exact sh w0 used w now caller tok amount hash c w' ok : 0 <= sh <= stake_height_max -> stake_start w0 -> shist sh w0 used w ->
  ~ In hash used -> call_ok c -> 0 <= amount -> (tok = vite -> amount <= v_out w) -> v_now w <= now < 2 ^ 63 -> v_height w < 2 ^ 63 -> s_send sh tok amount c = true ->
  s_step sh now w caller tok amount hash c = (w', ok) ->
  v_out w' - v_out w = staked w - staked w' /\ (ok = false -> recs w' = recs w /\ v_out w' = v_out w /\ v_bal w' = v_bal w /\ forall b, credit w' b = credit w b).
Proof.
  intros SH S H FR CO A0 AV NW HH SE ST. pose proof (hist_inv _ _ _ _ SH S H) as I. assert (H' : shist sh w0 (hash :: used) w') by (eapply sh_call; eauto).
  pose proof (hist_inv _ _ _ _ SH S H') as I'. rewrite <- (iv_bal _ _ I), <- (iv_bal _ _ I').
  unfold s_step in ST. destruct (s_receive _ _ _ _ _ _ _ _) as [[s p]|]; [destruct (_ <? p)|]; injection ST as <- <-; cbn; split; try lia; try discriminate; auto.
Qed.

(** ** Withdrawals *)
Lemma effect_of sh w0 used w now caller tok amount hash c w' : 0 <= sh <= stake_height_max -> stake_start w0 -> shist sh w0 used w ->
  ~ In hash used -> call_ok c -> 0 <= amount -> (tok = vite -> amount <= v_out w) -> v_now w <= now < 2 ^ 63 -> s_send sh tok amount c = true ->
  s_step sh now w caller tok amount hash c = (w', true) -> sinv used w /\ effect sh now caller amount w w'.
Proof.
  intros SH S H FR CO A0 AV NW SE ST. pose proof (hist_inv _ _ _ _ SH S H) as I. split; [exact I|].
  apply (step_effect sh used w now caller tok amount hash c w' I); auto.
Qed.
(** Nobody but its owner can change a stake. The owner of a delegated stake is the delegate who paid for it. *)
Theorem stake_of_others_untouched_partial sh w0 used w now caller tok amount hash c w' o : 0 <= sh <= stake_height_max -> stake_start w0 -> shist sh w0 used w ->
  ~ In hash used -> call_ok c -> 0 <= amount -> (tok = vite -> amount <= v_out w) -> v_now w <= now < 2 ^ 63 -> s_send sh tok amount c = true ->
  s_step sh now w caller tok amount hash c = (w', true) -> In o (recs w) -> owner o <> caller -> In o (recs w').
Proof.
  intros SH S H FR CO A0 AV NW SE ST IN OW. destruct (effect_of _ _ _ _ _ _ _ _ _ _ _ SH S H FR CO A0 AV NW SE ST) as [I E]. pose proof (iv_order _ _ I) as OR.
  destruct E as [r lock NK ? ? ? ? ? RE ?|q r IQ KQ ? ? ? ? ? OQ ? ? ? ? RE ?|q r p IQ KQ ? ? ? ? ? ? OQ ? ? ? ? ? RE ?|q IQ OQ ? ? RE ?]; rewrite RE.
  - apply put_in; [exact OR|]. auto.
  - apply put_in; [exact OR|]. right. split; [exact IN|]. intro K. assert (o = q) by (apply (ordered_key (recs w)); auto; congruence). congruence.
  - apply put_in; [exact OR|]. right. split; [exact IN|]. intro K. assert (o = q) by (apply (ordered_key (recs w)); auto; congruence). congruence.
  - apply del_in. split; [exact IN|]. intro K. assert (o = q) by (apply (ordered_key (recs w)); auto; congruence). congruence.
Qed.
(** After any successful call a stake is at least what it was, still its owner's and for the same beneficiary; or its owner has
    withdrawn from it after its lock-up ended: then the owner got exactly the difference, and what is left is nothing or at
    least the minimum. *)
Theorem withdraw_only_when_due_partial sh w0 used w now caller tok amount hash c w' o : 0 <= sh <= stake_height_max -> stake_start w0 -> shist sh w0 used w ->
  ~ In hash used -> call_ok c -> 0 <= amount -> (tok = vite -> amount <= v_out w) -> v_now w <= now < 2 ^ 63 -> s_send sh tok amount c = true ->
  s_step sh now w caller tok amount hash c = (w', true) -> In o (recs w) ->
  (exists r, In r (recs w') /\ key r = key o /\ owner r = owner o /\ r_ben r = r_ben o /\ r_amount o <= r_amount r) \/
  (owner o = caller /\ r_exp o <= now /\
   ((forall r, In r (recs w') -> key r <> key o) /\ v_out w' = v_out w + r_amount o \/
    exists r, In r (recs w') /\ key r = key o /\ owner r = owner o /\ r_ben r = r_ben o /\ stake_min <= r_amount r < r_amount o /\ v_out w' = v_out w + (r_amount o - r_amount r))).
Proof.
  intros SH S H FR CO A0 AV NW SE ST IN. destruct (effect_of _ _ _ _ _ _ _ _ _ _ _ SH S H FR CO A0 AV NW SE ST) as [I E]. pose proof (iv_order _ _ I) as OR.
  assert (OWN : forall q r, key r = key q -> r_del r = r_del q -> r_daddr r = r_daddr q -> owner r = owner q) by (intros q r K1 K2 K3; unfold owner; rewrite K2, K3; injection K1 as K1 _; now rewrite K1).
  assert (STAY : forall l, recs w' = l -> In o l -> exists r, In r (recs w') /\ key r = key o /\ owner r = owner o /\ r_ben r = r_ben o /\ r_amount o <= r_amount r).
  { intros l -> X. exists o. repeat split; auto. lia. }
  assert (KQ : forall q, In q (recs w) -> key o = key q \/ key o <> key q) by (intros q _; destruct (keqb (key o) (key q)) eqn:K; [apply keqb_eq in K|apply keqb_neq in K]; auto).
  destruct E as [r lock NK ? ? ? ? ? RE ?|q r IQ KR B1 D1 D2 ? ? OQ AM ? ? ? RE OU|q r p IQ KR B1 D1 D2 ? ? ? OQ DU PP AM MI ? RE OU|q IQ OQ DU ? RE OU].
  - left. eapply STAY; [exact RE|]. apply put_in; [exact OR|]. auto.
  - left. destruct (KQ q IQ) as [K|K].
    + assert (o = q) by (apply (ordered_key (recs w)); auto). subst q. exists r. rewrite RE. split; [apply put_in; auto|]. split; [exact KR|]. split; [auto|]. split; [exact B1|lia].
    + eapply STAY; [exact RE|]. apply put_in; [exact OR|]. right. split; [exact IN|congruence].
  - destruct (KQ q IQ) as [K|K].
    + right. assert (o = q) by (apply (ordered_key (recs w)); auto). subst q. split; [exact OQ|]. split; [exact DU|]. right. exists r. rewrite RE. split; [apply put_in; auto|].
      split; [exact KR|]. split; [auto|]. split; [exact B1|]. split; [lia|]. rewrite OU. lia.
    + left. eapply STAY; [exact RE|]. apply put_in; [exact OR|]. right. split; [exact IN|congruence].
  - destruct (KQ q IQ) as [K|K].
    + right. assert (o = q) by (apply (ordered_key (recs w)); auto). subst q. split; [exact OQ|]. split; [exact DU|]. left. split; [|exact OU]. rewrite RE. intros r X. apply del_in in X. tauto.
    + left. eapply STAY; [exact RE|]. apply del_in. auto.
Qed.

(** ** Staking *)
(** the beneficiary named by a staking call *)
Definition names (c : scall) : option Z := match c with SStake b | SDelegate _ b _ _ | SStake3 b _ => Some b | _ => None end.
(** A staking call never fails. It credits the amount to the beneficiary named and to nobody else, and puts it in a stake of the
    caller that is locked for at least the lock-up. *)
Theorem stake_call_does sh w0 used w now caller amount hash c b : 0 <= sh <= stake_height_max -> stake_start w0 -> shist sh w0 used w ->
  ~ In hash used -> call_ok c -> 0 <= amount <= v_out w -> v_now w <= now < 2 ^ 63 -> v_height w < 2 ^ 63 -> s_send sh vite amount c = true -> names c = Some b ->
  exists w', s_step sh now w caller vite amount hash c = (w', true) /\ (forall x, credit w' x = credit w x + if x =? b then amount else 0) /\
  exists r, In r (recs w') /\ owner r = caller /\ r_ben r = b /\ amount <= r_amount r /\ now + sh <= r_exp r.
Proof.
  intros SH S H FR CO A0 NW HH SE NM. pose proof (hist_inv _ _ _ _ SH S H) as I. pose proof stake_min_pos as SP. pose proof (iv_all _ _ I) as AL.
  assert (MI : stake_min <= amount) by (destruct c as [| | | |? []|]; try discriminate; cbn [s_send] in SE; lia).
  assert (OKS : exists w', s_step sh now w caller vite amount hash c = (w', true) /\ s_ben (v_st w') = ben_add (s_ben (v_st w)) b amount).
  { pose proof (for_bounds _ _ 0 I) as FB. destruct c as [b'| |st b' bid h| |b' h|]; try discriminate; injection NM as ->; unfold s_step; cbn [s_receive].
    - destruct (find _ _) as [o|]; rewrite Z.eqb_refl; replace (v_bal w + amount <? 0) with false by lia; (eexists; split; [reflexivity|]; reflexivity).
    - destruct (find _ _) as [o|]; rewrite Z.eqb_refl; replace (v_bal w + amount <? 0) with false by lia; (eexists; split; [reflexivity|]; reflexivity).
    - rewrite Z.eqb_refl. replace (v_bal w + amount <? 0) with false by lia. eexists. split; reflexivity. }
  destruct OKS as (w' & ST & BE). exists w'. split; [exact ST|].
  assert (H' : shist sh w0 (hash :: used) w') by (eapply sh_call; eauto; lia). split.
  - intro x. unfold credit. rewrite BE. unfold ben_add, upd. destruct (x =? b) eqn:Q; [|lia]. apply Z.eqb_eq in Q. subst x. pose proof (stake_credit_exact _ _ _ _ b SH S H) as CE. unfold credit in CE.
    pose proof (for_bounds _ _ b I). rewrite pack_small; [reflexivity|unfold is_word; lia].
  - assert (AV : vite = vite -> amount <= v_out w) by lia.
    destruct (effect_of _ _ _ _ _ _ _ _ _ _ _ SH S H FR CO (proj1 A0) AV NW SE ST) as [_ E]. pose proof (iv_order _ _ I) as OR.
    assert (CR : forall x, staked_for w' x = staked_for w x + if x =? b then amount else 0).
    { intro x. rewrite <- (stake_credit_exact _ _ _ _ x SH S H), <- (stake_credit_exact _ _ _ _ x SH S H'). unfold credit. rewrite BE. unfold ben_add, upd. destruct (x =? b) eqn:Q; [|lia]. apply Z.eqb_eq in Q. subst x.
      pose proof (stake_credit_exact _ _ _ _ b SH S H) as CE. unfold credit in CE. pose proof (for_bounds _ _ b I). rewrite pack_small; [reflexivity|unfold is_word; lia]. }
    destruct E as [r lock NK ? ? EX ? LS RE ?|q r IQ KR B1 D1 D2 ? IR OQ AM LO EX1 EX RE OU|q r p IQ KR B1 D1 D2 ? IR EX OQ DU PP AM MI' ? RE OU|q IQ OQ DU ? RE OU]; try lia.
    + exists r. split; [rewrite RE; apply put_in; auto|]. split; [assumption|]. split; [|lia].
      specialize (CR (r_ben r)). unfold staked_for in CR. rewrite RE in CR. rewrite (total_put_new _ _ _ OR NK) in CR. unfold val in CR. rewrite Z.eqb_refl in CR. destruct (r_ben r =? b) eqn:Q; lia.
    + exists r. split; [rewrite RE; apply put_in; auto|]. split; [unfold owner in *; rewrite D1, D2; injection KR as KR _; now rewrite KR|]. pose proof (for_rec _ _ _ I IQ) as FQ. split; [|lia].
      specialize (CR (r_ben r)). unfold staked_for in CR. rewrite RE in CR. rewrite (total_put_old _ r q _ OR IQ (eq_sym KR)) in CR. unfold val in CR. rewrite B1, Z.eqb_refl in CR. destruct (r_ben q =? b) eqn:Q; lia.
Qed.

(** ** Every stake can be got back *)
(** the call that withdraws a stake completely *)
Definition withdraw_call (r : srec) : scall :=
  match r_id r with Some i => SCancel3 i | None => if r_del r then SCancelDelegate (r_staker r) (r_ben r) (r_amount r) (r_bid r) else SCancel (r_ben r) (r_amount r) end.
(** Once its lock-up has ended the owner of any stake can withdraw all of it, whatever else has happened, and the contract has
    the money. *)
Theorem every_stake_withdrawable sh w0 used w now hash r : 0 <= sh <= stake_height_max -> stake_start w0 -> shist sh w0 used w -> In r (recs w) -> r_exp r <= now ->
  s_send sh vite 0 (withdraw_call r) = true /\
  exists w', s_step sh now w (owner r) vite 0 hash (withdraw_call r) = (w', true) /\ v_out w' = v_out w + r_amount r /\ forall x, In x (recs w') -> key x <> key r.
Proof.
  intros SH S H IN DU. pose proof (hist_inv _ _ _ _ SH S H) as I. pose proof stake_min_pos as SP. pose proof (for_rec _ _ _ I IN) as FR. pose proof (for_bounds _ _ (r_ben r) I) as FB.
  destruct (ben_sub_ok (s_ben (v_st w)) (staked_for w) (r_ben r) (r_amount r) (iv_ben _ _ I) ltac:(lia)) as [b BS].
  pose proof (iv_order _ _ I) as OR. unfold withdraw_call, owner.
  assert (DONE : forall ids', exists w', (if v_bal w + 0 <? r_amount r then (mkV (v_st w) (v_bal w) (v_out w) (v_height w + 1) now, false)
      else (mkV (mkS (del (key r) (recs w)) b ids') (v_bal w + 0 - r_amount r) (v_out w - 0 + r_amount r) (v_height w + 1) now, true)) = (w', true) /\
      v_out w' = v_out w + r_amount r /\ forall x, In x (recs w') -> key x <> key r).
  { intro ids'. replace (v_bal w + 0 <? r_amount r) with false by lia. eexists. split; [reflexivity|]. cbn. split; [lia|]. unfold recs. cbn. intros x X. apply del_in in X. tauto. }
  assert (CL : forall d da, (not_due now r || (r_amount r <? r_amount r) || (match r_id r with Some _ => true | None => false end)) = match r_id r with Some _ => true | None => false end /\ (d : bool) = d /\ (da : Z) = da).
  { intros. unfold not_due. split; [|auto]. replace (now <? r_exp r) with false by lia. rewrite Z.ltb_irrefl. reflexivity. }
  destruct (r_id r) as [i|] eqn:ID.
  - assert (DF : r_del r = false) by (destruct (r_del r) eqn:D; [rewrite (proj2 (iv_plain _ _ I r IN) D) in ID; discriminate|reflexivity]). rewrite DF.
    split; [reflexivity|]. unfold s_step. cbn [s_receive]. rewrite (iv_id _ _ I r i IN ID). rewrite (proj2 (get_in (s_recs (v_st w)) (key r) r OR) (conj IN eq_refl)).
    unfold not_due. cbn [fst key]. rewrite Z.eqb_refl. replace (now <? r_exp r) with false by lia. cbn [negb orb]. rewrite BS. rewrite Z.eqb_refl. apply DONE.
  - destruct (r_del r) eqn:D.
    + assert (F : find (matches (r_staker r) (r_ben r) true (r_daddr r) (r_bid r)) (s_recs (v_st w)) = Some r).
      { destruct (find _ _) as [q|] eqn:F.
        - apply (find_first _ _ _ _ _ _ _ OR) in F as (IQ & Q1 & Q2 & Q3 & Q4 & Q5 & _). f_equal. apply (iv_one _ _ I); auto.
        - exfalso. eapply (find_none' _ _ _ _ _ _ F r IN); auto. }
      split; [unfold s_send; lia|]. unfold s_step. cbn [s_receive]. rewrite F. destruct (CL true 0) as [C _]. rewrite ID. rewrite C. rewrite Z.sub_diag. cbn [negb andb Z.eqb]. rewrite BS. rewrite Z.eqb_refl. apply DONE.
    + destruct (proj1 (iv_plain _ _ I r IN) D) as [P1 P2].
      assert (F : find (matches (r_staker r) (r_ben r) false 0 0) (s_recs (v_st w)) = Some r).
      { destruct (find _ _) as [q|] eqn:F.
        - apply (find_first _ _ _ _ _ _ _ OR) in F as (IQ & Q1 & Q2 & Q3 & Q4 & Q5 & MI). f_equal. apply (ordered_key _ _ _ OR IQ IN).
          pose proof (iv_first _ _ I q r IQ IN Q1 Q2 Q3 D ID). pose proof (MI r IN eq_refl eq_refl D P1 P2). unfold key. rewrite Q1. f_equal. lia.
        - exfalso. eapply (find_none' _ _ _ _ _ _ F r IN); auto. }
      split; [unfold s_send; lia|]. unfold s_step. cbn [s_receive]. rewrite F. destruct (CL true 0) as [C _]. rewrite ID. rewrite C. rewrite Z.sub_diag. cbn [negb andb Z.eqb]. rewrite BS. rewrite Z.eqb_refl. apply DONE.
Qed.
(** The list shown for a staker: all its stakes that are not delegated, in order, and their sum. *)
Theorem stake_list_exact sh w0 used w a : 0 <= sh <= stake_height_max -> stake_start w0 -> shist sh w0 used w ->
  stake_list w a = (filter (fun r => (r_staker r =? a) && negb (r_del r)) (recs w), total (fun r => (r_staker r =? a) && negb (r_del r)) (recs w)).
Proof.
  intros SH S H. pose proof (hist_inv _ _ _ _ SH S H) as I. pose proof (iv_min _ _ I) as M. unfold stake_list. fold (recs w). pose proof stake_min_pos as SP.
  assert (G : forall l acc, Forall (fun r => stake_min <= r_amount r) l ->
    fold_left (fun acc r => if (r_staker r =? a) && (0 <? r_amount r) && negb (r_del r) then (fst acc ++ [r], snd acc + r_amount r) else acc) l acc =
    (fst acc ++ filter (fun r => (r_staker r =? a) && negb (r_del r)) l, snd acc + total (fun r => (r_staker r =? a) && negb (r_del r)) l)); [|rewrite (G _ ([], 0) M); reflexivity].
  induction l as [|r l IH]; intros acc F; [cbn; rewrite app_nil_r, Z.add_0_r; destruct acc; reflexivity|]. inversion F as [|? ? F1 F2]. subst. cbn [fold_left filter]. rewrite (IH _ F2), total_cons. unfold val.
  replace (0 <? r_amount r) with true by lia. rewrite andb_true_r. destruct ((r_staker r =? a) && negb (r_del r)); cbn [fst snd]; [rewrite <- app_assoc; f_equal; lia|f_equal; lia].
Qed.

(** ** The lock-up *)
Lemma plain_lock sh w0 used w : 0 <= sh <= stake_height_max -> stake_start w0 -> (forall r, In r (recs w0) -> r_exp r <= v_now w0 + sh) -> shist sh w0 used w ->
  forall r, In r (recs w) -> r_del r = false -> r_id r = None -> r_exp r <= v_now w + sh.
Proof.
  intros SH S X0. induction 1 as [|used w now caller tok amount hash c w' ok H IH FR CO A0 AV NW HH SE ST]; [auto|].
  assert (NN : v_now w' = now) by (unfold s_step in ST; destruct (s_receive _ _ _ _ _ _ _ _) as [[s p]|]; [destruct (_ <? p)|]; injection ST as <- <-; reflexivity).
  destruct ok; [|apply step_fail in ST; subst w'; cbn in *; intros r R1 R2 R3; specialize (IH r R1 R2 R3); lia].
  destruct (effect_of _ _ _ _ _ _ _ _ _ _ _ SH S H FR CO A0 AV (conj (proj1 NW) (proj2 NW)) SE ST) as [I E]. pose proof (iv_order _ _ I) as OR. rewrite NN. intros x X1 X2 X3.
  destruct E as [r lock NK ? ? EX ? LS RE ?|q r IQ KR B1 D1 D2 ? IR OQ AM ? ? EX RE OU|q r p IQ KR B1 D1 D2 ? IR EX OQ DU PP AM MI ? RE OU|q IQ OQ DU ? RE OU]; rewrite RE in X1.
  - apply (put_in r _ OR) in X1 as [->|[X1 _]]; [rewrite EX, (LS X2 X3); lia|]. specialize (IH x X1 X2 X3). lia.
  - apply (put_in r _ OR) in X1 as [->|[X1 _]]; [rewrite EX by congruence; lia|]. specialize (IH x X1 X2 X3). lia.
  - apply (put_in r _ OR) in X1 as [->|[X1 _]]; [|specialize (IH x X1 X2 X3); lia]. rewrite EX. assert (r_exp q <= v_now w + sh) by (apply IH; congruence). lia.
  - apply del_in in X1 as [X1 _]. specialize (IH x X1 X2 X3). lia.
Qed.
(** The end of a lock-up never moves forward, except for a stake made by StakeForQuota(WithCallback) that the older Stake call
    merges into its own record: such a stake loses its id. *)
Theorem lock_never_shortened_partial sh w0 used w now caller tok amount hash c w' o r : 0 <= sh <= stake_height_max -> stake_start w0 -> (forall x, In x (recs w0) -> r_exp x <= v_now w0 + sh) -> shist sh w0 used w ->
  ~ In hash used -> call_ok c -> 0 <= amount -> (tok = vite -> amount <= v_out w) -> v_now w <= now < 2 ^ 63 -> s_send sh tok amount c = true ->
  s_step sh now w caller tok amount hash c = (w', true) -> In o (recs w) -> In r (recs w') -> key r = key o -> r_id r = r_id o -> r_exp o <= r_exp r.
Proof.
  intros SH S X0 H FR CO A0 AV NW SE ST IN INR KK ID. destruct (effect_of _ _ _ _ _ _ _ _ _ _ _ SH S H FR CO A0 AV NW SE ST) as [I E]. pose proof (iv_order _ _ I) as OR.
  pose proof (plain_lock _ _ _ _ SH S X0 H) as PL.
  assert (SAME : In r (recs w) -> r_exp o <= r_exp r) by (intro X; rewrite (ordered_key _ _ _ OR X IN KK); lia).
  destruct E as [q lock NK ? ? EX ? LS RE ?|q r' IQ KR B1 D1 D2 ? IR OQ AM LO EX1 EX RE OU|q r' p IQ KR B1 D1 D2 ? IR EX OQ DU PP AM MI ? RE OU|q IQ OQ DU ? RE OU]; rewrite RE in INR.
  - apply (put_in q _ OR) in INR as [->|[X1 _]]; [|auto]. exfalso. apply (NK o IN). congruence.
  - apply (put_in r' _ OR) in INR as [->|[X1 _]]; [|auto]. assert (o = q) by (apply (ordered_key _ _ _ OR IN IQ); congruence). subst q.
    destruct (r_del o) eqn:D; [auto|]. specialize (PL o IN D ltac:(congruence)). rewrite EX by reflexivity. lia.
  - apply (put_in r' _ OR) in INR as [->|[X1 _]]; [|auto]. assert (o = q) by (apply (ordered_key _ _ _ OR IN IQ); congruence). subst q. lia.
  - apply del_in in INR as [X1 _]. auto.
Qed.

(** ** Examples and counterexamples *)
Definition days3 : Z := 3600 * 24 * 3.
Definition v10 : Z := 200 * 10 ^ 18.
Definition empty_w : sworld := mkV (mkS [] (fun _ => None) (fun _ => None)) 0 (10 ^ 27) 1 5.
Example empty_start : stake_start empty_w.
Proof. split; [exact Logic.I|constructor|constructor|intros ? ? []|reflexivity|reflexivity|reflexivity|vm_compute; congruence|reflexivity|vm_compute; congruence|vm_compute; congruence|constructor]. Qed.
Definition nx (w : sworld) (now caller amount hash : Z) (c : scall) : sworld := fst (s_step days3 now w caller vite amount hash c).
Lemma nx_hist w0 used w now caller amount hash c : shist days3 w0 used w -> ~ In hash used -> call_ok c -> 0 <= amount <= v_out w -> v_now w <= now < 2 ^ 63 -> v_height w < 2 ^ 63 ->
  s_send days3 vite amount c = true -> shist days3 w0 (hash :: used) (nx w now caller amount hash c).
Proof.
  intros H A B C D E F. unfold nx. destruct (s_step days3 now w caller vite amount hash c) as [w' ok] eqn:X. cbn. eapply sh_call; eauto; [lia|intros; lia].
Qed.
Ltac ok := solve [exact Logic.I | vm_compute; repeat split; congruence | vm_compute; intuition congruence].
Definition e1 : sworld := nx empty_w 10 1 v10 100 (SStake 7).
Definition e2 : sworld := nx e1 20 2 v10 101 (SDelegate 1 7 3 days3).
Definition e3 : sworld := nx e2 30 1 v10 102 (SStake3 7 None).
Definition e4 : sworld := nx e3 (10 + days3) 1 0 103 (SCancel 7 v10).
(** a stake, a delegated stake and a stake with id for one beneficiary; the first is withdrawn when due *)
Example stakes_ex : shist days3 empty_w [103; 102; 101; 100] e4 /\ credit e3 7 = 3 * v10 /\ credit e4 7 = 2 * v10 /\ map r_index (recs e4) = [3; 4] /\ v_bal e4 = 2 * v10 /\
  snd (s_step days3 (9 + days3) e3 1 vite 0 103 (SCancel 7 v10)) = false /\ snd (s_step days3 (10 + days3) e3 2 vite 0 103 (SCancel 7 v10)) = false /\
  snd (s_step days3 (10 + days3) e3 1 vite 0 103 (SCancel 7 (v10 - 1))) = false /\ snd (s_step days3 (30 + days3) e3 2 vite 0 103 (SCancel3 102)) = false.
Proof.
  split; [|vm_compute; auto 10].
  assert (H1 : shist days3 empty_w [100] e1) by (apply nx_hist; [apply sh_start|ok..]).
  assert (H2 : shist days3 empty_w [101; 100] e2) by (apply nx_hist; [exact H1|ok..]).
  assert (H3 : shist days3 empty_w [102; 101; 100] e3) by (apply nx_hist; [exact H2|ok..]).
  apply nx_hist; [exact H3|ok..].
Qed.
Definition l1 : sworld := nx empty_w 10 1 v10 100 (SStake3 7 (Some stake_height_max)).
Definition l2 : sworld := nx l1 20 1 v10 101 (SStake 7).
(** A stake locked for a year can be withdrawn after three days: staking again with the older call resets the end of its
    lock-up, and it can still be withdrawn by its id. *)
Theorem lock_shortened_refuted : shist days3 empty_w [101; 100] l2 /\ map r_exp (recs l1) = [10 + stake_height_max] /\ map key (recs l2) = map key (recs l1) /\
  map r_exp (recs l2) = [20 + days3] /\ snd (s_step days3 (20 + days3) l2 1 vite 0 102 (SCancel3 100)) = true /\ v_out (nx l2 (20 + days3) 1 0 102 (SCancel3 100)) = v_out empty_w.
Proof.
  split; [|vm_compute; auto 10].
  assert (H1 : shist days3 empty_w [100] l1) by (apply nx_hist; [apply sh_start|ok..]). apply nx_hist; [exact H1|ok..].
Qed.
(** Without the hypothesis that indexes are not above the contract's height (a genesis block with many stakes of one account on
    a network where all upgrades are active from the start) a key can be used again, and an old id then withdraws another
    account's stake. *)
Definition g_recs : list srec := genesis_recs 1 [(v10, 0, 11); (v10, 0, 12); (v10, 0, 13); (v10, 0, 14); (v10, 0, 15); (v10, 0, 16)].
Definition g_w : sworld := mkV (mkS g_recs (fun b => if (11 <=? b) && (b <=? 16) then Some v10 else None) (fun _ => None)) (6 * v10) (10 ^ 27) 1 5.
Definition k1 : sworld := nx g_w 10 1 v10 100 (SStake3 20 None).
Definition k2 : sworld := nx k1 20 1 v10 101 (SStake 20).
Definition k3 : sworld := nx k2 (20 + days3) 1 0 102 (SCancel 20 (2 * v10)).
Definition k4 : sworld := nx k3 (20 + days3) 2 v10 103 (SDelegate 1 30 0 days3).
Theorem stale_id_takes_stake_refuted : shist days3 g_w [103; 102; 101; 100] k4 /\
  (exists r, In r (recs k4) /\ owner r = 2 /\ r_amount r = v10 /\ ~ In r (recs (nx k4 (30 + days3 + days3) 1 0 104 (SCancel3 100)))) /\
  snd (s_step days3 (30 + days3 + days3) k4 1 vite 0 104 (SCancel3 100)) = true /\ v_out (nx k4 (30 + days3 + days3) 1 0 104 (SCancel3 100)) = v_out k4 + v10.
Proof.
  split.
  - assert (H1 : shist days3 g_w [100] k1) by (apply nx_hist; [apply sh_start|ok..]).
    assert (H2 : shist days3 g_w [101; 100] k2) by (apply nx_hist; [exact H1|ok..]).
    assert (H3 : shist days3 g_w [102; 101; 100] k3) by (apply nx_hist; [exact H2|ok..]). apply nx_hist; [exact H3|ok..].
  - split; [|vm_compute; auto]. exists (mkR 1 6 v10 (20 + days3 + days3) 30 true 2 0 None). split; [vm_compute; auto 10|]. split; [reflexivity|]. split; [reflexivity|]. vm_compute. intuition congruence.
Qed.
(** apart from the indexes [g_w] is a proper start *)
Example g_w_rest : v_bal g_w = staked g_w /\ Forall (fun r => stake_min <= r_amount r) (recs g_w) /\ map r_index (recs g_w) = [0; 1; 2; 3; 4; 5] /\ (forall b, credit g_w b = staked_for g_w b).
Proof.
  split; [reflexivity|]. split; [repeat (apply Forall_cons; [vm_compute; congruence|]); constructor|]. split; [reflexivity|]. intro b. unfold credit, staked_for, recs, g_w. cbn [v_st s_ben s_recs].
  replace (total (fun r => r_ben r =? b) g_recs) with ((if 11 =? b then v10 else 0) + ((if 12 =? b then v10 else 0) + ((if 13 =? b then v10 else 0) + ((if 14 =? b then v10 else 0) + ((if 15 =? b then v10 else 0) + ((if 16 =? b then v10 else 0) + 0)))))) by reflexivity.
  assert (V : 0 < v10) by reflexivity. generalize dependent v10. intros v V.
  destruct (11 =? b) eqn:E1, (12 =? b) eqn:E2, (13 =? b) eqn:E3, (14 =? b) eqn:E4, (15 =? b) eqn:E5, (16 =? b) eqn:E6; destruct ((11 <=? b) && (b <=? 16)) eqn:E7; lia.
Qed.

Print Assumptions stake_credit_exact.
Print Assumptions stake_funds_exact.
Print Assumptions stake_at_least_min.
Print Assumptions stake_call_exact.
Print Assumptions stake_of_others_untouched_partial.
Print Assumptions withdraw_only_when_due_partial.
Print Assumptions stake_call_does.
Print Assumptions every_stake_withdrawable.
Print Assumptions stake_list_exact.
Print Assumptions lock_never_shortened_partial.
Print Assumptions lock_shortened_refuted.
Print Assumptions stale_id_takes_stake_refuted.
