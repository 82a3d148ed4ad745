From Verif Require Import Lib AssetModel AssetSpec.

Lemma upd_same {A} (f : Z -> A) k v : upd f k v k = v. Proof. unfold upd. now rewrite Z.eqb_refl. Qed.
Lemma upd_other {A} (f : Z -> A) k v x : x <> k -> upd f k v x = f x. Proof. unfold upd. intro. replace (x =? k) with false by lia. reflexivity. Qed.
Lemma pack_small x : is_word x -> pack x = x. Proof. unfold pack, is_word. apply Z.mod_small. Qed.
Lemma i16 x : 0 <= x <= 1000 -> x mod 2 ^ 16 = x. Proof. intro. apply Z.mod_small. lia. Qed.
(** what a call that passed DoSend says *)
Lemma check_token_inv earth re name symbol no so total dec maxs ob : check_token earth re name symbol no so total dec maxs ob = true ->
  (re = true -> total <= maxs) /\ (re = false -> maxs <= 0 /\ ob = false) /\ symbol <> s_vite /\ symbol <> s_vcp /\ symbol <> s_vx /\ no = true /\ so = true /\
  1 <= zlen name <= 40 /\ 1 <= zlen symbol <= 10.
Proof.
  unfold check_token, name_max, symbol_max. intros H. repeat (apply andb_prop in H as [H ?]).
  assert (S : symbol <> s_vite /\ symbol <> s_vcp /\ symbol <> s_vx).
  { repeat split; intros ->; repeat match goal with X : negb _ = true |- _ => apply negb_true_iff in X end;
      repeat match goal with X : _ || _ = false |- _ => apply orb_false_iff in X as [? ?] end; rewrite zlist_eqb_refl in *; discriminate. }
  pose proof (zlen_nonneg name). pose proof (zlen_nonneg symbol).
  repeat match goal with X : negb _ = true |- _ => apply negb_true_iff in X end.
  repeat match goal with X : _ || _ = false |- _ => apply orb_false_iff in X as [? ?] end.
  destruct S as (S1 & S2 & S3).
  assert (Q : (re = true -> total <= maxs) /\ (re = false -> maxs <= 0 /\ ob = false)).
  { destruct re; match goal with X : negb _ = true |- _ => apply negb_true_iff, orb_false_iff in X as [? ?] end; split; intros; try discriminate; [lia|split; [lia|auto]]. }
  destruct Q. repeat split; auto; try lia; match goal with X : false = false -> _, Y : re = false |- _ => idtac | _ => idtac end; firstorder.
Qed.

Definition vfee (w : world) (t : Z) : Z := if t =? vite then w_fees w else 0.
(** the effect of a successful call on the recorded infos *)
Ltac inv_opt H := match type of H with Some _ = Some _ => injection H as ? ? ?; subst | None = Some _ => discriminate end.

Lemma receive_fail earth w caller tok amount c w' : receive earth w caller tok amount c = (w', false) -> w' = w.
Proof. unfold receive. destruct (do_receive _ _ _ _ _ _ _) as [[[s b] outs]|]; intros H; [discriminate|now injection H]. Qed.

Lemma step_ok earth_s earth_r w caller tok amount c w' : start_ok w -> request_ok c -> 0 <= amount <= w_out w tok ->
  fee c <= w_out w vite - (if tok =? vite then amount else 0) ->
  do_send earth_s caller amount c = true -> receive earth_r w caller tok amount c = (w', true) ->
  start_ok w' /\ (forall t, supply w' t = supply w t + created t (mkE caller tok amount c) - destroyed t (mkE caller tok amount c)).
Proof.
  intros S RQ AM FE DS R. unfold receive in R. destruct (do_receive earth_r (w_st w) (w_bal w tok + amount) caller tok amount c) as [[[s b] outs]|] eqn:D; [|discriminate].
  injection R as <-. destruct S as [SI SS SP SB SF SN SBl SX].
  assert (CW : forall t, circulating w t <= supply w t) by (intro t; rewrite SS; destruct (t =? vite); lia).
  assert (OB : forall t, w_out w t <= supply w t) by (intro t; specialize (CW t); unfold circulating in CW; specialize (SB t); lia).
  destruct c as [re name symbol no so total dec maxs ob tid|t amt to| | |t owner|t|t]; cbn [do_receive do_send fee] in *.
  - (* issue *)
    apply andb_prop in DS as [A0 CT]. assert (amount = 0) by lia. subst amount. apply check_token_inv in CT as (RE & NR & _ & _ & _ & _ & _ & _ & _).
    destruct RQ as (WT & WD & WM). destruct (a_info (w_st w) tid) eqn:E; [discriminate|]. destruct (a_next (w_st w) symbol =? index_max) eqn:IX; [discriminate|].
    injection D as <- <- <-. unfold pay; cbn [fold_left as_reward as_token as_amount w_st w_bal w_out w_fees].
    rewrite !pack_small by assumption. pose proof (SN symbol) as SNs. unfold index_max in *.
    assert (SUP : forall t, supply (mkW (mkA (upd (a_info (w_st w)) tid (Some (mkT name symbol total dec caller re maxs ob (a_next (w_st w) symbol))))
                (fun x => if zlist_eqb x symbol then (a_next (w_st w) symbol + 1) mod 2 ^ 16 else a_next (w_st w) x)
                (upd (a_own (w_st w)) caller (a_own (w_st w) caller ++ [tid]))) (upd (w_bal w) tok (w_bal w tok + 0))
                (upd (upd (upd (w_out w) tok (w_out w tok - 0)) vite (upd (w_out w) tok (w_out w tok - 0) vite - issue_fee)) tid
                   (upd (upd (w_out w) tok (w_out w tok - 0)) vite (upd (w_out w) tok (w_out w tok - 0) vite - issue_fee) tid + total)) (w_fees w + issue_fee)) t = supply w t + (if tid =? t then total else 0)).
    { intro t. unfold supply. cbn [w_st a_info]. unfold upd. destruct (t =? tid) eqn:Q.
      - apply Z.eqb_eq in Q. subst. rewrite E, Z.eqb_refl. cbn. lia.
      - replace (tid =? t) with false by lia. destruct (a_info (w_st w) t); lia. }
    assert (F0 : 0 <= issue_fee) by (unfold issue_fee; lia).
    assert (OUT1 : forall x, upd (w_out w) tok (w_out w tok - 0) x = w_out w x) by (intro x; unfold upd; destruct (x =? tok) eqn:Q; [apply Z.eqb_eq in Q; subst|]; lia).
    split; [|intro t; rewrite SUP; unfold created, destroyed; cbn [ev_call]; lia].
    split; cbn [w_st w_bal w_out w_fees a_info a_next].
    + intros t i. unfold upd. destruct (t =? tid) eqn:Q; [|apply SI]. intros [= <-]. unfold info_ok. cbn.
      split; [exact WT|]. split; [exact WM|]. split; [exact RE|]. split; [intro X; destruct (NR X); split; [unfold is_word in WM; lia|auto]|]. unfold index_max. lia.
    + intro t. rewrite SUP, SS. unfold circulating. cbn [w_out w_bal w_fees]. unfold upd.
      repeat match goal with |- context[if ?x =? ?y then _ else _] => destruct (x =? y) eqn:? end;
      repeat match goal with X : (?x =? ?y) = true |- _ => apply Z.eqb_eq in X; subst end; try lia; try congruence.
    + intro t. unfold upd. pose proof (SP t). pose proof (SP tid). pose proof (SP vite). pose proof (SP tok). unfold is_word in WT.
      repeat match goal with |- context[if ?x =? ?y then _ else _] => destruct (x =? y) eqn:? end; try lia;
      repeat match goal with X : (?x =? ?y) = true |- _ => apply Z.eqb_eq in X; subst end; try lia;
      repeat match goal with X : context[if ?x =? ?y then _ else _] |- _ => destruct (x =? y) eqn:? end; try lia; try congruence.
    + intro t. unfold upd. pose proof (SB t). destruct (t =? tok) eqn:Q; [apply Z.eqb_eq in Q; subst|]; lia.
    + lia.
    + intro x. destruct (zlist_eqb x symbol); [|apply SN]. rewrite i16; unfold index_max; lia.
    + intros t i. unfold upd. destruct (t =? tid) eqn:Q.
      * intros [= <-]. cbn. rewrite zlist_eqb_refl, i16; lia.
      * intro H. specialize (SBl t i H). destruct (zlist_eqb (t_symbol i) symbol) eqn:Y; [|exact SBl]. apply zlist_eqb_eq in Y. rewrite Y in SBl. rewrite i16; lia.
    + intros t t' i i'. unfold upd. destruct (t =? tid) eqn:Q; destruct (t' =? tid) eqn:Q'; try lia.
      * intros [= <-] H. cbn. intros Y1 Y2. specialize (SBl t' i' H). rewrite <- Y1 in SBl. lia.
      * intros H [= <-]. cbn. intros Y1 Y2. specialize (SBl t i H). rewrite Y1 in SBl. lia.
      * apply SX.
  - (* reissue *)
    apply negb_true_iff, orb_false_iff in DS as [D1 D2]. assert (amount = 0) by lia. subst amount.
    destruct (a_info (w_st w) t) as [i|] eqn:E; [|discriminate]. pose proof (SI t i E) as (I1 & I2 & I3 & I4 & I5).
    destruct (negb (t_re i) || negb (t_owner i =? caller) || (t_max i - t_total i <? amt)) eqn:G; [discriminate|].
    apply orb_false_iff in G as [G G3]. apply orb_false_iff in G as [G1 G2]. apply negb_false_iff in G1. injection D as <- <- <-.
    unfold pay; cbn [fold_left as_reward as_token as_amount w_st w_bal w_out w_fees]. rewrite (pack_small (t_max i)) by assumption.
    rewrite pack_small by (unfold is_word in *; lia). specialize (I3 G1).
    match goal with |- start_ok ?W /\ _ => set (W' := W) end.
    assert (SUP : forall t', supply W' t' = supply w t' + (if t =? t' then amt else 0)).
    { intro t'. unfold supply, W'. cbn [w_st a_info]. unfold upd. destruct (t' =? t) eqn:Q.
      - apply Z.eqb_eq in Q. subst. rewrite E, Z.eqb_refl. reflexivity.
      - replace (t =? t') with false by lia. destruct (a_info (w_st w) t'); lia. }
    split; [|intro t'; rewrite SUP; unfold created, destroyed; cbn [ev_call]; lia].
    split; unfold W'; cbn [w_st w_bal w_out w_fees a_info a_next].
    + intros t' i'. unfold upd. destruct (t' =? t) eqn:Q; [|apply SI]. intros [= <-]. unfold info_ok. cbn.
      unfold is_word in *. repeat split; intros; try lia; try congruence.
    + intro t'. fold W'. rewrite SUP, SS. unfold circulating, W'. cbn [w_out w_bal]. unfold upd.
      repeat match goal with |- context[if ?x =? ?y then _ else _] => destruct (x =? y) eqn:? end;
      repeat match goal with X : (?x =? ?y) = true |- _ => apply Z.eqb_eq in X; subst end; try lia.
    + intro t'. unfold upd. pose proof (SP t'). pose proof (SP t). pose proof (SP vite). pose proof (SP tok).
      repeat match goal with |- context[if ?x =? ?y then _ else _] => destruct (x =? y) eqn:? end;
      repeat match goal with X : (?x =? ?y) = true |- _ => apply Z.eqb_eq in X; subst end; try lia.
    + intro t'. unfold upd. pose proof (SB t'). destruct (t' =? tok) eqn:Q; [apply Z.eqb_eq in Q; subst|]; lia.
    + lia.
    + exact SN.
    + intros t' i'. unfold upd. destruct (t' =? t) eqn:Q; [|apply SBl]. intros [= <-]. cbn. now apply (SBl t).
    + intros t1 t2 i1 i2. unfold upd. destruct (t1 =? t) eqn:Q; destruct (t2 =? t) eqn:Q'; try lia.
      * intros [= <-] H. cbn. intros. assert (t = t2) by (eapply (SX t t2); eauto). lia.
      * intros H [= <-]. cbn. intros. assert (t1 = t) by (eapply (SX t1 t); eauto). lia.
      * apply SX.
  - (* burn *)
    apply negb_true_iff in DS.
    destruct (a_info (w_st w) tok) as [i|] eqn:E; [|discriminate]. pose proof (SI tok i E) as (I1 & I2 & I3 & I4 & I5).
    destruct ((negb earth_r && negb (t_re i)) || (t_ob i && negb (t_owner i =? caller))) eqn:G; [discriminate|].
    destruct (w_bal w tok + amount <? amount) eqn:G2; [discriminate|]. injection D as <- <- <-.
    unfold pay; cbn [fold_left as_reward as_token as_amount w_st w_bal w_out w_fees]. rewrite (pack_small (t_max i)) by assumption.
    assert (LE : amount <= t_total i) by (pose proof (OB tok) as X; unfold supply in X; rewrite E in X; lia).
    rewrite pack_small by (unfold is_word in *; lia).
    match goal with |- start_ok ?W /\ _ => set (W' := W) end.
    assert (SUP : forall t', supply W' t' = supply w t' - (if tok =? t' then amount else 0)).
    { intro t'. unfold supply, W'. cbn [w_st a_info]. unfold upd. destruct (t' =? tok) eqn:Q.
      - apply Z.eqb_eq in Q. subst. rewrite E, Z.eqb_refl. reflexivity.
      - replace (tok =? t') with false by lia. destruct (a_info (w_st w) t'); lia. }
    split; [|intro t'; rewrite SUP; unfold created, destroyed; cbn [ev_call ev_token ev_amount]; lia].
    split; unfold W'; cbn [w_st w_bal w_out w_fees a_info a_next].
    + intros t' i'. unfold upd. destruct (t' =? tok) eqn:Q; [|apply SI]. intros [= <-]. unfold info_ok. cbn.
      unfold is_word in *. split; [lia|]. split; [lia|]. split; [intro X; specialize (I3 X); lia|]. split; [exact I4|exact I5].
    + intro t'. fold W'. rewrite SUP, SS. unfold circulating, W'. cbn [w_out w_bal]. unfold upd.
      repeat match goal with |- context[if ?x =? ?y then _ else _] => destruct (x =? y) eqn:? end;
      repeat match goal with X : (?x =? ?y) = true |- _ => apply Z.eqb_eq in X; subst end; try lia.
    + intro t'. unfold upd. pose proof (SP t'). pose proof (SP vite). pose proof (SP tok).
      repeat match goal with |- context[if ?x =? ?y then _ else _] => destruct (x =? y) eqn:? end;
      repeat match goal with X : (?x =? ?y) = true |- _ => apply Z.eqb_eq in X; subst end; try lia.
    + intro t'. unfold upd. pose proof (SB t'). destruct (t' =? tok) eqn:Q; [apply Z.eqb_eq in Q; subst|]; lia.
    + lia.
    + exact SN.
    + intros t' i'. unfold upd. destruct (t' =? tok) eqn:Q; [|apply SBl]. intros [= <-]. cbn. now apply (SBl tok).
    + intros t1 t2 i1 i2. unfold upd. destruct (t1 =? tok) eqn:Q; destruct (t2 =? tok) eqn:Q'; try lia.
      * intros [= <-] H. cbn. intros. assert (tok = t2) by (eapply (SX tok t2); eauto). lia.
      * intros H [= <-]. cbn. intros. assert (t1 = tok) by (eapply (SX t1 tok); eauto). lia.
      * apply SX.
  - discriminate.
  - (* transfer *)
    apply andb_prop in DS as [D1 D2]. assert (amount = 0) by lia. subst amount.
    destruct (a_info (w_st w) t) as [i|] eqn:E; [|discriminate]. pose proof (SI t i E) as (I1 & I2 & I3 & I4 & I5).
    destruct (negb (t_re i) || negb (t_owner i =? caller)) eqn:G; [discriminate|]. apply orb_false_iff in G as [G1 G2]. apply negb_false_iff in G1. injection D as <- <- <-.
    cbn [fold_left w_st w_bal w_out w_fees]. rewrite !pack_small by assumption. specialize (I3 G1).
    match goal with |- start_ok ?W /\ _ => set (W' := W) end.
    assert (SUP : forall t', supply W' t' = supply w t').
    { intro t'. unfold supply, W'. cbn [w_st a_info]. unfold upd. destruct (t' =? t) eqn:Q; [apply Z.eqb_eq in Q; subst; now rewrite E|reflexivity]. }
    split; [|intro t'; rewrite SUP; unfold created, destroyed; cbn [ev_call]; lia].
    split; unfold W'; cbn [w_st w_bal w_out w_fees a_info a_next].
    + intros t' i'. unfold upd. destruct (t' =? t) eqn:Q; [|apply SI]. intros [= <-]. unfold info_ok. cbn. auto 6.
    + intro t'. fold W'. rewrite SUP, SS. unfold circulating, W'. cbn [w_out w_bal]. unfold upd.
      repeat match goal with |- context[if ?x =? ?y then _ else _] => destruct (x =? y) eqn:? end;
      repeat match goal with X : (?x =? ?y) = true |- _ => apply Z.eqb_eq in X; subst end; try lia.
    + intro t'. unfold upd. pose proof (SP t'). pose proof (SP vite). pose proof (SP tok).
      repeat match goal with |- context[if ?x =? ?y then _ else _] => destruct (x =? y) eqn:? end;
      repeat match goal with X : (?x =? ?y) = true |- _ => apply Z.eqb_eq in X; subst end; try lia.
    + intro t'. unfold upd. pose proof (SB t'). destruct (t' =? tok) eqn:Q; [apply Z.eqb_eq in Q; subst|]; lia.
    + lia.
    + exact SN.
    + intros t' i'. unfold upd. destruct (t' =? t) eqn:Q; [|apply SBl]. intros [= <-]. cbn. now apply (SBl t).
    + intros t1 t2 i1 i2. unfold upd. destruct (t1 =? t) eqn:Q; destruct (t2 =? t) eqn:Q'; try lia.
      * intros [= <-] H. cbn. intros. assert (t = t2) by (eapply (SX t t2); eauto). lia.
      * intros H [= <-]. cbn. intros. assert (t1 = t) by (eapply (SX t1 t); eauto). lia.
      * apply SX.
  - (* disable *)
    assert (amount = 0) by lia. subst amount.
    destruct (a_info (w_st w) t) as [i|] eqn:E; [|discriminate]. pose proof (SI t i E) as (I1 & I2 & I3 & I4 & I5).
    destruct (negb (t_re i) || negb (t_owner i =? caller)) eqn:G; [discriminate|]. injection D as <- <- <-.
    cbn [fold_left w_st w_bal w_out w_fees]. rewrite !pack_small by assumption.
    match goal with |- start_ok ?W /\ _ => set (W' := W) end.
    assert (SUP : forall t', supply W' t' = supply w t').
    { intro t'. unfold supply, W'. cbn [w_st a_info]. unfold upd. destruct (t' =? t) eqn:Q; [apply Z.eqb_eq in Q; subst; now rewrite E|reflexivity]. }
    split; [|intro t'; rewrite SUP; unfold created, destroyed; cbn [ev_call]; lia].
    split; unfold W'; cbn [w_st w_bal w_out w_fees a_info a_next].
    + intros t' i'. unfold upd. destruct (t' =? t) eqn:Q; [|apply SI]. intros [= <-]. unfold info_ok. cbn. unfold is_word, two256 in *. repeat split; try lia; congruence.
    + intro t'. fold W'. rewrite SUP, SS. unfold circulating, W'. cbn [w_out w_bal]. unfold upd.
      repeat match goal with |- context[if ?x =? ?y then _ else _] => destruct (x =? y) eqn:? end;
      repeat match goal with X : (?x =? ?y) = true |- _ => apply Z.eqb_eq in X; subst end; try lia.
    + intro t'. unfold upd. pose proof (SP t'). pose proof (SP vite). pose proof (SP tok).
      repeat match goal with |- context[if ?x =? ?y then _ else _] => destruct (x =? y) eqn:? end;
      repeat match goal with X : (?x =? ?y) = true |- _ => apply Z.eqb_eq in X; subst end; try lia.
    + intro t'. unfold upd. pose proof (SB t'). destruct (t' =? tok) eqn:Q; [apply Z.eqb_eq in Q; subst|]; lia.
    + lia.
    + exact SN.
    + intros t' i'. unfold upd. destruct (t' =? t) eqn:Q; [|apply SBl]. intros [= <-]. cbn. now apply (SBl t).
    + intros t1 t2 i1 i2. unfold upd. destruct (t1 =? t) eqn:Q; destruct (t2 =? t) eqn:Q'; try lia.
      * intros [= <-] H. cbn. intros. assert (t = t2) by (eapply (SX t t2); eauto). lia.
      * intros H [= <-]. cbn. intros. assert (t1 = t) by (eapply (SX t1 t); eauto). lia.
      * apply SX.
  - (* query *)
    assert (amount = 0) by lia. subst amount. injection D as <- <- <-.
    unfold pay; cbn [fold_left as_reward as_token as_amount w_st w_bal w_out w_fees].
    match goal with |- start_ok ?W /\ _ => set (W' := W) end.
    assert (SUP : forall t', supply W' t' = supply w t') by (intro t'; reflexivity).
    split; [|intro t'; rewrite SUP; unfold created, destroyed; cbn [ev_call]; lia].
    split; unfold W'; cbn [w_st w_bal w_out w_fees]; auto.
    + intro t'. fold W'. rewrite SUP, SS. unfold circulating, W'. cbn [w_out w_bal]. unfold upd.
      repeat match goal with |- context[if ?x =? ?y then _ else _] => destruct (x =? y) eqn:? end;
      repeat match goal with X : (?x =? ?y) = true |- _ => apply Z.eqb_eq in X; subst end; try lia.
    + intro t'. unfold upd. pose proof (SP t'). pose proof (SP vite). pose proof (SP tok).
      repeat match goal with |- context[if ?x =? ?y then _ else _] => destruct (x =? y) eqn:? end;
      repeat match goal with X : (?x =? ?y) = true |- _ => apply Z.eqb_eq in X; subst end; try lia.
    + intro t'. unfold upd. pose proof (SB t'). pose proof (SB tok). pose proof (SB vite).
      repeat match goal with |- context[if ?x =? ?y then _ else _] => destruct (x =? y) eqn:? end;
      repeat match goal with X : (?x =? ?y) = true |- _ => apply Z.eqb_eq in X; subst end; try lia.
    + lia.
Qed.
