From Verif Require Import Lib VmModel VmProofs2 VmProofs3 LedgerModel LedgerSpec.

(** ** Sums and association lists *)
Lemma sumz_app a b : sumz (a ++ b) = sumz a + sumz b.
Proof. induction a; cbn [app sumz]; lia. Qed.

Lemma assoc_none_in {A} k (l : list (Z * A)) : assoc k l = None -> ~ In k (map fst l).
Proof.
  induction l as [|[k' v] l IH]; cbn; [intuition|]. destruct (Z.eqb_spec k k') as [->|]; [discriminate|].
  intros H [E|E]; [congruence|]. exact (IH H E).
Qed.
Lemma assoc_set_nodup {A} k (v : A) l : NoDup (map fst l) -> NoDup (map fst (assoc_set k v l)).
Proof.
  induction l as [|[k' w] l IH]; cbn; intro H; [repeat constructor; intuition|].
  inversion H as [|? ? H1 H2]; subst. destruct (Z.eqb_spec k k') as [->|]; cbn; constructor; auto.
  intro K. apply assoc_set_fst in K as [->|K]; [congruence|exact (H1 K)].
Qed.
Lemma sum_assoc_set {A} (f : A -> Z) k v l :
  NoDup (map fst l) ->
  sumz (map (fun p => f (snd p)) (assoc_set k v l)) =
  sumz (map (fun p => f (snd p)) l) - (match assoc k l with Some w => f w | None => 0 end) + f v.
Proof.
  induction l as [|[k' w] l IH]; cbn; intro H; [lia|]. inversion H as [|? ? H1 H2]; subst.
  destruct (Z.eqb_spec k k') as [->|]; cbn; [lia|]. rewrite IH by assumption. lia.
Qed.

Section Proofs.
Context {S : Type}.
Implicit Types (e : lenv S) (d : adb S) (g : ledger S).

Lemma bal_set d t a u : bal (set_bal d t a) u = if u =? t then a else bal d u.
Proof. unfold bal, set_bal; cbn. rewrite assoc_set_get. now destruct (u =? t). Qed.
Lemma bal_add d t a u : bal (add_balance d t a) u = bal d u + if u =? t then a else 0.
Proof. unfold add_balance. rewrite bal_set. destruct (Z.eqb_spec u t) as [->|]; lia. Qed.
Lemma rest_add d t a : d_rest (add_balance d t a) = d_rest d.
Proof. reflexivity. Qed.
Lemma bal_sub d t a d' u : sub_balance d t a = Some d' ->
  a <= bal d t /\ d_rest d' = d_rest d /\ bal d' u = bal d u - if u =? t then a else 0.
Proof.
  unfold sub_balance. destruct (Z.leb_spec a (bal d t)); [intros [= <-]|discriminate].
  rewrite bal_set. cbn. destruct (Z.eqb_spec u t) as [->|]; repeat split; lia.
Qed.
Lemma bal_rest d r u : bal (set_rest d r) u = bal d u.
Proof. reflexivity. Qed.
Lemma sub_ok d t a : a <= bal d t -> exists d', sub_balance d t a = Some d'.
Proof. intro H. unfold sub_balance. destruct (Z.leb_spec a (bal d t)); [eauto|lia]. Qed.

Definition nonneg d : Prop := forall t, 0 <= bal d t.

(** ** Sending *)
Record sent_ok (d : adb S) (b : sblock) (d' : adb S) (b' : sblock) : Prop := mkSentOk {
  so_bal : forall t, bal d' t = bal d t - carries t b';
  so_rest : d_rest d' = d_rest d;
  so_amount : b_amount b' <= bal d (b_token b');
  so_fee : b_fee b' <= bal d vite - (if b_token b' =? vite then b_amount b' else 0);
  so_same : b_from b' = b_from b /\ b_type b' = b_type b /\ b_token b' = b_token b /\ b_amount b' = b_amount b }.

Ltac eqb_cases := repeat match goal with
  | |- context [Z.eqb ?a ?b] => destruct (Z.eqb_spec a b); try subst
  | H : context [Z.eqb ?a ?b] |- _ => destruct (Z.eqb_spec a b); try subst end.

Lemma send_two d b' (b : sblock) d1 d2 :
  sub_balance d (b_token b') (b_amount b') = Some d1 -> sub_balance d1 vite (b_fee b') = Some d2 ->
  b_from b' = b_from b /\ b_type b' = b_type b /\ b_token b' = b_token b /\ b_amount b' = b_amount b ->
  sent_ok d b d2 b'.
Proof.
  intros E1 E2 Same. constructor; auto.
  - intro t. destruct (bal_sub _ _ _ _ t E1) as (_ & _ & B1), (bal_sub _ _ _ _ t E2) as (_ & _ & B2).
    rewrite B2, B1. unfold carries. eqb_cases; lia.
  - destruct (bal_sub _ _ _ _ 0 E1) as (_ & R1 & _), (bal_sub _ _ _ _ 0 E2) as (_ & R2 & _). congruence.
  - apply (bal_sub _ _ _ _ 0 E1).
  - destruct (bal_sub _ _ _ _ vite E1) as (_ & _ & B1), (bal_sub _ _ _ _ 0 E2) as (L & _ & _).
    rewrite B1 in L. revert L. eqb_cases; try congruence; lia.
Qed.
Lemma send_one d b' (b : sblock) d1 :
  sub_balance d (b_token b') (b_amount b') = Some d1 -> b_fee b' = 0 -> nonneg d ->
  b_from b' = b_from b /\ b_type b' = b_type b /\ b_token b' = b_token b /\ b_amount b' = b_amount b ->
  sent_ok d b d1 b'.
Proof.
  intros E1 F NN Same. constructor; auto.
  - intro t. destruct (bal_sub _ _ _ _ t E1) as (_ & _ & B1). rewrite B1. unfold carries. rewrite F. eqb_cases; lia.
  - apply (bal_sub _ _ _ _ 0 E1).
  - apply (bal_sub _ _ _ _ 0 E1).
  - rewrite F. destruct (bal_sub _ _ _ _ 0 E1) as (L & _ & _). specialize (NN vite). eqb_cases; try congruence; try lia.
    rewrite e in L. lia.
Qed.

Lemma send_call_ok e q d b d' b' : send_call e q d b = Some (d', b') -> nonneg d ->
  sent_ok d b d' b' /\ b_to b' = b_to b.
Proof.
  unfold send_call. intros H NN. destruct (l_builtin e (b_to b) (b_data b)) as [| |p]; [|discriminate|].
  - destruct q; [|discriminate]. destruct (can_transfer _ _ _ _); [|discriminate].
    cbn [b_token b_amount b_from b_to b_type b_data] in H.
    destruct (sub_balance d (b_token b) (b_amount b)) as [d1|] eqn:E1; [|discriminate]. injection H as <- <-.
    split; [|reflexivity]. apply send_one; cbn; auto.
  - destruct (bm_fee p b) as [f|]; [|discriminate]. destruct (can_transfer _ _ _ _); [|discriminate].
    destruct q; [|discriminate]. destruct (bm_send _ _ _) as [data|]; [|discriminate].
    cbn [b_token b_amount b_from b_to b_type b_data] in H.
    destruct (sub_balance d (b_token b) (b_amount b)) as [d1|] eqn:E1; [|discriminate].
    destruct (sub_balance d1 vite f) as [d2|] eqn:E2; [|discriminate]. injection H as <- <-.
    split; [|reflexivity]. eapply send_two; cbn; eauto.
Qed.
Lemma send_call_fee e q d b d' b' : env_ok e -> send_call e q d b = Some (d', b') -> 0 <= b_fee b'.
Proof.
  unfold send_call. intros HE H. destruct (l_builtin e (b_to b) (b_data b)) as [| |p] eqn:EB; [|discriminate|].
  - destruct q; [|discriminate]. destruct (can_transfer _ _ _ _); [|discriminate].
    destruct (sub_balance d _ _) as [d1|] eqn:E1; [|discriminate]. injection H as <- <-. cbn; lia.
  - destruct (bm_fee p b) as [f|] eqn:EF; [|discriminate]. destruct (can_transfer _ _ _ _); [|discriminate].
    destruct q; [|discriminate]. destruct (bm_send _ _ _) as [data|]; [|discriminate].
    destruct (sub_balance d _ _) as [d1|] eqn:E1; [|discriminate].
    destruct (sub_balance d1 vite f) as [d2|] eqn:E2; [|discriminate]. injection H as <- <-. cbn.
    exact (eo_fee _ HE _ _ _ _ _ EB EF).
Qed.
Lemma send_create_ok e q d b d' b' : send_create e q d b = Some (d', b') ->
  sent_ok d b d' b' /\ b_fee b' = 10000000000000000000.
Proof.
  unfold send_create. destruct (q && _); [|discriminate]. destruct (can_transfer _ _ _ _); [|discriminate].
  destruct (sub_balance d (b_token b) (b_amount b)) as [d1|] eqn:E1; [|discriminate].
  destruct (sub_balance d1 vite create_fee) as [d2|] eqn:E2; [|discriminate]. intros [= <- <-].
  split; [|reflexivity]. eapply send_two; cbn; eauto.
Qed.
Lemma send_refund_ok d b d' b' : send_refund d b = Some (d', b') -> nonneg d ->
  sent_ok d b d' b' /\ b_to b' = b_to b /\ b_fee b' = 0 /\ b_data b' = b_data b.
Proof.
  unfold send_refund. intros H NN. destruct (can_transfer _ _ _ _); [|discriminate].
  cbn [b_token b_amount b_from b_to b_type b_data] in H.
  destruct (sub_balance d (b_token b) (b_amount b)) as [d1|] eqn:E1; [|discriminate]. injection H as <- <-.
  split; [|auto]. apply send_one; cbn; auto.
Qed.

Lemma sent_ok_nonneg d b d' b' : nonneg d -> sent_ok d b d' b' -> nonneg d'.
Proof.
  intros NN H t. rewrite (so_bal _ _ _ _ H). pose proof (so_amount _ _ _ _ H). pose proof (so_fee _ _ _ _ H).
  specialize (NN t). unfold carries.
  destruct (Z.eqb_spec (b_token b') t) as [<-|N1], (Z.eqb_spec (b_token b') vite) as [E2|N2]; try rewrite E2 in *;
    destruct (Z.eqb_spec t vite) as [->|N3] || destruct (Z.eqb_spec vite vite) || idtac;
    try (destruct (Z.eqb_spec (b_token b') vite)); try congruence; try lia.
Qed.

(** what a successful list of sends does *)
Record list_ok (d d' : adb S) (l l' : list sblock) : Prop := mkListOk {
  lk_bal : forall t, bal d' t + sumz (map (carries t) l') = bal d t + issued t l';
  lk_nonneg : nonneg d';
  lk_rest : d_rest d' = d_rest d;
  lk_amounts : Forall (fun b => 0 <= b_amount b /\ 0 <= b_fee b) l';
  lk_nocreate : Forall (fun b => b_type b <> TSendCreate) l' }.

Lemma do_send_list_ok e l : forall d d' l', env_ok e -> nonneg d ->
  Forall (fun b => 0 <= b_amount b /\ 0 <= b_fee b) l ->
  do_send_list e d l = Some (d', l') -> list_ok d d' l l'.
Proof.
  induction l as [|b r IH]; intros d d' l' HE NN HA H; cbn [do_send_list] in H.
  - injection H as <- <-. constructor; auto.
  - inversion HA as [|? ? [Ha Hf] Hr]; subst.
    destruct (b_type b) eqn:ET; [discriminate| | |].
    + destruct (send_call e true d b) as [[d1 b1]|] eqn:E; [|discriminate].
      destruct (do_send_list e d1 r) as [[d2 r2]|] eqn:E2; [|discriminate]. injection H as <- <-.
      pose proof (send_call_fee _ _ _ _ _ _ HE E) as F1. apply send_call_ok in E as [K _]; [|assumption].
      destruct (IH _ _ _ HE (sent_ok_nonneg _ _ _ _ NN K) Hr E2) as [B N R A C]. destruct (so_same _ _ _ _ K) as (_ & T & _ & Am).
      assert (NR : is_reward b1 = false) by (unfold is_reward; now rewrite T, ET).
      constructor; auto.
      * intro t. cbn [map sumz]. unfold issued in *. cbn [filter]. rewrite NR. specialize (B t). rewrite (so_bal _ _ _ _ K) in B. lia.
      * rewrite R. apply (so_rest _ _ _ _ K).
      * constructor; auto. rewrite Am. auto.
      * constructor; auto. congruence.
    + unfold send_reward in H. destruct (l_minters e (b_from b)); [|discriminate].
      destruct (do_send_list e d r) as [[d2 r2]|] eqn:E2; [|discriminate]. injection H as <- <-.
      destruct (IH _ _ _ HE NN Hr E2) as [B N R A C].
      assert (NR : is_reward b = true) by (unfold is_reward; now rewrite ET).
      constructor; auto.
      * intro t. cbn [map sumz]. unfold issued in *. cbn [filter]. rewrite NR. cbn [map sumz]. specialize (B t). lia.
      * constructor; auto. congruence.
    + destruct (send_refund d b) as [[d1 b1]|] eqn:E; [|discriminate].
      destruct (do_send_list e d1 r) as [[d2 r2]|] eqn:E2; [|discriminate]. injection H as <- <-.
      apply send_refund_ok in E as (K & _ & F1 & _); [|assumption].
      destruct (IH _ _ _ HE (sent_ok_nonneg _ _ _ _ NN K) Hr E2) as [B N R A C]. destruct (so_same _ _ _ _ K) as (_ & T & _ & Am).
      assert (NR : is_reward b1 = false) by (unfold is_reward; now rewrite T, ET).
      constructor; auto.
      * intro t. cbn [map sumz]. unfold issued in *. cbn [filter]. rewrite NR. specialize (B t). rewrite (so_bal _ _ _ _ K) in B. lia.
      * rewrite R. apply (so_rest _ _ _ _ K).
      * constructor; auto. rewrite Am. lia.
      * constructor; auto. congruence.
Qed.

(** reward blocks come only from the two minting contracts *)
Lemma do_send_list_reward e l : forall d d' l', do_send_list e d l = Some (d', l') ->
  Forall (fun b => b_type b = TSendReward -> l_minters e (b_from b) = true) l'.
Proof.
  induction l as [|b r IH]; intros d d' l' H; cbn [do_send_list] in H.
  - injection H as <- <-. constructor.
  - destruct (b_type b) eqn:ET; [discriminate| | |].
    + destruct (send_call e true d b) as [[d1 b1]|] eqn:E; [|discriminate].
      destruct (do_send_list e d1 r) as [[d2 r2]|] eqn:E2; [|discriminate]. injection H as <- <-.
      constructor; [|eauto]. intro K. exfalso. revert E. unfold send_call.
      destruct (l_builtin _ _ _) as [| |p]; [|discriminate|].
      * destruct (can_transfer _ _ _ _); [|discriminate]. destruct (sub_balance _ _ _); [|discriminate].
        intros [= <- <-]. cbn in K. congruence.
      * destruct (bm_fee p b); [|discriminate]. destruct (can_transfer _ _ _ _); [|discriminate].
        destruct (bm_send _ _ _); [|discriminate]. destruct (sub_balance d _ _); [|discriminate].
        destruct (sub_balance _ _ _); [|discriminate]. intros [= <- <-]. cbn in K. congruence.
    + unfold send_reward in H. destruct (l_minters e (b_from b)) eqn:M; [|discriminate].
      destruct (do_send_list e d r) as [[d2 r2]|] eqn:E2; [|discriminate]. injection H as <- <-.
      constructor; eauto.
    + destruct (send_refund d b) as [[d1 b1]|] eqn:E; [|discriminate].
      destruct (do_send_list e d1 r) as [[d2 r2]|] eqn:E2; [|discriminate]. injection H as <- <-.
      constructor; [|eauto]. intro K. exfalso. revert E. unfold send_refund.
      destruct (can_transfer _ _ _ _); [|discriminate]. destruct (sub_balance _ _ _); [|discriminate].
      intros [= <- <-]. cbn in K. congruence.
Qed.

(** ** Refunding *)
Lemma nonneg_add d t a : nonneg d -> 0 <= a -> nonneg (add_balance d t a).
Proof. intros H Ha u. rewrite bal_add. specialize (H u). destruct (u =? t); lia. Qed.

Lemma do_refund_ok d self b data need ty d1 l :
  0 <= b_amount b -> 0 <= b_fee b -> nonneg d -> do_refund d self b data need ty = (d1, l) ->
  d_rest d1 = d_rest d /\ nonneg d1 /\
  (forall t, bal d1 t = bal d t + carries t b) /\
  (forall t, sumz (map (carries t) l) = carries t b) /\
  Forall (fun x => b_from x = self /\ b_to x = b_from b /\ b_fee x = 0 /\ 0 <= b_amount x /\ b_data x = data /\ (b_type x = ty \/ b_type x = TSendCall)) l.
Proof.
  intros Ha Hf NN. unfold do_refund, make_request.
  destruct ((0 <? b_amount b) && (0 <? b_fee b) && (b_token b =? vite)) eqn:C.
  - intros [= <- <-]. split; [reflexivity|]. split; [apply nonneg_add; [assumption|lia]|].
    split; [|split].
    + intro t. rewrite bal_add. unfold carries. eqb_cases; try lia; try congruence.
    + intro t. cbn [map sumz]. unfold carries; cbn [b_token b_amount b_fee]. eqb_cases; try lia; try congruence.
    + repeat constructor; cbn; auto; lia.
  - destruct (0 <? b_amount b) eqn:C1; destruct (0 <? b_fee b) eqn:C2; cbn [app].
    + intros [= <- <-]. split; [reflexivity|]. split; [repeat apply nonneg_add; assumption|].
      split; [|split].
      * intro t. rewrite !bal_add. unfold carries. eqb_cases; try lia; try congruence.
      * intro t. cbn [map sumz]. unfold carries; cbn [b_token b_amount b_fee]. eqb_cases; try lia; try congruence.
      * repeat constructor; cbn; auto; lia.
    + intros [= <- <-]. split; [reflexivity|]. split; [repeat apply nonneg_add; assumption|].
      split; [|split].
      * intro t. rewrite !bal_add. unfold carries. eqb_cases; try lia; try congruence.
      * intro t. cbn [map sumz]. unfold carries; cbn [b_token b_amount b_fee]. eqb_cases; try lia; try congruence.
      * repeat constructor; cbn; auto; lia.
    + intros [= <- <-]. split; [reflexivity|]. split; [repeat apply nonneg_add; assumption|].
      split; [|split].
      * intro t. rewrite !bal_add. unfold carries. eqb_cases; try lia; try congruence.
      * intro t. cbn [map sumz]. unfold carries; cbn [b_token b_amount b_fee]. eqb_cases; try lia; try congruence.
      * repeat constructor; cbn; auto; lia.
    + assert (b_amount b = 0) by lia. assert (b_fee b = 0) by lia.
      assert (CZ : forall t, carries t b = 0) by (intro t; unfold carries; eqb_cases; lia).
      destruct need; intros [= <- <-]; (split; [reflexivity|]; split; [assumption|]; split; [intro t; rewrite CZ; lia|]; split).
      * intro t; rewrite CZ; cbn [map sumz]; unfold carries; cbn [b_token b_amount b_fee]; eqb_cases; lia.
      * repeat constructor; cbn; auto; lia.
      * intro t; rewrite CZ; reflexivity.
      * constructor.
Qed.

(** sending to an ordinary address cannot fail once the funds are there *)
Lemma can_transfer_zero d t a : a <= bal d t -> can_transfer d t a 0 = true.
Proof. intro H. unfold can_transfer. cbn. lia. Qed.

Lemma send_plain e d b : l_builtin e (b_to b) (b_data b) = BNone -> b_type b = TSendCall \/ b_type b = TSendRefund ->
  b_fee b = 0 -> b_amount b <= bal d (b_token b) ->
  exists d1, sub_balance d (b_token b) (b_amount b) = Some d1 /\
  match b_type b with TSendCall => send_call e true d b | TSendReward => send_reward e d b
                    | TSendRefund => send_refund d b | TSendCreate => None end = Some (d1, b).
Proof.
  intros EB ET EF L. destruct (sub_ok _ _ _ L) as [d1 E1]. exists d1. split; [assumption|].
  destruct b as [fr to ty tk am fe da]; cbn [b_from b_to b_type b_token b_amount b_fee b_data] in *; subst fe.
  destruct ET as [->| ->].
  - unfold send_call; cbn [b_from b_to b_type b_token b_amount b_fee b_data]. rewrite EB. rewrite can_transfer_zero by assumption. now rewrite E1.
  - unfold send_refund; cbn [b_from b_to b_type b_token b_amount b_fee b_data]. rewrite can_transfer_zero by assumption. now rewrite E1.
Qed.
Lemma send_refund_plain e d b : b_type b = TSendRefund -> b_fee b = 0 -> b_amount b <= bal d (b_token b) ->
  exists d1, sub_balance d (b_token b) (b_amount b) = Some d1 /\
  match b_type b with TSendCall => send_call e true d b | TSendReward => send_reward e d b
                    | TSendRefund => send_refund d b | TSendCreate => None end = Some (d1, b).
Proof.
  intros ET EF L. destruct (sub_ok _ _ _ L) as [d1 E1]. exists d1. split; [assumption|].
  destruct b as [fr to ty tk am fe da]; cbn [b_from b_to b_type b_token b_amount b_fee b_data] in *; subst fe ty.
  unfold send_refund; cbn [b_from b_to b_type b_token b_amount b_fee b_data]. rewrite can_transfer_zero by assumption. now rewrite E1.
Qed.

(** a block that the machine sends unchanged, once the funds are there *)
Definition harmless e (b : sblock) : Prop :=
  b_fee b = 0 /\ (b_type b = TSendRefund \/ (b_type b = TSendCall /\ l_builtin e (b_to b) (b_data b) = BNone)).

Lemma do_send_list_harmless e l : forall d, Forall (harmless e) l -> Forall (fun b => 0 <= b_amount b) l ->
  (forall t, sumz (map (carries t) l) <= bal d t) ->
  exists d', do_send_list e d l = Some (d', l) /\ d_rest d' = d_rest d /\
             (forall t, bal d' t = bal d t - sumz (map (carries t) l)).
Proof.
  induction l as [|b r IH]; intros d HH HA HS; cbn [do_send_list].
  - exists d. repeat split. intro t; cbn; lia.
  - inversion HH as [|? ? [HF HT] Hr]; inversion HA as [|? ? Ha Har]; subst.
    assert (NR : forall t, 0 <= sumz (map (carries t) r)).
    { intro t. clear - Hr Har. induction Hr as [|x r [Hx _] Hr IHr]; cbn; [lia|]. inversion Har; subst.
      specialize (IHr ltac:(assumption)). unfold carries at 1. rewrite Hx. eqb_cases; lia. }
    assert (L : b_amount b <= bal d (b_token b)).
    { specialize (HS (b_token b)); specialize (NR (b_token b)). cbn in HS. unfold carries in HS at 1.
      rewrite Z.eqb_refl, HF in HS. destruct (b_token b =? vite); lia. }
    assert (K : exists d1, sub_balance d (b_token b) (b_amount b) = Some d1 /\
      match b_type b with TSendCall => send_call e true d b | TSendReward => send_reward e d b
                    | TSendRefund => send_refund d b | TSendCreate => None end = Some (d1, b)).
    { destruct HT as [HT|[HT HB]]; [now apply send_refund_plain|apply send_plain; auto]. }
    destruct K as (d1 & E1 & K). 
    assert (K' : match b_type b with
      | TSendCreate => None | TSendCall => send_call e true d b | TSendReward => send_reward e d b
      | TSendRefund => send_refund d b end = Some (d1, b)) by (rewrite <- K; destruct (b_type b); reflexivity).
    rewrite K'.
    assert (B1 : forall t, bal d1 t = bal d t - carries t b).
    { intro t. destruct (bal_sub _ _ _ _ t E1) as (_ & _ & B). rewrite B. unfold carries. rewrite HF. eqb_cases; lia. }
    destruct (IH d1 Hr Har) as (d2 & E2 & R2 & B2).
    { intro t. rewrite B1. specialize (HS t). cbn in HS. lia. }
    rewrite E2. exists d2. split; [reflexivity|]. split.
    + rewrite R2. apply (bal_sub _ _ _ _ 0 E1).
    + intro t. rewrite B2, B1. cbn. lia.
Qed.

(** The refund published after a failed call. *)
Lemma finish_refund_exact e d self b data need ty :
  0 <= b_amount b -> 0 <= b_fee b -> nonneg d ->
  ty = TSendRefund /\ need = false \/ (ty = TSendCall \/ ty = TSendRefund) /\ l_builtin e (b_from b) data = BNone ->
  exists d' l, finish_refund e d self b data need ty = ROk RFail d' l /\
    d_rest d' = d_rest d /\ (forall t, bal d' t = bal d t) /\
    (forall t, sumz (map (carries t) l) = carries t b) /\
    Forall (fun x => b_from x = self /\ b_to x = b_from b /\ b_fee x = 0 /\ 0 <= b_amount x) l.
Proof.
  intros Ha Hf NN HT. unfold finish_refund.
  destruct (do_refund d self b data need ty) as [d1 l] eqn:E.
  pose proof (do_refund_ok _ _ _ _ _ _ _ _ Ha Hf NN E) as (R1 & N1 & B1 & S1 & F1).
  assert (NT : ty = TSendRefund -> need = false -> Forall (fun x => b_type x = ty) l).
  { intros -> ->. revert E. unfold do_refund, make_request.
    destruct (_ && _ && _); [intros [= <- <-]; repeat constructor|].
    destruct (0 <? b_amount b), (0 <? b_fee b); cbn [app]; intros [= <- <-]; repeat constructor. }
  destruct (do_send_list_harmless e l d1) as (d2 & E2 & R2 & B2).
  - rewrite Forall_forall in *. intros x Hx. destruct (F1 x Hx) as (_ & HTo & HF & _ & HD & HTy).
    split; [assumption|]. destruct HT as [[-> ->]|[HT HB]].
    + left. now apply NT.
    + destruct HT as [->| ->]; destruct HTy as [HTy|HTy]; auto; right; rewrite HTo, HD; auto.
  - revert F1. apply Forall_impl. tauto.
  - intro t. rewrite S1, B1. specialize (NN t). lia.
  - rewrite E2. exists d2, l. repeat split; auto.
    + congruence.
    + intro t. rewrite B2, S1, B1. lia.
    + revert F1. apply Forall_impl. tauto.
Qed.

(** in general (also when the sender is itself a built-in contract) *)
Lemma finish_refund_ok e d self b data need ty st d' l :
  env_ok e -> 0 <= b_amount b -> 0 <= b_fee b -> nonneg d ->
  finish_refund e d self b data need ty = ROk st d' l ->
  st = RFail /\ nonneg d' /\ d_rest d' = d_rest d /\
  (forall t, bal d' t + sumz (map (carries t) l) = bal d t + carries t b + issued t l) /\
  Forall (fun b => 0 <= b_amount b /\ 0 <= b_fee b) l /\ Forall (fun b => b_type b <> TSendCreate) l.
Proof.
  intros HE Ha Hf NN. unfold finish_refund. destruct (do_refund d self b data need ty) as [d1 l1] eqn:E.
  pose proof (do_refund_ok _ _ _ _ _ _ _ _ Ha Hf NN E) as (R1 & N1 & B1 & S1 & F1).
  destruct (do_send_list e d1 l1) as [[d2 l2]|] eqn:E2; [|discriminate]. intros [= <- <- <-].
  apply do_send_list_ok in E2 as [B N R A C]; auto.
  - repeat split; auto; [congruence|]. intro t. rewrite B, B1. lia.
  - revert F1. apply Forall_impl. intros x (_ & _ & -> & H & _). lia.
Qed.

(** ** Receiving *)
Record received (t : Z) e (depth : Z) d self b st d' l : Prop := mkReceived {
  rc_bal : bal d' t + sumz (map (carries t) l) = bal d t + carries t b + issued t l - destroyed t e depth d self b st;
  rc_amounts : Forall (fun b => 0 <= b_amount b /\ 0 <= b_fee b) l;
  rc_nocreate : Forall (fun b => b_type b <> TSendCreate) l;
  rc_depth : 512 <= depth -> b_type b <> TSendCreate -> l = [] }.

Lemma requests_ok self l : Forall (fun v => 0 <= sd_amount v) l ->
  Forall (fun b => 0 <= b_amount b /\ 0 <= b_fee b) (requests self l).
Proof. intro H. unfold requests. apply Forall_map. revert H. apply Forall_impl. cbn. lia. Qed.

Lemma carries_split t b : carries t b = amount_of t b + fee_of t b.
Proof. unfold carries, amount_of, fee_of. reflexivity. Qed.
Lemma bal_credit d b t : bal (add_balance d (b_token b) (b_amount b)) t = bal d t + amount_of t b.
Proof. rewrite bal_add. unfold amount_of. eqb_cases; lia. Qed.

Lemma receive_call_ok e q u depth d self b st d' l :
  env_ok e -> 0 <= b_amount b -> 0 <= b_fee b -> nonneg d ->
  receive_call e q u depth d self b = ROk st d' l ->
  nonneg d' /\
  (forall t, bal d' t + sumz (map (carries t) l) = bal d t + carries t b + issued t l
    - match st with RFail => 0 | RDepth => fee_of t b | RSuccess => fee_of t b + if burns e d self b then amount_of t b else 0 end) /\
  Forall (fun b => 0 <= b_amount b /\ 0 <= b_fee b) l /\ Forall (fun b => b_type b <> TSendCreate) l /\
  (512 <= depth -> l = []).
Proof.
  intros HE Ha Hf NN. unfold receive_call, call_depth.
  pose proof (nonneg_add d (b_token b) (b_amount b) NN Ha) as N1.
  assert (C : forall t, bal (add_balance d (b_token b) (b_amount b)) t = bal d t + amount_of t b) by (intro; apply bal_credit).
  destruct (Z.leb_spec 512 depth) as [HD|HD].
  { intros [= <- <- <-]. split; [assumption|]. split; [|repeat split; constructor].
    intro t. rewrite C, carries_split. cbn. lia. }
  assert (KR : forall data need ty st d' l, finish_refund e d self b data need ty = ROk st d' l -> 
    nonneg d' /\
  (forall t, bal d' t + sumz (map (carries t) l) = bal d t + carries t b + issued t l
    - match st with RFail => 0 | RDepth => fee_of t b | RSuccess => fee_of t b + if burns e d self b then amount_of t b else 0 end) /\
  Forall (fun b => 0 <= b_amount b /\ 0 <= b_fee b) l /\ Forall (fun b => b_type b <> TSendCreate) l /\
  (512 <= depth -> l = [])).
  { intros data need ty st0 d0 l0 K. apply finish_refund_ok in K as (-> & K1 & K2 & K3 & K4 & K5); auto.
    repeat split; auto; [|lia]. intro t; rewrite K3; lia. }
  destruct (l_builtin e self (b_data b)) as [| |p] eqn:EB; [|discriminate|].
  - destruct q; [|discriminate..]. 
    assert (NB : burns e d self b = false) by (unfold burns; now rewrite EB).
    destruct (l_is_contract e self).
    + pose proof (eo_run _ HE (add_balance d (b_token b) (b_amount b)) b) as HR.
      destruct (l_run e (add_balance d (b_token b) (b_amount b)) b) as [err rest sends]; cbn [cr_err cr_rest cr_sends] in *.
      destruct err as [[]|].
      * destruct u; [discriminate|]. apply KR.
      * discriminate.
      * apply KR.
      * destruct (do_send_list e (set_rest (add_balance d (b_token b) (b_amount b)) rest) (requests self sends)) as [[d2 l2]|] eqn:E2; [|apply KR].
        intros [= <- <- <-]. apply do_send_list_ok in E2 as [B N R A Cr]; auto using requests_ok.
        repeat split; auto; [|lia]. intro t. rewrite B, bal_rest, C, carries_split, NB. lia.
    + intros [= <- <- <-]. repeat split; auto; try constructor. intro t. rewrite C, carries_split, NB. cbn. lia.
  - destruct q; [|discriminate..]. destruct (bm_refund p b) as [data need].
    destruct (bm_receive p (add_balance d (b_token b) (b_amount b)) b) as [[[r burn] sends]|] eqn:ER; [|apply KR].
    assert (NB : burns e d self b = burn) by (unfold burns; rewrite EB, ER; reflexivity).
    pose proof (eo_receive _ HE _ _ _ _ _ _ _ _ EB ER) as HS.
    destruct burn.
    + destruct (sub_balance (set_rest (add_balance d (b_token b) (b_amount b)) r) (b_token b) (b_amount b)) as [d2|] eqn:ES; [|apply KR].
      assert (B2 : forall t, bal d2 t = bal d t).
      { intro t. destruct (bal_sub _ _ _ _ t ES) as (_ & _ & B2). rewrite B2, bal_rest, C. unfold amount_of. eqb_cases; lia. }
      destruct (do_send_list e d2 sends) as [[d3 l3]|] eqn:E2; [|apply KR].
      intros [= <- <- <-]. apply do_send_list_ok in E2 as [B N R A Cr]; auto; [|intro t; rewrite B2; apply NN].
      repeat split; auto; [|lia]. intro t. rewrite B, B2, carries_split, NB. lia.
    + destruct (do_send_list e (set_rest (add_balance d (b_token b) (b_amount b)) r) sends) as [[d3 l3]|] eqn:E2; [|apply KR].
      intros [= <- <- <-]. apply do_send_list_ok in E2 as [B N R A Cr]; auto.
      repeat split; auto; [|lia]. intro t. rewrite B, bal_rest, C, carries_split, NB. lia.
Qed.

Lemma receive_create_ok e q x d self b st d' l :
  env_ok e -> 0 <= b_amount b -> 0 <= b_fee b -> nonneg d ->
  receive_create e q x d self b = ROk st d' l ->
  nonneg d' /\
  (forall t, bal d' t + sumz (map (carries t) l) = bal d t + carries t b + issued t l - fee_of t b) /\
  Forall (fun b => 0 <= b_amount b /\ 0 <= b_fee b) l /\ Forall (fun b => b_type b <> TSendCreate) l.
Proof.
  intros HE Ha Hf NN. unfold receive_create. destruct x; [discriminate|]. destruct q; [|discriminate..].
  pose proof (nonneg_add d (b_token b) (b_amount b) NN Ha) as N1.
  assert (C : forall t, bal (add_balance d (b_token b) (b_amount b)) t = bal d t + amount_of t b) by (intro; apply bal_credit).
  assert (KR : forall st d' l, (if 0 <? b_amount b then
        match do_send_list e (add_balance d (b_token b) (b_amount b))
                [make_request self (b_from b) TSendRefund (b_amount b) (b_token b) []] with
        | Some (d2, l) => ROk RFail d2 l
        | None => RNone true
        end
      else ROk RFail d []) = ROk st d' l ->
     nonneg d' /\
  (forall t, bal d' t + sumz (map (carries t) l) = bal d t + carries t b + issued t l - fee_of t b) /\
  Forall (fun b => 0 <= b_amount b /\ 0 <= b_fee b) l /\ Forall (fun b => b_type b <> TSendCreate) l).
  { intros st0 d0 l0. destruct (Z.ltb_spec 0 (b_amount b)) as [HP|HP].
    - destruct (do_send_list _ _ _) as [[d2 l2]|] eqn:E2; [|discriminate]. intros [= <- <- <-].
      apply do_send_list_ok in E2 as [B N R A Cr]; auto; [|repeat constructor; cbn; lia].
      repeat split; auto. intro t. rewrite B, C, carries_split. lia.
    - intros [= <- <- <-]. repeat split; auto; try constructor. intro t. cbn. rewrite carries_split. unfold amount_of. eqb_cases; lia. }
  pose proof (eo_init _ HE (add_balance d (b_token b) (b_amount b)) b) as HR.
  destruct (l_init e (add_balance d (b_token b) (b_amount b)) b) as [err rest sends]; cbn [cr_err cr_rest cr_sends] in *.
  destruct err as [err|]; [apply KR|].
  destruct (do_send_list e (set_rest (add_balance d (b_token b) (b_amount b)) rest) (requests self sends)) as [[d2 l2]|] eqn:E2; [|apply KR].
  intros [= <- <- <-]. apply do_send_list_ok in E2 as [B N R A Cr]; auto using requests_ok.
  repeat split; auto. intro t. rewrite B, bal_rest, C, carries_split. lia.
Qed.

Lemma receive_ok e q u x depth d self b st d' l :
  env_ok e -> 0 <= b_amount b -> 0 <= b_fee b -> nonneg d ->
  receive e q u x depth d self b = ROk st d' l ->
  nonneg d' /\ forall t, received t e depth d self b st d' l.
Proof.
  intros HE Ha Hf NN H. unfold receive in H.
  assert (PL : receive_plain q d b = ROk st d' l -> nonneg d' /\ l = [] /\ forall t, bal d' t = bal d t + amount_of t b).
  { unfold receive_plain. destruct q; [|discriminate..]. intros [= <- <- <-]. split; [now apply nonneg_add|]. split; [reflexivity|].
    intro; apply bal_credit. }
  destruct (b_type b) eqn:ET.
  - apply receive_create_ok in H as (N & B & A & C); auto. split; [assumption|]. intro t.
    constructor; auto; [|congruence]. unfold destroyed. rewrite ET. apply B.
  - apply receive_call_ok in H as (N & B & A & C & D); auto. split; [assumption|]. intro t.
    constructor; auto. unfold destroyed. rewrite ET. rewrite B. destruct st; lia.
  - destruct (l_seed e) eqn:SE.
    + destruct (PL H) as (N & -> & B). split; [assumption|]. intro t. constructor; auto; try constructor.
      unfold destroyed. rewrite ET, SE, B, carries_split. cbn. lia.
    + apply receive_call_ok in H as (N & B & A & C & D); auto. split; [assumption|]. intro t.
      constructor; auto. unfold destroyed. rewrite ET, SE. rewrite B. destruct st; lia.
  - destruct (PL H) as (N & -> & B). split; [assumption|]. intro t. constructor; auto; try constructor.
    unfold destroyed. rewrite ET, B, carries_split. cbn. lia.
Qed.

(** ** The ledger *)
Lemma acct_nonneg init g a : ledger_ok g -> nonneg (acct_or init g a).
Proof.
  intros H t. unfold acct_or. destruct (assoc a (g_acct g)) as [d|] eqn:E; [eapply lo_bal; eauto|].
  unfold bal; cbn; lia.
Qed.
Lemma held_set init g a d t : NoDup (map fst (g_acct g)) ->
  sumz (map (fun p => bal (snd p) t) (assoc_set a d (g_acct g))) = held t g - bal (acct_or init g a) t + bal d t.
Proof.
  intro H. unfold held. rewrite (sum_assoc_set (fun x : adb S => bal x t)) by assumption. unfold acct_or.
  destruct (assoc a (g_acct g)); [lia|]. change (bal (mkAdb [] init) t) with 0. lia.
Qed.
Lemma enlist_map n depth l : map sn_block (enlist n depth l) = l.
Proof. revert n. induction l as [|b l IH]; intro n; cbn; [reflexivity|]. now rewrite IH. Qed.
Lemma enlist_in n depth l x : In x (enlist n depth l) -> n <= sn_hash x < n + zlen l /\ sn_depth x = depth /\ In (sn_block x) l.
Proof.
  revert n. induction l as [|b l IH]; intro n; cbn [enlist In]; [tauto|]. rewrite zlen_cons. pose proof (zlen_nonneg l).
  intros [<-|H1]; cbn [sn_hash sn_depth sn_block]; [repeat split; auto; lia|]. destruct (IH _ H1) as (A & B & C). repeat split; auto; lia.
Qed.
Lemma enlist_nodup n depth l : NoDup (map sn_hash (enlist n depth l)).
Proof.
  revert n. induction l as [|b l IH]; intro n; cbn; [constructor|]. constructor; [|apply IH].
  intro H. apply in_map_iff in H as (x & E & H). apply enlist_in in H. lia.
Qed.
Lemma transit_app t a b : sumz (map (fun s => carries t (sn_block s)) (a ++ b)) =
  sumz (map (fun s => carries t (sn_block s)) a) + sumz (map (fun s => carries t (sn_block s)) b).
Proof. now rewrite map_app, sumz_app. Qed.
Lemma transit_enlist t n depth l : sumz (map (fun s => carries t (sn_block s)) (enlist n depth l)) = sumz (map (carries t) l).
Proof. rewrite <- (enlist_map n depth l) at 2. now rewrite map_map. Qed.
Lemma remove_in h l x : In x (remove_sent h l) <-> In x l /\ sn_hash x <> h.
Proof. unfold remove_sent. rewrite filter_In. destruct (Z.eqb_spec (sn_hash x) h); cbn; intuition congruence. Qed.
Lemma remove_nodup h l : NoDup (map sn_hash l) -> NoDup (map sn_hash (remove_sent h l)).
Proof.
  induction l as [|s l IH]; cbn; intro H; [constructor|]. inversion H as [|? ? H1 H2]; subst.
  destruct (negb (sn_hash s =? h)); cbn; auto. constructor; auto.
  intro K. apply H1. apply in_map_iff in K as (x & E & K). apply remove_in in K as [K _]. apply in_map_iff. eauto.
Qed.
Lemma remove_absent h l : ~ In h (map sn_hash l) -> remove_sent h l = l.
Proof.
  induction l as [|s l IH]; cbn; intro H; [reflexivity|]. destruct (Z.eqb_spec (sn_hash s) h); [tauto|]. cbn. f_equal. apply IH. tauto.
Qed.
Lemma find_split h l s : NoDup (map sn_hash l) -> find (fun s => sn_hash s =? h) l = Some s ->
  sn_hash s = h /\ In s l /\ forall t, sumz (map (fun s => carries t (sn_block s)) (remove_sent h l)) =
              sumz (map (fun s => carries t (sn_block s)) l) - carries t (sn_block s).
Proof.
  induction l as [|x l IH]; cbn; intros H E; [discriminate|]. inversion H as [|? ? H1 H2]; subst.
  destruct (Z.eqb_spec (sn_hash x) h) as [EQ|NE].
  - injection E as ->. cbn [negb]. subst h. fold (remove_sent (sn_hash s) l). split; [reflexivity|]. split; [auto|]. intro t. rewrite remove_absent by assumption. lia.
  - destruct (IH H2 E) as (A & B & C). cbn [negb map sumz]. fold (remove_sent h l). split; [assumption|]. split; [auto|]. intro t. rewrite C. lia.
Qed.

Lemma lo_bal_set g a d : ledger_ok g -> nonneg d ->
  forall a' d' t, assoc a' (assoc_set a d (g_acct g)) = Some d' -> 0 <= bal d' t.
Proof.
  intros H N a' d' t. rewrite assoc_set_get. destruct (a' =? a); [intros [= <-]; apply N|]. eapply lo_bal; eauto.
Qed.

Lemma lstep_ok init g o g' st sends :
  ledger_ok g -> op_ok o -> lstep init g o = LOk g' st sends ->
  ledger_ok g' /\ (forall t, supply t g' = supply t g + issued t sends - op_destroyed init t g o st).
Proof.
  intros HG HO H. destruct o as [e qok b|e q u x h]; cbn [lstep] in H.
  - destruct HO as [HE Ha]. set (d := acct_or init g (b_from b)) in *.
    assert (NN : nonneg d) by now apply acct_nonneg.
    destruct (match b_type b with TSendCreate => send_create e qok d b | TSendCall => send_call e qok d b
              | _ => None end) as [[d1 b1]|] eqn:E; [|discriminate].
    injection H as <- <- <-.
    assert (K : sent_ok d b d1 b1 /\ 0 <= b_fee b1 /\ b_type b1 <> TSendReward).
    { destruct (b_type b) eqn:ET; try discriminate.
      - apply send_create_ok in E as [K F]. pose proof (so_same _ _ _ _ K) as (_ & T & _). split; [assumption|]. split; [rewrite F; lia|congruence].
      - pose proof (send_call_fee _ _ _ _ _ _ HE E). apply send_call_ok in E as [K _]; [|assumption].
        pose proof (so_same _ _ _ _ K) as (_ & T & _). split; [assumption|]. split; [assumption|congruence]. }
    destruct K as (K & F & T). destruct (so_same _ _ _ _ K) as (S1 & S2 & S3 & S4).
    split.
    + destruct HG as [G1 G2 G3 G4 G5 G6 G7]. constructor; cbn [g_acct g_flight g_next].
      * now apply assoc_set_nodup.
      * rewrite map_app. cbn.
        rewrite Forall_forall in G3. clear - G2 G3. induction (g_flight g) as [|s l IH]; cbn in *; [repeat constructor; tauto|].
        inversion G2; subst. constructor; [|apply IH; auto]. rewrite in_app_iff. cbn. intros [K|[K|[]]]; [tauto|].
        specialize (G3 s (or_introl eq_refl)). lia.
      * apply Forall_app; split; [revert G3; apply Forall_impl; lia|]. repeat constructor; cbn; lia.
      * apply Forall_app; split; [assumption|]. repeat constructor; cbn; lia.
      * eapply lo_bal_set; [constructor; eauto|]. eapply sent_ok_nonneg; eauto.
      * apply Forall_app; split; [assumption|]. repeat constructor; cbn; lia.
      * apply Forall_app; split; [assumption|]. repeat constructor.
    + intro t. unfold supply, in_transit. cbn [g_acct g_flight]. unfold held at 1. cbn [g_acct].
      rewrite (held_set init) by apply HG. rewrite transit_app. cbn [enlist map sumz sn_block]. fold d.
      rewrite (so_bal _ _ _ _ K). unfold issued. cbn [filter]. unfold is_reward. destruct (b_type b1); try congruence; cbn; lia.
  - cbn in HO. destruct (find (fun s => sn_hash s =? h) (g_flight g)) as [s|] eqn:EF; [|discriminate].
    destruct (find_split _ _ _ (lo_hashes _ HG) EF) as (EH & IN & SUM).
    pose proof (proj1 (Forall_forall _ _) (lo_amounts _ HG) _ IN) as [Ha Hf].
    pose proof (proj1 (Forall_forall _ _) (lo_depth _ HG) _ IN) as HD.
    pose proof (proj1 (Forall_forall _ _) (lo_create _ HG) _ IN) as HC. cbv beta in HC, HD.
    set (self := b_to (sn_block s)) in *. set (d := acct_or init g self) in *.
    assert (NN : nonneg d) by now apply acct_nonneg.
    destruct (receive e q u x (sn_depth s) d self (sn_block s)) as [st0 d' l| |] eqn:ER; [|discriminate..].
    injection H as <- <- <-.
    destruct (receive_ok _ _ _ _ _ _ _ _ _ _ _ HO Ha Hf NN ER) as [N' RC].
    pose proof (rc_amounts _ _ _ _ _ _ _ _ _ (RC 0)) as RA. pose proof (rc_nocreate _ _ _ _ _ _ _ _ _ (RC 0)) as RN.
    pose proof (rc_depth _ _ _ _ _ _ _ _ _ (RC 0)) as RD.
    split.
    + destruct HG as [G1 G2 G3 G4 G5 G6 G7]. constructor; cbn [g_acct g_flight g_next].
      * now apply assoc_set_nodup.
      * rewrite map_app. rewrite Forall_forall in G3.
        assert (AP : forall a b : list Z, NoDup a -> NoDup b -> (forall y, In y a -> In y b -> False) -> NoDup (a ++ b)).
        { clear. induction a as [|y a IH]; cbn; intros b Ha Hb Hd; [assumption|]. inversion Ha; subst. constructor; [|apply IH; eauto].
          rewrite in_app_iff. intros [K|K]; [tauto|]. eapply Hd; eauto. }
        apply AP; [now apply remove_nodup|apply enlist_nodup|]. intros y H1 H2.
        apply in_map_iff in H1 as (y1 & E1 & H1). apply in_map_iff in H2 as (y2 & E2 & H2).
        apply remove_in in H1 as [H1 _]. apply enlist_in in H2. specialize (G3 _ H1). lia.
      * apply Forall_app; split; apply Forall_forall; intros y Hy.
        -- apply remove_in in Hy as [Hy _]. pose proof (proj1 (Forall_forall _ _) G3 _ Hy). pose proof (zlen_nonneg l). cbv beta in *. lia.
        -- apply enlist_in in Hy. lia.
      * apply Forall_app; split; apply Forall_forall; intros y Hy.
        -- apply remove_in in Hy as [Hy _]. exact (proj1 (Forall_forall _ _) G4 _ Hy).
        -- apply enlist_in in Hy as (_ & _ & Hy). exact (proj1 (Forall_forall _ _) RA _ Hy).
      * eapply lo_bal_set; [constructor; eauto|]. assumption.
      * apply Forall_app; split; apply Forall_forall; intros y Hy.
        -- apply remove_in in Hy as [Hy _]. exact (proj1 (Forall_forall _ _) G6 _ Hy).
        -- destruct (Z.eq_dec (sn_depth s) 512) as [E5|E5].
           ++ assert (NC : b_type (sn_block s) <> TSendCreate) by (intro K; specialize (HC K); lia).
              rewrite RD in Hy by (try assumption; lia). destruct Hy.
           ++ apply enlist_in in Hy as (_ & -> & _). lia.
      * apply Forall_app; split; apply Forall_forall; intros y Hy.
        -- apply remove_in in Hy as [Hy _]. exact (proj1 (Forall_forall _ _) G7 _ Hy).
        -- apply enlist_in in Hy as (_ & _ & Hy). intro K. exfalso. exact (proj1 (Forall_forall _ _) RN _ Hy K).
    + intro t. unfold supply, in_transit. cbn [g_acct g_flight]. unfold held at 1. cbn [g_acct].
      rewrite (held_set init) by apply HG. rewrite transit_app, transit_enlist, SUM. fold d.
      pose proof (rc_bal _ _ _ _ _ _ _ _ _ (RC t)) as RB. unfold op_destroyed. rewrite EF. fold self. fold d. lia.
Qed.

Lemma lrun_ok init ops : forall g, ledger_ok g -> Forall op_ok ops ->
  ledger_ok (lrun init g ops) /\
  forall t, supply t (lrun init g ops) = supply t g + total_issued init t g ops - total_destroyed init t g ops.
Proof.
  induction ops as [|o r IH]; intros g HG HO; cbn [lrun total_issued total_destroyed].
  - split; [assumption|]. intro; lia.
  - inversion HO as [|? ? Ho Hr]; subst. destruct (lstep init g o) as [g' st sends| |] eqn:E; [|now apply IH..].
    destruct (lstep_ok _ _ _ _ _ _ HG Ho E) as [HG' HS]. destruct (IH g' HG' Hr) as [A B]. split; [assumption|].
    intro t. rewrite B, HS. lia.
Qed.

End Proofs.
