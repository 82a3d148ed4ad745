(** Theorems about balances, token supply and refunds (C07, C08, C09, C37). *)
From Verif Require Import Lib VmModel LedgerModel LedgerSpec LedgerProofs.

Section Theorems.
Context {S : Type}.

(** C07: along every history of submitted transactions, accepted or not, no account
    ever holds a negative amount of any token. *)
Theorem balances_never_negative (init : S) (g : ledger S) (ops : list (op S)) :
  ledger_ok g -> Forall op_ok ops -> forall a t, 0 <= bal (acct_or init (lrun init g ops) a) t.
Proof. intros HG HO a t. apply acct_nonneg. apply lrun_ok; assumption. Qed.

(** C07: a send is accepted only if the account can pay amount and fee together, and
    then exactly that leaves it, and no other account changes. *)
Theorem send_pays_exactly (init : S) (g g' : ledger S) e qok b st sends :
  ledger_ok g -> op_ok (OpSend e qok b) -> lstep init g (OpSend e qok b) = LOk g' st sends ->
  exists b', sends = [b'] /\ b_token b' = b_token b /\ b_amount b' = b_amount b /\ 0 <= b_fee b' /\
    (forall t, (if b_token b =? t then b_amount b else 0) + (if t =? vite then b_fee b' else 0)
               <= bal (acct_or init g (b_from b)) t) /\
    (forall t, bal (acct_or init g' (b_from b)) t =
               bal (acct_or init g (b_from b)) t
               - (if b_token b =? t then b_amount b else 0) - (if t =? vite then b_fee b' else 0)) /\
    d_rest (acct_or init g' (b_from b)) = d_rest (acct_or init g (b_from b)) /\
    (forall a, a <> b_from b -> acct_or init g' a = acct_or init g a).
Proof.
  intros HG [HE Ha] H. cbn [lstep] in H. set (d := acct_or init g (b_from b)) in *.
  assert (NN : nonneg d) by now apply acct_nonneg.
  destruct (match b_type b with TSendCreate => send_create e qok d b | TSendCall => send_call e qok d b
              | _ => None end) as [[d1 b1]|] eqn:E; [|discriminate].
  injection H as <- <- <-.
  assert (K : sent_ok d b d1 b1 /\ 0 <= b_fee b1).
  { destruct (b_type b) eqn:ET; try discriminate.
    - apply send_create_ok in E as [K F]. split; [assumption|]. rewrite F; lia.
    - pose proof (send_call_fee _ _ _ _ _ _ HE E). apply send_call_ok in E as [K _]; auto. }
  destruct K as [K F]. pose proof (sent_ok_nonneg _ _ _ _ NN K) as N1. destruct (so_same _ _ _ _ K) as (_ & _ & T & A).
  assert (EQ : forall fl n, acct_or init {| g_acct := assoc_set (b_from b) d1 (g_acct g); g_flight := fl; g_next := n |} (b_from b) = d1).
  { intros. unfold acct_or; cbn. now rewrite VmProofs3.assoc_set_get, Z.eqb_refl. }
  exists b1. rewrite EQ. repeat split; auto.
  - intro t. specialize (N1 t). rewrite (so_bal _ _ _ _ K) in N1. unfold carries in N1. rewrite T, A in N1. lia.
  - intro t. rewrite (so_bal _ _ _ _ K). unfold carries. rewrite T, A. lia.
  - apply (so_rest _ _ _ _ K).
  - intros a Hne. unfold acct_or; cbn. rewrite VmProofs3.assoc_set_get. destruct (Z.eqb_spec a (b_from b)); [congruence|reflexivity].
Qed.

(** C07: a plain transfer is accepted exactly when quota and balance suffice. *)
Theorem transfer_accepted_iff (init : S) (g : ledger S) e qok b :
  b_type b = TSendCall -> l_builtin e (b_to b) (b_data b) = BNone ->
  ((exists g' st sends, lstep init g (OpSend e qok b) = LOk g' st sends) <->
   qok = true /\ b_amount b <= bal (acct_or init g (b_from b)) (b_token b)).
Proof.
  intros ET EB. cbn [lstep]. rewrite ET. unfold send_call. rewrite EB.
  cbn [b_token b_amount b_from b_to b_type b_data b_fee]. unfold can_transfer, sub_balance. change (0 =? 0) with true. cbv iota.
  destruct qok; [|split; [intros (? & ? & ? & ?); discriminate|intros []; discriminate]].
  destruct (Z.leb_spec (b_amount b) (bal (acct_or init g (b_from b)) (b_token b))).
  - split; [auto|]. intros _. eauto.
  - split; [intros (? & ? & ? & ?); discriminate|]. intros []; lia.
Qed.

(** C08: every accepted transaction changes the amount of a token in existence (held
    plus in transit) exactly by what reward blocks issue and what is destroyed. *)
Theorem token_supply_step (init : S) (g g' : ledger S) o st sends t :
  ledger_ok g -> op_ok o -> lstep init g o = LOk g' st sends ->
  supply t g' = supply t g + issued t sends - op_destroyed init t g o st.
Proof. intros HG HO H. exact (proj2 (lstep_ok _ _ _ _ _ _ HG HO H) t). Qed.

(** C08: and so along every history. *)
Theorem token_supply_history (init : S) (g : ledger S) ops t :
  ledger_ok g -> Forall op_ok ops ->
  supply t (lrun init g ops) = supply t g + total_issued init t g ops - total_destroyed init t g ops.
Proof. intros HG HO. exact (proj2 (lrun_ok init ops g HG HO) t). Qed.

(** C08: new tokens come only from the two minting contracts. *)
Theorem only_minters_issue (init : S) (g g' : ledger S) o st sends t :
  lstep init g o = LOk g' st sends -> issued t sends <> 0 ->
  exists e q u x h b, o = OpReceive e q u x h /\ In b sends /\ b_type b = TSendReward /\ l_minters e (b_from b) = true.
Proof.
  intros H NZ. destruct o as [e qok b|e q u x h]; cbn [lstep] in H.
  - exfalso. destruct (b_type b) eqn:ET; try discriminate.
    + unfold send_create in H. destruct (qok && _); [|discriminate]. destruct (can_transfer _ _ _ _); [|discriminate].
      destruct (sub_balance _ (b_token b) _); [|discriminate]. destruct (sub_balance _ vite _); [|discriminate].
      injection H as <- <- <-. apply NZ. unfold issued, is_reward; cbn [filter b_type]. rewrite ET. reflexivity.
    + unfold send_call in H. destruct (l_builtin _ _ _) as [| |p]; [|discriminate|].
      * destruct qok; [|discriminate]. destruct (can_transfer _ _ _ _); [|discriminate].
        destruct (sub_balance _ _ _); [|discriminate]. injection H as <- <- <-. apply NZ.
        unfold issued, is_reward; cbn [filter b_type]. rewrite ET. reflexivity.
      * destruct (bm_fee p b); [|discriminate]. destruct (can_transfer _ _ _ _); [|discriminate].
        destruct qok; [|discriminate]. destruct (bm_send _ _ _); [|discriminate].
        destruct (sub_balance _ (b_token _) _); [|discriminate]. destruct (sub_balance _ vite _); [|discriminate].
        injection H as <- <- <-. apply NZ. unfold issued, is_reward; cbn [filter b_type]. rewrite ET. reflexivity.
  - destruct (find _ _) as [s|]; [|discriminate].
    destruct (receive e q u x (sn_depth s) _ _ (sn_block s)) as [st0 d' l| |] eqn:ER; [|discriminate..].
    injection H as <- <- <-.
    assert (F : Forall (fun b => b_type b = TSendReward -> l_minters e (b_from b) = true) l).
    { revert ER. unfold receive.
      assert (PL : forall d b, receive_plain q d b = ROk st0 d' l -> Forall (fun b => b_type b = TSendReward -> l_minters e (b_from b) = true) l).
      { intros d b. unfold receive_plain. destruct q; [|discriminate..]. intros [= <- <- <-]. constructor. }
      assert (RF : forall d self b data need ty, finish_refund e d self b data need ty = ROk st0 d' l -> Forall (fun b => b_type b = TSendReward -> l_minters e (b_from b) = true) l).
      { intros d self b data need ty. unfold finish_refund. destruct (do_refund _ _ _ _ _ _).
        destruct (do_send_list _ _ _) as [[d2 l2]|] eqn:E; [|discriminate]. intros [= <- <- <-]. eapply do_send_list_reward; eauto. }
      assert (RC : forall d self b, receive_call e q u (sn_depth s) d self b = ROk st0 d' l -> Forall (fun b => b_type b = TSendReward -> l_minters e (b_from b) = true) l).
      { intros d self b. unfold receive_call. destruct (_ <=? _); [intros [= <- <- <-]; constructor|].
        destruct (l_builtin _ _ _) as [| |p]; [|discriminate|]; (destruct q; [|discriminate..]).
        - destruct (l_is_contract _ _); [|intros [= <- <- <-]; constructor].
          destruct (cr_err _) as [[]|].
          + destruct u; [discriminate|]. apply RF.
          + discriminate.
          + apply RF.
          + destruct (do_send_list _ _ _) as [[d2 l2]|] eqn:E; [|apply RF]. intros [= <- <- <-]. eapply do_send_list_reward; eauto.
        - destruct (bm_refund p b). destruct (bm_receive _ _ _) as [[[r burn] sends]|]; [|apply RF].
          destruct (if burn then _ else _) as [d2|]; [|apply RF].
          destruct (do_send_list _ _ _) as [[d3 l3]|] eqn:E; [|apply RF]. intros [= <- <- <-]. eapply do_send_list_reward; eauto. }
      destruct (b_type (sn_block s)); [|apply RC|destruct (l_seed e); [apply PL|apply RC]|apply PL].
      unfold receive_create. destruct x; [discriminate|]. destruct q; [|discriminate..].
      assert (RR : forall d b self, (if 0 <? b_amount b then
        match do_send_list e (add_balance d (b_token b) (b_amount b))
                [make_request self (b_from b) TSendRefund (b_amount b) (b_token b) []] with
        | Some (d2, l) => ROk RFail d2 l
        | None => RNone true
        end
      else ROk RFail d []) = ROk st0 d' l -> Forall (fun b => b_type b = TSendReward -> l_minters e (b_from b) = true) l).
      { intros d b self. destruct (_ <? _); [|intros [= <- <- <-]; constructor].
        destruct (do_send_list _ _ _) as [[d2 l2]|] eqn:E; [|discriminate]. intros [= <- <- <-]. eapply do_send_list_reward; eauto. }
      destruct (cr_err _); [apply RR|].
      destruct (do_send_list _ (set_rest _ _) _) as [[d2 l2]|] eqn:E; [|apply RR]. intros [= <- <- <-]. eapply do_send_list_reward; eauto. }
    assert (EX : exists b, In b l /\ b_type b = TSendReward).
    { unfold issued in NZ. destruct (filter is_reward l) as [|b r] eqn:EL; [cbn in NZ; congruence|].
      assert (IN : In b (filter is_reward l)) by (rewrite EL; left; reflexivity). apply filter_In in IN as [IN T].
      exists b. split; [assumption|]. unfold is_reward in T. destruct (b_type b); congruence. }
    destruct EX as (b & IN & T). exists e, q, u, x, h, b. repeat split; auto. rewrite Forall_forall in F. auto.
Qed.

(** C09: when the call of a contract fails, the contract's account is exactly as before
    (code, storage and balances), and the amount and the fee of the call are on their
    way back to the caller, and nothing else is sent. Excluded are a call cut off by the
    depth limit (see the refutation below) and a refund that a built-in contract owes to
    another built-in contract. *)
Theorem failed_call_refunds_partial (e : lenv S) q u x depth d self b d' sends :
  0 <= b_amount b -> 0 <= b_fee b -> (forall t, 0 <= bal d t) ->
  b_type b = TSendCall ->
  (l_builtin e self (b_data b) = BNone \/ forall data, l_builtin e (b_from b) data = BNone) ->
  receive e q u x depth d self b = ROk RFail d' sends ->
  d_rest d' = d_rest d /\ (forall t, bal d' t = bal d t) /\
  Forall (fun r => b_from r = self /\ b_to r = b_from b /\ b_fee r = 0 /\ 0 <= b_amount r) sends /\
  forall t, sumz (map (fun r => if b_token r =? t then b_amount r else 0) sends) =
            (if b_token b =? t then b_amount b else 0) + (if t =? vite then b_fee b else 0).
Proof.
  intros Ha Hf NN ET HB. unfold receive. rewrite ET. unfold receive_call.
  destruct (_ <=? _); [discriminate|].
  assert (KR : forall data need ty, 
     ty = TSendRefund /\ need = false \/ (ty = TSendCall \/ ty = TSendRefund) /\ l_builtin e (b_from b) data = BNone ->
     finish_refund e d self b data need ty = ROk RFail d' sends ->
     d_rest d' = d_rest d /\ (forall t, bal d' t = bal d t) /\
     Forall (fun r => b_from r = self /\ b_to r = b_from b /\ b_fee r = 0 /\ 0 <= b_amount r) sends /\
     forall t, sumz (map (fun r => if b_token r =? t then b_amount r else 0) sends) =
            (if b_token b =? t then b_amount b else 0) + (if t =? vite then b_fee b else 0)).
  { intros data need ty HT H. destruct (finish_refund_exact e d self b data need ty Ha Hf NN HT) as (d2 & l & E & R & B & SM & F).
    rewrite E in H. injection H as <- <-. repeat split; auto.
    intro t. rewrite <- (SM t : _ = _ + _). f_equal. apply map_ext_in. intros y Hy. rewrite Forall_forall in F.
    destruct (F y Hy) as (_ & _ & F0 & _). unfold carries. rewrite F0. destruct (t =? vite); lia. }
  destruct (l_builtin e self (b_data b)) as [| |p] eqn:EB; [|discriminate|]; (destruct q; [|discriminate..]).
  - destruct (l_is_contract e self); [|discriminate]. destruct (cr_err _) as [[]|].
    + destruct u; [discriminate|]. apply KR; auto.
    + discriminate.
    + apply KR; auto.
    + destruct (do_send_list _ _ _) as [[d2 l2]|]; [discriminate|]. apply KR; auto.
  - destruct HB as [HB|HB]; [discriminate|]. destruct (bm_refund p b) as [data need].
    destruct (bm_receive _ _ _) as [[[r burn] sn]|]; [|apply KR; auto].
    destruct (if burn then _ else _) as [d2|]; [|apply KR; auto].
    destruct (do_send_list _ _ _) as [[d3 l3]|]; [discriminate|apply KR; auto].
Qed.

(** C09: the refund itself cannot fail: a call whose execution fails always completes
    (the "impossible receive error" branches of the code are unreachable). *)
Theorem refund_never_stuck (e : lenv S) u x depth d self b :
  0 <= b_amount b -> 0 <= b_fee b -> (forall t, 0 <= bal d t) ->
  b_type b = TSendCall -> l_builtin e self (b_data b) <> BMissing ->
  (l_builtin e self (b_data b) = BNone \/ forall data, l_builtin e (b_from b) data = BNone) ->
  (cr_err (l_run e (add_balance d (b_token b) (b_amount b)) b) = Some CNoReliableStatus -> 
     exists p, l_builtin e self (b_data b) = BMethod p) ->
  (cr_err (l_run e (add_balance d (b_token b) (b_amount b)) b) = Some COutOfQuota -> u = false) ->
  exists st d' sends, receive e QOk u x depth d self b = ROk st d' sends.
Proof.
  intros Ha Hf NN ET NM HB HR HQ. unfold receive. rewrite ET. unfold receive_call.
  destruct (_ <=? _); [eauto|].
  assert (KR : forall data need ty, 
     ty = TSendRefund /\ need = false \/ (ty = TSendCall \/ ty = TSendRefund) /\ l_builtin e (b_from b) data = BNone ->
     exists st d' sends, finish_refund e d self b data need ty = ROk st d' sends).
  { intros data need ty HT. destruct (finish_refund_exact e d self b data need ty Ha Hf NN HT) as (d2 & l & E & _). eauto. }
  destruct (l_builtin e self (b_data b)) as [| |p] eqn:EB; [|congruence|].
  - destruct (l_is_contract e self); [|eauto].
    destruct (cr_err _) as [[]|].
    + rewrite HQ by reflexivity. apply KR; auto.
    + destruct (HR eq_refl); discriminate.
    + apply KR; auto.
    + destruct (do_send_list _ _ _) as [[d2 l2]|]; [eauto|]. apply KR; auto.
  - destruct HB as [HB|HB]; [discriminate|]. destruct (bm_refund p b) as [data need].
    destruct (bm_receive _ _ _) as [[[r burn] sn]|]; [|apply KR; auto].
    destruct (if burn then _ else _) as [d2|]; [|apply KR; auto].
    destruct (do_send_list _ _ _) as [[d3 l3]|]; [eauto|apply KR; auto].
Qed.

(** C09, contract creation: when the creation fails the amount goes back (the creation
    fee of 10 VITE does not) and the account keeps nothing. *)
Theorem failed_creation_refunds_amount_partial (e : lenv S) q u x depth d self b d' sends :
  0 <= b_amount b -> (forall t, 0 <= bal d t) -> b_type b = TSendCreate ->
  receive e q u x depth d self b = ROk RFail d' sends ->
  d_rest d' = d_rest d /\ (forall t, bal d' t = bal d t) /\
  Forall (fun r => b_from r = self /\ b_to r = b_from b /\ b_fee r = 0 /\ 0 <= b_amount r) sends /\
  forall t, sumz (map (fun r => if b_token r =? t then b_amount r else 0) sends) =
            if b_token b =? t then b_amount b else 0.
Proof.
  intros Ha NN ET. unfold receive. rewrite ET. unfold receive_create. destruct x; [discriminate|]. destruct q; [|discriminate..].
  assert (KR : (if 0 <? b_amount b then
        match do_send_list e (add_balance d (b_token b) (b_amount b))
                [make_request self (b_from b) TSendRefund (b_amount b) (b_token b) []] with
        | Some (d2, l) => ROk RFail d2 l
        | None => RNone true
        end
      else ROk RFail d []) = ROk RFail d' sends ->
    d_rest d' = d_rest d /\ (forall t, bal d' t = bal d t) /\
  Forall (fun r => b_from r = self /\ b_to r = b_from b /\ b_fee r = 0 /\ 0 <= b_amount r) sends /\
  forall t, sumz (map (fun r => if b_token r =? t then b_amount r else 0) sends) =
            if b_token b =? t then b_amount b else 0).
  { destruct (Z.ltb_spec 0 (b_amount b)).
    - destruct (do_send_list_harmless e [make_request self (b_from b) TSendRefund (b_amount b) (b_token b) []]
                  (add_balance d (b_token b) (b_amount b))) as (d2 & E2 & R2 & B2).
      + repeat constructor; cbn; auto.
      + repeat constructor; cbn; lia.
      + intro t. rewrite bal_add. unfold carries, make_request. cbn [map sumz b_token b_amount b_fee]. specialize (NN t).
        rewrite (Z.eqb_sym t (b_token b)). destruct (b_token b =? t), (t =? vite); lia.
      + rewrite E2. intros [= <- <-]. split; [exact R2|]. split; [|split].
        * intro t. rewrite B2, bal_add. unfold carries, make_request. cbn [map sumz b_token b_amount b_fee].
          rewrite (Z.eqb_sym t (b_token b)). destruct (b_token b =? t), (t =? vite); lia.
        * repeat constructor; cbn; lia.
        * intro t. cbn [map sumz make_request b_token b_amount]. destruct (b_token b =? t); cbn; lia.
    - intros [= <- <-]. repeat split; auto. intro t. cbn [map sumz]. destruct (b_token b =? t); lia. }
  destruct (cr_err _); [apply KR|]. destruct (do_send_list _ (set_rest _ _) _) as [[d2 l2]|]; [discriminate|apply KR].
Qed.

(** C37: in every history every block in transit is at a call depth of at most 512,
    so chains of contracts calling contracts are finite. *)
Theorem call_depth_bounded (init : S) (g : ledger S) ops :
  ledger_ok g -> Forall op_ok ops -> Forall (fun s => 0 <= sn_depth s <= 512) (g_flight (lrun init g ops)).
Proof. intros HG HO. apply (lo_depth _ (proj1 (lrun_ok init ops g HG HO))). Qed.

(** C37: what is sent while handling a request is put in transit exactly one level deeper. *)
Theorem requests_one_level_deeper (init : S) (g g' : ledger S) e q u x h s st sends :
  find (fun s => sn_hash s =? h) (g_flight g) = Some s ->
  lstep init g (OpReceive e q u x h) = LOk g' st sends ->
  (forall s', In s' (g_flight g') -> In s' (g_flight g) \/ In (sn_block s') sends /\ sn_depth s' = sn_depth s + 1) /\
  (forall b, In b sends -> exists s', In s' (g_flight g') /\ sn_block s' = b /\ sn_depth s' = sn_depth s + 1).
Proof.
  intros F H. cbn [lstep] in H. rewrite F in H.
  destruct (receive _ _ _ _ _ _ _ _) as [st' d' l| |]; try discriminate. injection H as <- <- <-. cbn [g_flight].
  assert (E : forall l n k, (forall s', In s' (enlist n k l) -> In (sn_block s') l /\ sn_depth s' = k) /\
                (forall b, In b l -> exists s', In s' (enlist n k l) /\ sn_block s' = b /\ sn_depth s' = k)).
  { induction l0 as [|b r IH]; cbn [enlist]; intros n k; [split; intros ? []|]. destruct (IH (n + 1) k) as [I1 I2]. split.
    - intros s' [<-|K]; cbn; auto. destruct (I1 s' K); auto.
    - intros b' [<-|K]; [exists (mkSent n k b); cbn; auto|]. destruct (I2 b' K) as (s' & ? & ?). exists s'; cbn; auto. }
  destruct (E l (g_next g) (sn_depth s + 1)) as [E1 E2]. split.
  - intros s' K. apply in_app_iff in K as [K|K]; [|auto]. left. apply filter_In in K. tauto.
  - intros b K. destruct (E2 b K) as (s' & ? & ?). exists s'. rewrite in_app_iff. auto.
Qed.

(** C37: a call received at that depth sends nothing further and never runs code. *)
Theorem depth_limit_stops (e : lenv S) q u x depth d self b st d' sends :
  512 <= depth -> b_type b = TSendCall -> receive e q u x depth d self b = ROk st d' sends ->
  sends = [] /\ d_rest d' = d_rest d.
Proof.
  intros HD ET. unfold receive. rewrite ET. unfold receive_call, call_depth. destruct (Z.leb_spec 512 depth); [|lia].
  intros [= <- <- <-]. auto.
Qed.

End Theorems.

(** ** Concrete cases *)

(** Address 7 is a built-in contract whose only method takes a fee of 5 and fails on an
    empty payload, burns on [1], and issues 1000 of token 3 to the caller on [2]; address
    8 is a user contract that always reverts; others are users. The rest of an account is
    a number. *)
Definition demo_method : bmethod Z :=
  mkMethod Z (fun _ => Some 5) (fun _ b => Some (b_data b))
    (fun d b => if zlist_eqb (b_data b) [1] then Some (d_rest d + 1, true, [])
       else if zlist_eqb (b_data b) [2] then Some (d_rest d + 1, false, [mkBlock 7 (b_from b) TSendReward 3 1000 0 []])
       else None)
    (fun _ => ([], false)).
Definition demo_env : lenv Z :=
  mkLenv Z (fun a _ => if a =? 7 then BMethod demo_method else BNone) (fun a => a =? 8) (fun a => a =? 7)
    (fun _ => true) (fun _ => 99) (fun d _ => mkRun (Some COther) (d_rest d + 50) []) (fun d _ => mkRun (Some COther) 1 []) true.
Definition genesis : ledger Z := mkLedger [(1, mkAdb [(vite, 20000000000000000000); (4, 100)] 0)] [] 0.

Lemma demo_env_ok : env_ok demo_env.
Proof.
  constructor.
  - cbn. intros a data p b f. destruct (a =? 7); [|discriminate]. intros [= <-] [= <-]. lia.
  - cbn. intros a data p d b r burn sends. destruct (a =? 7); [|discriminate]. intros [= <-]. cbn.
    destruct (zlist_eqb (b_data b) [1]); [intros [= <- <- <-]; constructor|].
    destruct (zlist_eqb (b_data b) [2]); [intros [= <- <- <-]; repeat constructor; cbn; lia|discriminate].
  - constructor.
  - constructor.
Qed.
Lemma genesis_ok : ledger_ok genesis.
Proof.
  constructor; cbn; try solve [repeat constructor; cbn; tauto].
  intros a d t. destruct (a =? 1); [|discriminate]. intros [= <-]. unfold bal; cbn.
  destruct (t =? vite); [lia|]. destruct (t =? 4); lia.
Qed.

Definition call (to token amount : Z) (data : list Z) : sblock := mkBlock 1 to TSendCall token amount 0 data.
Definition recv (h : Z) : op Z := OpReceive demo_env QOk false false h.
(** failed built-in call (refund 30+5), burn of 40, issue of 1000, transfer, reverted contract call, overdraft *)
Definition demo_ops : list (op Z) :=
  [ OpSend demo_env true (call 7 vite 30 []); recv 0; recv 1;
    OpSend demo_env true (call 7 4 40 [1]); recv 2;
    OpSend demo_env true (call 7 vite 0 [2]); recv 3; recv 4;
    OpSend demo_env true (call 2 4 10 []); recv 5;
    OpSend demo_env true (call 8 4 10 []); recv 6;
    OpSend demo_env true (call 2 4 1000 []);
    recv 5 ].

(** the hypotheses of the history theorems hold of this history, and something happens in it *)
Example demo_history_ok : ledger_ok genesis /\ Forall op_ok demo_ops.
Proof.
  split; [exact genesis_ok|]. pose proof demo_env_ok. repeat (apply Forall_cons || apply Forall_nil); cbn; auto; split; auto; lia.
Qed.
Example demo_history_result :
  let g := lrun 0 genesis demo_ops in
  bal (acct_or 0 g 1) vite = 20000000000000000000 - 10 /\ bal (acct_or 0 g 1) 4 = 40 /\ bal (acct_or 0 g 1) 3 = 1000 /\
  bal (acct_or 0 g 2) 4 = 10 /\ bal (acct_or 0 g 7) vite = 0 /\ d_rest (acct_or 0 g 7) = 2 /\ d_rest (acct_or 0 g 8) = 0 /\
  map (fun s => (b_to (sn_block s), b_amount (sn_block s))) (g_flight g) = [(1, 10)] /\
  supply 4 g = 60 /\ supply 3 g = 1000 /\ total_issued 0 3 genesis demo_ops = 1000 /\ total_destroyed 0 4 genesis demo_ops = 40 /\
  total_destroyed 0 vite genesis demo_ops = 10.
Proof. vm_compute. repeat split; reflexivity. Qed.

(** hypotheses of [failed_call_refunds_partial] met: both kinds of contract *)
Example demo_failed_calls :
  (exists d' s, receive demo_env QOk false false 0 (mkAdb [(4, 9)] 3) 8 (call 8 4 10 []) = ROk RFail d' [s] /\ b_amount s = 10) /\
  (exists d' s, receive demo_env QOk false false 0 (mkAdb [(4, 9)] 3) 7 (mkBlock 1 7 TSendCall vite 30 5 []) = ROk RFail d' [s] /\ b_amount s = 35) /\
  (exists d' s, receive demo_env QOk false false 0 (mkAdb [] 3) 99 (mkBlock 1 99 TSendCreate 4 30 create_fee []) = ROk RFail d' [s] /\ b_amount s = 30).
Proof. split; [|split]; eexists; eexists; vm_compute; split; reflexivity. Qed.

(** C09 is false without the exclusions. Full statement: *)
Definition failed_receive_always_refunds : Prop :=
  forall (e : lenv Z) q u x depth d self b st d' sends,
    0 <= b_amount b -> 0 <= b_fee b -> (forall t, 0 <= bal d t) -> st <> RSuccess ->
    receive e q u x depth d self b = ROk st d' sends ->
    (forall t, bal d' t = bal d t) /\
    forall t, sumz (map (fun r => if b_token r =? t then b_amount r else 0) sends) =
              (if b_token b =? t then b_amount b else 0) + (if t =? vite then b_fee b else 0).

(** a call cut off by the depth limit is not refunded: the callee keeps the amount *)
Theorem depth_cut_call_not_refunded_refuted :
  exists d' , receive demo_env QOk false false 512 (mkAdb [] 3) 8 (call 8 4 10 []) = ROk RDepth d' [] /\
    bal d' 4 = 10 /\ ~ failed_receive_always_refunds.
Proof.
  eexists. split; [vm_compute; reflexivity|]. split; [reflexivity|].
  intro H. destruct (H demo_env QOk false false 512 (mkAdb [] 3) 8 (call 8 4 10 []) RDepth _ _ ltac:(cbn; lia) ltac:(cbn; lia)
    ltac:(intro; cbn; lia) ltac:(discriminate) ltac:(vm_compute; reflexivity)) as [K _].
  specialize (K 4). vm_compute in K. discriminate.
Qed.
(** a failed creation does not give the creation fee back *)
Theorem failed_creation_keeps_fee_refuted :
  exists d' s, receive demo_env QOk false false 0 (mkAdb [] 3) 99 (mkBlock 1 99 TSendCreate vite 30 create_fee []) = ROk RFail d' [s] /\
    b_amount s = 30 /\ ~ failed_receive_always_refunds.
Proof.
  eexists; eexists. split; [vm_compute; reflexivity|]. split; [reflexivity|].
  intro H. destruct (H demo_env QOk false false 0 (mkAdb [] 3) 99 (mkBlock 1 99 TSendCreate vite 30 create_fee []) RFail _ _
    ltac:(vm_compute; discriminate) ltac:(vm_compute; discriminate)
    ltac:(intro; cbn; lia) ltac:(discriminate) ltac:(vm_compute; reflexivity)) as [_ K].
  specialize (K vite). vm_compute in K. discriminate.
Qed.

Print Assumptions balances_never_negative.
Print Assumptions send_pays_exactly.
Print Assumptions transfer_accepted_iff.
Print Assumptions token_supply_step.
Print Assumptions token_supply_history.
Print Assumptions only_minters_issue.
Print Assumptions failed_call_refunds_partial.
Print Assumptions refund_never_stuck.
Print Assumptions failed_creation_refunds_amount_partial.
Print Assumptions call_depth_bounded.
Print Assumptions depth_limit_stops.
Print Assumptions requests_one_level_deeper.
Print Assumptions depth_cut_call_not_refunded_refuted.
Print Assumptions failed_creation_keeps_fee_refuted.
