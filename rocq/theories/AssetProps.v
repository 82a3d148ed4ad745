(** Tokens: supply, owners, names (C15, C43). *)
From Verif Require Import Lib AssetModel AssetSpec AssetProofs.

Lemma hist_ok w0 h w : start_ok w0 -> ahist w0 h w -> start_ok w.
Proof.
  intros S. induction 1 as [|h w es er caller tok amount c w' ok H IH RQ AM FE DS R]; [exact S|].
  destruct ok; [|apply receive_fail in R; now subst]. exact (proj1 (step_ok es er w caller tok amount c w' IH RQ AM FE DS R)).
Qed.
Lemma sum_app f a b : sum_of f (a ++ b) = sum_of f a + sum_of f b.
Proof. induction a as [|x a IH]; [reflexivity|]. change (f x + sum_of f (a ++ b) = f x + sum_of f a + sum_of f b). rewrite IH. lia. Qed.

(** ** Supply *)
(** The recorded supply of a token is exactly what exists of it, in accounts and in transit, for VITE together with what was
    destroyed as fees. *)
Theorem supply_is_circulating w0 h w t : start_ok w0 -> ahist w0 h w ->
  supply w t = circulating w t + (if t =? vite then w_fees w else 0).
Proof. intros S H. apply (so_supply _ (hist_ok _ _ _ S H)). Qed.
(** It is what was issued and re-issued less what was burned. *)
Theorem supply_history w0 h w t : start_ok w0 -> ahist w0 h w ->
  supply w t = supply w0 t + sum_of (created t) h - sum_of (destroyed t) h.
Proof.
  intros S. induction 1 as [|h w es er caller tok amount c w' ok H IH RQ AM FE DS R]; [cbn; lia|].
  destruct ok; [|apply receive_fail in R; now subst].
  rewrite (proj2 (step_ok es er w caller tok amount c w' (hist_ok _ _ _ S H) RQ AM FE DS R) t), IH, !sum_app. cbn. lia.
Qed.
(** It is never negative, never above the maximum of a token that can be re-issued, and never needs more than 256 bits. *)
Theorem supply_bounds w0 h w t i : start_ok w0 -> ahist w0 h w -> a_info (w_st w) t = Some i ->
  0 <= t_total i < two256 /\ (t_re i = true -> t_total i <= t_max i < two256) /\ (t_re i = false -> t_max i = 0 /\ t_ob i = false).
Proof.
  intros S H E. destruct (so_info _ (hist_ok _ _ _ S H) t i E) as (A & B & C & D & _). unfold is_word in *.
  split; [exact A|]. split; [intro X; specialize (C X); lia|exact D].
Qed.
(** Nobody can hold or burn more than the recorded supply. *)
Theorem holdings_below_supply w0 h w t : start_ok w0 -> ahist w0 h w -> 0 <= w_out w t <= supply w t.
Proof.
  intros S H. pose proof (hist_ok _ _ _ S H) as K. rewrite (so_supply _ K). unfold circulating.
  pose proof (so_pos _ K t). pose proof (so_bal _ K t). pose proof (so_fees _ K). destruct (t =? vite); lia.
Qed.

(** ** Owners *)
Record change_ok (caller : Z) (i i' : tinfo) : Prop := mkCO {
  co_name : t_name i' = t_name i; co_symbol : t_symbol i' = t_symbol i; co_dec : t_dec i' = t_dec i; co_index : t_index i' = t_index i;
  co_more : t_total i < t_total i' -> caller = t_owner i /\ t_re i = true;
  co_less : t_total i' < t_total i -> t_ob i = true -> caller = t_owner i;
  co_owner : t_owner i' <> t_owner i -> caller = t_owner i /\ t_re i = true;
  co_re : t_re i' <> t_re i -> caller = t_owner i /\ t_re i = true;
  co_fixed : t_re i = false -> t_re i' = false /\ t_total i' <= t_total i;
  co_max : t_max i' <> t_max i -> caller = t_owner i /\ t_re i' = false;
  co_ob : t_ob i' <> t_ob i -> caller = t_owner i /\ t_re i' = false }.
Lemma pays outs : forall u, w_st (fold_left (fun w o => pay o w) outs u) = w_st u.
Proof. induction outs as [|o outs IH]; intro u; [reflexivity|]. cbn [fold_left]. rewrite IH. reflexivity. Qed.
Lemma receive_state er w caller tok amount c w' : receive er w caller tok amount c = (w', true) ->
  exists b outs, do_receive er (w_st w) (w_bal w tok + amount) caller tok amount c = Some (w_st w', b, outs).
Proof.
  unfold receive. destruct (do_receive er (w_st w) (w_bal w tok + amount) caller tok amount c) as [[[s b] outs]|]; [|discriminate].
  intros [= <-]. rewrite pays. eauto.
Qed.
(** A call never changes the name, symbol, decimals or index of a token; only the current owner can create more of it (and only
    while it can be re-issued), hand it over, or make it final; once final it can only shrink; and where only the owner may
    burn, only the owner does. *)
Theorem only_owner_changes w0 h w es er caller tok amount c w' t i : start_ok w0 -> ahist w0 h w -> request_ok c -> 0 <= amount <= w_out w tok ->
  do_send es caller amount c = true -> receive er w caller tok amount c = (w', true) -> a_info (w_st w) t = Some i ->
  exists i', a_info (w_st w') t = Some i' /\ change_ok caller i i'.
Proof.
  intros S H RQ AM DS R E. pose proof (hist_ok _ _ _ S H) as K. pose proof (so_info _ K t i E) as (I1 & I2 & I3 & I4 & I5).
  apply receive_state in R as (b & outs & D).
  assert (SAME : exists i', Some i = Some i' /\ change_ok caller i i') by (exists i; split; [reflexivity|split; intros; try lia; try congruence; split; [assumption|lia]]).
  destruct c as [re name symbol no so total dec maxs ob tid|t' amt to| | |t' owner|t'|t']; cbn [do_receive do_send] in *.
  - destruct (a_info (w_st w) tid) eqn:E'; [discriminate|]. destruct (a_next (w_st w) symbol =? index_max); [discriminate|]. injection D as <- <- <-. cbn [a_info].
    rewrite upd_other by congruence. rewrite E. exact SAME.
  - apply negb_true_iff, orb_false_iff in DS as [D1 D2]. destruct (a_info (w_st w) t') as [i'|] eqn:E'; [|discriminate].
    destruct (negb (t_re i') || negb (t_owner i' =? caller) || (t_max i' - t_total i' <? amt)) eqn:G; [discriminate|].
    apply orb_false_iff in G as [G G3]. apply orb_false_iff in G as [G1 G2]. apply negb_false_iff in G1. apply negb_false_iff in G2. injection D as <- <- <-. cbn [a_info].
    unfold upd. destruct (t =? t') eqn:Q; [|rewrite E; exact SAME]. apply Z.eqb_eq in Q. subst t'. rewrite E in E'. injection E' as <-. eexists. split; [reflexivity|].
    rewrite !pack_small by (unfold is_word in *; lia). split; cbn; intros; try lia; try congruence; split; lia || assumption.
  - apply negb_true_iff in DS. destruct (a_info (w_st w) tok) as [i'|] eqn:E'; [|discriminate].
    destruct ((negb er && negb (t_re i')) || (t_ob i' && negb (t_owner i' =? caller))) eqn:G; [discriminate|]. apply orb_false_iff in G as [G1 G2].
    destruct (w_bal w tok + amount <? amount); [discriminate|]. injection D as <- <- <-. cbn [a_info].
    unfold upd. destruct (t =? tok) eqn:Q; [|rewrite E; exact SAME]. apply Z.eqb_eq in Q. subst tok. rewrite E in E'. injection E' as <-. eexists. split; [reflexivity|].
    assert (LE : amount <= t_total i) by (pose proof (holdings_below_supply _ _ _ t S H) as X; unfold supply in X; rewrite E in X; lia).
    rewrite !pack_small by (unfold is_word in *; lia). split; cbn; intros; try lia; try congruence; try (split; lia || assumption).
    rewrite H1 in G2. cbn in G2. lia.
  - discriminate.
  - destruct (a_info (w_st w) t') as [i'|] eqn:E'; [|discriminate]. destruct (negb (t_re i') || negb (t_owner i' =? caller)) eqn:G; [discriminate|].
    apply orb_false_iff in G as [G1 G2]. apply negb_false_iff in G1. apply negb_false_iff in G2. injection D as <- <- <-. cbn [a_info].
    unfold upd. destruct (t =? t') eqn:Q; [|rewrite E; exact SAME]. apply Z.eqb_eq in Q. subst t'. rewrite E in E'. injection E' as <-. eexists. split; [reflexivity|].
    rewrite !pack_small by assumption. split; cbn; intros; try lia; try congruence; split; lia || assumption.
  - destruct (a_info (w_st w) t') as [i'|] eqn:E'; [|discriminate]. destruct (negb (t_re i') || negb (t_owner i' =? caller)) eqn:G; [discriminate|].
    apply orb_false_iff in G as [G1 G2]. apply negb_false_iff in G1. apply negb_false_iff in G2. injection D as <- <- <-. cbn [a_info].
    unfold upd. destruct (t =? t') eqn:Q; [|rewrite E; exact SAME]. apply Z.eqb_eq in Q. subst t'. rewrite E in E'. injection E' as <-. eexists. split; [reflexivity|].
    rewrite !pack_small by assumption. split; cbn; intros; try lia; try congruence; split; lia || auto.
  - injection D as <- <- <-. rewrite E. exact SAME.
Qed.
(** A call that fails changes nothing at all: amount and fee come back. *)
Theorem failed_call_changes_nothing er w caller tok amount c w' : receive er w caller tok amount c = (w', false) -> w' = w.
Proof. apply receive_fail. Qed.
Ltac cond D := match type of D with (if ?b then _ else _) = _ => destruct b; [discriminate|] end.
(** Tokens appear only by being issued, to their issuer, as requested. *)
Theorem new_token_as_requested w0 h w es er caller tok amount c w' t i : start_ok w0 -> ahist w0 h w -> request_ok c ->
  do_send es caller amount c = true -> receive er w caller tok amount c = (w', true) -> a_info (w_st w) t = None -> a_info (w_st w') t = Some i ->
  exists re name symbol total dec maxs ob, c = CIssue re name symbol true true total dec maxs ob t /\
  i = mkT name symbol total dec caller re maxs ob (a_next (w_st w) symbol) /\ symbol <> s_vite /\ symbol <> s_vcp /\ symbol <> s_vx.
Proof.
  intros S H RQ DS R E E2. apply receive_state in R as (b & outs & D). revert E2 D. generalize (w_st w'). intros s' E2 D.
  destruct c as [re name symbol no so total dec maxs ob tid|t' amt to| | |t' owner|t'|t']; cbn [do_receive do_send] in *; try discriminate.
  - apply andb_prop in DS as [_ CT]. apply check_token_inv in CT as (_ & _ & A & B & C & -> & -> & _ & _). destruct RQ as (RT & _ & RM).
    destruct (a_info (w_st w) tid) eqn:E'; [discriminate|]. destruct (a_next (w_st w) symbol =? index_max); [discriminate|]. injection D as <- <- <-. cbn [a_info] in E2.
    unfold upd in E2. destruct (t =? tid) eqn:Q; [|congruence]. apply Z.eqb_eq in Q. subst. injection E2 as <-. rewrite !pack_small by assumption.
    do 7 eexists. split; [reflexivity|]. auto.
  - exfalso. destruct (a_info (w_st w) t') as [i'|] eqn:E'; [|discriminate]. cond D. injection D as <- <- <-. cbn in E2. unfold upd in E2. destruct (t =? t') eqn:Q; [apply Z.eqb_eq in Q; subst|]; congruence.
  - exfalso. destruct (a_info (w_st w) tok) as [i'|] eqn:E'; [|discriminate]. cond D. cond D. injection D as <- <- <-. cbn in E2. unfold upd in E2. destruct (t =? tok) eqn:Q; [apply Z.eqb_eq in Q; subst|]; congruence.
  - exfalso. destruct (a_info (w_st w) t') as [i'|] eqn:E'; [|discriminate]. cond D. injection D as <- <- <-. cbn in E2. unfold upd in E2. destruct (t =? t') eqn:Q; [apply Z.eqb_eq in Q; subst|]; congruence.
  - exfalso. destruct (a_info (w_st w) t') as [i'|] eqn:E'; [|discriminate]. cond D. injection D as <- <- <-. cbn in E2. unfold upd in E2. destruct (t =? t') eqn:Q; [apply Z.eqb_eq in Q; subst|]; congruence.
  - congruence.
Qed.

(** ** Names *)
(** Two tokens never have the same symbol and index. *)
Theorem symbol_index_unique w0 h w t t' i i' : start_ok w0 -> ahist w0 h w -> a_info (w_st w) t = Some i -> a_info (w_st w) t' = Some i' ->
  t_symbol i = t_symbol i' -> t_index i = t_index i' -> t = t'.
Proof. intros S H. apply (so_index _ (hist_ok _ _ _ S H)). Qed.
(** Nobody can issue another VITE, VCP or VX. *)
Theorem reserved_symbols w0 h w t i : start_ok w0 -> ahist w0 h w -> a_info (w_st w) t = Some i ->
  t_symbol i = s_vite \/ t_symbol i = s_vcp \/ t_symbol i = s_vx -> exists i0, a_info (w_st w0) t = Some i0 /\ t_symbol i0 = t_symbol i.
Proof.
  intros S H. revert i. induction H as [|h w es er caller tok amount c w' ok H IH RQ AM FE DS R]; intros i E X; [eauto|].
  destruct ok; [|apply receive_fail in R; subst; auto].
  destruct (a_info (w_st w) t) as [i1|] eqn:E1.
  - destruct (only_owner_changes _ _ _ es er caller tok amount c w' t i1 S H RQ AM DS R E1) as (i2 & E2 & C). rewrite E in E2. injection E2 as <-.
    pose proof (co_symbol _ _ _ C) as Q. rewrite Q in X. destruct (IH i1 eq_refl X) as (i0 & A & B). exists i0. split; congruence.
  - destruct (new_token_as_requested _ _ _ es er caller tok amount c w' t i S H RQ DS R E1 E) as (re & n & sy & tt & d & m & ob & _ & -> & A & B & C). cbn in X. tauto.
Qed.

(** ** The list of an owner's tokens *)
Definition lists_exact (w : world) : Prop := forall a, NoDup (a_own (w_st w) a) /\ forall t, In t (a_own (w_st w) a) <-> owns w a t.
Lemma delete_in l t : NoDup l -> forall x, In x (delete_id l t) <-> In x l /\ x <> t.
Proof.
  induction l as [|y l IH]; intros N x; [cbn; tauto|]. inversion N as [|? ? N1 N2]. subst. cbn. destruct (y =? t) eqn:E.
  - apply Z.eqb_eq in E. subst. split; [intro; split; [auto|congruence]|intros [[->|] ?]; [congruence|auto]].
  - cbn. rewrite (IH N2). split; [intros [->|[]]; [split; [auto|lia]|split; auto]|intros [[->|] ?]; auto].
Qed.
Lemma delete_nodup l t : NoDup l -> NoDup (delete_id l t).
Proof.
  induction 1 as [|y l N1 N2 IH]; cbn; [constructor|]. destruct (y =? t); [auto|]. constructor; [|exact IH]. rewrite (delete_in l t N2). tauto.
Qed.
Lemma nodup_snoc (l : list Z) x : NoDup l -> ~ In x l -> NoDup (l ++ [x]).
Proof. intros N H. induction N as [|y l N1 N2 IH]; cbn; [repeat constructor; auto|]. constructor; [rewrite in_app_iff; cbn in *; intros [|[->|[]]]; auto|apply IH; cbn in H; tauto]. Qed.
(** The list shown for an owner contains exactly the tokens of that owner, each once, provided this was so at the start. *)
Theorem owner_list_partial w0 h w : start_ok w0 -> lists_exact w0 -> ahist w0 h w -> lists_exact w.
Proof.
  intros S L0. induction 1 as [|h w es er caller tok amount c w' ok H IH RQ AM FE DS R]; [exact L0|].
  destruct ok; [|apply receive_fail in R; subst; auto]. apply receive_state in R as (b & outs & D). unfold lists_exact, owns in *.
  assert (KEEP : forall t i i' s', a_info (w_st w) t = Some i -> t_owner i' = t_owner i -> a_info s' = upd (a_info (w_st w)) t (Some i') -> a_own s' = a_own (w_st w) ->
    forall a, NoDup (a_own s' a) /\ forall x, In x (a_own s' a) <-> exists j, a_info s' x = Some j /\ t_owner j = a).
  { intros t i i' s' E O I1 I2 a. rewrite I1, I2. destruct (IH a) as [N X]. split; [exact N|]. intro x. rewrite X. unfold upd. destruct (x =? t) eqn:Q; [|reflexivity].
    apply Z.eqb_eq in Q. subst. rewrite E. split; intros (j & [= <-] & <-); eexists; (split; [reflexivity|congruence]). }
  destruct c as [re name symbol no so total dec maxs ob tid|t' amt to| | |t' owner|t'|t']; cbn [do_receive do_send] in *; try discriminate.
  - destruct (a_info (w_st w) tid) eqn:E'; [discriminate|]. destruct (a_next (w_st w) symbol =? index_max); [discriminate|]. injection D as <- <- <-. cbn [a_info a_own].
    intro a. destruct (IH a) as [N X].
    assert (NT : forall a, ~ In tid (a_own (w_st w) a)) by (intros a0 Q; apply (proj1 (proj2 (IH a0) tid)) in Q as (j & Q & _); congruence).
    unfold upd at 1 2. destruct (a =? caller) eqn:Q.
    + apply Z.eqb_eq in Q. subst a. split; [apply nodup_snoc; auto|]. intro x. rewrite in_app_iff, X. unfold upd. destruct (x =? tid) eqn:Q2.
      * apply Z.eqb_eq in Q2. subst. split; [intros _; eexists; split; reflexivity|intros _; right; now left].
      * split; [intros [|[<-|[]]]; [auto|lia]|auto].
    + split; [exact N|]. intro x. rewrite X. unfold upd. destruct (x =? tid) eqn:Q2; [|reflexivity]. apply Z.eqb_eq in Q2. subst. rewrite E'.
      split; [intros (j & ? & _); discriminate|intros (j & [= <-] & O); cbn in O; lia].
  - destruct (a_info (w_st w) t') as [i'|] eqn:E'; [|discriminate]. cond D. injection D as <- <- <-. eapply KEEP; [eassumption| |reflexivity|reflexivity]; reflexivity.
  - destruct (a_info (w_st w) tok) as [i'|] eqn:E'; [|discriminate]. cond D. cond D. injection D as <- <- <-. eapply KEEP; [eassumption| |reflexivity|reflexivity]; reflexivity.
  - apply andb_prop in DS as [_ DS]. apply negb_true_iff in DS. destruct (a_info (w_st w) t') as [i'|] eqn:E'; [|discriminate]. destruct (negb (t_re i') || negb (t_owner i' =? caller)) eqn:G; [discriminate|].
    apply orb_false_iff in G as [_ G]. apply negb_false_iff in G. injection D as <- <- <-. cbn [a_info a_own]. intro a. destruct (IH a) as [N X].
    destruct (IH caller) as [NC XC]. destruct (IH owner) as [NO XO].
    unfold upd. replace (owner =? caller) with false by lia. destruct (a =? owner) eqn:Q1.
    + apply Z.eqb_eq in Q1. subst a. split.
      * apply nodup_snoc; [exact NO|]. rewrite XO. intros (j & Ej & Oj). rewrite E' in Ej. injection Ej as <-. lia.
      * intro x. rewrite in_app_iff, XO. destruct (x =? t') eqn:Q2.
        -- apply Z.eqb_eq in Q2. subst. split; [intros _; eexists; split; reflexivity|intros _; right; now left].
        -- split; [intros [|[<-|[]]]; [auto|lia]|auto].
    + destruct (a =? caller) eqn:Q2.
      * apply Z.eqb_eq in Q2. subst a. split; [apply delete_nodup; exact NC|]. intro x. rewrite (delete_in _ _ NC), XC. destruct (x =? t') eqn:Q3.
        -- split; [intros [_ ?]; lia|intros (j & [= <-] & O); cbn in O; lia].
        -- split; [intros [? _]; auto|intros ?; split; [auto|lia]].
      * split; [exact N|]. intro x. rewrite X. destruct (x =? t') eqn:Q3; [|reflexivity]. apply Z.eqb_eq in Q3. subst. rewrite E'.
        split; [intros (j & [= <-] & O); lia|intros (j & [= <-] & O); cbn in O; lia].
  - destruct (a_info (w_st w) t') as [i'|] eqn:E'; [|discriminate]. cond D. injection D as <- <- <-. eapply KEEP; [eassumption| |reflexivity|reflexivity]; reflexivity.
  - injection D as <- <- <-. exact IH.
Qed.

(** ** Starting points and histories that meet the hypotheses *)
Definition g_info : tinfo := mkT [118] s_vite (10 ^ 27) 18 7 true (2 ^ 255) false 0.
Definition g_world : world := mkW (genesis [(vite, g_info)] empty_state) (fun _ => 0) (fun t => if t =? vite then 10 ^ 27 else 0) 0.
Example genesis_ok : start_ok g_world.
Proof.
  split; cbn [g_world w_st w_bal w_out w_fees genesis a_info a_next].
  - intros t i. unfold upd. destruct (t =? vite); [|discriminate]. intros [= <-]. unfold info_ok, is_word. cbn [t_total t_max t_re t_index t_ob]. vm_compute. repeat split; intros; congruence || discriminate.
  - intro t. unfold supply, circulating, g_world. cbn [w_st w_bal w_out w_fees genesis a_info]. unfold upd. destruct (t =? vite); [vm_compute; reflexivity|reflexivity].
  - intro t. destruct (t =? vite); lia.
  - intro; lia.
  - lia.
  - intro x. cbn [t_symbol g_info]. destruct (zlist_eqb x s_vite); vm_compute; split; discriminate.
  - intros t i. unfold upd. destruct (t =? vite); [|discriminate]. intros [= <-]. reflexivity.
  - intros t t' i i'. unfold upd. destruct (t =? vite) eqn:A; [|discriminate]. destruct (t' =? vite) eqn:B; [|discriminate]. lia.
Qed.
(** The list of an owner misses the tokens of the genesis block. *)
Theorem owner_list_genesis_refuted : start_ok g_world /\ owns g_world 7 vite /\ tokens_of (w_st g_world) 7 = [].
Proof. split; [apply genesis_ok|]. split; [|reflexivity]. eexists. split; reflexivity. Qed.
Definition sy : list Z := [65; 66].
Definition issue1 : acall := CIssue true [97] sy true true 500 2 1000 false 42.
Definition w1 : world := fst (receive true g_world 3 vite 0 issue1).
Definition w2 : world := fst (receive true w1 3 vite 0 (CReissue 42 300 5)).
Definition w3 : world := fst (receive true w2 5 42 100 CBurn).
Definition w4 : world := fst (receive true w3 3 vite 0 (CTransfer 42 5)).
Definition w5 : world := fst (receive true w4 5 vite 0 (CDisable 42)).
Lemma h_call' w0 h w caller tok amount c : ahist w0 h w -> request_ok c -> 0 <= amount <= w_out w tok -> fee c <= w_out w vite - (if tok =? vite then amount else 0) ->
  do_send true caller amount c = true -> snd (receive true w caller tok amount c) = true -> ahist w0 (h ++ [mkE caller tok amount c]) (fst (receive true w caller tok amount c)).
Proof. intros H A B C D E. refine (h_call w0 h w true true caller tok amount c _ true H A B C D _). destruct (receive true w caller tok amount c) as [x y]. cbn in E |- *. now subst. Qed.
Ltac close := vm_compute; repeat split; try discriminate.
(** issued, re-issued, partly burned by a holder, handed over, made final *)
Example history_ex : ahist g_world [mkE 3 vite 0 issue1; mkE 3 vite 0 (CReissue 42 300 5); mkE 5 42 100 CBurn; mkE 3 vite 0 (CTransfer 42 5); mkE 5 vite 0 (CDisable 42)] w5 /\
  supply w5 42 = 700 /\ circulating w5 42 = 700 /\ w_fees w5 = 1000 * 10 ^ 18 /\ tokens_of (w_st w5) 5 = [(42, Some (mkT [97] sy 700 2 5 false 0 false 0))] /\ a_own (w_st w5) 3 = [].
Proof.
  split; [|vm_compute; auto 6].
  assert (H1 : ahist g_world [mkE 3 vite 0 issue1] w1) by (apply (h_call' g_world []); [apply h_start|repeat split; close..]).
  assert (H2 := h_call' _ _ _ 3 vite 0 (CReissue 42 300 5) H1 ltac:(close) ltac:(close) ltac:(close) ltac:(close) ltac:(close)). fold w2 in H2.
  assert (H3 := h_call' _ _ _ 5 42 100 CBurn H2 ltac:(close) ltac:(close) ltac:(close) ltac:(close) ltac:(close)). fold w3 in H3.
  assert (H4 := h_call' _ _ _ 3 vite 0 (CTransfer 42 5) H3 ltac:(close) ltac:(close) ltac:(close) ltac:(close) ltac:(close)). fold w4 in H4.
  assert (H5 := h_call' _ _ _ 5 vite 0 (CDisable 42) H4 ltac:(close) ltac:(close) ltac:(close) ltac:(close) ltac:(close)). fold w5 in H5.
  exact H5.
Qed.
Example refused_ex : snd (receive true g_world 3 vite 0 (CReissue vite 1 3)) = false /\ snd (receive true g_world 7 vite 0 (CReissue vite 1 3)) = true /\
  do_send true 3 0 (CIssue false [97] s_vite true true 5 0 0 false 9) = false /\ do_send true 3 0 (CIssue true [97] sy true true 5 0 4 false 9) = false.
Proof. vm_compute. auto. Qed.
Example lists_ex : lists_exact (mkW empty_state (fun _ => 0) (fun _ => 0) 0).
Proof. intro a. split; [constructor|]. intro t. split; [intros []|intros (i & ? & _); discriminate]. Qed.

Print Assumptions supply_is_circulating.
Print Assumptions supply_history.
Print Assumptions supply_bounds.
Print Assumptions holdings_below_supply.
Print Assumptions only_owner_changes.
Print Assumptions failed_call_changes_nothing.
Print Assumptions new_token_as_requested.
Print Assumptions symbol_index_unique.
Print Assumptions reserved_symbols.
Print Assumptions owner_list_partial.
Print Assumptions owner_list_genesis_refuted.
