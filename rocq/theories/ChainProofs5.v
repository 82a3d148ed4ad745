(** Acceptance of a block, and the invariant along histories. *)
From Verif Require Import Lib ChainModel ChainSpec ChainProofs ChainProofs2 ChainProofs3 ChainProofs4.

Lemma get_in : forall s k v, In (k, v) s -> exists w, get s k = Some w.
Proof.
  induction s as [|[k' v'] s IH]; intros k v H; [destruct H|]. cbn [get].
  destruct (key_eqb k k') eqn:E; [eauto|]. destruct H as [[= -> ->]|H]; [rewrite key_eqb_refl in E; discriminate|eauto].
Qed.
Lemma in_get : forall s k v, get s k = Some v -> In (k, v) s.
Proof.
  induction s as [|[k' v'] s IH]; intros k v H; [discriminate|]. cbn [get] in H.
  destruct (key_eqb k k') eqn:E; [|right; auto]. apply key_eqb_eq in E. injection H as <-. subst; left; auto.
Qed.

Lemma latest_height_gen : forall (s : store) a m0,
  let m := fold_left (fun m (p : key * val) => match fst p with KHeight a' n => if (a' =? a) && (m <? n) then n else m | _ => m end) s m0 in
  m0 <= m /\ (m = m0 \/ exists v, In (KHeight a m, v) s) /\ forall n v, In (KHeight a n, v) s -> n <= m.
Proof.
  induction s as [|[k v] s IH]; intros a m0; cbn [fold_left fst].
  - repeat split; [lia|auto|intros ? ? []].
  - set (m1 := match k with KHeight _ _ => _ | _ => _ end).
    assert (A : m0 <= m1 /\ (m1 = m0 \/ k = KHeight a m1) /\ forall n, k = KHeight a n -> n <= m1).
    { unfold m1. destruct k as [|a' n| |]; try (repeat split; [lia|auto|discriminate]).
      destruct (a' =? a) eqn:E1; cbn [andb].
      - apply Z.eqb_eq in E1; subst a'. destruct (m0 <? n) eqn:E2; repeat split; try lia; auto; intros n' [= <-]; lia.
      - repeat split; [lia|auto|]. intros n' [= -> _]. rewrite Z.eqb_refl in E1; discriminate. }
    destruct A as (A1 & A2 & A3). specialize (IH a m1). cbn zeta in IH. destruct IH as (B1 & B2 & B3).
    split; [lia|]. split.
    + destruct B2 as [B2|(w & B2)]; [|right; exists w; right; auto].
      rewrite B2. destruct A2 as [A2|A2]; [left; auto|right; exists v; left; rewrite <- A2; auto].
    + intros n w [[= H _]|H]; [|eauto]. specialize (A3 _ H). lia.
Qed.

Lemma latest_gen : forall c a, (forall a n v, get (c_db c) (KHeight a n) = Some v <-> means (blocks c) (KHeight a n) v) ->
  NoDup (map place (blocks c)) -> (forall b, In b (blocks c) -> 1 <= k_height b) ->
  match latest c a with
  | None => forall b, In b (blocks c) -> k_addr b <> a
  | Some x => In x (blocks c) /\ k_addr x = a /\ forall b, In b (blocks c) -> k_addr b = a -> k_height b <= k_height x
  end.
Proof.
  intros c a X NP HP. unfold latest, latest_height.
  pose proof (latest_height_gen (c_db c) a 0) as L. cbn zeta in L.
  set (m := fold_left _ (c_db c) 0) in *. destruct L as (L1 & L2 & L3).
  assert (UB : forall b, In b (blocks c) -> k_addr b = a -> k_height b <= m).
  { intros b Hb E. apply (L3 (k_height b) (VHash (k_hash b))). apply in_get. apply X. exists b.
    repeat split; auto. unfold place; congruence. }
  destruct (m <=? 0) eqn:EM.
  - intros b Hb E. specialize (UB b Hb E). pose proof (HP _ Hb). lia.
  - destruct L2 as [L2|(v & L2)]; [lia|]. apply get_in in L2 as (w & L2). apply X in L2.
    destruct w; cbn [means] in L2; try contradiction. destruct L2 as (x & Hx & Px & _).
    assert (block_at c a m = Some x) as ->.
    { unfold block_at. destruct (find _ (blocks c)) as [y|] eqn:F.
      - apply find_some in F as [Hy E]. apply andb_true_iff in E as [E1 E2]. apply Z.eqb_eq in E1, E2. f_equal.
        apply (nodup_map_inj place (blocks c)); auto. rewrite Px. unfold place; congruence.
      - exfalso. pose proof (find_none _ _ F x Hx) as Q. unfold place in Px. cbn beta in Q.
        injection Px as P1 P2. rewrite P1, P2, !Z.eqb_refl in Q. discriminate. }
    unfold place in Px. injection Px as P1 P2. repeat split; auto. intros b Hb E. specialize (UB b Hb E). lia.
Qed.

Lemma latest_spec : forall c a, exact (c_db c) (blocks c) -> wf (blocks c) ->
  match latest c a with
  | None => forall b, In b (blocks c) -> k_addr b <> a
  | Some x => In x (blocks c) /\ k_addr x = a /\ forall b, In b (blocks c) -> k_addr b = a -> k_height b <= k_height x
  end.
Proof.
  intros c a X W. apply latest_gen; [intros; apply X|apply W|intros; eapply wf_heights; eauto].
Qed.

Lemma block_at_spec : forall c a n x, wf (blocks c) -> In x (blocks c) -> place x = (a, n) -> block_at c a n = Some x.
Proof.
  intros c a n x W Hx Px. unfold block_at. destruct (find _ (blocks c)) as [y|] eqn:F.
  - apply find_some in F as [Hy E]. apply andb_true_iff in E as [E1 E2]. apply Z.eqb_eq in E1, E2. f_equal.
    apply (nodup_map_inj place (blocks c)); auto; [apply W|]. rewrite Px. unfold place; congruence.
  - exfalso. pose proof (find_none _ _ F x Hx) as Q. unfold place in Px. cbn beta in Q.
    injection Px as P1 P2. rewrite P1, P2, !Z.eqb_refl in Q. discriminate.
Qed.

Lemma plain_or_genesis : forall U g c, Inv U g c -> forall b, In b (blocks c) -> is_send b = true -> k_subs b = [].
Proof.
  intros U g c (W & EX & (rest & CH & PL) & GG & UU) b Hb S. unfold blocks, confirmed in Hb. rewrite CH in Hb.
  cbn [concat] in Hb. rewrite <- app_assoc in Hb. apply in_app_iff in Hb as [Hb|Hb].
  - unfold is_send in S. rewrite (GG b Hb) in S. discriminate.
  - apply (PL b Hb); auto.
Qed.

Lemma get_send_spec : forall U g c h t, Inv U g c -> (get_send c h = Some t <-> sent (blocks c) h t).
Proof.
  intros U g c h t IV. pose proof (plain_or_genesis _ _ _ IV) as PG. destruct IV as (W & X & _). unfold exact in X.
  assert (FI : forall b, In b (blocks c) -> In h (hashes_of b) ->
     get_send c h = match k_kind b with Send t => Some t | _ => if k_hash b =? h then None
       else match find (fun p => fst p =? h) (k_subs b) with Some p => Some (snd p) | None => None end end).
  { intros b Hb Hh. unfold get_send.
    assert (get (c_db c) (KHash h) = Some (VAddrHeight (k_addr b) (k_height b))) as -> by (apply X; exists b; auto).
    rewrite (block_at_spec c _ _ b W Hb eq_refl). reflexivity. }
  split.
  - intros H.
    assert (E : exists b, In b (blocks c) /\ In h (hashes_of b)).
    { unfold get_send in H. destruct (get (c_db c) (KHash h)) as [[a n| | |]|] eqn:G; try discriminate.
      apply X in G as (b & Hb & Hh & _). eauto. }
    destruct E as (b & Hb & Hh). rewrite (FI b Hb Hh) in H. exists b. split; auto. unfold sends_of.
    unfold hashes_of in Hh.
    destruct (k_kind b) as [t0|f e|] eqn:K.
    + injection H as <-. unfold is_send in PG. specialize (PG b Hb). rewrite K in PG. rewrite (PG eq_refl) in Hh.
      destruct Hh as [<-|[]]. left; auto.
    + destruct (k_hash b =? h); [discriminate|]. destruct (find _ (k_subs b)) as [p|] eqn:F; [|discriminate].
      injection H as <-. apply find_some in F as [F E]. apply Z.eqb_eq in E. subst h. destruct p; auto.
    + destruct (k_hash b =? h); [discriminate|]. destruct (find _ (k_subs b)) as [p|] eqn:F; [|discriminate].
      injection H as <-. apply find_some in F as [F E]. apply Z.eqb_eq in E. subst h. destruct p; auto.
  - intros (b & Hb & S). pose proof (sends_hashes _ _ _ S) as Hh. rewrite (FI b Hb Hh).
    pose proof (uniq_in_nodup _ b (proj1 W) Hb) as N. unfold hashes_of in N. apply NoDup_cons_iff in N as [N1 N2].
    assert (SUB : In (h, t) (k_subs b) -> (if k_hash b =? h then None
       else match find (fun p => fst p =? h) (k_subs b) with Some p => Some (snd p) | None => None end) = Some t).
    { intros Q. destruct (k_hash b =? h) eqn:E.
      { apply Z.eqb_eq in E. exfalso. apply N1. rewrite E. apply in_map_fst; eauto. }
      destruct (find _ (k_subs b)) as [p|] eqn:F.
      - apply find_some in F as [F E']. apply Z.eqb_eq in E'.
        assert (p = (h, t)) as -> by (apply (nodup_map_inj fst (k_subs b)); auto). reflexivity.
      - pose proof (find_none _ _ F _ Q) as Z0. cbn in Z0. rewrite Z.eqb_refl in Z0. discriminate. }
    unfold sends_of in S. destruct (k_kind b) as [t0|f e|] eqn:K; auto.
    unfold is_send in PG. specialize (PG b Hb). rewrite K in PG. rewrite (PG eq_refl) in S.
    destruct S as [[= <- <-]|[]]. reflexivity.
Qed.

Lemma is_received_spec : forall c h, exact (c_db c) (blocks c) -> (is_received c h = true <-> received (blocks c) h).
Proof.
  intros c h X. unfold exact in X. unfold is_received. split.
  - destruct (get (c_db c) (KRecv h)) as [[| r | |]|] eqn:G; try discriminate. intros _.
    apply X in G as (b & Hb & R & _). exists b; auto.
  - intros (b & Hb & R). assert (get (c_db c) (KRecv h) = Some (VHash (k_hash b))) as -> by (apply X; exists b; auto). auto.
Qed.

Lemma insert_inv : forall U g c others b, no_collision U -> Inv U g c -> U b -> accept c others b = true -> Inv U g (insert c b).
Proof.
  intros U g c others b (NC1 & NC2) IV Ub H.
  destruct (IV) as (W & X & (rest & CH & PL) & GG & UU).
  unfold accept in H. apply andb_true_iff in H as [H HK]. apply andb_true_iff in H as [_ HL].
  pose proof (latest_spec c (k_addr b) X W) as L.
  assert (G1 : (k_height b = 1 /\ k_prev b = 0 \/ exists x, In x (blocks c) /\ follows x b) /\
               forall x, In x (blocks c) -> place x <> place b).
  { destruct (latest c (k_addr b)) as [x|]; apply andb_true_iff in HL as [E1 E2]; apply Z.eqb_eq in E1, E2.
    - destruct L as (Hx & Ax & M). split.
      + right. exists x. unfold follows. auto.
      + intros y Hy E. unfold place in E. injection E as E3 E4. specialize (M y Hy E3). lia.
    - split; auto. intros y Hy E. unfold place in E. injection E as E3 E4. exact (L y Hy E3). }
  destruct G1 as [G1 FR].
  assert (G2 : forall f e, k_kind b = Recv f e -> sent (blocks c) f (k_addr b) /\ ~ received (blocks c) f).
  { intros f e K. rewrite K in HK. apply andb_true_iff in HK as [_ HK].
    destruct (get_send c f) as [t|] eqn:GS; [|discriminate]. apply andb_true_iff in HK as [E1 E2].
    apply Z.eqb_eq in E1; subst t. apply negb_true_iff in E2. split; [eapply get_send_spec; eauto|].
    rewrite <- is_received_spec by auto. congruence. }
  assert (PB : plain b).
  { split.
    - intros K. rewrite K in HK. discriminate.
    - unfold is_send. intros S. destruct (k_kind b); try discriminate. apply Nat.eqb_eq in HK.
      rewrite app_length in HK. destruct (k_subs b); auto. cbn [length] in HK. lia. }
  assert (W' : wf (blocks c ++ [b])).
  { destruct W as [(U1 & U2 & U3) P]. split; [|apply prec_app; split; [auto|split; [|exact I]]].
    - repeat split.
      + unfold all_hashes. rewrite flat_map_app'. apply NoDup_app_iff. cbn [flat_map]. rewrite app_nil_r.
        repeat split; auto. intros h H1 H2. apply in_flat_map in H1 as (y & Hy & H1).
        assert (y = b) by (eapply NC2; eauto). subst y. exact (FR b Hy eq_refl).
      + rewrite map_app. apply NoDup_app_iff. repeat split; auto.
        * cbn. apply NoDup_cons; auto using NoDup_nil.
        * intros p H1 [<-|[]]. apply in_map_iff in H1 as (y & E & Hy). exact (FR y Hy E).
      + unfold all_receives. rewrite flat_map_app'. apply NoDup_app_iff. cbn [flat_map]. rewrite app_nil_r.
        unfold receives at 2 4. destruct (k_kind b) as [|f e|] eqn:K; repeat split; auto using NoDup_nil.
        * apply NoDup_cons; auto using NoDup_nil.
        * intros h H1 [<-|[]]. apply in_flat_map in H1 as (y & Hy & H1). apply (G2 _ _ eq_refl). exists y; auto.
    - split; auto. intros f e K. destruct (G2 f e K) as [(x & Hx & S) _]. eauto. }
  unfold Inv, insert, blocks, confirmed. cbn [c_chunks c_unconf c_db]. rewrite app_assoc.
  change (concat (c_chunks c) ++ c_unconf c) with (blocks c).
  split; auto. split; [apply exact_insert; auto|]. split; [|split; auto].
  - exists rest. split; auto. intros y Hy. rewrite app_assoc in Hy. apply in_app_iff in Hy as [Hy|[<-|[]]]; auto.
  - intros y Hy. apply in_app_iff in Hy as [Hy|[<-|[]]]; auto.
Qed.

Lemma genesis_inv : forall (U : blk -> Prop) g, genesis_ok g -> (forall b, In b g -> U b) -> Inv U g (genesis_chain g).
Proof.
  intros U g (N1 & N2 & N3) Ug.
  assert (W : wf g).
  { split.
    - repeat split; auto.
      + assert (E : forall l, (forall b, In b l -> k_height b = 1) -> map place l = map (fun a => (a, 1)) (map k_addr l)).
        { clear. induction l; intros H; cbn [map]; [reflexivity|]. f_equal; [unfold place; rewrite H by (left; auto); auto|].
          apply IHl. intros; apply H; right; auto. }
        rewrite E by (intros; apply N2; auto). apply FinFun.Injective_map_NoDup; auto. intros x y [= ->]; auto.
      + assert (all_receives g = []) as ->; [|apply NoDup_nil].
        clear -N2. induction g as [|b g IH]; [reflexivity|]. unfold all_receives; cbn [flat_map].
        unfold receives at 1. rewrite (proj1 (N2 b (or_introl eq_refl))). apply IH. intros; apply N2; right; auto.
    - assert (P : forall l C, (forall b, In b l -> k_kind b = Genesis /\ k_height b = 1 /\ k_prev b = 0) -> prec C l).
      { clear. induction l; intros C H; [exact I|]. destruct (H a (or_introl eq_refl)) as (K & E1 & E2).
        split; [|apply IHl; intros; apply H; right; auto]. split; auto. rewrite K. discriminate. }
      apply P; auto. }
  unfold Inv, genesis_chain, blocks, confirmed. cbn [c_chunks c_unconf c_db concat]. rewrite !app_nil_r.
  split; auto. split.
  - apply (exact_fold g [] []); auto. intros k v. split; [discriminate|].
    destruct k, v; cbn [means]; try tauto; try (intros (b & [] & _)).
    + intros [(t & b & [] & _) _].
    + intros [(b & [] & _) _].
  - split; [|split; auto; intros; apply N2; auto]. exists []. split; auto. intros b [].
Qed.

Theorem reach_inv : forall U g c, no_collision U -> genesis_ok g -> reach U g c -> Inv U g c.
Proof.
  intros U g c NC GO R. induction R as [Ug|c o c' R IH OK ST]; [apply genesis_inv; auto|].
  destruct o as [others b|p|sc all bad|n redo]; cbn [cstep op_ok] in *.
  - destruct (accept c others b) eqn:E; [|discriminate]. injection ST as <-. eapply insert_inv; eauto.
  - eapply delete_account_inv; eauto.
  - eapply snapshot_inv; eauto.
  - eapply delete_snapshots_inv; eauto.
Qed.
