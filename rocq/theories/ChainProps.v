(** Theorems about the account chains (properties C10, C38, C39; C11 is in ChainLinked.v). [reach U g c]: chain [c] arises
    from genesis [g] by any insertions, deletions, snapshots and snapshot rollbacks, where the inserted
    blocks come from a collision-free set [U] and each snapshot confirms, with a block, the send
    block it receives. The code does not check this last condition, and without it the claims fail
    (received_twice_refuted): hence the suffix _partial. *)
From Verif Require Import Lib ChainModel ChainSpec ChainProofs ChainProofs2 ChainProofs3 ChainProofs4 ChainProofs5.

(** ** C10 *)
Theorem received_at_most_once_partial : forall U g c, no_collision U -> genesis_ok g -> reach U g c ->
  forall b1 b2 h e1 e2, In b1 (blocks c) -> In b2 (blocks c) ->
  k_kind b1 = Recv h e1 -> k_kind b2 = Recv h e2 -> b1 = b2.
Proof.
  intros U g c NC GO R b1 b2 h e1 e2 H1 H2 K1 K2.
  destruct (reach_inv _ _ _ NC GO R) as (((_ & _ & U3) & _) & _).
  apply (nodup_flat_inj receives _ U3 b1 b2 h); auto; unfold receives; [rewrite K1|rewrite K2]; cbn; auto.
Qed.

Theorem received_only_by_addressee_partial : forall U g c, no_collision U -> genesis_ok g -> reach U g c ->
  forall b h e, In b (blocks c) -> k_kind b = Recv h e ->
  (exists x, In x (blocks c) /\ In (h, k_addr b) (sends_of x)) /\
  (forall x t, In x (blocks c) -> In (h, t) (sends_of x) -> t = k_addr b).
Proof.
  intros U g c NC GO R b h e Hb K. destruct (reach_inv _ _ _ NC GO R) as (W & _).
  destruct (prec_in _ _ _ (proj2 W) Hb) as [_ G]. destruct (G _ _ K) as (x & Hx & S). cbn [app] in Hx. split; eauto.
  intros y t Hy Sy. destruct (W) as [UN _]. destruct (UN) as (U1 & _).
  assert (x = y) by exact (nodup_flat_inj hashes_of _ U1 x y h Hx Hy (sends_hashes _ _ _ S) (sends_hashes _ _ _ Sy)).
  subst y. exact (sends_functional _ (uniq_in_nodup _ _ UN Hx) _ _ _ Sy S).
Qed.

(** what the node reports (on-road list, received or not, the send block behind a hash) is what the
    blocks say *)
Theorem on_road_exact_partial : forall U g c, no_collision U -> genesis_ok g -> reach U g c -> forall a h,
  (get (c_db c) (KRoad a h) <> None <-> sent (blocks c) h a /\ ~ received (blocks c) h) /\
  (is_received c h = true <-> received (blocks c) h) /\
  (get_send c h = Some a <-> sent (blocks c) h a).
Proof.
  intros U g c NC GO R a h. pose proof (reach_inv _ _ _ NC GO R) as IV. destruct (IV) as (W & X & _).
  split; [|split; [apply is_received_spec; auto|eapply get_send_spec; eauto]].
  unfold exact in X. split.
  - destruct (get (c_db c) (KRoad a h)) as [v|] eqn:E; [|congruence]. intros _. apply X in E.
    destruct v; cbn [means] in E; tauto.
  - intros H. assert (get (c_db c) (KRoad a h) = Some VEmpty) as -> by (apply X; exact H). discriminate.
Qed.

(** the block that receives [h] next on the chain of [a] *)
Definition next_receive (c : chain) (a h hash : Z) : blk :=
  match latest c a with
  | None => mkBlk a hash 1 0 (Recv h false) []
  | Some l => mkBlk a hash (k_height l + 1) (k_hash l) (Recv h false) []
  end.
(** a send block that is not received can be received by its addressee and by nobody else *)
Theorem unreceived_can_be_received_partial : forall U g c, no_collision U -> genesis_ok g -> reach U g c ->
  forall h t a hash, sent (blocks c) h t -> ~ received (blocks c) h -> h <> 0 ->
  (accept c true (next_receive c a h hash) = true <-> a = t).
Proof.
  intros U g c NC GO R h t a hash S N NZ. destruct (on_road_exact_partial U g c NC GO R t h) as (_ & IR & GS).
  apply GS in S.
  assert (IF : is_received c h = false) by (destruct (is_received c h); auto; exfalso; apply N, IR; auto).
  unfold accept, next_receive. destruct (latest c a) as [l|] eqn:L; cbn [k_addr k_height k_prev k_kind andb]; rewrite L, !Z.eqb_refl, S, IF;
    cbn [andb negb]; rewrite andb_true_r, andb_true_iff, negb_true_iff, Z.eqb_neq, Z.eqb_eq; intuition congruence.
Qed.

(** ** C38 *)
(** after any history the index is the one obtained by inserting the present blocks afresh: nothing
    of what was rolled back is left, nothing is lost *)
Theorem index_is_of_present_blocks_partial : forall U g c, no_collision U -> genesis_ok g -> reach U g c ->
  forall k, get (c_db c) k = get (fold_left insert_block (blocks c) []) k.
Proof.
  intros U g c NC GO R k. destruct (reach_inv _ _ _ NC GO R) as (W & X & _).
  assert (X0 : exact [] []).
  { intros k0 v. split; [discriminate|]. destruct k0, v; cbn [means]; try tauto; try (intros (b & [] & _)).
    - intros [(t & b & [] & _) _].
    - intros [(b & [] & _) _]. }
  pose proof (exact_fold (blocks c) [] [] X0 W) as Y. cbn [app] in Y. unfold exact in X, Y.
  destruct (get (c_db c) k) as [v|] eqn:E.
  - symmetry. apply Y, X; auto.
  - destruct (get (fold_left insert_block (blocks c) []) k) as [v|] eqn:E'; auto. apply Y, X in E'. congruence.
Qed.

(** inserting a block and deleting it again restores every answer *)
Theorem delete_undoes_insert_partial : forall U g c b others, no_collision U -> genesis_ok g -> reach U g c -> U b ->
  accept c others b = true ->
  exists c', delete_account_blocks (insert c b) (fun x => k_hash x =? k_hash b) = Some c' /\
    c_chunks c' = c_chunks c /\ c_unconf c' = c_unconf c /\ forall k, get (c_db c') k = get (c_db c) k.
Proof.
  intros U g c b others NC GO R Ub A.
  assert (R1 : reach U g (insert c b)) by (eapply (reach_step _ _ c (CInsert others b)); eauto; cbn; rewrite A; auto).
  destruct (reach_inv _ _ _ NC GO R1) as (W1 & _). unfold insert, blocks, confirmed in W1. cbn [c_chunks c_unconf] in W1.
  assert (FR : forall x, In x (c_unconf c) -> (k_hash x =? k_hash b) = false).
  { intros x Hx. apply Z.eqb_neq. intros E. destruct W1 as [UN _]. rewrite app_assoc in UN. apply uniq_app in UN as (_ & _ & FH & _).
    apply (FH x b (k_hash b)); cbn; auto. apply in_app_iff; auto. }
  assert (FF : from_first (fun x => k_hash x =? k_hash b) (c_unconf c ++ [b]) = [b]).
  { clear -FR. induction (c_unconf c) as [|y l IH]; cbn [app from_first]; [rewrite Z.eqb_refl; auto|].
    rewrite (FR y (or_introl eq_refl)). apply IH. intros; apply FR; right; auto. }
  assert (MM : minus (c_unconf c ++ [b]) [b] = c_unconf c).
  { unfold minus. rewrite filter_app. cbn [filter blk_in existsb]. rewrite Z.eqb_refl. cbn [orb negb]. rewrite app_nil_r.
    clear -FR. induction (c_unconf c) as [|y l IH]; [reflexivity|]. cbn [filter blk_in existsb].
    rewrite Z.eqb_sym, (FR y (or_introl eq_refl)). cbn [orb negb]. f_equal. apply IH. intros; apply FR; right; auto. }
  unfold delete_account_blocks, insert. cbn [c_unconf]. rewrite FF. eexists. split; [reflexivity|].
  unfold delete_blocks. cbn [compute_deps deps_loop c_chunks c_unconf c_db]. rewrite MM. repeat split; auto.
  intros k.
  set (c' := mkChain (c_chunks c) (c_unconf c) (rollback_index (insert_block (c_db c) b) [b])).
  assert (R2 : reach U g c').
  { eapply (reach_step _ _ (insert c b) (CDelete (fun x => k_hash x =? k_hash b))); eauto; [exact I|].
    cbn [cstep]. unfold delete_account_blocks, insert. cbn [c_unconf]. rewrite FF. unfold delete_blocks.
    cbn [compute_deps deps_loop c_chunks c_unconf c_db]. rewrite MM. reflexivity. }
  change (get (c_db c') k = get (c_db c) k).
  rewrite (index_is_of_present_blocks_partial U g c' NC GO R2), (index_is_of_present_blocks_partial U g c NC GO R). reflexivity.
Qed.

(** ** C39 *)
Theorem delete_exactly_dependents_partial : forall U g c p c', no_collision U -> genesis_ok g -> reach U g c ->
  delete_account_blocks c p = Some c' ->
  exists r, In r (c_unconf c) /\ p r = true /\ c_chunks c' = c_chunks c /\
    forall b, In b (c_unconf c') <-> In b (c_unconf c) /\ ~ dependent (c_unconf c) r b.
Proof.
  intros U g c p c' NC GO R H. pose proof (reach_inv _ _ _ NC GO R) as IV. destruct (IV) as (W & _).
  unfold delete_account_blocks in H.
  destruct (from_first_split p (c_unconf c)) as (l0 & E).
  destruct (from_first p (c_unconf c)) as [|b0 r] eqn:F; [discriminate|]. injection H as <-.
  assert (PB : p b0 = true).
  { clear -F. induction (c_unconf c) as [|x l IH]; [discriminate|]. cbn [from_first] in F. destruct (p x) eqn:E; auto. congruence. }
  unfold blocks in W. destruct (compute_deps_exactly (confirmed c) l0 b0 r) as [SS DE]; [rewrite <- E; exact W|].
  rewrite <- E in SS, DE.
  exists b0. split; [rewrite E; apply in_app_iff; cbn; auto|]. split; auto. split; auto.
  cbn [delete_blocks c_unconf].
  destruct (minus_split _ _ _ (proj1 W) (subseq_in _ _ SS)) as [M1 M2].
  intros b. rewrite <- DE. split.
  - intros Hb. split; [apply M1; auto|]. intros Q; eapply M2; eauto.
  - intros [Hb N]. apply M1 in Hb as [Hb|Hb]; tauto.
Qed.

(** pigeonhole for the confirmed part *)
Definition hits (sc : list (Z * Z)) (b : blk) : bool :=
  match assocz (k_addr b) sc with Some n => k_height b =? n | None => false end.
Lemma to_confirm_stop : forall sc U lack bs, to_confirm sc lack U = Some bs ->
  exists l1 l2, U = l1 ++ l2 /\ bs = filter (coverb sc) l1 /\ lack <= zlen (filter (hits sc) l1).
Proof.
  intros sc. induction U as [|b U IH]; intros lack bs H; [discriminate|].
  cbn [to_confirm] in H.
  assert (T : match assocz (k_addr b) sc with
      | Some n => if k_height b <? n then (true, lack) else if k_height b =? n then (true, lack - 1) else (false, lack)
      | None => (false, lack) end = (coverb sc b, if hits sc b then lack - 1 else lack)).
  { unfold coverb, hits. destruct (assocz (k_addr b) sc) as [n|]; [|reflexivity].
    destruct (k_height b <? n) eqn:E1; destruct (k_height b =? n) eqn:E2; destruct (k_height b <=? n) eqn:E3; try lia; reflexivity. }
  rewrite T in H. destruct ((if hits sc b then lack - 1 else lack) <=? 0) eqn:EL.
  - injection H as <-. exists [b], U. split; [reflexivity|split; [reflexivity|]]. cbn [filter].
    destruct (hits sc b); unfold zlen; cbn [length]; lia.
  - destruct (to_confirm sc (if hits sc b then lack - 1 else lack) U) as [l|] eqn:E; [|discriminate]. injection H as <-.
    destruct (IH _ _ E) as (l1 & l2 & -> & -> & L). exists (b :: l1), l2. split; [reflexivity|split; [reflexivity|]].
    cbn [filter]. destruct (hits sc b); unfold zlen in *; cbn [length]; lia.
Qed.
Lemma assocz_in : forall k l v, assocz k l = Some v -> In k (map fst l).
Proof.
  induction l as [|[k' v'] l IH]; intros v H; [discriminate|]. cbn [assocz] in H. cbn [map fst].
  destruct (k =? k') eqn:E; [left; lia|right; eauto].
Qed.

(** what a snapshot does to the unconfirmed blocks: those covered by its content are confirmed; of
    the others exactly those go that depend on a block found invalid *)
Theorem snapshot_exactly_partial : forall U g c sc all bad c', no_collision U -> genesis_ok g -> reach U g c ->
  closed_content c sc -> NoDup (map fst sc) -> insert_snapshot c sc all bad = Some c' ->
  exists chunk, c_chunks c' = c_chunks c ++ [chunk] /\
    (forall b, In b chunk <-> In b (c_unconf c) /\ covers sc b) /\
    (forall b, In b (c_unconf c') <-> In b (c_unconf c) /\ ~ covers sc b /\
       ~ exists r, (all = true \/ bad r = true \/ exists f, k_kind r = Recv f true) /\
           dependent (minus (c_unconf c) chunk) r b).
Proof.
  intros U g c sc all bad c' NC GO R CC ND H. pose proof (reach_inv _ _ _ NC GO R) as IV. destruct (IV) as (W & _).
  unfold insert_snapshot in H.
  destruct (if zlen sc <=? 0 then Some [] else to_confirm sc (zlen sc) (c_unconf c)) as [bs|] eqn:E; [|discriminate].
  pose proof (confirm_inv _ _ _ _ _ IV CC E) as IV1.
  set (X := c_unconf c) in *.
  assert (Q : exists l1 l2, X = l1 ++ l2 /\ bs = filter (coverb sc) l1 /\ zlen sc <= zlen (filter (hits sc) l1)).
  { destruct (zlen sc <=? 0) eqn:Z0; [|eapply to_confirm_stop; eauto].
    injection E as <-. exists [], X. repeat split; auto. cbn. lia. }
  destruct Q as (l1 & l2 & EX & EB & LN).
  unfold blocks in W. fold X in W.
  assert (CB : forall b, In b bs <-> In b X /\ covers sc b).
  { intros b. rewrite EB, filter_In, coverb_covers, EX, in_app_iff. split; [tauto|].
    intros [[Hb|Hb] Cb]; [auto|]. exfalso. destruct Cb as (n & A & L).
    set (T := filter (hits sc) l1) in *.
    assert (TA : forall x, In x T -> In x l1 /\ exists m, assocz (k_addr x) sc = Some m /\ k_height x = m).
    { intros x Hx. apply filter_In in Hx as [Hx Hh]. split; auto. unfold hits in Hh.
      destruct (assocz (k_addr x) sc) as [m|]; [|discriminate]. exists m. split; auto. lia. }
    assert (NT : NoDup (map k_addr T)).
    { assert (NP : NoDup (map place T)).
      { pose proof (proj1 (uniq_app _ _ (proj1 W))) as _. destruct W as [UW _]. apply uniq_app in UW as (_ & UW & _).
        rewrite EX in UW. apply uniq_app in UW as (UW & _). apply (uniq_subseq T l1); auto. apply subseq_filter. }
      clear -NP TA. induction T as [|x T IH]; [apply NoDup_nil|]. cbn [map] in *. apply NoDup_cons_iff in NP as [N1 N2].
      apply NoDup_cons; [|apply IH; auto; intros; apply TA; right; auto].
      intros Hx. apply in_map_iff in Hx as (y & Ey & Hy). apply N1. apply in_map_iff. exists y. split; auto.
      destruct (TA x (or_introl eq_refl)) as (_ & m & A1 & B1). destruct (TA y (or_intror Hy)) as (_ & m' & A2 & B2).
      unfold place. rewrite Ey in A2. assert (m = m') by congruence. congruence. }
    assert (IN : In (k_addr b) (map k_addr T)).
    { apply (NoDup_length_incl NT (l' := map fst sc)).
      - rewrite !map_length. unfold zlen in LN. lia.
      - intros a Ha. apply in_map_iff in Ha as (y & <- & Hy). destruct (TA y Hy) as (_ & m & A1 & _). eapply assocz_in; eauto.
      - eapply assocz_in; eauto. }
    apply in_map_iff in IN as (x & Ex & Hx). destruct (TA x Hx) as (Hx1 & m & A1 & B1).
    rewrite Ex, A in A1. injection A1 as <-.
    apply in_split in Hb as (V1 & V2 & ->). rewrite EX in W.
    replace (confirmed c ++ l1 ++ V1 ++ b :: V2) with ((confirmed c ++ l1 ++ V1) ++ b :: V2) in W by (rewrite <- !app_assoc; reflexivity).
    pose proof (wf_order _ _ _ x W) as O. specialize (O ltac:(rewrite !in_app_iff; auto) Ex). lia. }
  set (c1 := mkChain (c_chunks c ++ [bs]) (minus X bs) (c_db c)) in *.
  destruct (filter_unconfirmed_spec (confirmed c1) (c_unconf c1) all bad (proj1 IV1)) as [SS DE].
  assert (IB : incl bs X) by (intros b Hb; apply CB; auto).
  destruct (minus_split _ _ _ (proj1 W) IB) as [M1 M2].
  assert (ME : forall b, In b (minus X bs) <-> In b X /\ ~ covers sc b).
  { intros b. split.
    - intros Hb. assert (HX : In b X) by (apply M1; auto). split; auto. intros Cb. apply (M2 b); auto. apply CB; auto.
    - intros [Hb N]. apply M1 in Hb as [Hb|Hb]; auto. apply CB in Hb. tauto. }
  exists bs. cbn [c_unconf c1] in SS, DE, H. change (c_unconf c1) with (minus X bs) in *.
  destruct (filter_unconfirmed all bad (minus X bs)) as [|b0 d] eqn:F; injection H as <-; cbn [delete_blocks c_chunks c_unconf c1]; split; auto; split; auto.
  - intros b. change (c_unconf c1) with (minus X bs). rewrite ME. split; [|tauto]. intros [Hb N]. split; auto. split; auto.
    intros (r & Q & D). apply (DE b). exists r. split; auto.
  - intros b. change (c_unconf c1) with (minus X bs).
    destruct (minus_split (confirmed c1) (minus X bs) (b0 :: d) (proj1 (proj1 IV1)) (subseq_in _ _ SS)) as [M3 M4].
    split.
    + intros Hb. assert (Hm : In b (minus X bs)) by (apply M3; auto). destruct (proj1 (ME b) Hm) as [Hx N].
      split; auto. split; auto. intros (r & Q & D). apply (M4 b); auto. apply DE. exists r; auto.
    + intros (Hb & N & Q). assert (Hm : In b (minus X bs)) by (apply ME; auto).
      apply M3 in Hm as [Hm|Hm]; auto. exfalso. apply Q. apply DE in Hm as (r & Rr & D). exists r; auto.
Qed.

(** ** A concrete history *)
Definition gA := mkBlk 1 11 1 0 Genesis [].
Definition gB := mkBlk 2 12 1 0 Genesis [].
Definition sA := mkBlk 1 21 2 11 (Send 2) [].
Definition rB := mkBlk 2 22 2 12 (Recv 21 false) [(31, 1)].
Definition rB2 := mkBlk 2 23 3 22 (Recv 21 false) [].
Definition rA := mkBlk 1 24 3 21 (Recv 31 false) [].
Definition five (b : blk) : Prop := In b [gA; gB; sA; rB; rB2; rA].
Lemma five_ok : no_collision five /\ genesis_ok [gA; gB].
Proof.
  assert (N : NoDup (flat_map hashes_of [gA; gB; sA; rB; rB2; rA])).
  { cbn. repeat (apply NoDup_cons; [cbn; lia|]). apply NoDup_nil. }
  split; [split|].
  - intros b Hb. apply in_split in Hb as (l1 & l2 & E). rewrite E in N. rewrite flat_map_app' in N.
    apply NoDup_app_iff in N as (_ & N & _). cbn [flat_map] in N. apply NoDup_app_iff in N; tauto.
  - intros b b' h Hb Hb' H H'. exact (nodup_flat_inj hashes_of _ N b b' h Hb Hb' H H').
  - split; [|split].
    + cbn. repeat (apply NoDup_cons; [cbn; lia|]). apply NoDup_nil.
    + intros b [<-|[<-|[]]]; auto.
    + cbn. repeat (apply NoDup_cons; [cbn; lia|]). apply NoDup_nil.
Qed.

Fixpoint run (c : chain) (ops : list cop) : option chain :=
  match ops with [] => Some c | o :: r => match cstep c o with Some c' => run c' r | None => None end end.
Definition ops_in (ops : list cop) : Prop := Forall (fun o => match o with CInsert _ b => five b | _ => True end) ops.
Lemma run_reach_any : forall ops c c', reach_any five [gA; gB] c -> ops_in ops -> run c ops = Some c' -> reach_any five [gA; gB] c'.
Proof.
  induction ops as [|o ops IH]; intros c c' R F H; cbn [run] in H; [congruence|].
  destruct (cstep c o) as [c1|] eqn:E; [|discriminate]. inversion F; subst. apply (IH c1 c'); auto. eapply reach_any_step; eauto.
Qed.
Definition fine : blk -> bool := fun _ => false.

(** A snapshot that covers a receive block but not the send block it receives is accepted (the
    verifier only checks that the blocks named exist, ledger/verifier/snapshot_verifier.go). When the
    unconfirmed send block is then deleted, the index forgets that it was received: inserted again, it
    can be received a second time. *)
Theorem received_twice_refuted : exists U g c b1 b2 h, no_collision U /\ genesis_ok g /\ reach_any U g c /\
  In b1 (blocks c) /\ In b2 (blocks c) /\ k_kind b1 = Recv h false /\ k_kind b2 = Recv h false /\ b1 <> b2.
Proof.
  set (ops := [CInsert true sA; CInsert true rB; CSnapshot [(2, 2)] false fine;
               CDelete (fun b => k_hash b =? 21); CInsert true sA; CInsert true rB2]).
  destruct (run (genesis_chain [gA; gB]) ops) as [c|] eqn:E; [|vm_compute in E; discriminate].
  exists five, [gA; gB], c, rB, rB2, 21. split; [apply five_ok|]. split; [apply five_ok|]. split.
  - eapply run_reach_any; [apply reach_any_start|  |exact E].
    + intros b [<-|[<-|[]]]; cbn; auto.
    + unfold ops, ops_in. repeat (apply Forall_cons || apply Forall_nil); cbn; auto 8.
  - vm_compute in E. injection E as <-. cbn. repeat split; auto 8. discriminate.
Qed.

(** a history with every kind of operation meets the hypotheses of the theorems above *)
Example history : exists c, reach five [gA; gB] c /\ received (blocks c) 21 /\ In rA (blocks c) /\
  (exists c', delete_account_blocks c (fun b => k_hash b =? 24) = Some c').
Proof.
  assert (G : reach five [gA; gB] (genesis_chain [gA; gB])) by (apply reach_start; intros b [<-|[<-|[]]]; cbn; auto).
  eapply (fun c1 => reach_step _ _ _ (CInsert true sA) c1) in G; [|cbn; auto|vm_compute; reflexivity].
  eapply (fun c1 => reach_step _ _ _ (CInsert true rB) c1) in G; [|cbn; auto 8|vm_compute; reflexivity].
  eapply (fun c1 => reach_step _ _ _ (CDelete (fun b => k_hash b =? 22)) c1) in G; [|cbn; auto 8|vm_compute; reflexivity].
  eapply (fun c1 => reach_step _ _ _ (CInsert true rB) c1) in G; [|cbn; auto 8|vm_compute; reflexivity].
  eapply (fun c1 => reach_step _ _ _ (CSnapshot [(1, 2); (2, 2)] false fine) c1) in G; [| |vm_compute; reflexivity].
  2:{ cbn [op_ok]. intros x b [<-|[<-|[]]] Hb (f & e & K & S) Cb.
      - exists 2. split; [reflexivity|cbn; lia].
      - exists 2. split; [reflexivity|cbn; lia]. }
  eapply (fun c1 => reach_step _ _ _ (CDeleteSnapshots 1 true) c1) in G; [|cbn; auto 8|vm_compute; reflexivity].
  eapply (fun c1 => reach_step _ _ _ (CInsert true rA) c1) in G; [|cbn; auto 8|vm_compute; reflexivity].
  eexists. split; [exact G|]. split; [|split].
  - exists rB. split; cbn; auto 8.
  - cbn; auto 8.
  - eexists. vm_compute. reflexivity.
Qed.

(** the same history witnesses the hypotheses of the theorems of ChainLinked.v *)
Example history_any : exists c, reach_any five [gA; gB] c /\ In rA (blocks c).
Proof.
  destruct history as (c & R & _ & H & _). exists c. split; auto. clear H.
  induction R as [H|c o c' R IH OK ST]; [apply reach_any_start; auto|].
  eapply reach_any_step; eauto. destruct o; cbn in *; auto.
Qed.

Print Assumptions received_at_most_once_partial.
Print Assumptions received_only_by_addressee_partial.
Print Assumptions on_road_exact_partial.
Print Assumptions unreceived_can_be_received_partial.
Print Assumptions index_is_of_present_blocks_partial.
Print Assumptions delete_undoes_insert_partial.
Print Assumptions delete_exactly_dependents_partial.
Print Assumptions snapshot_exactly_partial.
Print Assumptions received_twice_refuted.
