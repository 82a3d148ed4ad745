(** C11: account chains stay linked along every history, whatever the snapshot contents
    ([reach_any]). Receive relations play no part: they are stripped off the blocks. *)
From Verif Require Import Lib ChainModel ChainSpec ChainProofs ChainProofs2 ChainProofs3 ChainProofs4 ChainProofs5.

Definition strip (b : blk) : blk :=
  mkBlk (k_addr b) (k_hash b) (k_height b) (k_prev b)
    (match k_kind b with Recv _ _ => Genesis | k => k end) (k_subs b).
Definition strips := map strip.

Lemma strip_needs : forall x b, needs (strip x) (strip b) -> follows x b.
Proof.
  intros x b [F|(f & e & K & _)]; [exact F|]. unfold strip in K; cbn [k_kind] in K. destruct (k_kind b); discriminate.
Qed.
Lemma strip_hashes : forall l, all_hashes (strips l) = all_hashes l.
Proof. induction l as [|b l IH]; [reflexivity|]. unfold all_hashes, strips in *. cbn [map flat_map]. rewrite IH. reflexivity. Qed.
Lemma strip_places : forall l, map place (strips l) = map place l.
Proof. intros; unfold strips; rewrite map_map. reflexivity. Qed.
Lemma strip_receives : forall l, all_receives (strips l) = [].
Proof.
  induction l as [|b l IH]; [reflexivity|]. unfold all_receives, strips in *. cbn [map flat_map]. rewrite IH, app_nil_r.
  unfold receives, strip; cbn [k_kind]. destruct (k_kind b); reflexivity.
Qed.
Lemma strip_minus : forall U d, strips (minus U d) = minus (strips U) (strips d).
Proof.
  intros U d. assert (B : forall b, blk_in (strip b) (strips d) = blk_in b d).
  { intros b. unfold blk_in, strips. induction d as [|x d IH]; [reflexivity|]. cbn [map existsb]. rewrite IH. reflexivity. }
  unfold minus. induction U as [|b U IH]; [reflexivity|].
  change (strips (b :: U)) with (strip b :: strips U). cbn [filter]. rewrite B.
  destruct (blk_in b d); cbn [negb]; [exact IH|].
  change (strips (b :: ?l)) with (strip b :: strips l). rewrite <- IH. reflexivity.
Qed.
Lemma strip_subseq : forall d l, subseq d l -> subseq (strips d) (strips l).
Proof. intros d l H; induction H; cbn; [apply sub_nil|apply sub_skip|apply sub_take]; auto. Qed.
Lemma strips_app : forall l l', strips (l ++ l') = strips l ++ strips l'.
Proof. intros; apply map_app. Qed.
Lemma strip_in : forall l b, In b l -> In (strip b) (strips l).
Proof. intros; apply in_map; auto. Qed.

(** the index of blocks by hash and by height *)
Definition exact0 (s : store) (l : list blk) : Prop :=
  (forall h v, get s (KHash h) = Some v <-> means l (KHash h) v) /\
  (forall a n v, get s (KHeight a n) = Some v <-> means l (KHeight a n) v).
Definition wf0 (l : list blk) : Prop := wf (strips l).

Lemma wf0_places : forall l, wf0 l -> NoDup (map place l).
Proof. intros l [(_ & U & _) _]. rewrite strip_places in U. auto. Qed.
Lemma wf0_hashes : forall l, wf0 l -> NoDup (all_hashes l).
Proof. intros l [(U & _) _]. rewrite strip_hashes in U. auto. Qed.
Lemma wf0_heights : forall l b, wf0 l -> In b l -> 1 <= k_height b.
Proof. intros l b W H. exact (wf_heights _ _ W (strip_in _ _ H)). Qed.

Lemma exact0_insert : forall s l b, exact0 s l -> wf0 (l ++ [b]) -> exact0 (insert_block s b) (l ++ [b]).
Proof.
  intros s l b [X1 X2] W. pose proof (wf0_places _ W) as NP. pose proof (wf0_hashes _ W) as NH.
  unfold all_hashes in NH. rewrite flat_map_app' in NH. apply NoDup_app_iff in NH as (_ & _ & FH).
  rewrite map_app in NP. apply NoDup_app_iff in NP as (_ & _ & FP). cbn [flat_map map] in FH, FP. rewrite app_nil_r in FH.
  split.
  - intros h v. rewrite get_insert_block. destruct (zin h (hashes_of b)) eqn:E.
    + apply zin_In in E. split.
      * intros [= <-]. exists b. repeat split; auto; apply in_app_iff; cbn; auto.
      * destruct v; cbn [means]; try tauto. intros (x & Hx & Hh & Pl).
        apply in_app_iff in Hx as [Hx|[<-|[]]]; [destruct (FH h); auto; apply in_flat_map; eauto|].
        unfold place in Pl; injection Pl as <- <-; reflexivity.
    + apply zin_false in E. rewrite X1. destruct v; cbn [means]; try tauto. split.
      * intros (x & Hx & R). exists x; split; auto; apply in_app_iff; auto.
      * intros (x & Hx & Hh & Pl). apply in_app_iff in Hx as [Hx|[<-|[]]]; [eauto|tauto].
  - intros a n v. rewrite get_insert_block. destruct ((a =? k_addr b) && (n =? k_height b)) eqn:E.
    + apply andb_true_iff in E as [E1 E2]. apply Z.eqb_eq in E1, E2; subst. split.
      * intros [= <-]. exists b. repeat split; auto; apply in_app_iff; cbn; auto.
      * destruct v; cbn [means]; try tauto. intros (x & Hx & Pl & <-).
        apply in_app_iff in Hx as [Hx|[<-|[]]]; [|reflexivity].
        destruct (FP (place b)); [|left; auto]. apply in_map_iff. exists x. auto.
    + rewrite X2. destruct v; cbn [means]; try tauto. split.
      * intros (x & Hx & R). exists x; split; auto; apply in_app_iff; auto.
      * intros (x & Hx & Pl & Hh). apply in_app_iff in Hx as [Hx|[<-|[]]]; [eauto|].
        unfold place in Pl. inversion Pl; subst. rewrite !Z.eqb_refl in E; discriminate.
Qed.
Lemma exact0_fold : forall d s l, exact0 s l -> wf0 (l ++ d) -> exact0 (fold_left insert_block d s) (l ++ d).
Proof.
  induction d as [|b d IH]; intros s l X W; [rewrite app_nil_r; auto|].
  cbn [fold_left]. replace (l ++ b :: d) with ((l ++ [b]) ++ d) in * by (rewrite <- app_assoc; reflexivity).
  apply IH; auto. apply exact0_insert; auto. unfold wf0 in *. rewrite strips_app in W. eapply wf_app_l; eauto.
Qed.

Lemma delete_block_view : forall s m b, plain b ->
  (forall h, get (fst (delete_block (s, m) b)) (KHash h) = if zin h (hashes_of b) then None else get s (KHash h)) /\
  (forall a n, get (fst (delete_block (s, m) b)) (KHeight a n) =
     if (a =? k_addr b) && (n =? k_height b) then None else get s (KHeight a n)).
Proof.
  intros s m b [NG PL]. unfold delete_block, hashes_of. unfold is_send in PL. destruct (k_kind b) as [t|f e|]; [| |congruence].
  - rewrite (PL eq_refl). cbn [fst map zin existsb]. split; intros.
    + rewrite !get_del. cbn [key_eqb]. rewrite orb_false_r. destruct (h =? k_hash b); reflexivity.
    + rewrite !get_del. cbn [key_eqb]. reflexivity.
  - split; intros.
    + destruct (mhas m f); rewrite get_delete_subs, ?get_put, !get_del; cbn [key_eqb zin existsb];
        change (existsb (Z.eqb h) ?l) with (zin h l); destruct (h =? k_hash b), (zin h (map fst (k_subs b))); reflexivity.
    + destruct (mhas m f); rewrite get_delete_subs, ?get_put, !get_del; cbn [key_eqb]; reflexivity.
Qed.
Lemma delete_fold_view : forall d s m, (forall b, In b d -> plain b) ->
  (forall h, get (fst (fold_left delete_block d (s, m))) (KHash h) = if zin h (all_hashes d) then None else get s (KHash h)) /\
  (forall a n, get (fst (fold_left delete_block d (s, m))) (KHeight a n) = if pin (a, n) (map place d) then None else get s (KHeight a n)).
Proof.
  induction d as [|b d IH]; intros s m PL; [split; reflexivity|]. cbn [fold_left].
  destruct (delete_block_view s m b (PL b (or_introl eq_refl))) as [V1 V2].
  destruct (delete_block (s, m) b) as [s1 m1]; cbn [fst] in V1, V2.
  destruct (IH s1 m1 (fun x H => PL x (or_intror H))) as [I1 I2]. split; intros.
  - rewrite I1, V1. unfold all_hashes; cbn [flat_map]. rewrite zin_app.
    destruct (zin h (hashes_of b)), (zin h (flat_map hashes_of d)); reflexivity.
  - rewrite I2, V2.
    assert (pin (a, n) (map place (b :: d)) = ((a =? k_addr b) && (n =? k_height b)) || pin (a, n) (map place d)) as -> by reflexivity.
    destruct ((a =? k_addr b) && (n =? k_height b)), (pin (a, n) (map place d)); reflexivity.
Qed.
Lemma exact0_rollback : forall s all d R, exact0 s all -> wf0 all -> (forall b, In b d -> plain b) ->
  (forall b, In b all <-> In b d \/ In b R) -> (forall b, In b d -> In b R -> False) ->
  exact0 (rollback_index s d) R.
Proof.
  intros s all d R [X1 X2] W PL CV DJ. destruct (delete_fold_view d s [] PL) as [V1 V2].
  pose proof (wf0_places _ W) as NP. pose proof (wf0_hashes _ W) as NH.
  unfold rollback_index. destruct (fold_left delete_block d (s, [])) as [s1 m]. cbn [fst] in V1, V2.
  assert (DA : forall b, In b d -> In b all) by (intros; apply CV; auto).
  assert (RA : forall b, In b R -> In b all) by (intros; apply CV; auto).
  split.
  - intros h v. rewrite get_close, V1. destruct (zin h (all_hashes d)) eqn:E.
    + split; [discriminate|]. destruct v; cbn [means]; try tauto. intros (b & Hb & Hh & _). exfalso.
      apply zin_In, in_flat_map in E as (x & Hx & E). apply (DJ x); auto.
      rewrite (nodup_flat_inj hashes_of all NH x b h); auto.
    + apply zin_false in E. rewrite X1. destruct v; cbn [means]; try tauto. split.
      * intros (b & Hb & Hh & Q). apply CV in Hb as [Hb|Hb]; [|eauto]. exfalso; apply E, in_flat_map; eauto.
      * intros (b & Hb & Q). exists b; auto.
  - intros a n v. rewrite get_close, V2. destruct (pin (a, n) (map place d)) eqn:E.
    + split; [discriminate|]. destruct v; cbn [means]; try tauto. intros (b & Hb & Pl & _). exfalso.
      apply pin_In, in_map_iff in E as (x & E & Hx). apply (DJ x); auto.
      rewrite (nodup_map_inj place _ NP x b); auto; congruence.
    + apply pin_false in E. rewrite X2. destruct v; cbn [means]; try tauto. split.
      * intros (b & Hb & Pl & Q). apply CV in Hb as [Hb|Hb]; [|eauto]. exfalso; apply E, in_map_iff; eauto.
      * intros (b & Hb & Q). exists b; auto.
Qed.

Definition Inv0 (U : blk -> Prop) (g : list blk) (c : chain) : Prop :=
  wf0 (blocks c) /\ exact0 (c_db c) (blocks c) /\
  (exists rest, c_chunks c = g :: rest /\ forall b, In b (concat rest ++ c_unconf c) -> plain b) /\
  (forall b, In b (blocks c) -> U b).

Lemma minus_split0 : forall C U d, wf0 (C ++ U) -> incl d U ->
  (forall b, In b U <-> In b d \/ In b (minus U d)) /\ (forall b, In b d -> In b (minus U d) -> False).
Proof.
  intros C U d W I. pose proof (wf0_hashes _ W) as NH.
  assert (BI : forall b, In b U -> (blk_in b d = true <-> In b d)).
  { intros b Hb. unfold blk_in. rewrite existsb_exists. split.
    - intros (x & Hx & E). apply Z.eqb_eq in E. assert (x = b) as <-; auto.
      apply (nodup_flat_inj hashes_of _ NH x b (k_hash x)); try (apply in_app_iff; auto); [left; auto|left; auto].
    - intros H. exists b. split; auto. apply Z.eqb_refl. }
  unfold minus. split.
  - intros b. rewrite filter_In, negb_true_iff. split.
    + intros H. destruct (blk_in b d) eqn:E; auto. apply BI in E; auto.
    + intros [H|[H _]]; auto.
  - intros b H Q. apply filter_In in Q as [Q E]. apply (BI b) in H; auto. rewrite H in E. discriminate.
Qed.

Lemma delete_inv0 : forall U g c d, Inv0 U g c -> subseq d (c_unconf c) ->
  (forall x b, In x d -> follows x b -> In b (c_unconf c) -> In b d) -> Inv0 U g (delete_blocks c d).
Proof.
  intros U g c d (W & EX & (rest & CH & PL) & UU) SS CL. pose proof (subseq_in _ _ SS) as I.
  unfold blocks in *. set (C := confirmed c) in *. set (X := c_unconf c) in *.
  destruct (minus_split0 C X d W I) as [M1 M2].
  unfold Inv0, delete_blocks, blocks, confirmed. cbn [c_chunks c_unconf c_db].
  change (concat (c_chunks c)) with C. fold X.
  assert (SUB : forall b, In b (minus X d) -> In b X) by (intros; apply M1; auto).
  split; [|split; [|split]].
  - unfold wf0. rewrite strips_app, strip_minus. apply wf_minus.
    + rewrite <- strips_app. exact W.
    + apply incl_map; auto.
    + intros x' b' Hx N Hb. apply in_map_iff in Hx as (x & <- & Hx). apply in_map_iff in Hb as (b & <- & Hb).
      apply strip_in. apply strip_needs in N. eauto.
  - apply (exact0_rollback (c_db c) (C ++ X) d); auto.
    + intros b Hb. apply PL. apply in_app_iff. right. apply I; auto.
    + intros b. rewrite !in_app_iff, M1. tauto.
    + intros b Hd Hb. apply in_app_iff in Hb as [Hb|Hb]; eauto.
      pose proof (wf0_places _ W) as NP. rewrite map_app in NP. apply NoDup_app_iff in NP as (_ & _ & FP).
      apply (FP (place b)); apply in_map; auto.
  - exists rest. split; auto. intros b Hb. apply PL. apply in_app_iff in Hb as [Hb|Hb]; apply in_app_iff; auto.
  - intros b Hb. apply UU. apply in_app_iff in Hb as [Hb|Hb]; apply in_app_iff; auto.
Qed.

(** the loops take every later block of an account they have taken a block of *)
Definition sweeps (A : list Z) (r D : list blk) : Prop :=
  subseq D r /\ (forall b, In b r -> In (k_addr b) A -> In b D) /\
  (forall r1 x r2 y, r = r1 ++ x :: r2 -> In x D -> In y r2 -> k_addr y = k_addr x -> In y D).
Lemma sweeps_cons : forall A A' b r D (t : bool), NoDup (map place (b :: r)) -> sweeps A' r D -> incl A A' ->
  (t = true -> In (k_addr b) A') -> (In (k_addr b) A -> t = true) ->
  sweeps A (b :: r) (if t then b :: D else D).
Proof.
  intros A A' b r D t N (S1 & S2 & S3) I T1 T2. cbn [map] in N. apply NoDup_cons_iff in N as [N1 N2].
  assert (NB : ~ In b D) by (intros H; apply N1, in_map, (subseq_in _ _ S1); auto).
  assert (K : forall y, In y D -> In y (if t then b :: D else D)) by (intros; destruct t; cbn; auto).
  split; [destruct t; [apply sub_take|apply sub_skip]; auto|]. split.
  - intros y [<-|Hy] Hy'; [rewrite (T2 Hy'); left; auto|apply K, S2; auto].
  - intros r1 x r2 y E Hx Hy Ea. destruct r1 as [|z r1]; cbn [app] in E; injection E as <- E.
    + subst r2. apply K. destruct t; [|tauto]. apply S2; [auto|]. rewrite Ea. auto.
    + apply K. apply (S3 r1 x r2); auto. destruct t; [|auto]. destruct Hx as [<-|Hx]; auto.
      exfalso. apply N1. subst r. apply in_map, in_app_iff; cbn; auto.
Qed.
Ltac sw := auto using incl_refl; try discriminate; try tauto; try (intros; left; reflexivity); try (intros ? ?; right; assumption).
Lemma deps_loop_sweeps : forall r A H, NoDup (map place r) -> sweeps A r (deps_loop A H r).
Proof.
  assert (NIL : forall A, sweeps A [] []) by (split; [apply sub_nil|split; [intros ? []|intros [|? ?] ? ? ? E; discriminate]]).
  induction r as [|b r IH]; intros A H N; [apply NIL|]. cbn [deps_loop].
  assert (N2 : NoDup (map place r)) by (cbn [map] in N; apply NoDup_cons_iff in N; tauto).
  destruct (zin (k_addr b) A) eqn:E.
  - apply zin_In in E. apply (sweeps_cons A A b r _ true); sw.
  - apply zin_false in E. destruct (recv_from b) as [f|]; [destruct (zin f H)|].
    + apply (sweeps_cons A (k_addr b :: A) b r _ true); sw.
    + apply (sweeps_cons A A b r _ false); sw.
    + apply (sweeps_cons A A b r _ false); sw.
Qed.
Lemma filter_loop_sweeps : forall bad r A H, NoDup (map place r) -> sweeps A r (filter_loop bad A H r).
Proof.
  intros bad.
  assert (NIL : forall A, sweeps A [] []) by (split; [apply sub_nil|split; [intros ? []|intros [|? ?] ? ? ? E; discriminate]]).
  induction r as [|b r IH]; intros A H N; [apply NIL|]. cbn [filter_loop].
  assert (N2 : NoDup (map place r)) by (cbn [map] in N; apply NoDup_cons_iff in N; tauto).
  destruct (zin (k_addr b) A || _ || bad b) eqn:E.
  - apply (sweeps_cons A (k_addr b :: A) b r _ true); sw.
  - apply (sweeps_cons A A b r _ false); sw.
    apply orb_false_iff in E as [E _]. apply orb_false_iff in E as [E _]. apply zin_false in E. tauto.
Qed.
(** hence, along a linked list, they take whatever follows a taken block *)
Lemma before0 : forall C V1 b V2 x, wf0 (C ++ V1 ++ b :: V2) -> In x (V1 ++ b :: V2) -> follows x b -> In x V1.
Proof.
  intros C V1 b V2 x W Hx F. pose proof (wf0_places _ W) as NP.
  unfold wf0 in W. rewrite !strips_app in W. change (strips (b :: V2)) with (strip b :: strips V2) in W.
  assert (Hm : In (strip x) (strips V1)).
  { apply (subset_pos _ _ (strip b) _ (strip x) W); [|left; exact F].
    change (strip b :: strips V2) with (strips (b :: V2)). rewrite <- strips_app. apply strip_in; auto. }
  apply in_map_iff in Hm as (y & Ey & Hy).
  apply in_app_iff in Hx as [Hx|Hx]; auto. exfalso.
  rewrite !map_app in NP. apply NoDup_app_iff in NP as (_ & NP & _). apply NoDup_app_iff in NP as (_ & _ & FP).
  apply (FP (place y)); [apply in_map; auto|].
  assert (place y = place x) as -> by (change (place (strip y) = place (strip x)); rewrite Ey; reflexivity).
  apply in_map; auto.
Qed.
Lemma follows_after : forall C U x b, wf0 (C ++ U) -> In x U -> In b U -> follows x b ->
  exists U1 U2, U = U1 ++ x :: U2 /\ In b U2.
Proof.
  intros C U x b W Hx Hb F.
  pose proof (in_split _ _ Hb) as (V1 & V2 & E). rewrite E in *.
  pose proof (before0 _ _ _ _ _ W Hx F) as HxV.
  apply in_split in HxV as (W1 & W2 & ->). exists W1, (W2 ++ b :: V2). rewrite <- app_assoc. split; auto.
  apply in_app_iff; cbn; auto.
Qed.
(** a block of the first part follows nothing of the second *)
Lemma not_across : forall C l1 l2 x b, wf0 (C ++ l1 ++ l2) -> In b l1 -> In x l2 -> follows x b -> False.
Proof.
  intros C l1 l2 x b W Hb Hx F. pose proof (wf0_places _ W) as NP. apply in_split in Hb as (B1 & B2 & ->).
  rewrite <- app_assoc in W. cbn [app] in W.
  assert (Q : In x B1) by (eapply before0; eauto; rewrite !in_app_iff; cbn; rewrite in_app_iff; auto).
  rewrite !map_app in NP. apply NoDup_app_iff in NP as (_ & NP & _). apply NoDup_app_iff in NP as (_ & _ & FP).
  apply (FP (place x)); [apply in_app_iff; left|]; apply in_map; auto.
Qed.
Lemma sweeps_closed : forall C U A D, wf0 (C ++ U) -> sweeps A U D ->
  forall x b, In x D -> follows x b -> In b U -> In b D.
Proof.
  intros C U A D W (S1 & _ & S3) x b Hx F Hb.
  destruct (follows_after C U x b W (subseq_in _ _ S1 _ Hx) Hb F) as (U1 & U2 & E & H2).
  apply (S3 U1 x U2); auto. symmetry. apply F.
Qed.

Lemma wf0_app_l : forall l l', wf0 (l ++ l') -> wf0 l.
Proof. intros l l' W. unfold wf0 in *. rewrite strips_app in W. eapply wf_app_l; eauto. Qed.
Lemma wf0_places_r : forall l l', wf0 (l ++ l') -> NoDup (map place l').
Proof. intros l l' W. apply wf0_places in W. rewrite map_app in W. apply NoDup_app_iff in W. tauto. Qed.

Lemma delete_account_inv0 : forall U g c p c', Inv0 U g c -> delete_account_blocks c p = Some c' -> Inv0 U g c'.
Proof.
  intros U g c p c' IV H. unfold delete_account_blocks in H.
  destruct (from_first_split p (c_unconf c)) as (l0 & E).
  destruct (from_first p (c_unconf c)) as [|b0 r] eqn:F; [discriminate|]. injection H as <-.
  assert (W : wf0 ((confirmed c ++ l0) ++ b0 :: r)) by (rewrite <- app_assoc, <- E; apply IV).
  pose proof (wf0_places_r _ _ W) as N.
  assert (N2 : NoDup (map place r)) by (cbn [map] in N; apply NoDup_cons_iff in N; tauto).
  cbn [compute_deps].
  assert (SW : sweeps [] (b0 :: r) (b0 :: deps_loop [k_addr b0] (k_hash b0 :: sub_hashes b0) r)).
  { apply (sweeps_cons [] [k_addr b0] b0 r _ true); auto using deps_loop_sweeps; [intros a []|left; auto]. }
  apply delete_inv0; auto.
  - rewrite E. apply subseq_prefix. apply SW.
  - intros x b Hx Fl Hb.
    assert (HxU : In x (c_unconf c)) by (rewrite E; apply in_app_iff; right; apply (subseq_in _ _ (proj1 SW)); auto).
    eapply (sweeps_closed _ _ _ _ W SW); eauto.
    rewrite E in Hb. apply in_app_iff in Hb as [Hb|Hb]; auto. exfalso.
    eapply (not_across (confirmed c) l0 (b0 :: r) x b); eauto; [rewrite <- E; apply IV|].
    apply (subseq_in _ _ (proj1 SW)); auto.
Qed.

Lemma snapshot_inv0 : forall U g c sc all bad c', Inv0 U g c -> insert_snapshot c sc all bad = Some c' -> Inv0 U g c'.
Proof.
  intros U g c sc all bad c' IV H. unfold insert_snapshot in H.
  destruct (if zlen sc <=? 0 then Some [] else to_confirm sc (zlen sc) (c_unconf c)) as [bs|] eqn:E; [|discriminate].
  set (X := c_unconf c) in *.
  assert (IV1 : Inv0 U g (mkChain (c_chunks c ++ [bs]) (minus X bs) (c_db c))).
  { destruct IV as (W & EX & (rest & CH & PL) & UU).
    assert (Q : exists l1 l2, X = l1 ++ l2 /\ bs = filter (coverb sc) l1).
    { destruct (zlen sc <=? 0); [injection E as <-; exists [], X; auto|eapply to_confirm_prefix; eauto]. }
    destruct Q as (l1 & l2 & EX' & EB).
    assert (SS : subseq bs X) by (rewrite EX', EB; apply subseq_filter_prefix).
    unfold blocks in *. fold X in W, EX, UU, PL. set (C := confirmed c) in *.
    destruct (minus_split0 C X bs W (subseq_in _ _ SS)) as [M1 M2].
    assert (CL : forall x b, In b bs -> In x X -> follows x b -> In x bs).
    { intros x b Hb Hx F. assert (HbX : In b X) by (apply (subseq_in _ _ SS); auto).
      rewrite EB in Hb. apply filter_In in Hb as [Hb Cb].
      assert (Hx1 : In x l1).
      { rewrite EX' in Hx. apply in_app_iff in Hx as [Hx|Hx]; auto. exfalso.
        eapply (not_across C l1 l2 x b); eauto. rewrite <- EX'. exact W. }
      rewrite EB. apply filter_In. split; auto. apply coverb_covers. apply coverb_covers in Cb.
      destruct F as (F1 & F2 & _). destruct Cb as (n & A & L). exists n. rewrite F1. split; auto. lia. }
    assert (EQ : forall b, In b (C ++ X) <-> In b ((C ++ bs) ++ minus X bs)) by (intros b; rewrite !in_app_iff, M1; tauto).
    assert (CF : concat (c_chunks c ++ [bs]) = C ++ bs) by (rewrite concat_app; cbn [concat]; rewrite app_nil_r; reflexivity).
    unfold Inv0, blocks, confirmed. cbn [c_chunks c_unconf c_db]. rewrite CF. split; [|split; [|split]].
    - unfold wf0. rewrite <- app_assoc, !strips_app, strip_minus. apply confirm_wf.
      + rewrite <- strips_app. exact W.
      + apply strip_subseq; auto.
      + intros x' b' Hb Hx N. apply in_map_iff in Hx as (x & <- & Hx). apply in_map_iff in Hb as (b & <- & Hb).
        apply strip_needs in N. apply strip_in. eauto.
    - destruct EX as [X1 X2]. split; intros; [rewrite X1|rewrite X2]; destruct v; cbn [means]; try tauto;
        split; intros (b & Hb & Q); exists b; split; auto; apply EQ; auto.
    - exists (rest ++ [bs]). split; [rewrite CH; reflexivity|].
      intros b Hb. apply PL. rewrite concat_app in Hb. cbn [concat] in Hb. rewrite app_nil_r in Hb.
      apply in_app_iff. rewrite !in_app_iff in Hb. rewrite M1. tauto.
    - intros b Hb. apply UU, EQ; auto. }
  set (c1 := mkChain _ _ _) in *.
  assert (W1 : wf0 (confirmed c1 ++ c_unconf c1)) by apply IV1.
  destruct (filter_unconfirmed all bad (c_unconf c1)) as [|b0 d] eqn:F; injection H as <-; auto.
  rewrite <- F. unfold filter_unconfirmed. destruct all.
  - apply delete_inv0; auto. apply subseq_refl.
  - pose proof (filter_loop_sweeps bad (c_unconf c1) [] [] (wf0_places_r _ _ W1)) as SW.
    apply delete_inv0; auto; [apply SW|]. eapply sweeps_closed; eauto.
Qed.

Lemma delete_snapshots_inv0 : forall U g c n redo c', Inv0 U g c -> delete_snapshots c n redo = Some c' -> Inv0 U g c'.
Proof.
  intros U g c n redo c' (W & EX & (rest & CH & PL) & UU) H. unfold delete_snapshots in H.
  destruct n as [|n]; [discriminate|]. rewrite CH in H. cbn [skipn firstn] in H.
  destruct (skipn n rest) as [|first later] eqn:ES; [discriminate|].
  assert (RE : rest = firstn n rest ++ first :: later) by (rewrite <- ES; symmetry; apply firstn_skipn).
  set (K := g ++ concat (firstn n rest)). set (d := first ++ concat later ++ c_unconf c) in *.
  assert (BE : blocks c = K ++ d).
  { unfold blocks, confirmed. rewrite CH. cbn [concat].
    assert (concat rest = concat (firstn n rest) ++ first ++ concat later) as -> by (rewrite RE at 1; rewrite concat_app; reflexivity).
    unfold K, d. rewrite <- !app_assoc. reflexivity. }
  rewrite BE in W, EX, UU.
  assert (PD : forall b, In b d -> plain b).
  { intros b Hb. apply PL. rewrite RE, concat_app. cbn [concat]. unfold d in Hb. rewrite !in_app_iff in *. tauto. }
  assert (X1 : exact0 (rollback_index (c_db c) d) K).
  { apply (exact0_rollback (c_db c) (K ++ d) d K); auto.
    - intros b. rewrite in_app_iff. tauto.
    - intros b H1 H2. pose proof (wf0_places _ W) as NP. rewrite map_app in NP. apply NoDup_app_iff in NP as (_ & _ & FP).
      apply (FP (place b)); apply in_map; auto. }
  set (again := if redo then first else []) in *.
  assert (AG : exists z, d = again ++ z).
  { unfold again, d. destruct redo; [eexists; reflexivity|exists (first ++ concat later ++ c_unconf c); reflexivity]. }
  destruct AG as (z & AG).
  assert (WA : wf0 (K ++ again)) by (rewrite AG, app_assoc in W; eapply wf0_app_l; eauto).
  injection H as <-. unfold Inv0, blocks, confirmed. cbn [c_chunks c_unconf c_db concat]. fold K.
  split; [exact WA|]. split; [apply exact0_fold; auto|]. split.
  - exists (firstn n rest). split; auto. intros b Hb. apply in_app_iff in Hb as [Hb|Hb].
    + apply PL. rewrite RE, concat_app, !in_app_iff. auto.
    + apply PD. rewrite AG. apply in_app_iff; auto.
  - intros b Hb. apply UU. apply in_app_iff in Hb as [Hb|Hb]; apply in_app_iff; auto. right. rewrite AG. apply in_app_iff; auto.
Qed.

Lemma insert_inv0 : forall U g c others b, no_collision U -> Inv0 U g c -> U b -> accept c others b = true -> Inv0 U g (insert c b).
Proof.
  intros U g c others b (NC1 & NC2) (W & X & (rest & CH & PL) & UU) Ub H.
  unfold accept in H. apply andb_true_iff in H as [H HK]. apply andb_true_iff in H as [_ HL].
  pose proof (latest_gen c (k_addr b) (proj2 X) (wf0_places _ W) (fun x Hx => wf0_heights _ x W Hx)) as L.
  assert (G1 : (k_height b = 1 /\ k_prev b = 0 \/ exists x, In x (blocks c) /\ follows x b) /\
               forall x, In x (blocks c) -> place x <> place b).
  { destruct (latest c (k_addr b)) as [x|]; apply andb_true_iff in HL as [E1 E2]; apply Z.eqb_eq in E1, E2.
    - destruct L as (Hx & Ax & M). split.
      + right. exists x. unfold follows. auto.
      + intros y Hy E. unfold place in E. injection E as E3 E4. specialize (M y Hy E3). lia.
    - split; auto. intros y Hy E. unfold place in E. injection E as E3 E4. exact (L y Hy E3). }
  destruct G1 as [G1 FR].
  assert (PB : plain b).
  { split.
    - intros K. rewrite K in HK. discriminate.
    - unfold is_send. intros S. destruct (k_kind b); try discriminate. apply Nat.eqb_eq in HK.
      rewrite app_length in HK. destruct (k_subs b); auto. cbn [length] in HK. lia. }
  assert (W' : wf0 (blocks c ++ [b])).
  { pose proof (wf0_places _ W) as NP. pose proof (wf0_hashes _ W) as NH. destruct W as [_ P].
    unfold wf0. split.
    - split; [|split]; rewrite ?strip_hashes, ?strip_places, ?strip_receives; auto using NoDup_nil.
      + unfold all_hashes. rewrite flat_map_app'. apply NoDup_app_iff. cbn [flat_map]. rewrite app_nil_r.
        repeat split; auto. intros h H1 H2. apply in_flat_map in H1 as (y & Hy & H1).
        assert (y = b) by (eapply NC2; eauto). subst y. exact (FR b Hy eq_refl).
      + rewrite map_app. apply NoDup_app_iff. repeat split; auto.
        * cbn. apply NoDup_cons; auto using NoDup_nil.
        * intros p H1 [<-|[]]. apply in_map_iff in H1 as (y & E & Hy). exact (FR y Hy E).
    - rewrite strips_app. apply prec_app. split; auto. cbn [strips map prec]. split; auto. split.
      + destruct G1 as [G1|(x & Hx & F)]; [left; exact G1|]. right. exists (strip x). split; [apply strip_in; auto|exact F].
      + intros f e K. unfold strip in K; cbn [k_kind] in K. destruct (k_kind b); discriminate. }
  unfold Inv0, insert, blocks, confirmed. cbn [c_chunks c_unconf c_db]. rewrite app_assoc.
  change (concat (c_chunks c) ++ c_unconf c) with (blocks c).
  split; auto. split; [apply exact0_insert; auto|]. split.
  - exists rest. split; auto. intros y Hy. rewrite app_assoc in Hy. apply in_app_iff in Hy as [Hy|[<-|[]]]; auto.
  - intros y Hy. apply in_app_iff in Hy as [Hy|[<-|[]]]; auto.
Qed.

Lemma wf_wf0_genesis : forall l, wf l -> (forall b, In b l -> k_kind b = Genesis) -> wf0 l.
Proof.
  intros l W G. assert (E : strips l = l).
  { clear W. rewrite <- (map_id l) at 2. apply map_ext_in. intros b Hb. unfold strip.
    rewrite (G b Hb). pose proof (G b Hb) as K. destruct b; cbn in *. rewrite K. reflexivity. }
  unfold wf0. rewrite E. exact W.
Qed.
Theorem reach_any_inv : forall U g c, no_collision U -> genesis_ok g -> reach_any U g c -> Inv0 U g c.
Proof.
  intros U g c NC GO R. induction R as [Ug|c o c' R IH OK ST].
  - destruct (genesis_inv U g GO Ug) as (W & X & PL & GG & UU).
    split; [|split; [|split]]; auto.
    + apply wf_wf0_genesis; auto. intros b Hb. apply GG. unfold blocks, confirmed, genesis_chain in Hb. cbn in Hb.
      rewrite !app_nil_r in Hb. auto.
    + split; intros; apply X.
  - destruct o as [others b|p|sc all bad|n redo]; cbn [cstep] in *.
    + destruct (accept c others b) eqn:E; [|discriminate]. injection ST as <-. eapply insert_inv0; eauto.
    + eapply delete_account_inv0; eauto.
    + eapply snapshot_inv0; eauto.
    + eapply delete_snapshots_inv0; eauto.
Qed.

(** ** C11 *)
(** every block is either the first of its account (height 1, no predecessor) or names by hash the
    block just below; there is one block per height and one per hash *)
Theorem account_chain_linked : forall U g c, no_collision U -> genesis_ok g -> reach_any U g c ->
  (forall b, In b (blocks c) -> k_height b = 1 /\ k_prev b = 0 \/
     exists x, In x (blocks c) /\ k_addr x = k_addr b /\ k_height x = k_height b - 1 /\ k_hash x = k_prev b) /\
  (forall b b', In b (blocks c) -> In b' (blocks c) -> k_addr b = k_addr b' -> k_height b = k_height b' -> b = b') /\
  (forall b b', In b (blocks c) -> In b' (blocks c) -> k_hash b = k_hash b' -> b = b').
Proof.
  intros U g c NC GO R. destruct (reach_any_inv _ _ _ NC GO R) as (W & _).
  pose proof (wf0_places _ W) as NP. pose proof (wf0_hashes _ W) as NH.
  split; [|split].
  - intros b Hb. destruct (prec_in _ _ _ (proj2 W) (strip_in _ _ Hb)) as [[G|(x & Hx & F1 & F2 & F3)] _]; [left; exact G|].
    cbn [app] in Hx. apply in_map_iff in Hx as (y & <- & Hy). cbn [strip k_addr k_height k_prev k_hash] in *.
    right. exists y. repeat split; auto. lia.
  - intros b b' H H' E1 E2. apply (nodup_map_inj place _ NP); auto. unfold place; congruence.
  - intros b b' H H' E. apply (nodup_flat_inj hashes_of _ NH b b' (k_hash b)); auto; [left|rewrite E; left]; auto.
Qed.

(** the heights of an account are exactly 1 .. the height of the block reported as the latest *)
Theorem account_heights_exact : forall U g c, no_collision U -> genesis_ok g -> reach_any U g c ->
  forall a n, (exists b, In b (blocks c) /\ k_addr b = a /\ k_height b = n) <->
  1 <= n <= match latest c a with Some l => k_height l | None => 0 end.
Proof.
  intros U g c NC GO R a n. destruct (reach_any_inv _ _ _ NC GO R) as (W & X & _).
  pose proof (latest_gen c a (proj2 X) (wf0_places _ W) (fun x Hx => wf0_heights _ x W Hx)) as L. split.
  - intros (b & Hb & E & <-). pose proof (wf0_heights _ _ W Hb). destruct (latest c a) as [l|].
    + destruct L as (_ & _ & M). specialize (M b Hb E). lia.
    + destruct (L b Hb E).
  - destruct (latest c a) as [l|]; [|lia]. destruct L as (Hl & <- & _). intros Hn.
    destruct (wf_contiguous _ (strip l) n W (strip_in _ _ Hl) Hn) as (y & Hy & E).
    apply in_map_iff in Hy as (z & <- & Hz). exists z. unfold place in E. cbn [strip k_addr k_height] in E. injection E as -> ->. auto.
Qed.

(** confirmed blocks are only removed by removing snapshots: they are final for every other operation *)
Theorem confirmed_blocks_stay : forall c o c', cstep c o = Some c' ->
  match o with CDeleteSnapshots _ _ => True | _ => exists more, c_chunks c' = c_chunks c ++ more end.
Proof.
  intros c o c' H. destruct o as [others b|p|sc all bad|n redo]; cbn [cstep] in H; auto.
  - destruct (accept c others b); [|discriminate]. injection H as <-. exists []. cbn. rewrite app_nil_r; auto.
  - unfold delete_account_blocks in H. destruct (from_first p (c_unconf c)); [discriminate|]. injection H as <-.
    exists []. cbn. rewrite app_nil_r; auto.
  - unfold insert_snapshot in H. destruct (if zlen sc <=? 0 then _ else _) as [bs|]; [|discriminate].
    exists [bs]. destruct (filter_unconfirmed _ _ _); injection H as <-; reflexivity.
Qed.

Print Assumptions account_chain_linked.
Print Assumptions account_heights_exact.
Print Assumptions confirmed_blocks_stay.
