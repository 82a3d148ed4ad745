(** The invariant of all reachable chains. *)
From Verif Require Import Lib ChainModel ChainSpec ChainProofs ChainProofs2 ChainProofs3.
From Coq Require Import Permutation.

(** ** From one-step selection to transitive dependents *)
Lemma subset_pos : forall C U1 b U2 (x : blk), wf (C ++ U1 ++ b :: U2) -> In x (U1 ++ b :: U2) -> needs x b -> In x U1.
Proof.
  intros C U1 b U2 x W Hx N.
  assert (Q : In x (C ++ U1)).
  { rewrite app_assoc in W. apply (needs_before _ b U2 x W); auto.
    rewrite <- app_assoc. apply in_app_iff; auto. }
  apply in_app_iff in Q as [Q|Q]; auto. exfalso.
  destruct W as [U _]. apply uniq_app in U as (_ & _ & _ & FP & _). exact (FP x x Q Hx eq_refl).
Qed.

Lemma selects_dependents : forall root C U D, wf (C ++ U) -> selects root [] U D ->
  forall b, In b D <-> exists r, root r /\ dependent U r b.
Proof.
  intros root C U D W [SS SE]. cbn [app] in SE. pose proof (subseq_in _ _ SS) as ID.
  assert (F : forall n U1 b U2, length U1 = n -> U = U1 ++ b :: U2 -> In b D -> exists r, root r /\ dependent U r b).
  { induction n as [n IH] using (well_founded_induction Nat.lt_wf_0). intros U1 b U2 L E Hb.
    assert (HbU : In b U) by auto.
    apply (SE b HbU) in Hb as [R|(x & Hx & N)].
    - exists b. split; auto. apply dep_self; auto.
    - pose proof (ID _ Hx) as HxU. rewrite E in W, HxU.
      pose proof (subset_pos _ _ _ _ _ W HxU N) as H1.
      apply in_split in H1 as (V1 & V2 & ->).
      destruct (IH (length V1)) with (U1 := V1) (b := x) (U2 := V2 ++ b :: U2) as (r & R & Dp); auto.
      + rewrite <- L, app_length. cbn [length]. lia.
      + rewrite E, <- app_assoc. reflexivity.
      + exists r. split; auto. eapply dep_next; eauto. }
  intros b; split.
  - intros Hb. pose proof (ID _ Hb) as HbU. apply in_split in HbU as (U1 & U2 & E). eapply F; eauto.
  - intros (r & R & Dp). induction Dp as [H|y b Dp IH N H].
    + apply SE; auto.
    + apply SE; auto. right; eauto.
Qed.

Lemma mark_inv_nil : mark_inv [] [] [] [].
Proof.
  split; [intros ? []|]. split; [intros ? ? []|]. split; [|split; [intros ? ? ? []|intros ? []]].
  intros a; split; [intros []|intros (x & [] & _)].
Qed.
Lemma filter_exactly : forall bad C U, wf (C ++ U) ->
  subseq (filter_loop bad [] [] U) U /\
  forall b, In b (filter_loop bad [] [] U) <-> exists r, bad_root bad r /\ dependent U r b.
Proof.
  intros bad C U W. pose proof (filter_loop_selects bad U C [] [] [] [] W mark_inv_nil) as S.
  split; [apply S|]. eapply selects_dependents; eauto.
Qed.

Lemma compute_deps_exactly : forall C U0 b0 r, wf (C ++ U0 ++ b0 :: r) ->
  subseq (compute_deps (b0 :: r)) (U0 ++ b0 :: r) /\
  forall b, In b (compute_deps (b0 :: r)) <-> dependent (U0 ++ b0 :: r) b0 b.
Proof.
  intros C U0 b0 r W. cbn [compute_deps].
  assert (W1 : wf ((C ++ U0) ++ [b0] ++ r)) by (rewrite <- app_assoc; exact W).
  assert (MI : mark_inv [b0] [b0] [k_addr b0] (k_hash b0 :: sub_hashes b0)).
  { split; [apply incl_refl|]. split; [auto|]. split; [|split].
    - intros a; cbn [In]; split; [intros [<-|[]]; exists b0; auto|intros (x & [<-|[]] & E); auto].
    - intros x h t [<-|[]] S. apply (sends_hashes _ _ _ S).
    - intros h Hh. exists b0. split; [left; auto|exact Hh]. }
  pose proof (deps_loop_selects r _ _ _ _ _ W1 MI) as [SS SE].
  set (D := deps_loop _ _ r) in *. pose proof (subseq_in _ _ SS) as ID.
  split; [apply subseq_prefix, sub_take; auto|].
  (* the loop over b0 :: r as a selection with root b0 *)
  assert (SEL : selects (fun x => x = b0) [] (b0 :: r) (b0 :: D)).
  { split; [apply sub_take; auto|]. cbn [app]. intros b [<-|Hb].
    - split; [auto|left; auto].
    - specialize (SE b Hb). cbn [app] in SE. split.
      + intros [<-|H]; auto. right. apply SE in H as [[]|H]; auto.
      + intros [->|H]; [left; auto|]. right. apply SE; auto. }
  pose proof (selects_dependents (fun x => x = b0) (C ++ U0) (b0 :: r) (b0 :: D)) as Q.
  rewrite <- app_assoc in Q. specialize (Q W SEL).
  intros b. rewrite Q. split.
  - intros (x & -> & Dp). clear Q. induction Dp as [H|y b Dp IH N H].
    + apply dep_self. apply in_app_iff; auto.
    + eapply dep_next; eauto. apply in_app_iff; auto.
  - intros Dp. exists b0. split; auto. clear Q. induction Dp as [H|y b Dp IH N H].
    + apply dep_self. left; auto.
    + assert (Hy : In y (b0 :: r)) by (clear -IH; induction IH; auto).
      eapply dep_next; eauto. apply in_app_iff in H as [H|H]; auto. exfalso.
      apply in_split in H as (V1 & V2 & ->). rewrite <- app_assoc in W. cbn [app] in W.
      pose proof (subset_pos C V1 b (V2 ++ b0 :: r) y W) as P0.
      assert (In y V1) as H1.
      { apply P0; auto. apply in_app_iff; right; right. apply in_app_iff; auto. }
      destruct W as [U _]. apply uniq_app in U as (_ & U & _). apply uniq_app in U as (_ & _ & _ & FP & _).
      apply (FP y y); auto. right. apply in_app_iff; auto.
Qed.

(** ** Removing a closed set *)
Lemma uniq_subseq : forall d l, subseq d l -> uniq l -> uniq d.
Proof.
  assert (G : forall {B} (f : blk -> list B) d l, subseq d l -> NoDup (flat_map f l) -> NoDup (flat_map f d)).
  { intros B f d l H. induction H as [l|x d l H IH|x d l H IH]; intros N; cbn [flat_map] in *.
    - apply NoDup_nil.
    - apply NoDup_app_iff in N as (_ & N & _). auto.
    - apply NoDup_app_iff in N as (N1 & N2 & D). apply NoDup_app_iff. repeat split; auto.
      intros y Y1 Y2. apply (D y Y1). apply in_flat_map in Y2 as (z & Hz & Y2). apply in_flat_map.
      exists z. split; auto. apply (subseq_in _ _ H); auto. }
  intros d l H (U1 & U2 & U3). repeat split; try (eapply G; eauto; fail).
  assert (F : forall l, flat_map (fun b => [place b]) l = map place l) by (clear; induction l; cbn; f_equal; auto).
  rewrite <- F in *. eapply G; eauto.
Qed.
Lemma subseq_filter : forall {A} (p : A -> bool) l, subseq (filter p l) l.
Proof. induction l; cbn; [apply sub_nil|destruct (p a); [apply sub_take|apply sub_skip]; auto]. Qed.
Lemma subseq_app : forall {A} (p d l : list A), subseq d l -> subseq (p ++ d) (p ++ l).
Proof. induction p; cbn; intros; auto. apply sub_take; auto. Qed.

Lemma prec_filter : forall p C, forall U2 U1, prec (C ++ U1) U2 ->
  (forall b x, In b U2 -> p b = true -> In x (U1 ++ U2) -> needs x b -> p x = true) ->
  prec (C ++ filter p U1) (filter p U2).
Proof.
  intros p C. induction U2 as [|b U2 IH]; intros U1 P CL; [exact I|].
  destruct P as [[G1 G2] P]. cbn [filter].
  assert (IH' : prec (C ++ filter p (U1 ++ [b])) (filter p U2)).
  { apply IH; [rewrite app_assoc; exact P|]. intros b' x Hb Pb Hx N. rewrite <- app_assoc in Hx.
    eapply CL; eauto. right; auto. }
  rewrite filter_app in IH'. cbn [filter] in IH'. destruct (p b) eqn:E.
  - cbn [prec]. split; [|rewrite <- app_assoc; exact IH'].
    assert (K : forall x, In x (C ++ U1) -> needs x b -> In x (C ++ filter p U1)).
    { intros x Hx N. apply in_app_iff. apply in_app_iff in Hx as [Hx|Hx]; auto. right. apply filter_In. split; auto.
      eapply (CL b x); auto; [left; auto|]. apply in_app_iff; auto. }
    split.
    + destruct G1 as [G1|(x & Hx & F)]; auto. right. exists x. split; auto. apply K; auto. left; auto.
    + intros f e Kd. destruct (G2 f e Kd) as (x & Hx & S). exists x. split; auto. apply K; auto. right. exists f, e; auto.
  - rewrite app_nil_r in IH'. exact IH'.
Qed.

Lemma blk_in_In : forall U b d, uniq U -> incl d U -> In b U -> (blk_in b d = true <-> In b d).
Proof.
  intros U b d (U1 & _) I Hb. unfold blk_in. rewrite existsb_exists. split.
  - intros (x & Hx & E). apply Z.eqb_eq in E.
    assert (x = b) as <-; auto.
    apply (nodup_flat_inj hashes_of U U1 x b (k_hash x)); auto; [left; auto|left; auto].
  - intros H. exists b. split; auto. apply Z.eqb_refl.
Qed.

Lemma minus_split : forall C U d, uniq (C ++ U) -> incl d U ->
  (forall b, In b U <-> In b d \/ In b (minus U d)) /\ (forall b, In b d -> In b (minus U d) -> False).
Proof.
  intros C U d UU I. apply uniq_app in UU as (_ & UU & _). unfold minus. split.
  - intros b. rewrite filter_In, negb_true_iff. split.
    + intros H. destruct (blk_in b d) eqn:E; auto. apply (blk_in_In U) in E; auto.
    + intros [H|[H _]]; auto.
  - intros b H Q. apply filter_In in Q as [Q E]. apply (blk_in_In U b d) in H; auto. rewrite H in E. discriminate.
Qed.

Lemma wf_minus : forall C U d, wf (C ++ U) -> incl d U ->
  (forall x b, In x d -> needs x b -> In b U -> In b d) -> wf (C ++ minus U d).
Proof.
  intros C U d [UU P] I CL. split.
  - eapply uniq_subseq; [|exact UU]. apply subseq_app, subseq_filter.
  - apply prec_app in P as [P1 P2]. apply prec_app. split; auto. cbn [app] in *.
    pose proof (prec_filter (fun b => negb (blk_in b d)) C U []) as Q. cbn [filter] in Q. rewrite !app_nil_r in Q.
    apply Q; auto. cbn [app]. intros b x Hb Pb Hx N. apply negb_true_iff. apply negb_true_iff in Pb.
    apply uniq_app in UU as (_ & UU & _).
    destruct (blk_in x d) eqn:E; auto. exfalso.
    apply (blk_in_In U) in E; auto. specialize (CL _ _ E N Hb). apply (blk_in_In U b d UU I Hb) in CL. congruence.
Qed.

(** ** The invariant *)
Definition Inv (U : blk -> Prop) (g : list blk) (c : chain) : Prop :=
  wf (blocks c) /\ exact (c_db c) (blocks c) /\
  (exists rest, c_chunks c = g :: rest /\ forall b, In b (concat rest ++ c_unconf c) -> plain b) /\
  (forall b, In b g -> k_kind b = Genesis) /\
  (forall b, In b (blocks c) -> U b).

Lemma delete_inv : forall U g c d, Inv U g c -> subseq d (c_unconf c) ->
  (forall x b, In x d -> needs x b -> In b (c_unconf c) -> In b d) -> Inv U g (delete_blocks c d).
Proof.
  intros U g c d (W & EX & (rest & CH & PL) & GG & UU) SS CL.
  pose proof (subseq_in _ _ SS) as I.
  unfold blocks in *. set (C := confirmed c) in *. set (X := c_unconf c) in *.
  pose proof (wf_minus C X d W I CL) as W'.
  destruct (minus_split C X d (proj1 W) I) as [M1 M2].
  unfold Inv, delete_blocks, blocks, confirmed. cbn [c_chunks c_unconf c_db].
  change (concat (c_chunks c)) with C. fold X.
  assert (SUB : forall b, In b (minus X d) -> In b X) by (intros; apply M1; auto).
  split; [exact W'|]. split.
  - apply (rollback_exact (c_db c) (C ++ X) d (C ++ minus X d)); auto.
    + apply subseq_prefix; auto.
    + intros b Hb. apply PL. apply in_app_iff. right. apply I; auto.
    + intros b. rewrite !in_app_iff, M1. tauto.
    + intros b Hd Hb. apply in_app_iff in Hb as [Hb|Hb]; eauto.
      destruct W as [Un _]. apply uniq_app in Un as (_ & _ & _ & FP & _). exact (FP b b Hb (I _ Hd) eq_refl).
    + intros b Hb. exact (prec_in _ _ _ (proj2 W') Hb).
  - split; [|split; auto].
    + exists rest. split; auto. intros b Hb. apply PL. apply in_app_iff in Hb as [Hb|Hb]; apply in_app_iff; auto.
    + intros b Hb. apply UU. apply in_app_iff in Hb as [Hb|Hb]; apply in_app_iff; auto.
Qed.

Lemma dependent_in : forall l x b, dependent l x b -> In b l.
Proof. intros l x b H; induction H; auto. Qed.

Lemma from_first_split : forall p l, exists l0, l = l0 ++ from_first p l.
Proof.
  induction l as [|b l [l0 IH]]; [exists []; reflexivity|]. cbn [from_first].
  destruct (p b); [exists []; reflexivity|]. exists (b :: l0). cbn [app]. f_equal. exact IH.
Qed.

Lemma delete_account_inv : forall U g c p c', Inv U g c -> delete_account_blocks c p = Some c' -> Inv U g c'.
Proof.
  intros U g c p c' IV H. unfold delete_account_blocks in H.
  destruct (from_first_split p (c_unconf c)) as (l0 & E).
  destruct (from_first p (c_unconf c)) as [|b0 r] eqn:F; [discriminate|]. injection H as <-.
  assert (W : wf (confirmed c ++ l0 ++ b0 :: r)) by (rewrite <- E; apply IV).
  destruct (compute_deps_exactly _ _ _ _ W) as [SS DE]. rewrite <- E in SS, DE.
  apply delete_inv; auto. intros x b Hx N Hb. apply DE. apply DE in Hx. eapply dep_next; eauto.
Qed.

(** ** Confirmation *)
Definition coverb (sc : list (Z * Z)) (b : blk) : bool :=
  match assocz (k_addr b) sc with Some n => k_height b <=? n | None => false end.
Lemma coverb_covers : forall sc b, coverb sc b = true <-> covers sc b.
Proof.
  intros; unfold coverb, covers. destruct (assocz (k_addr b) sc) as [n|].
  - rewrite Z.leb_le. split; [intros; exists n; auto|intros (m & [= <-] & H); auto].
  - split; [discriminate|intros (m & H & _); discriminate].
Qed.
Lemma to_confirm_prefix : forall sc U lack bs, to_confirm sc lack U = Some bs ->
  exists l1 l2, U = l1 ++ l2 /\ bs = filter (coverb sc) l1.
Proof.
  intros sc. induction U as [|b U IH]; intros lack bs H; [discriminate|].
  cbn [to_confirm] in H.
  assert (T : exists lack', match assocz (k_addr b) sc with
      | Some n => if k_height b <? n then (true, lack) else if k_height b =? n then (true, lack - 1) else (false, lack)
      | None => (false, lack) end = (coverb sc b, lack')).
  { unfold coverb. destruct (assocz (k_addr b) sc) as [n|]; [|eauto].
    destruct (k_height b <? n) eqn:E1; [|destruct (k_height b =? n) eqn:E2].
    - exists lack. f_equal. symmetry. apply Z.leb_le. lia.
    - exists (lack - 1). f_equal. symmetry. apply Z.leb_le. lia.
    - exists lack. f_equal. symmetry. apply Z.leb_gt. lia. }
  destruct T as (lack' & T). rewrite T in H. destruct (lack' <=? 0).
  - injection H as <-. exists [b], U. split; reflexivity.
  - destruct (to_confirm sc lack' U) as [l|] eqn:E; [|discriminate]. injection H as <-.
    destruct (IH _ _ E) as (l1 & l2 & -> & ->). exists (b :: l1), l2. split; auto.
Qed.

Lemma exact_same : forall s l l', (forall b, In b l <-> In b l') -> exact s l -> exact s l'.
Proof.
  intros s l l' E X. unfold exact in *. intros k v. rewrite X.
  assert (S : forall h t, sent l h t <-> sent l' h t) by (intros; unfold sent; split; intros (b & H & Q); exists b; split; auto; apply E; auto).
  assert (R : forall h, received l h <-> received l' h) by (intros; unfold received; split; intros (b & H & Q); exists b; split; auto; apply E; auto).
  destruct k, v; cbn [means]; try tauto.
  - split; intros (b & H & Q); exists b; split; auto; apply E; auto.
  - split; intros (b & H & Q); exists b; split; auto; apply E; auto.
  - split; intros (b & H & Q); exists b; split; auto; apply E; auto.
  - rewrite R. split; intros ((t & H) & Q); split; auto; exists t; apply S; auto.
  - rewrite R, S. tauto.
Qed.

Lemma uniq_perm : forall l l', Permutation l l' -> uniq l -> uniq l'.
Proof.
  intros l l' P (U1 & U2 & U3). repeat split.
  - eapply Permutation_NoDup; [|exact U1]. apply Permutation_flat_map; auto.
  - eapply Permutation_NoDup; [|exact U2]. apply Permutation_map; auto.
  - eapply Permutation_NoDup; [|exact U3]. apply Permutation_flat_map; auto.
Qed.
Lemma filter_perm : forall {A} (p : A -> bool) l, Permutation l (filter p l ++ filter (fun x => negb (p x)) l).
Proof.
  induction l as [|a l IH]; [reflexivity|]. cbn [filter]. destruct (p a); cbn [negb app].
  - apply perm_skip; auto.
  - apply Permutation_cons_app; auto.
Qed.
Lemma prec_incl : forall l C C', incl C C' -> prec C l -> prec C' l.
Proof.
  induction l as [|b l IH]; intros C C' I P; [exact P|]. destruct P as [G P]. split; [eapply grounded_incl; eauto|].
  eapply IH; [|exact P]. intros x Hx. apply in_app_iff in Hx as [Hx|Hx]; apply in_app_iff; auto.
Qed.
Lemma prec_rest : forall p C D U2 U1, prec (C ++ U1) U2 -> (forall x, In x (U1 ++ U2) -> p x = false -> In x D) ->
  prec (C ++ D ++ filter p U1) (filter p U2).
Proof.
  intros p C D. induction U2 as [|b U2 IH]; intros U1 P CL; [exact I|].
  destruct P as [G P]. cbn [filter].
  assert (IH' : prec (C ++ D ++ filter p (U1 ++ [b])) (filter p U2)).
  { apply IH; [rewrite app_assoc; exact P|]. intros x Hx. rewrite <- app_assoc in Hx. auto. }
  rewrite filter_app in IH'. cbn [filter] in IH'. destruct (p b) eqn:E.
  - cbn [prec]. split; [|rewrite <- !app_assoc; exact IH'].
    eapply grounded_incl; [|exact G]. intros x Hx. rewrite !in_app_iff. apply in_app_iff in Hx as [Hx|Hx]; auto. right.
    destruct (p x) eqn:Px; [right; apply filter_In; auto|left; apply CL; auto; apply in_app_iff; auto].
  - rewrite app_nil_r in IH'. exact IH'.
Qed.

Lemma filter_subseq_id : forall U bs, uniq U -> subseq bs U -> filter (fun b => blk_in b bs) U = bs.
Proof.
  intros U bs UU SS.
  assert (G : forall V ds, subseq ds V -> incl V U ->
    NoDup (map place V) -> (forall b, In b V -> (blk_in b bs = true <-> In b ds)) -> filter (fun b => blk_in b bs) V = ds).
  { clear SS. intros V ds SS. induction SS as [l|x d l H IH|x d l H IH]; intros IU N E.
    - induction l as [|y l IHl]; [reflexivity|]. cbn [filter].
      destruct (blk_in y bs) eqn:Y; [exfalso; apply (E y); cbn; auto|].
      apply IHl; [intros z Hz; apply IU; right; auto|apply NoDup_cons_iff in N; tauto|intros; apply E; right; auto].
    - cbn [filter map] in *. apply NoDup_cons_iff in N as [N1 N2].
      destruct (blk_in x bs) eqn:Y.
      + exfalso. apply N1, in_map. apply (subseq_in _ _ H). apply E; cbn; auto.
      + apply IH; auto; [intros z Hz; apply IU; right; auto|intros; apply E; right; auto].
    - cbn [filter map] in *. apply NoDup_cons_iff in N as [N1 N2].
      assert (blk_in x bs = true) as -> by (apply E; cbn; auto). f_equal.
      apply IH; auto; [intros z Hz; apply IU; right; auto|].
      intros b Hb. rewrite (E b (or_intror Hb)). cbn [In]. split; [|auto].
      intros [<-|Q]; auto. exfalso. apply N1, in_map; auto. }
  apply G; auto; [apply incl_refl|apply UU|]. intros b Hb. apply (blk_in_In U); auto. apply subseq_in; auto.
Qed.

Lemma confirm_wf : forall C U bs, wf (C ++ U) -> subseq bs U ->
  (forall x b, In b bs -> In x U -> needs x b -> In x bs) -> wf (C ++ bs ++ minus U bs).
Proof.
  intros C U bs W SS CL. destruct (W) as [UW P]. pose proof (subseq_in _ _ SS) as I.
  pose proof (proj1 (proj2 (uniq_app _ _ UW))) as UU.
  pose proof (filter_subseq_id U bs UU SS) as FE.
  apply prec_app in P as [P1 P2]. cbn [app] in P2. split.
  - eapply uniq_perm; [|exact UW]. apply Permutation_app_head. rewrite <- FE at 1. apply filter_perm.
  - apply prec_app. split; auto. cbn [app]. apply prec_app. split.
    + rewrite <- FE. pose proof (prec_filter (fun b => blk_in b bs) C U []) as Q. cbn [filter] in Q.
      rewrite !app_nil_r in Q. apply Q; auto. cbn [app]. intros b x Hb Pb Hx N.
      apply (blk_in_In U); auto. apply (blk_in_In U) in Pb; auto. eapply CL; eauto.
    + pose proof (prec_rest (fun b => negb (blk_in b bs)) C bs U []) as Q. cbn [filter] in Q.
      rewrite !app_nil_r in Q. apply Q; auto. cbn [app]. intros x Hx E. apply negb_false_iff in E.
      apply (blk_in_In U) in E; auto.
Qed.

Lemma subseq_filter_prefix : forall {A} (p : A -> bool) l1 l2, subseq (filter p l1) (l1 ++ l2).
Proof.
  induction l1; intros; cbn; [apply sub_nil|]. destruct (p a); [apply sub_take|apply sub_skip]; auto.
Qed.

Lemma minus_nil : forall U, minus U [] = U.
Proof. induction U; cbn; f_equal; auto. Qed.

Lemma confirm_inv : forall U g c sc bs, Inv U g c -> closed_content c sc ->
  (if zlen sc <=? 0 then Some [] else to_confirm sc (zlen sc) (c_unconf c)) = Some bs ->
  Inv U g (mkChain (c_chunks c ++ [bs]) (minus (c_unconf c) bs) (c_db c)).
Proof.
  intros U g c sc bs (W & EX & (rest & CH & PL) & GG & UU) CC H.
  set (X := c_unconf c) in *.
  assert (Q : exists l1 l2, X = l1 ++ l2 /\ bs = filter (coverb sc) l1).
  { destruct (zlen sc <=? 0); [injection H as <-; exists [], X; auto|eapply to_confirm_prefix; eauto]. }
  destruct Q as (l1 & l2 & EX' & EB).
  assert (SS : subseq bs X) by (rewrite EX', EB; apply subseq_filter_prefix).
  unfold blocks in *. fold X in W, EX, UU. set (C := confirmed c) in *.
  assert (CL : forall x b, In b bs -> In x X -> needs x b -> In x bs).
  { intros x b Hb Hx N. rewrite EB in Hb. apply filter_In in Hb as [Hb Cb].
    assert (Hx1 : In x l1).
    { apply in_split in Hb as (V1 & V2 & E). rewrite EX', E, <- app_assoc in W. cbn [app] in W.
      rewrite EX', E, <- app_assoc in Hx. cbn [app] in Hx.
      pose proof (subset_pos C V1 b (V2 ++ l2) x W Hx N). rewrite E. apply in_app_iff; auto. }
    rewrite EB. apply filter_In. split; auto. apply coverb_covers. apply coverb_covers in Cb.
    destruct N as [(F1 & F2 & _)|N].
    - destruct Cb as (n & A & L). exists n. rewrite F1. split; auto. lia.
    - apply (CC x b); auto. fold X. rewrite EX'. apply in_app_iff; auto. }
  pose proof (confirm_wf C X bs W SS CL) as W'.
  destruct (minus_split C X bs (proj1 W) (subseq_in _ _ SS)) as [M1 M2].
  assert (EQ : forall b, In b (C ++ X) <-> In b ((C ++ bs) ++ minus X bs))
    by (intros b; rewrite !in_app_iff, M1; tauto).
  assert (CF : concat (c_chunks c ++ [bs]) = C ++ bs) by (rewrite concat_app; cbn [concat]; rewrite app_nil_r; reflexivity).
  unfold Inv, blocks, confirmed. cbn [c_chunks c_unconf c_db]. rewrite CF.
  split; [rewrite <- app_assoc; exact W'|]. split; [eapply exact_same; eauto|]. split; [|split; auto].
  - exists (rest ++ [bs]). split; [rewrite CH; reflexivity|].
    intros b Hb. apply PL. rewrite concat_app in Hb. cbn [concat] in Hb. rewrite app_nil_r in Hb.
    apply in_app_iff. rewrite !in_app_iff in Hb. rewrite M1. tauto.
  - intros b Hb. apply UU, EQ; auto.
Qed.

Lemma filter_unconfirmed_spec : forall C U all bad, wf (C ++ U) ->
  subseq (filter_unconfirmed all bad U) U /\
  forall b, In b (filter_unconfirmed all bad U) <-> exists r, (all = true \/ bad_root bad r) /\ dependent U r b.
Proof.
  intros C U all bad W. unfold filter_unconfirmed. destruct all.
  - split; [apply subseq_refl|]. intros b; split.
    + intros H. exists b. split; auto. apply dep_self; auto.
    + intros (r & _ & D). eapply dependent_in; eauto.
  - destruct (filter_exactly bad C U W) as [SS E]. split; auto. intros b. rewrite E. split.
    + intros (r & R & D). exists r; auto.
    + intros (r & [R|R] & D); [discriminate|exists r; auto].
Qed.

Lemma snapshot_inv : forall U g c sc all bad c', Inv U g c -> closed_content c sc ->
  insert_snapshot c sc all bad = Some c' -> Inv U g c'.
Proof.
  intros U g c sc all bad c' IV CC H. unfold insert_snapshot in H.
  destruct (if zlen sc <=? 0 then Some [] else to_confirm sc (zlen sc) (c_unconf c)) as [bs|] eqn:E; [|discriminate].
  pose proof (confirm_inv _ _ _ _ _ IV CC E) as IV1.
  set (c1 := mkChain _ _ _) in *.
  destruct (filter_unconfirmed_spec (confirmed c1) (c_unconf c1) all bad (proj1 IV1)) as [SS DE].
  destruct (filter_unconfirmed all bad (c_unconf c1)) as [|b0 d] eqn:F; injection H as <-; auto.
  apply delete_inv; auto. intros x b Hx N Hb. apply DE. apply DE in Hx as (r & R & D). exists r. split; auto.
  eapply dep_next; eauto.
Qed.

(** ** Removing snapshots *)
Lemma exact_fold : forall d s l, exact s l -> wf (l ++ d) -> exact (fold_left insert_block d s) (l ++ d).
Proof.
  induction d as [|b d IH]; intros s l X W; [rewrite app_nil_r; auto|].
  cbn [fold_left]. replace (l ++ b :: d) with ((l ++ [b]) ++ d) in * by (rewrite <- app_assoc; reflexivity).
  apply IH; auto. apply exact_insert; auto. eapply wf_app_l; eauto.
Qed.

Lemma delete_snapshots_inv : forall U g c n redo c', Inv U g c -> delete_snapshots c n redo = Some c' -> Inv U g c'.
Proof.
  intros U g c n redo c' (W & EX & (rest & CH & PL) & GG & UU) H. unfold delete_snapshots in H.
  destruct n as [|n]; [discriminate|]. rewrite CH in H. cbn [skipn firstn] in H.
  destruct (skipn n rest) as [|first later] eqn:ES; [discriminate|].
  assert (RE : rest = firstn n rest ++ first :: later) by (rewrite <- ES; symmetry; apply firstn_skipn).
  set (K := g ++ concat (firstn n rest)). set (d := first ++ concat later ++ c_unconf c) in *.
  assert (BE : blocks c = K ++ d).
  { unfold blocks, confirmed. rewrite CH, RE. cbn [concat]. rewrite concat_app. cbn [concat].
    unfold K, d. rewrite RE at 1 || idtac. rewrite <- !app_assoc. do 2 f_equal.
    - f_equal. rewrite <- RE. reflexivity. }
  rewrite BE in W, EX, UU.
  assert (PD : forall b, In b d -> plain b).
  { intros b Hb. apply PL. rewrite RE, concat_app. cbn [concat]. unfold d in Hb. rewrite !in_app_iff in *. tauto. }
  pose proof (wf_app_l _ _ W) as WK.
  assert (X1 : exact (rollback_index (c_db c) d) K).
  { apply (rollback_exact (c_db c) (K ++ d) d K); auto.
    - apply subseq_prefix, subseq_refl.
    - intros b. rewrite in_app_iff. tauto.
    - intros b H1 H2. destruct W as [Un _]. apply uniq_app in Un as (_ & _ & _ & FP & _). exact (FP b b H2 H1 eq_refl).
    - intros b Hb. exact (prec_in _ _ _ (proj2 WK) Hb). }
  set (again := if redo then first else []) in *.
  assert (AG : exists z, d = again ++ z).
  { unfold again, d. destruct redo; [eexists; reflexivity|exists (first ++ concat later ++ c_unconf c); reflexivity]. }
  destruct AG as (z & AG).
  assert (WA : wf (K ++ again)) by (rewrite AG, app_assoc in W; eapply wf_app_l; eauto).
  injection H as <-. unfold Inv, blocks, confirmed. cbn [c_chunks c_unconf c_db concat]. fold K.
  split; [exact WA|]. split; [apply exact_fold; auto|]. split; [|split; auto].
  - exists (firstn n rest). split; auto. intros b Hb. apply in_app_iff in Hb as [Hb|Hb].
    + apply PL. rewrite RE, concat_app, !in_app_iff. auto.
    + apply PD. rewrite AG. apply in_app_iff; auto.
  - intros b Hb. apply UU. apply in_app_iff in Hb as [Hb|Hb]; apply in_app_iff; auto. right. rewrite AG. apply in_app_iff; auto.
Qed.
