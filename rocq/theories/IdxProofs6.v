From Verif Require Import Lib.
From Verif Require RoadModel RoadProofs ChainProofs.
Import RoadProofs.
From Verif Require Import IdxModel IdxSpec IdxProofs IdxProofs2 IdxProofs3 IdxProofs4 IdxProofs5.
From Coq Require Import Permutation Sorted.
Import ListNotations.

(** ** The chain stays well formed *)
Lemma after_mono l l' b : (forall c, In c l -> In c l') -> after l b -> after l' b.
Proof. intros H. destruct b as [|a n h [f|] subs]; cbn; auto. intros (c & x & C & Q). exists c, x. split; [now apply H|exact Q]. Qed.
Lemma ss_app {A} (R : A -> A -> Prop) l r : StronglySorted R l -> StronglySorted R r -> (forall x y, In x l -> In y r -> R x y) -> StronglySorted R (l ++ r).
Proof.
  intros A1 B C. induction A1 as [|x l A1 IH F]; [exact B|]. cbn. constructor; [apply IH; intros; apply C; [now right|assumption]|]. rewrite Forall_forall in *. intros y Y. apply in_app_or in Y. destruct Y as [Y|Y]; [now apply F|apply C; [now left|exact Y]].
Qed.
Lemma ss_l {A} (R : A -> A -> Prop) l r : StronglySorted R (l ++ r) -> StronglySorted R l.
Proof. induction l as [|x l IH]; [constructor|]. cbn. intros H. inversion_clear H as [|? ? X Y]. constructor; [now apply IH|]. rewrite Forall_forall in *. intros y H. apply Y. apply in_or_app. now left. Qed.
Lemma ss_r {A} (R : A -> A -> Prop) l r : StronglySorted R (l ++ r) -> StronglySorted R r.
Proof. induction l as [|x l IH]; [trivial|]. cbn. intros H. inversion_clear H. auto. Qed.
Lemma ss_filter {A} (R : A -> A -> Prop) q l : StronglySorted R l -> StronglySorted R (filter q l).
Proof. induction 1 as [|x l H IH F]; cbn; [constructor|]. destruct (q x); [|exact IH]. constructor; [exact IH|]. rewrite Forall_forall in *. intros y Y. apply filter_In in Y. now apply F. Qed.
Lemma filter_split {A} (q : A -> bool) U : forall l b r, filter q U = l ++ b :: r -> exists u1 u2, U = u1 ++ b :: u2 /\ l = filter q u1 /\ r = filter q u2 /\ q b = true.
Proof.
  induction U as [|x U IH]; intros l b r E; [destruct l; discriminate|]. cbn in E. destruct (q x) eqn:Q.
  - destruct l as [|y l]; cbn in E.
    + injection E as -> <-. exists [], U. auto.
    + injection E as -> E. destruct (IH _ _ _ E) as (u1 & u2 & -> & -> & E2 & E3). exists (y :: u1), u2. cbn. rewrite Q. auto.
  - destruct (IH _ _ _ E) as (u1 & u2 & -> & -> & E2 & E3). exists (x :: u1), u2. cbn. rewrite Q. auto.
Qed.
Lemma app_split {A} (x y : list A) : forall l b r, x ++ y = l ++ b :: r -> (exists r', x = l ++ b :: r' /\ r = r' ++ y) \/ (exists l', l = x ++ l' /\ y = l' ++ b :: r).
Proof.
  induction x as [|a x IH]; intros l b r E; cbn in E.
  - right. now exists l.
  - destruct l as [|c l]; cbn in E; injection E as -> E.
    + left. exists x. now split.
    + destruct (IH _ _ _ E) as [(r' & -> & ->)|(l' & -> & ->)]; [left; now exists r'|right; now exists l'].
Qed.
Lemma nd_flat_filter {A B} (g : A -> list B) q l : NoDup (flat_map g l) -> NoDup (flat_map g (filter q l)).
Proof.
  induction l as [|x l IH]; cbn; [trivial|]. intros N. assert (N2 := nd_app_r _ _ N). destruct (q x); [|now apply IH]. cbn. apply ChainProofs.NoDup_app_iff. split; [now apply nodup_app_l in N|]. split; [now apply IH|]. intros y Y1 Y2. apply (nd_app_ht _ _ y N Y1). apply in_flat_map in Y2. destruct Y2 as (z & Z1 & Z2). apply filter_In in Z1. apply in_flat_map. exists z. tauto.
Qed.
Lemma nd_flat_app {A B} (g : A -> list B) F q l : NoDup (flat_map g (F ++ l)) -> NoDup (flat_map g (F ++ filter q l)).
Proof.
  rewrite !flat_map_app. intros N. apply ChainProofs.NoDup_app_iff. split; [now apply nodup_app_l in N|]. split; [apply nd_flat_filter; now apply nd_app_r in N|]. intros y Y1 Y2. apply (nd_app_ht _ _ y N Y1). apply in_flat_map in Y2. destruct Y2 as (z & Z1 & Z2). apply filter_In in Z1. apply in_flat_map. exists z. tauto.
Qed.
Definition keeps (U : list blk) (q : blk -> bool) : Prop :=
  forall a n h f subs c x, In (BRecv a n h (Some f) subs) U -> q (BRecv a n h (Some f) subs) = true -> In c U -> In x (sends c) -> s_hash x = f -> q c = true.
Lemma after_filter F U q u1 b u2 : U = u1 ++ b :: u2 -> keeps U q -> q b = true -> after (F ++ u1) b -> after (F ++ filter q u1) b.
Proof.
  intros E K Q. destruct b as [|a n h [f|] subs]; cbn; auto. intros (c & x & C & X & Ex & T). exists c, x. split; [|auto]. apply in_app_or in C. apply in_or_app. destruct C as [C|C]; [now left|right]. apply filter_In. split; [exact C|]. apply (K a n h f subs c x); auto; rewrite E; apply in_or_app; [right; now left|now left].
Qed.
Lemma wf_filter S0 U q : wf S0 U -> keeps U q -> wf S0 (filter q U).
Proof.
  intros W K. assert (IB : forall b, In b (bb S0 (filter q U)) -> In b (bb S0 U)) by (intros b; unfold bb; rewrite !in_app_iff, filter_In; tauto).
  destruct W as [H1 H2 H3 H4 H5 H6 H7 H8 H9 H10 H11 H12]. constructor; auto.
  - now apply nd_flat_app.
  - unfold bb. apply ss_app; [now apply ss_l in H3|apply ss_filter; now apply ss_r in H3|]. intros x y X Y. apply filter_In in Y. apply (sorted_in _ _ _ _ _ H3); tauto.
  - intros l b r E. unfold bb in E. destruct (app_split _ _ _ _ _ E) as [(r' & E1 & ->)|(l' & -> & E1)].
    + apply (H4 l b (r' ++ U)). unfold bb. rewrite E1, <- app_assoc. reflexivity.
    + destruct (filter_split _ _ _ _ _ E1) as (u1 & u2 & EU & -> & _ & Q). apply (after_filter _ U q u1 b u2); auto. apply (H4 _ b u2). unfold bb. rewrite EU, <- app_assoc. reflexivity.
  - unfold taken. now apply nd_flat_app.
  - intros a n h f subs H. apply (H6 a n h f subs). auto.
  - intros a n h subs H. destruct (H12 a n h subs (IB _ H)) as [X|[X Y]]; [now left|]. right. split; [exact X|]. subst S0. exact H.
Qed.
Lemma filter_perm {A} (q : A -> bool) l : Permutation l (filter q l ++ filter (fun x => negb (q x)) l).
Proof. induction l as [|x l IH]; [constructor|]. cbn. destruct (q x); cbn; [now constructor|]. apply Permutation_cons_app. exact IH. Qed.
Lemma wf_reorder S0 U q : wf S0 U -> keeps U q -> (forall b c, In b U -> In c U -> q b = false -> q c = true -> b_addr b = b_addr c -> b_height c < b_height b) ->
  wf S0 (filter q U ++ filter (fun b => negb (q b)) U).
Proof.
  intros W K O. set (A := filter q U). set (B := filter (fun b => negb (q b)) U). assert (PM : Permutation (bb S0 U) (bb S0 (A ++ B))) by (unfold bb; apply Permutation_app_head; apply filter_perm).
  assert (IB : forall b, In b (bb S0 (A ++ B)) -> In b (bb S0 U)) by (intros b; apply Permutation_in; now apply Permutation_sym).
  destruct W as [H1 H2 H3 H4 H5 H6 H7 H8 H9 H10 H11 H12]. constructor; auto.
  - apply (Permutation_NoDup (perm_flat hashes _ _ PM) H1).
  - unfold bb. apply ss_app; [now apply ss_l in H3| |].
    + apply ss_app; [apply ss_filter; now apply ss_r in H3|apply ss_filter; now apply ss_r in H3|]. intros x y X Y E. apply filter_In in X, Y. destruct Y as [Y1 Y2]. apply negb_true_iff in Y2. apply O; tauto || auto.
    + intros x y X Y. apply (sorted_in _ _ _ _ _ H3 X). apply in_app_or in Y. destruct Y as [Y|Y]; apply filter_In in Y; tauto.
  - intros l b r E. unfold bb in E. destruct (app_split _ _ _ _ _ E) as [(r' & E1 & ->)|(l' & -> & E1)].
    + apply (H4 l b (r' ++ U)). unfold bb. rewrite E1, <- app_assoc. reflexivity.
    + destruct (app_split _ _ _ _ _ E1) as [(r' & E2 & ->)|(l2 & -> & E2)].
      * destruct (filter_split _ _ _ _ _ E2) as (u1 & u2 & EU & -> & _ & Q). apply (after_filter _ U q u1 b u2); auto. apply (H4 _ b u2). unfold bb. rewrite EU, <- app_assoc. reflexivity.
      * destruct (filter_split _ _ _ _ _ E2) as (u1 & u2 & EU & -> & _ & Q). apply (after_mono (flat_map g_blocks S0 ++ u1)).
        -- intros c C. apply in_app_or in C. apply in_or_app. destruct C as [C|C]; [now left|right]. apply in_or_app. destruct (q c) eqn:Qc; [left|right; apply filter_In; rewrite Qc; auto]. apply filter_In. split; [|exact Qc]. rewrite EU. apply in_or_app. now left.
        -- apply (H4 _ b u2). unfold bb. rewrite EU, <- app_assoc. reflexivity.
  - unfold taken in *. apply (Permutation_NoDup (perm_flat _ _ _ PM) H5).
  - intros a n h f subs H. apply (H6 a n h f subs). auto.
  - intros a n h subs H. destruct (H12 a n h subs (IB _ H)) as [X|[X Y]]; [now left|]. right. split; [exact X|]. subst S0. exact H.
Qed.
Lemma wf_cut S1 T U V : wf (S1 ++ T) U -> S1 <> [] -> (exists R0, bb (S1 ++ T) U = bb S1 V ++ R0) -> wf S1 V.
Proof.
  intros W NE (R0 & EB). destruct W as [H1 H2 H3 H4 H5 H6 H7 H8 H9 H10 H11 H12]. rewrite EB in *. assert (IB : forall b, In b (bb S1 V) -> In b (bb S1 V ++ R0)) by (intros; apply in_or_app; now left). assert (IS : forall g, In g S1 -> In g (S1 ++ T)) by (intros; apply in_or_app; now left).
  constructor; auto.
  - rewrite flat_map_app in H1. now apply nodup_app_l in H1.
  - now apply ss_l in H3.
  - intros l b r E. apply (H4 l b (r ++ R0)). rewrite E, <- app_assoc. reflexivity.
  - unfold taken in *. rewrite flat_map_app in H5. now apply nodup_app_l in H5.
  - intros a n h f subs H. apply (H6 a n h f subs). auto.
  - now apply ss_l in H7.
  - intros a n h subs H. left. destruct (H12 a n h subs (IB _ H)) as [X|[X _]]; [|destruct S1; [now destruct NE|discriminate]]. destruct S1 as [|g S1]; [now destruct NE|]. exact X.
Qed.
Lemma wf_accept w b : wf (w_log w) (w_unc w) -> accepted w b -> wf (w_log w) (w_unc w ++ [b]).
Proof.
  intros W (A1 & A2 & A3 & A4 & A5). change (blocks w) with (bb (w_log w) (w_unc w)) in *. set (S0 := w_log w) in *. set (U := w_unc w) in *. pose proof W as WW. destruct W as [H1 H2 H3 H4 H5 H6 H7 H8 H9 H10 H11 H12]. constructor; rewrite ?bb_snoc; auto.
  - rewrite flat_map_app. cbn. rewrite app_nil_r. apply ChainProofs.NoDup_app_iff. split; [exact H1|]. split; [exact A1|]. intros h X Y. apply in_flat_map in X. destruct X as (c & C & X). now apply (A2 h Y c).
  - intros c C. apply in_app_or in C. destruct C as [C|[<-|[]]]; auto.
  - apply ss_app; [exact H3|repeat constructor|]. intros x y X [<-|[]] E. now apply A4.
  - intros l c r E. destruct (app_split _ _ _ _ _ E) as [(r' & E1 & ->)|(l' & -> & E1)]; [now apply (H4 l c r')|]. destruct l' as [|y l']; [|destruct l'; discriminate]. injection E1 as <- <-. rewrite app_nil_r. destruct b as [|a n h [f|] subs]; cbn; auto. destruct A5 as (_ & (Q & _)). exact Q.
  - unfold taken in *. rewrite flat_map_app. cbn. rewrite app_nil_r. apply ChainProofs.NoDup_app_iff. split; [exact H5|]. destruct b as [|a n h [f|] subs]; cbn; (split; [repeat constructor; intros []|]); try (intros ? ? []; fail). intros y Y [<-|[]]. destruct A5 as (_ & (_ & Q)). fold (taken (bb S0 U)) in Y. apply taken_iff in Y. destruct Y as (r & Y). now apply (Q r).
  - intros a n h f subs H. apply in_app_or in H. destruct H as [H|[->|[]]]; [now apply (H6 a n h f)|]. now destruct A5.
  - intros a n h subs H. apply in_app_or in H. destruct H as [H|[->|[]]].
    + destruct (H12 a n h subs H) as [X|[X Y]]; [now left|right]. split; [exact X|]. apply in_or_app. now left.
    + right. destruct A5 as (_ & E). split; [exact E|]. apply in_or_app. right. now left.
Qed.
Lemma confirms_iff c b : confirms c b = true <-> exists n, In (b_addr b, n) c /\ b_height b <= n.
Proof.
  unfold confirms. rewrite existsb_exists. split.
  - intros ([a n] & H & E). apply andb_true_iff in E. cbn in E. exists n. destruct E as [E1 E2]. apply Z.eqb_eq in E1. subst a. split; [exact H|lia].
  - intros (n & H & E). exists (b_addr b, n). split; [exact H|]. cbn. rewrite Z.eqb_refl. apply Z.leb_le in E. now rewrite E.
Qed.
Lemma wf_snap w s loc locs : wf (w_log w) (w_unc w) -> snapshots w s ->
  let bs := filter (confirms (sb_content s)) (w_unc w) in let rest := filter (fun b => negb (confirms (sb_content s) b)) (w_unc w) in
  wf (w_log w) (bs ++ rest) /\ wf (w_log w ++ [Seg bs s loc locs]) rest.
Proof.
  intros W (B1 & B2 & B3 & B4 & B5 & B6) bs rest. assert (W1 : wf (w_log w) (bs ++ rest)).
  { apply wf_reorder; [exact W| |].
    - intros a n h f subs c x. apply B5.
    - intros b c B C Qb Qc E. apply confirms_iff in Qc. destruct Qc as (n & N & L). assert (~ b_height b <= n); [|lia]. intros X. rewrite <- E in N. assert (confirms (sb_content s) b = true) by (apply confirms_iff; eauto). congruence. }
  split; [exact W1|]. destruct W1 as [H1 H2 H3 H4 H5 H6 H7 H8 H9 H10 H11 H12]. set (g := Seg bs s loc locs). assert (EB : bb (w_log w ++ [g]) rest = bb (w_log w) (bs ++ rest)) by apply bb_seg. constructor; rewrite ?EB; auto.
  - apply ss_app; [exact H7|repeat constructor|]. intros x y X [<-|[]]. now apply B1.
  - intros g' G. apply in_app_or in G. destruct G as [G|[<-|[]]]; auto.
  - intros g' G. apply in_app_or in G. destruct G as [G|[<-|[]]]; auto.
  - intros g' a n G Q. apply in_app_or in G. destruct G as [G|[<-|[]]]; auto. cbn in *. destruct (B4 a n Q) as (b & B & <- & <-). exists b. split; [|auto]. apply filter_In. split; [exact B|]. apply confirms_iff. exists (b_height b). split; [exact Q|lia].
  - intros g' b G Q. apply in_app_or in G. destruct G as [G|[<-|[]]]; auto. cbn in *. apply filter_In in Q. apply confirms_iff. tauto.
  - intros a n h subs H. left. destruct (H12 a n h subs H) as [X|[X Y]].
    + destruct (w_log w) as [|g0 S1]; [destruct X|]. exact X.
    + rewrite X. cbn. rewrite app_nil_r. apply in_app_or in Y. destruct Y as [Y|Y]; [exact Y|]. apply filter_In in Y. apply filter_In. split; [tauto|]. apply B6. tauto.
Qed.
