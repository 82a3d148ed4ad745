From Verif Require Import Lib.
From Verif Require RoadModel RoadProofs.
Import RoadProofs.
From Verif Require Import IdxModel IdxSpec IdxProofs IdxProofs2.
From Coq Require Import Permutation Sorted.
Import ListNotations.

(** ** A snapshot block *)
Lemma sorted_in {A} (R : A -> A -> Prop) l r x y : StronglySorted R (l ++ r) -> In x l -> In y r -> R x y.
Proof. induction l as [|z l IH]; [intros _ []|]. cbn. intros H. inversion_clear H as [|? ? X Y]. rewrite Forall_forall in Y. intros [->|I0] J; [apply Y, in_or_app; now right|now apply IH]. Qed.
Lemma bb_seg S0 g V : bb (S0 ++ [g]) V = bb S0 (g_blocks g ++ V).
Proof. unfold bb. rewrite flat_map_app. cbn. now rewrite app_nil_r, <- app_assoc. Qed.
Lemma apart A B b : NoDup (flat_map hashes (A ++ B)) -> In b A -> In b B -> False.
Proof. rewrite flat_map_app. intros N H K. apply (nd_app_ht _ _ (b_hash b) N); apply in_flat_map; exists b; (split; [assumption|apply hs_self]). Qed.
Lemma in_bb S0 U b : In b (bb S0 U) <-> (exists g, In g S0 /\ In b (g_blocks g)) \/ In b U.
Proof. unfold bb. rewrite in_app_iff, in_flat_map. reflexivity. Qed.
Lemma snap_iff s bs loc locs o : In o (snapshot_ops s bs loc locs) <->
  o = WPut (KSb (sb_hash s)) (VNum (sb_height s)) \/ o = WPut (KSbAt (sb_height s)) (VLoc (sb_hash s) loc) \/
  (exists a n, In (a, n) (sb_content s) /\ o = WPut (KConf a n) (VNum (sb_height s))) \/
  (exists b, In b bs /\ o = WPut (KBlock (b_addr b) (b_height b)) (VLoc (b_hash b) (locs (b_hash b)))).
Proof.
  unfold snapshot_ops. rewrite !in_app_iff, !in_map_iff. split.
  - intros [[<-|[<-|[]]]|[([a n] & <- & H)|(b & <- & H)]]; auto; right; right; [left; now exists a, n|right; now exists b].
  - intros [->|[->|[(a & n & H & ->)|(b & H & ->)]]]; [left; now left|left; right; now left| |]; right; [left; now exists (a, n)|right; now exists b].
Qed.
Theorem good_snapshot S0 g V d : wf (S0 ++ [g]) V -> good d S0 (g_blocks g ++ V) -> good (apply (snapshot_ops (g_sb g) (g_blocks g) (g_loc g) (g_locs g)) d) (S0 ++ [g]) V.
Proof.
  intros W G k P v. set (s := g_sb g). set (ops := snapshot_ops s (g_blocks g) (g_loc g) (g_locs g)).
  assert (SS : forall g', In g' S0 -> sb_hash (g_sb g') <> sb_hash s /\ sb_height (g_sb g') < sb_height s) by (intros g' H; apply (sorted_in _ _ _ _ _ (c_sbs _ _ W)); [exact H|now left]).
  assert (SAME : forall b c, In b (bb S0 (g_blocks g ++ V)) -> In c (g_blocks g) -> b_addr b = b_addr c -> b_height b = b_height c -> b = c).
  { intros b c B C A H. apply (same_at (bb (S0 ++ [g]) V)); [apply (c_order _ _ W)|now rewrite bb_seg| |exact A|exact H]. rewrite bb_seg. apply in_bb. right. apply in_or_app. now left. }
  assert (N := c_hash _ _ W). rewrite bb_seg in N.
  assert (X1 : forall g' b, In g' S0 -> In b (g_blocks g') -> In b (g_blocks g) -> False).
  { intros g' b H B C. unfold bb in N. apply (apart _ _ b N); [apply in_flat_map; eauto|apply in_or_app; now left]. }
  assert (X2 : forall b, In b V -> In b (g_blocks g) -> False).
  { intros b B C. unfold bb in N. rewrite app_assoc in N. apply (apart _ _ b N); [|exact B]. apply in_or_app. now right. }
  destruct k as [h|a n|h|a n|t h|h|n|a|i]; try contradiction.
  - rewrite get_out; [|intros o O E; apply snap_iff in O; destruct O as [->|[->|[(? & ? & _ & ->)|(? & _ & ->)]]]; discriminate]. rewrite (G _ P v). destruct v; cbn; rewrite ?bb_seg; reflexivity.
  - destruct (in_dec (fun x y : Z * Z => ltac:(decide equality; apply Z.eq_dec)) (a, n) (map (fun b => (b_addr b, b_height b)) (g_blocks g))) as [H|H].
    + apply in_map_iff in H. destruct H as (b & E & B). injection E as <- <-.
      assert (EG : get keq (apply ops d) (KBlock (b_addr b) (b_height b)) = Some (VLoc (b_hash b) (g_locs g (b_hash b)))).
      { apply (get_in_op ops d (WPut (KBlock (b_addr b) (b_height b)) (VLoc (b_hash b) (g_locs g (b_hash b))))); [apply snap_iff; right; right; right; now exists b|]. intros o O E. apply snap_iff in O. destruct O as [->|[->|[(? & ? & _ & ->)|(c & C & ->)]]]; try discriminate. cbn in E. injection E as E1 E2. rewrite (SAME c b); auto. apply in_bb. right. apply in_or_app. now left. }
      rewrite EG. destruct v as [ |h|h l| | | | |]; try (split; [discriminate|intros []]; fail); cbn.
      * split; [discriminate|]. intros (c & C & A & H & _). exfalso. assert (c = b) by (apply SAME; auto; apply in_bb; right; apply in_or_app; now right). subst c. now apply (X2 b).
      * split; [intros [= <- <-]; exists g, b; split; [apply in_or_app; right; now left|auto]|]. intros (g' & c & GG & C & A & H & <- & <-). apply in_app_or in GG. destruct GG as [GG|[<-|[]]].
        -- exfalso. assert (c = b) by (apply SAME; auto; apply in_bb; left; eauto). subst c. now apply (X1 g' b).
        -- assert (c = b) by (apply SAME; auto; apply in_bb; right; apply in_or_app; now left). now subst c.
    + rewrite get_out; [|intros o O E; apply snap_iff in O; destruct O as [->|[->|[(? & ? & _ & ->)|(c & C & ->)]]]; try discriminate; cbn in E; injection E as E1 E2; apply H, in_map_iff; exists c; split; [congruence|exact C]].
      rewrite (G _ P v). destruct v as [ |h|h l| | | | |]; try reflexivity; cbn.
      * split; intros (c & C & A & Hh & Q); exists c; (split; [|auto]); [|apply in_or_app; now right]. apply in_app_or in C. destruct C as [C|C]; [|exact C]. destruct H. apply in_map_iff. exists c. split; [congruence|exact C].
      * split; intros (g' & c & GG & C & Q); exists g', c; (split; [|auto]); [apply in_or_app; now left|]. apply in_app_or in GG. destruct GG as [GG|[<-|[]]]; [exact GG|]. destruct H. apply in_map_iff. exists c. destruct Q as (Q1 & Q2 & _). split; [congruence|exact C].
  - rewrite get_out; [|intros o O E; apply snap_iff in O; destruct O as [->|[->|[(? & ? & _ & ->)|(? & _ & ->)]]]; discriminate]. rewrite (G _ P v). destruct v; cbn; rewrite ?bb_seg; reflexivity.
  - destruct (in_dec (fun x y : Z * Z => ltac:(decide equality; apply Z.eq_dec)) (a, n) (sb_content s)) as [H|H].
    + assert (EG : get keq (apply ops d) (KConf a n) = Some (VNum (sb_height s))).
      { apply (get_in_op ops d (WPut (KConf a n) (VNum (sb_height s)))); [apply snap_iff; right; right; left; now exists a, n|]. intros o O E. apply snap_iff in O. destruct O as [->|[->|[(? & ? & _ & ->)|(c & C & ->)]]]; try discriminate. reflexivity. }
      rewrite EG. destruct v as [ | | | | | |m|]; try (split; [discriminate|intros []]; fail); cbn. split; [intros [= <-]; exists g; split; [apply in_or_app; right; now left|auto]|].
      intros (g' & GG & C & <-). apply in_app_or in GG. destruct GG as [GG|[<-|[]]]; [|reflexivity]. exfalso.
      destruct (c_named _ _ W g' a n) as (b & B & A & Hh); [apply in_or_app; now left|exact C|]. destruct (c_named _ _ W g a n) as (c & C' & A' & Hh'); [apply in_or_app; right; now left|exact H|].
      assert (b = c) by (apply SAME; auto; [apply in_bb; left; eauto|congruence|congruence]). subst c. now apply (X1 g' b).
    + rewrite get_out; [|intros o O E; apply snap_iff in O; destruct O as [->|[->|[(? & ? & Q & ->)|(c & C & ->)]]]; try discriminate; cbn in E; injection E as -> ->; contradiction].
      rewrite (G _ P v). destruct v as [ | | | | | |m|]; try reflexivity; cbn. split; intros (g' & GG & C & Q); exists g'; (split; [|auto]); [apply in_or_app; now left|]. apply in_app_or in GG. destruct GG as [GG|[<-|[]]]; [exact GG|contradiction].
  - rewrite get_out; [|intros o O E; apply snap_iff in O; destruct O as [->|[->|[(? & ? & _ & ->)|(? & _ & ->)]]]; discriminate]. rewrite (G _ P v). destruct v; cbn; rewrite ?bb_seg; reflexivity.
  - destruct (Z.eq_dec h (sb_hash s)) as [->|H].
    + assert (EG : get keq (apply ops d) (KSb (sb_hash s)) = Some (VNum (sb_height s))).
      { apply (get_in_op ops d (WPut (KSb (sb_hash s)) (VNum (sb_height s)))); [apply snap_iff; now left|]. intros o O E. apply snap_iff in O. destruct O as [->|[->|[(? & ? & _ & ->)|(c & C & ->)]]]; try discriminate. reflexivity. }
      rewrite EG. destruct v as [ | | | | | |m|]; try (split; [discriminate|intros []]; fail); cbn. split; [intros [= <-]; exists g; split; [apply in_or_app; right; now left|auto]|].
      intros (g' & GG & C & <-). apply in_app_or in GG. destruct GG as [GG|[<-|[]]]; [|reflexivity]. now destruct (SS g' GG).
    + rewrite get_out; [|intros o O E; apply snap_iff in O; destruct O as [->|[->|[(? & ? & Q & ->)|(c & C & ->)]]]; try discriminate; cbn in E; congruence].
      rewrite (G _ P v). destruct v as [ | | | | | |m|]; try reflexivity; cbn. split; intros (g' & GG & C & Q); exists g'; (split; [|auto]); [apply in_or_app; now left|]. apply in_app_or in GG. destruct GG as [GG|[<-|[]]]; [exact GG|]. now destruct H.
  - destruct (Z.eq_dec n (sb_height s)) as [->|H].
    + assert (EG : get keq (apply ops d) (KSbAt (sb_height s)) = Some (VLoc (sb_hash s) (g_loc g))).
      { apply (get_in_op ops d (WPut (KSbAt (sb_height s)) (VLoc (sb_hash s) (g_loc g)))); [apply snap_iff; right; now left|]. intros o O E. apply snap_iff in O. destruct O as [->|[->|[(? & ? & _ & ->)|(c & C & ->)]]]; try discriminate. reflexivity. }
      rewrite EG. destruct v as [ | |h l| | | | |]; try (split; [discriminate|intros []]; fail); cbn. split; [intros [= <- <-]; exists g; split; [apply in_or_app; right; now left|auto]|].
      intros (g' & GG & C & <- & <-). apply in_app_or in GG. destruct GG as [GG|[<-|[]]]; [|reflexivity]. destruct (SS g' GG). lia.
    + rewrite get_out; [|intros o O E; apply snap_iff in O; destruct O as [->|[->|[(? & ? & Q & ->)|(c & C & ->)]]]; try discriminate; cbn in E; congruence].
      rewrite (G _ P v). destruct v as [ | |h l| | | | |]; try reflexivity; cbn. split; intros (g' & GG & C & Q); exists g'; (split; [|auto]); [apply in_or_app; now left|]. apply in_app_or in GG. destruct GG as [GG|[<-|[]]]; [exact GG|]. now destruct H.
Qed.
Print Assumptions good_snapshot.
