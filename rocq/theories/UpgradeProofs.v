(** Proofs about the table of upgrades. *)
From Coq Require Import String ZArith List Bool Lia Sorting Permutation.
From Verif Require Import Lib VmModel VmProofs2 VmProofs3 LedgerProofs ElectProofs UpgradeModel UpgradeSpec.
Import ListNotations.
Open Scope Z_scope.

(** ** The map built from the array *)
Lemma assoc_In_pt (m : list (Z * point)) k v : assoc k m = Some v -> In (k, v) m.
Proof. induction m as [|[k' v'] m IH]; cbn; [discriminate|]. destruct (k =? k') eqn:E; intro H; [injection H as <-; left; f_equal; lia|right; auto]. Qed.
Lemma assoc_nodup_pt (m : list (Z * point)) k v : NoDup (map fst m) -> In (k, v) m -> assoc k m = Some v.
Proof.
  induction m as [|[k' v'] m IH]; intros N I; [contradiction|]. cbn in *. apply NoDup_cons_iff in N as [N1 N2]. destruct I as [E|I].
  - injection E as -> ->. now rewrite Z.eqb_refl.
  - destruct (k =? k') eqn:E; [|auto]. exfalso. apply N1. replace k' with k by lia. now apply (in_map fst) in I.
Qed.

Definition lastof (pts : list point) (v : Z) : option point :=
  fold_left (fun r p => if v =? p_version p then Some p else r) pts None.
Lemma lastof_snoc pts p v : lastof (pts ++ [p]) v = if v =? p_version p then Some p else lastof pts v.
Proof. unfold lastof. now rewrite fold_left_app. Qed.
Lemma lastof_in pts v : (exists p, lastof pts v = Some p) <-> In v (map p_version pts).
Proof.
  induction pts as [|p pts IH] using rev_ind; [cbn; split; [intros [? ?]; discriminate|tauto]|].
  rewrite lastof_snoc, map_app, in_app_iff. cbn. destruct (Z.eqb_spec v (p_version p)) as [->|N].
  - split; [auto|]. intros _. now exists p.
  - rewrite IH. intuition congruence.
Qed.
Lemma lastof_version pts v p : lastof pts v = Some p -> p_version p = v /\ In p pts.
Proof.
  induction pts as [|q pts IH] using rev_ind; [cbn; discriminate|]. rewrite lastof_snoc, in_app_iff. cbn.
  destruct (Z.eqb_spec v (p_version q)) as [->|N]; intro H; [injection H as <-; auto|]. destruct (IH H). auto.
Qed.
Lemma lastof_configured pts v p : lastof pts v = Some p <-> configured pts v p.
Proof.
  split.
  - induction pts as [|q pts IH] using rev_ind; [discriminate|]. rewrite lastof_snoc.
    destruct (Z.eqb_spec v (p_version q)) as [->|N]; intro H.
    + injection H as <-. exists pts, []. cbn. auto.
    + destruct (IH H) as (a & b & -> & V & I). exists a, (b ++ [q]). rewrite <- app_assoc. split; [reflexivity|].
      split; [assumption|]. rewrite map_app, in_app_iff. cbn. intuition congruence.
  - intros (a & b & -> & V & I). induction b as [|q b IH] using rev_ind.
    + rewrite lastof_snoc. now rewrite V, Z.eqb_refl.
    + rewrite map_app, in_app_iff in I. cbn in I.
      replace (a ++ p :: b ++ [q]) with ((a ++ p :: b) ++ [q]) by now rewrite <- app_assoc.
      rewrite lastof_snoc. destruct (Z.eqb_spec v (p_version q)); [intuition congruence|]. apply IH. intuition.
Qed.

Section Dec.
Context (dec : Z -> list Z).
Lemma name_version p : p_version (name_point dec p) = p_version p.
Proof. unfold name_point. destruct (p_name p); reflexivity. Qed.
Lemma name_height p : p_height (name_point dec p) = p_height p.
Proof. unfold name_point. destruct (p_name p); reflexivity. Qed.
Lemma name_shown p : shown dec p (name_point dec p).
Proof. unfold shown, name_point. destruct (p_name p) eqn:E; cbn; rewrite ?E; repeat split; congruence. Qed.

Definition maps (pts : list point) := fold_left (init_step dec) pts ([], []).
Lemma maps_snoc pts p : maps (pts ++ [p]) = init_step dec (maps pts) p.
Proof. unfold maps. now rewrite fold_left_app. Qed.
Lemma maps_assoc pts v : assoc v (fst (maps pts)) = option_map (name_point dec) (lastof pts v).
Proof.
  induction pts as [|p pts IH] using rev_ind; [reflexivity|]. rewrite maps_snoc, lastof_snoc. cbn [init_step fst].
  rewrite assoc_set_get, IH. destruct (v =? p_version p); reflexivity.
Qed.
Lemma maps_nodup pts : NoDup (map fst (fst (maps pts))).
Proof. induction pts as [|p pts IH] using rev_ind; [constructor|]. rewrite maps_snoc. now apply assoc_set_nodup. Qed.
Lemma maps_heights pts h : In h (snd (maps pts)) <-> In h (map p_height pts).
Proof.
  induction pts as [|p pts IH] using rev_ind; [reflexivity|]. rewrite maps_snoc, map_app, in_app_iff. cbn. rewrite IH. tauto.
Qed.
Lemma maps_in pts k q : In (k, q) (fst (maps pts)) <-> exists p, lastof pts k = Some p /\ q = name_point dec p.
Proof.
  split.
  - intro I. apply assoc_nodup_pt in I; [|apply maps_nodup]. rewrite maps_assoc in I.
    destruct (lastof pts k) as [p|]; [|discriminate]. injection I as <-. now exists p.
  - intros (p & E & ->). apply assoc_In_pt. now rewrite maps_assoc, E.
Qed.
End Dec.

(** ** Sorting *)
Definition vlt (p q : point) : Prop := p_version p < p_version q.
Lemma place_in p l x : In x (place_point p l) <-> x = p \/ In x l.
Proof.
  induction l as [|q l IH]; cbn; [intuition|]. destruct (p_version q <? p_version p); cbn; [rewrite IH|]; intuition.
Qed.
Lemma place_sorted p l : StronglySorted vlt l -> ~ In (p_version p) (map p_version l) -> StronglySorted vlt (place_point p l).
Proof.
  induction l as [|q l IH]; cbn; intros S N; [repeat constructor|]. apply StronglySorted_inv in S as [S F].
  destruct (Z.ltb_spec (p_version q) (p_version p)) as [L|L].
  - constructor; [apply IH; intuition|]. apply Forall_forall. intros x X. apply place_in in X as [->|X]; [exact L|].
    rewrite Forall_forall in F. now apply F.
  - assert (vlt p q) by (unfold vlt; intuition lia). constructor; [now constructor|]. constructor; [assumption|].
    rewrite Forall_forall in *. intros x X. specialize (F x X). unfold vlt in *. lia.
Qed.
Definition keyed (m : list (Z * point)) : Prop := forall k q, In (k, q) m -> p_version q = k.
Lemma sort_in m x : In x (sort_points m) <-> In x (map snd m).
Proof.
  unfold sort_points. induction (map snd m) as [|p l IH]; cbn; [reflexivity|]. rewrite place_in, IH. intuition.
Qed.
Lemma sort_sorted m : NoDup (map fst m) -> keyed m -> StronglySorted vlt (sort_points m).
Proof.
  induction m as [|[k q] m IH]; intros N K; [constructor|]. cbn in N. apply NoDup_cons_iff in N as [N1 N2].
  assert (K' : keyed m) by (intros ? ? ?; apply K; now right).
  change (sort_points ((k, q) :: m)) with (place_point q (sort_points m)). apply place_sorted; [now apply IH|].
  rewrite in_map_iff. intros (x & E & X). apply sort_in in X. apply in_map_iff in X as ([k' x'] & E' & X). cbn in E'. subst x'.
  apply N1. assert (p_version q = k) by (apply K; now left). assert (p_version x = k') by now apply K'.
  replace k with k' by lia. now apply (in_map fst) in X.
Qed.
Lemma sorted_same l l' : StronglySorted vlt l -> StronglySorted vlt l' -> (forall x, In x l <-> In x l') -> l = l'.
Proof.
  revert l'. induction l as [|x l IH]; intros l' S S' E.
  - destruct l' as [|y l']; [reflexivity|]. exfalso. apply (E y). now left.
  - destruct l' as [|y l']; [exfalso; apply (E x); now left|].
    apply StronglySorted_inv in S as [S F], S' as [S' F']. rewrite Forall_forall in F, F'.
    assert (x = y) as <-.
    { destruct (proj1 (E x) ltac:(now left)) as [|X]; [congruence|]. destruct (proj2 (E y) ltac:(now left)) as [|Y]; [congruence|].
      specialize (F _ Y). specialize (F' _ X). unfold vlt in *. lia. }
    f_equal. apply IH; auto. intro z. specialize (E z). cbn in E. split; intro Z.
    + destruct (proj1 E (or_intror Z)) as [<-|]; [|assumption]. specialize (F _ Z). unfold vlt in F. lia.
    + destruct (proj2 E (or_intror Z)) as [<-|]; [|assumption]. specialize (F' _ Z). unfold vlt in F'. lia.
Qed.

(** ** The check *)
Lemma check_spec l : forall i last, check_from i last l = true <->
  (forall k p, nth_error l k = Some p -> p_version p = i + Z.of_nat k + 1) /\ StronglySorted Z.le (last :: map p_height l).
Proof.
  induction l as [|e l IH]; intros i last; cbn [check_from].
  - split; [|reflexivity]. intros _. split; [intros [|k] p E; discriminate|repeat constructor].
  - destruct (Z.eqb_spec i (p_version e - 1)) as [E1|E1]; cbn [negb].
    2:{ split; [discriminate|]. intros [H _]. specialize (H 0%nat e eq_refl). lia. }
    destruct (Z.ltb_spec (p_height e) last) as [E2|E2].
    { split; [discriminate|]. intros [_ H]. apply StronglySorted_inv in H as [_ H]. inversion H; subst. lia. }
    rewrite IH. split; intros [H1 H2]; split.
    + intros [|k] p E; cbn in E; [injection E as <-; lia|]. specialize (H1 _ _ E). lia.
    + constructor; [assumption|]. apply StronglySorted_inv in H2 as [H2 H3]. constructor; [lia|].
      eapply Forall_impl; [|exact H3]. cbn. intros; lia.
    + intros k p E. specialize (H1 (S k) p E). lia.
    + now apply StronglySorted_inv in H2 as [H2 _].
Qed.

(** ** The shape of an accepted table *)
Record shape (b : box) : Prop := {
  sh_get : forall v, assoc v (b_map b) = if v <? 1 then None else nth_error (b_sorted b) (Z.to_nat (v - 1));
  sh_ver : forall k p, nth_error (b_sorted b) k = Some p -> p_version p = Z.of_nat k + 1;
  sh_inc : StronglySorted Z.le (map p_height (b_sorted b));
  sh_pos : Forall (fun p => 0 <= p_height p) (b_sorted b) }.
Lemma keyed_maps dec pts : keyed (fst (maps dec pts)).
Proof. intros k q I. apply maps_in in I as (p & E & ->). rewrite name_version. now apply lastof_version in E as [E _]. Qed.
Lemma init_shape dec pts : init_box dec pts = Box (fst (maps dec pts)) (snd (maps dec pts)) (sort_points (fst (maps dec pts))).
Proof. unfold init_box. fold (maps dec pts). now destruct (maps dec pts). Qed.
Lemma sorted_in dec pts q : In q (sort_points (fst (maps dec pts))) <-> exists p, lastof pts (p_version q) = Some p /\ q = name_point dec p.
Proof.
  rewrite sort_in, in_map_iff. split.
  - intros ([k x] & E & I). cbn in E. subst x. pose proof (keyed_maps dec pts _ _ I) as K. rewrite K. now apply maps_in.
  - intros (p & E & Q). exists (p_version q, q). split; [reflexivity|]. apply maps_in. now exists p.
Qed.
Lemma map_sorted dec pts : StronglySorted vlt (sort_points (fst (maps dec pts))).
Proof. apply sort_sorted; [apply maps_nodup|apply keyed_maps]. Qed.
Lemma nth_In_ver l k p : StronglySorted vlt l -> nth_error l k = Some p -> In p l.
Proof. intros _ E. eapply nth_error_In; exact E. Qed.
Lemma map_nodup_inj l p q : StronglySorted vlt l -> In p l -> In q l -> p_version p = p_version q -> p = q.
Proof.
  induction l as [|x l IH]; cbn; [tauto|]. intros S P Q E. apply StronglySorted_inv in S as [S F]. rewrite Forall_forall in F.
  destruct P as [->|P], Q as [->|Q]; auto.
  - specialize (F _ Q). unfold vlt in F. lia.
  - specialize (F _ P). unfold vlt in F. lia.
Qed.
Lemma new_box_shape dec pts b : new_box dec pts = Some b ->
  shape b /\ b_map b = fst (maps dec pts) /\ b_heights b = snd (maps dec pts) /\ b_sorted b = sort_points (fst (maps dec pts)).
Proof.
  unfold new_box. rewrite init_shape. cbn [b_sorted]. destruct (check_from 0 0 _) eqn:C; [|discriminate]. intro E. injection E as <-.
  cbn [b_map b_heights b_sorted]. split; [|auto]. apply check_spec in C as [C1 C2].
  set (l := sort_points (fst (maps dec pts))) in *.
  assert (V : forall k p, nth_error l k = Some p -> p_version p = Z.of_nat k + 1) by (intros k p E; specialize (C1 k p E); lia).
  pose proof (map_sorted dec pts : StronglySorted vlt l) as S.
  split; cbn [b_map b_sorted]; fold l; auto.
  - intro v. destruct (assoc v (fst (maps dec pts))) as [q|] eqn:E.
    + pose proof (assoc_In_pt _ _ _ E) as I. pose proof (keyed_maps dec pts _ _ I) as K.
      assert (L : In q l) by (apply sort_in; apply in_map_iff; exists (v, q); auto).
      apply In_nth_error in L as [k L]. specialize (V _ _ L). destruct (Z.ltb_spec v 1); [lia|].
      replace (Z.to_nat (v - 1)) with k by lia. auto.
    + destruct (Z.ltb_spec v 1); [reflexivity|]. destruct (nth_error l (Z.to_nat (v - 1))) as [q|] eqn:N; [|reflexivity].
      exfalso. pose proof (V _ _ N) as W. apply nth_error_In in N. apply sorted_in in N as (p & N & ->).
      rewrite maps_assoc in E. replace (p_version (name_point dec p)) with v in N by lia. rewrite N in E. discriminate.
  - now apply StronglySorted_inv in C2 as [C2 _].
  - apply StronglySorted_inv in C2 as [_ C2]. apply Forall_forall. intros p P. rewrite Forall_forall in C2. apply C2. now apply in_map.
Qed.
Lemma get_configured dec pts b v q : new_box dec pts = Some b ->
  assoc v (b_map b) = Some q <-> exists p, configured pts v p /\ q = name_point dec p.
Proof.
  intro E. apply new_box_shape in E as (_ & -> & _ & _). rewrite maps_assoc. split.
  - destruct (lastof pts v) as [p|] eqn:L; [|discriminate]. intro H. injection H as <-. exists p. split; [|reflexivity]. now apply lastof_configured.
  - intros (p & L & ->). apply lastof_configured in L. now rewrite L.
Qed.
Lemma active_in_force dec pts b v h : new_box dec pts = Some b -> is_active b v h = true <-> in_force pts v h.
Proof.
  intro E. unfold is_active, in_force. destruct (assoc v (b_map b)) as [q|] eqn:A.
  - apply (get_configured dec pts b v q E) in A as (p & C & ->). rewrite name_height. split.
    + intro H. exists p. split; [assumption|lia].
    + intros (p' & C' & L). apply lastof_configured in C, C'. assert (p' = p) by congruence. subst. lia.
  - split; [discriminate|]. intros (p & C & _).
    assert (X : assoc v (b_map b) = Some (name_point dec p)) by (apply (get_configured dec pts b v _ E); now exists p). congruence.
Qed.
Lemma sorted_configured dec pts b q : new_box dec pts = Some b ->
  In q (b_sorted b) <-> exists p, configured pts (p_version q) p /\ q = name_point dec p.
Proof.
  intro E. apply new_box_shape in E as (_ & _ & _ & ->). rewrite sorted_in.
  split; intros (p & C & Q); exists p; (split; [now apply lastof_configured|assumption]).
Qed.

(** ** Prefixes of a list with growing heights *)
Lemma ss_nth l : StronglySorted Z.le l -> forall i j x y, (i <= j)%nat -> nth_error l i = Some x -> nth_error l j = Some y -> x <= y.
Proof.
  induction 1 as [|a l S IH F]; intros i j x y L X Y; [destruct i; discriminate|]. destruct i as [|i], j as [|j]; cbn in X, Y.
  - injection X as <-. injection Y as <-. lia.
  - injection X as <-. apply nth_error_In in Y. rewrite Forall_forall in F. now apply F.
  - lia.
  - eapply IH; [|exact X|exact Y]. lia.
Qed.
Lemma shape_inc b v w p q : shape b -> assoc v (b_map b) = Some p -> assoc w (b_map b) = Some q -> v <= w -> p_height p <= p_height q.
Proof.
  intros S P Q L. rewrite (sh_get b S) in P, Q. destruct (v <? 1) eqn:?, (w <? 1) eqn:?; try discriminate.
  eapply (ss_nth _ (sh_inc b S) (Z.to_nat (v - 1)) (Z.to_nat (w - 1))); [lia| |];
    (erewrite map_nth_error; [reflexivity|assumption]).
Qed.
(** The test on the prefix: a threshold on the heights. *)
Lemma last_while_spec (ok : Z -> bool) (D : forall x y, x <= y -> ok y = true -> ok x = true) l :
  StronglySorted Z.le (map p_height l) -> forall found,
  (last_while (fun v => ok (p_height v)) found l = found /\ Forall (fun q => ok (p_height q) = false) l) \/
  (exists k p, last_while (fun v => ok (p_height v)) found l = Some p /\ nth_error l k = Some p /\ ok (p_height p) = true /\
     forall j q, (k < j)%nat -> nth_error l j = Some q -> ok (p_height q) = false).
Proof.
  induction l as [|e l IH]; intros S found; cbn [last_while map] in *; [left; auto|].
  apply StronglySorted_inv in S as [S F]. destruct (ok (p_height e)) eqn:O.
  - right. destruct (IH S (Some e)) as [[E N]|(k & p & E & N & P & M)].
    + exists 0%nat, e. rewrite E. repeat split; auto. intros [|j] q L Q; [lia|]. cbn in Q. apply nth_error_In in Q.
      rewrite Forall_forall in N. now apply N.
    + exists (Datatypes.S k), p. rewrite E. repeat split; auto. intros [|j] q L Q; [lia|]. eapply M; [|exact Q]. lia.
  - left. split; [reflexivity|]. constructor; [assumption|]. apply Forall_forall. intros q Q. destruct (ok (p_height q)) eqn:X; [|reflexivity].
    exfalso. rewrite Forall_forall in F. specialize (F (p_height q) (in_map _ _ _ Q)). rewrite (D _ _ F X) in O. discriminate.
Qed.
Lemma last_while_greatest (ok : Z -> bool) b : (forall x y, x <= y -> ok y = true -> ok x = true) -> shape b ->
  forall p, last_while (fun v => ok (p_height v)) None (b_sorted b) = Some p <->
    (assoc (p_version p) (b_map b) = Some p /\ ok (p_height p) = true /\
     forall w q, assoc w (b_map b) = Some q -> ok (p_height q) = true -> w <= p_version p).
Proof.
  intros D S p.
  assert (G : forall k q, nth_error (b_sorted b) k = Some q -> assoc (Z.of_nat k + 1) (b_map b) = Some q).
  { intros k q E. rewrite (sh_get b S). destruct (Z.ltb_spec (Z.of_nat k + 1) 1); [lia|].
    replace (Z.to_nat (Z.of_nat k + 1 - 1)) with k by lia. assumption. }
  assert (G' : forall w q, assoc w (b_map b) = Some q -> 1 <= w /\ nth_error (b_sorted b) (Z.to_nat (w - 1)) = Some q).
  { intros w q E. rewrite (sh_get b S) in E. destruct (Z.ltb_spec w 1); [discriminate|]. auto. }
  destruct (last_while_spec ok D _ (sh_inc b S) None) as [[E N]|(k & p' & E & N & P & M)]; rewrite E.
  - split; [discriminate|]. intros (A & O & _). apply G' in A as [_ A]. apply nth_error_In in A. rewrite Forall_forall in N.
    rewrite (N _ A) in O. discriminate.
  - pose proof (sh_ver b S _ _ N) as V. split.
    + intro H. injection H as <-. split; [rewrite V; now apply G|]. split; [assumption|].
      intros w q A O. apply G' in A as [L A]. destruct (Z.le_gt_cases w (p_version p')) as [|B]; [assumption|].
      rewrite (M (Z.to_nat (w - 1)) q ltac:(lia) A) in O. discriminate.
    + intros (A & O & B). specialize (B _ _ (G _ _ N) P). apply G' in A as [L A].
      pose proof (sh_ver b S _ _ A) as W. destruct (Nat.lt_trichotomy (Z.to_nat (p_version p - 1)) k) as [X|[X|X]].
      * lia.
      * rewrite X in A. congruence.
      * rewrite (M _ _ X A) in O. discriminate.
Qed.
