(** Theorems about protocol upgrades. *)
From Coq Require Import String ZArith List Bool Lia Sorting Permutation.
From Verif Require Import Lib VmModel VmProofs3 UpgradeModel UpgradeSpec UpgradeProofs.
Import ListNotations.
Open Scope Z_scope.

(** A configuration used by the examples: three upgrades, two at the same height. *)
Definition eg_dec (v : Z) : list Z := [48 + v].
Definition eg_pts : list point := [Pt [] 40 3; Pt [97] 10 1; Pt [] 10 2].
Definition eg_box : box :=
  Box [(3, Pt [51] 40 3); (1, Pt [97] 10 1); (2, Pt [50] 10 2)] [10; 10; 40] [Pt [97] 10 1; Pt [50] 10 2; Pt [51] 40 3].
Example eg_new : new_box eg_dec eg_pts = Some eg_box.
Proof. reflexivity. Qed.

(** C32: a node starts exactly with the tables that are usable: versions without gaps, and
    no version configured below an earlier one. *)
Theorem table_accepted : forall dec pts, typed pts ->
  (exists b, new_box dec pts = Some b) <-> usable pts.
Proof.
  intros dec pts T. split.
  - intros [b E]. pose proof (new_box_shape dec pts b E) as (S & _). split.
    + exists (zlen (b_sorted b)). split; [unfold zlen; lia|]. intro v. split.
      * intros (p & C). assert (A : assoc v (b_map b) = Some (name_point dec p)) by (apply (get_configured dec pts b v _ E); eauto).
        rewrite (sh_get b S) in A. destruct (Z.ltb_spec v 1); [discriminate|].
        assert (nth_error (b_sorted b) (Z.to_nat (v - 1)) <> None) as N by congruence. apply nth_error_Some in N. unfold zlen. lia.
      * intro L. destruct (nth_error (b_sorted b) (Z.to_nat (v - 1))) as [q|] eqn:N.
        2:{ apply nth_error_None in N. unfold zlen in L. lia. }
        assert (A : assoc v (b_map b) = Some q) by (rewrite (sh_get b S); destruct (Z.ltb_spec v 1); [lia|assumption]).
        apply (get_configured dec pts b v q E) in A as (p & C & _). eauto.
    + intros v w p q P Q L.
      assert (A : assoc v (b_map b) = Some (name_point dec p)) by (apply (get_configured dec pts b v _ E); eauto).
      assert (B : assoc w (b_map b) = Some (name_point dec q)) by (apply (get_configured dec pts b w _ E); eauto).
      pose proof (shape_inc b v w _ _ S A B L) as H. now rewrite !name_height in H.
  - intros [(n & N & V) M]. unfold new_box. rewrite init_shape. cbn [b_sorted].
    set (l := sort_points (fst (maps dec pts))).
    assert (SV : forall q, In q l <-> exists p, configured pts (p_version q) p /\ q = name_point dec p).
    { intro q. unfold l. rewrite sorted_in. split; intros (p & C & Q); exists p; (split; [now apply lastof_configured|assumption]). }
    pose proof (map_sorted dec pts : StronglySorted vlt l) as SS.
    assert (C : check_from 0 0 l = true).
    { apply check_spec. assert (R : forall q, In q l -> 1 <= p_version q <= n).
      { intros q Q. apply SV in Q as (p & C & _). apply V. eauto. }
      assert (I : forall v, 1 <= v <= n -> exists q, In q l /\ p_version q = v).
      { intros v L. apply V in L as (p & C). exists (name_point dec p).
        assert (W : p_version p = v) by (destruct C as (? & ? & _ & ? & _); assumption).
        split; [|rewrite name_version; exact W]. apply SV. exists p. rewrite name_version, W. auto. }
      split.
      - (* a strictly growing list of exactly 1..n *)
        assert (K : forall (l : list point) i, StronglySorted vlt l -> (forall q, In q l -> i < p_version q <= n) ->
                      (forall v, i < v <= n -> exists q, In q l /\ p_version q = v) ->
                      forall k p, nth_error l k = Some p -> p_version p = i + Z.of_nat k + 1).
        { clear. induction l as [|e l IH]; intros i S R I k p E; [destruct k; discriminate|].
          apply StronglySorted_inv in S as [S F]. rewrite Forall_forall in F. unfold vlt in F.
          assert (Ve : p_version e = i + 1).
          { pose proof (R e ltac:(now left)). destruct (I (i + 1) ltac:(lia)) as (q & [->|Q] & Vq); [assumption|].
            specialize (F q Q). lia. }
          destruct k as [|k]; cbn in E; [injection E as <-; lia|].
          rewrite (IH (i + 1)) with (k := k) (p := p); auto; [lia| |].
          - intros q Q. pose proof (R q (or_intror Q)). specialize (F q Q). lia.
          - intros v L. destruct (I v ltac:(lia)) as (q & [->|Q] & Vq); [lia|eauto]. }
        intros k p E. eapply (K l 0 SS); [|intros v L; apply I; lia|exact E].
        intros q Q. specialize (R q Q). lia.
      - constructor.
        + assert (H : forall x y, In x l -> In y l -> vlt x y -> p_height x <= p_height y).
          { intros x y X Y L. apply SV in X as (px & CX & ->), Y as (py & CY & ->). unfold vlt in L. rewrite !name_version in *. rewrite !name_height. eapply M; eauto. lia. }
          clear -SS H. induction SS as [|x l S IH F]; cbn; constructor.
          * apply IH. intros; apply H; auto; now right.
          * apply Forall_forall. intros y Y. apply in_map_iff in Y as (z & <- & Z). apply H; [now left|now right|]. rewrite Forall_forall in F. now apply F.
        + apply Forall_forall. intros y Y. apply in_map_iff in Y as (q & <- & Q). apply SV in Q as (p & C & ->). rewrite name_height.
          destruct C as (a & b & -> & _ & _). apply Forall_app in T as [_ T]. apply Forall_cons_iff in T as [[T _] _]. lia. }
    rewrite C. eauto.
Qed.
Example table_accepted_eg : typed eg_pts.
Proof. repeat (apply Forall_cons || apply Forall_nil); vm_compute; intuition congruence. Qed.

(** C32: an upgrade is active at a height exactly when it is configured at or below it. *)
Theorem active_exactly_from_its_height : forall dec pts b v h, new_box dec pts = Some b ->
  is_active b v h = true <-> in_force pts v h.
Proof. intros. now apply active_in_force with dec. Qed.
(** Once active, it stays active at every later height. *)
Theorem never_deactivated : forall dec pts b v h h', new_box dec pts = Some b ->
  h <= h' -> is_active b v h = true -> is_active b v h' = true.
Proof.
  intros dec pts b v h h' E L A. rewrite (active_in_force dec pts b v) in * by assumption.
  destruct A as (p & C & H). exists p. split; [assumption|lia].
Qed.
(** Where a version is active, so is every earlier one: the rules build on each other. *)
Theorem earlier_versions_active : forall dec pts b v w h, new_box dec pts = Some b ->
  1 <= v <= w -> is_active b w h = true -> is_active b v h = true.
Proof.
  intros dec pts b v w h E L A. pose proof (new_box_shape dec pts b E) as (S & _). unfold is_active in *.
  destruct (assoc w (b_map b)) as [q|] eqn:Q; [|discriminate].
  assert (exists p, assoc v (b_map b) = Some p) as [p P].
  { rewrite (sh_get b S) in *. destruct (Z.ltb_spec w 1); [discriminate|]. destruct (Z.ltb_spec v 1); [lia|].
    assert (nth_error (b_sorted b) (Z.to_nat (w - 1)) <> None) as N by congruence. apply nth_error_Some in N.
    destruct (nth_error (b_sorted b) (Z.to_nat (v - 1))) eqn:X; [eauto|]. apply nth_error_None in X. lia. }
  rewrite P. pose proof (shape_inc b v w p q S P Q ltac:(lia)). lia.
Qed.
Example active_eg : map (is_active eg_box 2) [9; 10; 11] = [false; true; true] /\ is_active eg_box 4 1000 = false.
Proof. split; reflexivity. Qed.

(** C32: the current point is the greatest version in force, and there is none exactly when
    nothing is in force. *)
Theorem current_is_greatest : forall dec pts b h, new_box dec pts = Some b ->
  (forall q, current_point b h = Some q <->
     exists p, configured pts (p_version p) p /\ p_height p <= h /\ q = name_point dec p /\
       forall w, in_force pts w h -> w <= p_version p) /\
  (current_point b h = None <-> forall w, ~ in_force pts w h).
Proof.
  intros dec pts b h E. pose proof (new_box_shape dec pts b E) as (S & _).
  pose proof (last_while_greatest (fun x => x <=? h) b ltac:(intros; lia) S) as G. cbv beta in G. fold (current_point b h) in G.
  assert (Q : forall q, current_point b h = Some q <->
     exists p, configured pts (p_version p) p /\ p_height p <= h /\ q = name_point dec p /\
       forall w, in_force pts w h -> w <= p_version p).
  { intro q. rewrite G. split.
    - intros (A & O & B). apply (get_configured dec pts b _ _ E) in A as (p & C & ->). exists p.
      rewrite name_version in *. rewrite name_height in O. split; [assumption|]. split; [lia|]. split; [reflexivity|].
      intros w (r & Cr & Lr). apply (B w (name_point dec r)); [|rewrite name_height; lia].
      apply (get_configured dec pts b w _ E). eauto.
    - intros (p & C & O & -> & B). rewrite name_version, name_height. split; [apply (get_configured dec pts b _ _ E); eauto|].
      split; [lia|]. intros w r A Or. apply (get_configured dec pts b w r E) in A as (x & Cx & ->). rewrite name_height in Or.
      apply B. exists x. split; [assumption|lia]. }
  split; [exact Q|]. split.
  - intros N w (p & C & L). (* the greatest in force exists *)
    destruct (last_while_spec (fun x => x <=? h) ltac:(intros; lia) _ (sh_inc b S) None) as [[_ F]|(k & x & X & _)].
    + assert (A : assoc w (b_map b) = Some (name_point dec p)) by (apply (get_configured dec pts b w _ E); eauto).
      rewrite (sh_get b S) in A. destruct (w <? 1); [discriminate|]. apply nth_error_In in A. rewrite Forall_forall in F.
      specialize (F _ A). cbv beta in F. rewrite name_height in F. lia.
    + unfold current_point in N. cbv beta in X. congruence.
  - intro N. destruct (current_point b h) as [q|] eqn:X; [|reflexivity]. exfalso.
    destruct (proj1 (Q q) eq_refl) as (p & C & L & _). apply (N (p_version p)). exists p. auto.
Qed.
Example current_eg : map (fun h => option_map p_version (current_point eg_box h)) [9; 10; 39; 40] = [None; Some 2; Some 2; Some 3].
Proof. reflexivity. Qed.

(** C32: the active points are those in force, each once, by version. *)
Theorem active_points_exact : forall dec pts b h, new_box dec pts = Some b ->
  StronglySorted (fun p q => p_version p < p_version q) (active_points b h) /\
  forall q, In q (active_points b h) <->
    exists p, configured pts (p_version p) p /\ p_height p <= h /\ q = name_point dec p.
Proof.
  intros dec pts b h E. split.
  - unfold active_points. pose proof (new_box_shape dec pts b E) as (_ & _ & _ & ->).
    pose proof (map_sorted dec pts) as S. revert S. generalize (sort_points (fst (maps dec pts))). clear.
    induction 1 as [|x l S IH F]; cbn; [constructor|]. destruct (p_height x <=? h); [|assumption]. constructor; [assumption|].
    apply Forall_forall. intros y Y. apply filter_In in Y as [Y _]. rewrite Forall_forall in F. now apply F.
  - intro q. unfold active_points. rewrite filter_In, (sorted_configured dec pts b q E). split.
    + intros [(p & C & ->) L]. rewrite name_version in C. rewrite name_height in L. exists p. repeat split; auto; lia.
    + intros (p & C & L & ->). rewrite name_version, name_height. split; [eauto|lia].
Qed.
(** A point without a name is shown under its number; nothing else about it changes. *)
Theorem points_are_shown : forall dec p, shown dec p (name_point dec p).
Proof. exact name_shown. Qed.

(** C32: a height is reported as an upgrade point exactly when some entry names it. *)
Theorem upgrade_points_exact : forall dec pts b h, new_box dec pts = Some b ->
  is_point b h = true <-> exists p, In p pts /\ p_height p = h.
Proof.
  intros dec pts b h E. unfold is_point. apply new_box_shape in E as (_ & _ & -> & _). rewrite existsb_exists. split.
  - intros (x & X & L). apply Z.eqb_eq in L. subst x. apply maps_heights in X. apply in_map_iff in X as (p & <- & P). eauto.
  - intros (p & P & <-). exists (p_height p). split; [apply maps_heights; now apply in_map|apply Z.eqb_refl].
Qed.
(** When no version is given twice, that is exactly where something becomes active. *)
Theorem upgrade_points_activate : forall dec pts b h, new_box dec pts = Some b -> NoDup (map p_version pts) ->
  is_point b h = true <-> exists v, is_active b v h = true /\ is_active b v (h - 1) = false.
Proof.
  intros dec pts b h E N. rewrite (upgrade_points_exact dec pts b h E). split.
  - intros (p & P & H). exists (p_version p).
    assert (C : configured pts (p_version p) p).
    { apply in_split in P as (l & r & ->). exists l, r. split; [reflexivity|]. split; [reflexivity|].
      rewrite map_app in N. cbn in N. apply NoDup_remove_2 in N. rewrite in_app_iff in N. tauto. }
    split; [apply (active_in_force dec pts b _ _ E); exists p; split; [assumption|lia]|].
    destruct (is_active b (p_version p) (h - 1)) eqn:A; [|reflexivity]. exfalso.
    apply (active_in_force dec pts b _ _ E) in A as (q & D & L). apply lastof_configured in C, D. assert (q = p) by congruence. subst. lia.
  - intros (v & A & B). apply (active_in_force dec pts b _ _ E) in A as (p & C & L). exists p.
    split; [destruct C as (l & r & -> & _); apply in_or_app; cbn; auto|].
    destruct (Z.eq_dec (p_height p) h); [assumption|]. exfalso.
    assert (is_active b v (h - 1) = true) by (apply (active_in_force dec pts b _ _ E); exists p; split; [assumption|lia]). congruence.
Qed.
Example upgrade_points_eg : NoDup (map p_version eg_pts) /\ map (is_point eg_box) [9; 10; 11; 40] = [false; true; false; true].
Proof. split; [|reflexivity]. cbn. repeat constructor; cbn; intuition congruence. Qed.
(** Finding: with a version given twice, a height where nothing happens is reported. *)
Theorem upgrade_points_activate_refuted : exists dec pts b h, new_box dec pts = Some b /\ typed pts /\
  is_point b h = true /\ forall v, is_active b v h = false.
Proof.
  exists eg_dec, [Pt [97] 5 1; Pt [98] 9 1], (Box [(1, Pt [98] 9 1)] [9; 5] [Pt [98] 9 1]), 5.
  split; [reflexivity|]. split; [repeat (apply Forall_cons || apply Forall_nil); vm_compute; intuition congruence|].
  split; [reflexivity|]. intro v. unfold is_active. cbn [b_map assoc]. destruct (v =? 1); reflexivity.
Qed.

(** C32: the answers do not depend on the order in which the entries are visited (a custom
    configuration is a Go map) as long as no version is given twice. *)
Lemma lastof_perm pts pts' v : Permutation pts pts' -> NoDup (map p_version pts) -> lastof pts v = lastof pts' v.
Proof.
  intros P N. assert (N' : NoDup (map p_version pts')) by (eapply Permutation_NoDup; [apply Permutation_map; exact P|assumption]).
  assert (X : forall l p, NoDup (map p_version l) -> lastof l v = Some p <-> In p l /\ p_version p = v).
  { clear. intros l p N. split; [intro H; apply lastof_version in H; tauto|]. intros [I V]. apply lastof_configured.
    apply in_split in I as (a & b & ->). exists a, b. split; [reflexivity|]. split; [assumption|].
    rewrite map_app in N. cbn in N. apply NoDup_remove_2 in N. rewrite in_app_iff in N. subst v. tauto. }
  destruct (lastof pts v) as [p|] eqn:E.
  - symmetry. apply X; [assumption|]. apply X in E as [I V]; [|assumption]. split; [eapply Permutation_in; eauto|assumption].
  - destruct (lastof pts' v) as [p|] eqn:E'; [|reflexivity]. apply X in E' as [I V]; [|assumption].
    assert (lastof pts v = Some p) by (apply X; [assumption|]; split; [eapply Permutation_in; [symmetry; exact P|assumption]|assumption]). congruence.
Qed.
Theorem order_free : forall dec pts pts', Permutation pts pts' -> NoDup (map p_version pts) ->
  match new_box dec pts, new_box dec pts' with
  | Some b, Some b' => same_answers b b'
  | None, None => True
  | _, _ => False
  end.
Proof.
  intros dec pts pts' P N.
  assert (A : forall v, assoc v (fst (maps dec pts)) = assoc v (fst (maps dec pts'))).
  { intro v. rewrite !maps_assoc. now rewrite (lastof_perm pts pts' v P N). }
  assert (S : sort_points (fst (maps dec pts)) = sort_points (fst (maps dec pts'))).
  { apply sorted_same; [apply map_sorted|apply map_sorted|]. intro q. rewrite !sorted_in.
    now rewrite (lastof_perm pts pts' (p_version q) P N). }
  assert (H : forall h, existsb (Z.eqb h) (snd (maps dec pts)) = existsb (Z.eqb h) (snd (maps dec pts'))).
  { intro h. apply Bool.eq_iff_eq_true. rewrite !existsb_exists. split; intros (x & X & Y); exists x; (split; [|assumption]);
      apply maps_heights; apply maps_heights in X; (eapply Permutation_in; [|exact X]); [|symmetry]; now apply Permutation_map. }
  unfold new_box. rewrite !init_shape. cbn [b_sorted]. rewrite S. destruct (check_from 0 0 _); [|exact I].
  unfold same_answers, is_active, current_point, active_points, is_point, latest_point, get_point. cbn [b_sorted b_map b_heights].
  repeat split; auto. intros v h. now rewrite A.
Qed.
Theorem custom_order_free : forall dec entries entries', Permutation entries entries' ->
  NoDup (map (fun e => p_version (snd e)) entries) ->
  match custom_box dec entries, custom_box dec entries' with
  | Some b, Some b' => same_answers b b'
  | None, None => True
  | _, _ => False
  end.
Proof.
  intros dec l l' P N. apply order_free; [now apply Permutation_map|].
  rewrite map_map. erewrite map_ext; [exact N|]. intros [k p]. cbn. destruct (p_name p); reflexivity.
Qed.
Example order_free_eg : Permutation eg_pts (rev eg_pts) /\ NoDup (map p_version eg_pts).
Proof. split; [apply Permutation_rev|apply upgrade_points_eg]. Qed.
(** Finding: with a version given twice the active rules depend on the iteration order of a
    Go map, so two nodes with the same configuration file can disagree. *)
Theorem custom_order_free_refuted : exists dec entries b b' v h,
  NoDup (map fst entries) /\ custom_box dec entries = Some b /\ custom_box dec (rev entries) = Some b' /\
  is_active b v h = true /\ is_active b' v h = false.
Proof.
  exists eg_dec, [([97], Pt [] 9 1); ([98], Pt [] 5 1)],
    (Box [(1, Pt [98] 5 1)] [5; 9] [Pt [98] 5 1]), (Box [(1, Pt [97] 9 1)] [9; 5] [Pt [97] 9 1]), 1, 7.
  split; [cbn; repeat constructor; cbn; intuition congruence|]. repeat split; reflexivity.
Qed.

(** C32: installing a table rebuilds it from its points; the one in use answers as the one
    given, and the check cannot fail a second time. *)
Lemma name_named dec p : (forall v, dec v <> []) -> p_name (name_point dec p) <> [].
Proof. intro D. unfold name_point. destruct (p_name p) eqn:E; cbn; [apply D|congruence]. Qed.
Theorem install_same : forall dec pts b, (forall v, dec v <> []) -> new_box dec pts = Some b ->
  exists b', install dec b = Some b' /\ (forall v h, is_active b' v h = is_active b v h) /\
    (forall h, current_point b' h = current_point b h) /\ (forall h, active_points b' h = active_points b h) /\
    latest_point b' = latest_point b /\ (forall v, get_point b' v = get_point b v).
Proof.
  intros dec pts b D E. pose proof (new_box_shape dec pts b E) as (S & M & _ & L).
  assert (SS : StronglySorted vlt (b_sorted b)) by (rewrite L; apply map_sorted).
  assert (ND : NoDup (map p_version (b_sorted b))).
  { clear -SS. induction SS as [|x l S IH F]; cbn; constructor; [|assumption]. rewrite in_map_iff. intros (y & V & Y).
    rewrite Forall_forall in F. specialize (F y Y). unfold vlt in F. lia. }
  assert (LO : forall v, lastof (b_sorted b) v = assoc v (b_map b)).
  { intro v. assert (X : forall p, lastof (b_sorted b) v = Some p <-> assoc v (b_map b) = Some p).
    { intro p. split.
      - intro H. apply lastof_version in H as [V I]. apply (sorted_configured dec pts b p E) in I as (q & C & ->).
        rewrite name_version in *. subst v. apply (get_configured dec pts b _ _ E). eauto.
      - intro H. pose proof H as H'. apply (get_configured dec pts b v p E) in H as (q & C & Q).
        assert (V : p_version p = v) by (subst p; rewrite name_version; destruct C as (? & ? & _ & ? & _); assumption).
        assert (I : In p (b_sorted b)) by (apply (sorted_configured dec pts b p E); exists q; rewrite V; auto).
        apply lastof_configured. apply in_split in I as (a & c & I). exists a, c. split; [assumption|]. split; [assumption|].
        rewrite I, map_app in ND. cbn in ND. apply NoDup_remove_2 in ND. rewrite in_app_iff in ND. subst v. tauto. }
    destruct (lastof (b_sorted b) v) as [p|]; [symmetry; now apply X|]. destruct (assoc v (b_map b)) as [p|]; [|reflexivity].
    now apply X. }
  assert (NM : forall v p, assoc v (b_map b) = Some p -> name_point dec p = p).
  { intros v p H. apply (get_configured dec pts b v p E) in H as (q & _ & ->). pose proof (name_named dec q D).
    unfold name_point at 1. destruct (p_name (name_point dec q)); [congruence|reflexivity]. }
  assert (A : forall v, assoc v (fst (maps dec (b_sorted b))) = assoc v (b_map b)).
  { intro v. rewrite maps_assoc, LO. destruct (assoc v (b_map b)) as [p|] eqn:X; [|reflexivity]. cbn. f_equal. eauto. }
  assert (T : sort_points (fst (maps dec (b_sorted b))) = b_sorted b).
  { apply sorted_same; [apply map_sorted|assumption|]. intro q. rewrite sorted_in. split.
    - intros (p & X & ->). rewrite LO in X. rewrite (NM _ _ X). rewrite name_version in X. rewrite <- LO in X. now apply lastof_version in X.
    - intro I. exists q. assert (X : assoc (p_version q) (b_map b) = Some q).
      { pose proof I as J. apply (sorted_configured dec pts b q E) in J as (p & C & Q). apply (get_configured dec pts b _ _ E). eauto. }
      split; [now rewrite LO|]. symmetry. eauto. }
  unfold install, new_box. rewrite init_shape. cbn [b_sorted]. rewrite T.
  assert (C : check_from 0 0 (b_sorted b) = true).
  { unfold new_box in E. destruct (check_from 0 0 (b_sorted (init_box dec pts))) eqn:C; [|discriminate]. injection E as <-. exact C. }
  rewrite C. eexists. split; [reflexivity|].
  unfold is_active, current_point, active_points, latest_point, get_point. cbn [b_map b_sorted].
  repeat split; auto. intros v h. now rewrite A.
Qed.
Example install_eg : install eg_dec eg_box =
  Some (Box [(1, Pt [97] 10 1); (2, Pt [50] 10 2); (3, Pt [51] 40 3)] [40; 10; 10] [Pt [97] 10 1; Pt [50] 10 2; Pt [51] 40 3]).
Proof. reflexivity. Qed.

(** C32: the latest point is the greatest version with an actual height. *)
Theorem latest_is_greatest : forall dec pts b q, new_box dec pts = Some b ->
  latest_point b = Some q <->
    exists p, configured pts (p_version p) p /\ p_height p < 1000000000 /\ q = name_point dec p /\
      forall w r, configured pts w r -> p_height r < 1000000000 -> w <= p_version p.
Proof.
  intros dec pts b q E. pose proof (new_box_shape dec pts b E) as (S & _).
  pose proof (last_while_greatest (fun x => x <? endless) b ltac:(intros; lia) S q) as G. cbv beta in G. fold (latest_point b) in G.
  rewrite G. unfold endless. split.
  - intros (A & O & B). apply (get_configured dec pts b _ _ E) in A as (p & C & ->). rewrite name_version in *. rewrite name_height in O.
    exists p. split; [assumption|]. split; [lia|]. split; [reflexivity|]. intros w r Cr Lr. apply (B w (name_point dec r)).
    + apply (get_configured dec pts b _ _ E). eauto.
    + rewrite name_height. lia.
  - intros (p & C & O & -> & B). rewrite name_version, name_height. split; [apply (get_configured dec pts b _ _ E); eauto|].
    split; [lia|]. intros w r A Or. apply (get_configured dec pts b _ _ E) in A as (x & Cx & ->). rewrite name_height in Or.
    eapply B; [eauto|lia].
Qed.
(** A producer below the endless height always has a version to write in a snapshot block:
    from the Leaf upgrade on it is at least Leaf's. *)
Theorem snapshot_version_defined : forall dec pts b h, new_box dec pts = Some b -> h < 1000000000 ->
  exists v, snapshot_version b h = Some v /\ (is_leaf b h = true -> 5 <= v).
Proof.
  intros dec pts b h E L. unfold snapshot_version. destruct (is_leaf b h) eqn:A.
  2:{ exists 0. split; [reflexivity|discriminate]. }
  pose proof (new_box_shape dec pts b E) as (S & _). unfold is_leaf, is_active in A.
  destruct (assoc 5 (b_map b)) as [p|] eqn:P; [|discriminate].
  pose proof (last_while_greatest (fun x => x <? endless) b ltac:(intros; lia) S) as G. cbv beta in G. fold (latest_point b) in G.
  destruct (last_while_spec (fun x => x <? endless) ltac:(intros; lia) _ (sh_inc b S) None) as [[_ F]|(k & x & X & _)].
  - rewrite (sh_get b S) in P. apply nth_error_In in P. rewrite Forall_forall in F. specialize (F _ P). cbv beta in F. unfold endless in F. lia.
  - cbv beta in X. fold (latest_point b) in X. rewrite X. cbn. exists (p_version x). split; [reflexivity|]. intros _.
    apply G in X as (_ & _ & B). eapply B; [exact P|]. unfold endless. lia.
Qed.

(** C32: the quota table and the set of built-in methods in use are those of the greatest
    version in force that changes them. *)
Lemma chain_step {R} (rules : list (Z * R)) d (f : Z -> bool) :
  StronglySorted Z.lt (map fst rules) ->
  chosen rules d (fun v => f v = true)
    (fold_left (fun acc e => if f (fst e) then snd e else acc) rules d).
Proof.
  intro S. induction rules as [|[v r] rules IH] using rev_ind; [right; split; [reflexivity|contradiction]|].
  rewrite fold_left_app. cbn [fold_left fst snd]. rewrite map_app in S.
  assert (LT : forall w s, In (w, s) rules -> w < v).
  { intros w s I. clear -S I. induction rules as [|[a b] l IH]; [contradiction|]. cbn in S. apply StronglySorted_inv in S as [S F]. destruct I as [I|I].
    - injection I as -> ->. rewrite Forall_forall in F. apply F. apply in_or_app. right. now left.
    - auto. }
  assert (S' : StronglySorted Z.lt (map fst rules)).
  { clear -S. induction rules as [|[a b] l IH]; [constructor|]. cbn in *. apply StronglySorted_inv in S as [S F]. constructor; [auto|].
    apply Forall_app in F. tauto. }
  destruct (f v) eqn:F.
  - left. exists v. split; [apply in_or_app; right; now left|]. split; [assumption|]. intros w s I _.
    apply in_app_iff in I as [I|[I|[]]]; [specialize (LT _ _ I); lia|]. injection I as -> ->. lia.
  - destruct (IH S') as [(w & I & Fw & M)|[E N]].
    + left. exists w. split; [apply in_or_app; now left|]. split; [assumption|]. intros x s X Fx.
      apply in_app_iff in X as [X|[X|[]]]; [eauto|]. injection X as -> ->. congruence.
    + right. split; [assumption|]. intros x s X. apply in_app_iff in X as [X|[X|[]]]; [eauto|]. injection X as -> ->. congruence.
Qed.
Lemma chosen_ext {R} (rules : list (Z * R)) d (f g : Z -> Prop) r : (forall v, f v <-> g v) -> chosen rules d f r -> chosen rules d g r.
Proof.
  intros E [(v & I & F & M)|[D N]]; [left|right].
  - exists v. split; [assumption|]. split; [now apply E|]. intros w s W G. eapply M; [exact W|now apply E].
  - split; [assumption|]. intros w s W G. apply (N w s W). now apply E.
Qed.
Lemma sorted_quota : StronglySorted Z.lt (map fst quota_rules).
Proof. cbn. repeat constructor. Qed.
Lemma sorted_contract : StronglySorted Z.lt (map fst contract_rules).
Proof. cbn. repeat constructor. Qed.
Theorem quota_table_chosen : forall dec pts b h, new_box dec pts = Some b ->
  chosen quota_rules QInit (fun v => in_force pts v h) (quota_table_by_height b h).
Proof.
  intros dec pts b h E. eapply chosen_ext; [intro v; apply (active_in_force dec pts b v h E)|].
  exact (chain_step quota_rules QInit (fun v => is_active b v h) sorted_quota).
Qed.
Theorem contract_set_chosen : forall dec pts b h, new_box dec pts = Some b ->
  chosen contract_rules CSimple (fun v => in_force pts v h) (contract_set_by_height b h).
Proof.
  intros dec pts b h E. eapply chosen_ext; [intro v; apply (active_in_force dec pts b v h E)|].
  exact (chain_step contract_rules CSimple (fun v => is_active b v h) sorted_contract).
Qed.
Example chosen_eg : map (quota_table_by_height eg_box) [9; 10; 40] = [QInit; QVite; QVite] /\
  map (contract_set_by_height eg_box) [9; 10; 40] = [CSimple; CDex; CDex].
Proof. split; reflexivity. Qed.
(** The rules change only at an upgrade point: between two heights with none, every
    question has the same answer. *)
Theorem rules_change_at_points : forall dec pts b h h', new_box dec pts = Some b -> h <= h' ->
  (forall x, h < x <= h' -> is_point b x = false) ->
  (forall v, is_active b v h = is_active b v h') /\ current_point b h = current_point b h' /\
  quota_table_by_height b h = quota_table_by_height b h' /\ contract_set_by_height b h = contract_set_by_height b h'.
Proof.
  intros dec pts b h h' E L N.
  assert (A : forall v, is_active b v h = is_active b v h').
  { intro v. apply Bool.eq_iff_eq_true. rewrite !(active_in_force dec pts b v _ E). split; intros (p & C & H); exists p; (split; [assumption|]); [lia|].
    destruct (Z.le_gt_cases (p_height p) h) as [|G]; [assumption|]. exfalso.
    assert (is_point b (p_height p) = true) as P.
    { apply (upgrade_points_exact dec pts b _ E). exists p. split; [|reflexivity]. destruct C as (l & r & -> & _). apply in_or_app. cbn. auto. }
    rewrite N in P by lia. discriminate. }
  split; [exact A|]. split.
  - pose proof (current_is_greatest dec pts b h E) as [Q1 N1]. pose proof (current_is_greatest dec pts b h' E) as [Q2 N2].
    destruct (current_point b h) as [q|] eqn:X.
    + symmetry. apply Q2. destruct (proj1 (Q1 q) eq_refl) as (p & C & Lp & Eq & M). exists p. split; [assumption|]. split; [lia|]. split; [assumption|].
      intros w W. apply M. apply (active_in_force dec pts b w _ E). rewrite A. now apply (active_in_force dec pts b w _ E).
    + symmetry. apply N2. intros w W. apply (proj1 N1 eq_refl w). apply (active_in_force dec pts b w _ E). rewrite A. now apply (active_in_force dec pts b w _ E).
  - unfold quota_table_by_height, contract_set_by_height, is_versionX, is_version11, is_version10, is_dex_stable_market, is_dex_robot, is_earth, is_leaf, is_stem, is_dex.
    rewrite !A. split; reflexivity.
Qed.
Example rules_change_eg : forall x, 10 < x <= 39 -> is_point eg_box x = false.
Proof. intros x X. unfold is_point. cbn [b_heights eg_box existsb]. destruct (Z.eqb_spec x 10), (Z.eqb_spec x 40); try lia; reflexivity. Qed.

(** C32: a built-in method is callable exactly from the version that brings it, and is
    implemented by the same code ever after. *)
Definition same_key (a : builtin) (n : string) (e : entry) : bool := let '(a', n', _) := e in builtin_eqb a a' && String.eqb n n'.
Lemma builtin_eqb_eq a b : builtin_eqb a b = true <-> a = b.
Proof. destruct a, b; cbn; split; congruence. Qed.
Lemma same_key_eq a n e : same_key a n e = true <-> fst e = (a, n).
Proof.
  destruct e as [[a' n'] i]. cbn. rewrite andb_true_iff, builtin_eqb_eq, String.eqb_eq. split; [intros [-> ->]; reflexivity|intro H; injection H as -> ->; auto].
Qed.
Lemma lookup_snoc l e a n : lookup (l ++ [e]) a n = if same_key a n e then Some (snd e) else lookup l a n.
Proof. unfold lookup. rewrite fold_left_app. destruct e as [[a' n'] i]. reflexivity. Qed.
Lemma lookup_nodup l a n i : NoDup (map fst l) -> lookup l a n = Some i <-> In (a, n, i) l.
Proof.
  induction l as [|e l IH] using rev_ind; intro N; [cbn; split; [discriminate|contradiction]|].
  rewrite lookup_snoc, in_app_iff. rewrite map_app in N. cbn in N.
  assert (N1 : NoDup (map fst l)) by (apply NoDup_remove_1 in N; now rewrite app_nil_r in N).
  assert (N2 : ~ In (fst e) (map fst l)) by (apply NoDup_remove_2 in N; now rewrite app_nil_r in N).
  destruct (same_key a n e) eqn:K.
  - apply same_key_eq in K. split.
    + intro H. injection H as <-. right. left. rewrite <- K. destruct e as [[? ?] ?]; reflexivity.
    + intros [I|[->|[]]]; [|reflexivity]. exfalso. apply N2. rewrite K. now apply (in_map fst) in I.
  - rewrite (IH N1). split; [auto|]. intros [I|[->|[]]]; [assumption|]. exfalso.
    assert (same_key a n (a, n, i) = true) by now apply same_key_eq. congruence.
Qed.
Definition key_eqb (x y : builtin * string) : bool := builtin_eqb (fst x) (fst y) && String.eqb (snd x) (snd y).
Fixpoint nodupb (l : list (builtin * string)) : bool :=
  match l with [] => true | x :: r => negb (existsb (key_eqb x) r) && nodupb r end.
Lemma nodupb_ok l : nodupb l = true -> NoDup l.
Proof.
  induction l as [|x r IH]; cbn; intro H; constructor; apply andb_true_iff in H as [H1 H2]; auto.
  intro I. apply negb_true_iff in H1. assert (existsb (key_eqb x) r = true); [|congruence]. apply existsb_exists. exists x. split; [assumption|].
  unfold key_eqb. apply andb_true_iff. split; [now apply builtin_eqb_eq|apply String.eqb_refl].
Qed.
Lemma all_nodup : NoDup (map fst m_DexCrossTransfer).
Proof. apply nodupb_ok. vm_compute. reflexivity. Qed.
Lemma nodup_prefix {A} (l r : list A) : NoDup (l ++ r) -> NoDup l.
Proof. induction l as [|x l IH]; cbn; intro N; [constructor|]. apply NoDup_cons_iff in N as [N1 N2]. constructor; [|auto]. rewrite in_app_iff in N1. tauto. Qed.
Lemma sets_nodup s : NoDup (map fst (methods s)).
Proof.
  pose proof all_nodup as N. unfold m_DexCrossTransfer in N. rewrite map_app in N. pose proof (nodup_prefix _ _ N) as N9. unfold m_DexEnrichOrder in N9. rewrite map_app in N9.
  pose proof (nodup_prefix _ _ N9) as N8. unfold m_DexStableMarket in N8. rewrite map_app in N8. pose proof (nodup_prefix _ _ N8) as N7. unfold m_DexRobot in N7. rewrite map_app in N7.
  pose proof (nodup_prefix _ _ N7) as N6. unfold m_Earth in N6. rewrite map_app in N6. pose proof (nodup_prefix _ _ N6) as N5. unfold m_Leaf in N5. rewrite map_app in N5.
  pose proof (nodup_prefix _ _ N5) as N4. unfold m_DexAgent in N4. rewrite map_app in N4. pose proof (nodup_prefix _ _ N4) as N3. unfold m_Dex in N3. rewrite map_app in N3.
  pose proof (nodup_prefix _ _ N3) as N2. destruct s; cbn [methods]; unfold m_DexCrossTransfer, m_DexEnrichOrder, m_DexStableMarket, m_DexRobot, m_Earth, m_Leaf, m_DexAgent, m_Dex in *; rewrite ?map_app in *; assumption.
Qed.
Theorem method_callable_since : forall dec pts b a n h i, new_box dec pts = Some b ->
  builtin_method b a n h = Some i <->
  exists v added, In (v, added) brought /\ In (a, n, i) added /\ (v = 0 \/ in_force pts v h).
Proof.
  intros dec pts b a n h i E. unfold builtin_method. rewrite lookup_nodup by apply sets_nodup.
  set (f := fun v => is_active b v h).
  assert (D : forall v w, 1 <= v <= w -> f w = true -> f v = true) by (intros v w L; exact (earlier_versions_active dec pts b v w h E L)).
  assert (FI : forall v, f v = true <-> in_force pts v h) by (intro v; exact (active_in_force dec pts b v h E)).
  transitivity (exists v added, In (v, added) brought /\ In (a, n, i) added /\ (v = 0 \/ f v = true)).
  2:{ split; intros (v & l & I & J & [K|K]); exists v, l; (split; [assumption|]); (split; [assumption|]); auto; right; now apply FI. }
  clear FI.
  assert (IN : forall v l, In (v, l) brought -> (v = 0 \/ f v = true) -> In (a, n, i) l -> In (a, n, i) (methods (contract_set_by_height b h))).
  { intros v l I K J. unfold contract_set_by_height, is_versionX, is_version11, is_dex_stable_market, is_dex_robot, is_earth, is_leaf, is_stem, is_dex.
    change (is_active b 14 h) with (f 14). change (is_active b 11 h) with (f 11). change (is_active b 9 h) with (f 9). change (is_active b 8 h) with (f 8).
    change (is_active b 6 h) with (f 6). change (is_active b 5 h) with (f 5). change (is_active b 4 h) with (f 4). change (is_active b 2 h) with (f 2).
    destruct (f 14) eqn:F14; [|destruct (f 11) eqn:F11; [|destruct (f 9) eqn:F9; [|destruct (f 8) eqn:F8; [|destruct (f 6) eqn:F6; [|destruct (f 5) eqn:F5; [|destruct (f 4) eqn:F4; [|destruct (f 2) eqn:F2]]]]]]];
      cbn [methods]; unfold m_DexCrossTransfer, m_DexEnrichOrder, m_DexStableMarket, m_DexRobot, m_Earth, m_Leaf, m_DexAgent, m_Dex;
      unfold brought in I; cbn [In] in I;
      repeat match type of I with _ \/ _ => destruct I as [I|I] end; try contradiction; injection I as <- <-;
      rewrite ?in_app_iff; try tauto; destruct K as [K|K]; try discriminate; congruence. }
  split.
  - intro J. revert J. unfold contract_set_by_height, is_versionX, is_version11, is_dex_stable_market, is_dex_robot, is_earth, is_leaf, is_stem, is_dex.
    change (is_active b 14 h) with (f 14). change (is_active b 11 h) with (f 11). change (is_active b 9 h) with (f 9). change (is_active b 8 h) with (f 8).
    change (is_active b 6 h) with (f 6). change (is_active b 5 h) with (f 5). change (is_active b 4 h) with (f 4). change (is_active b 2 h) with (f 2).
    assert (P : forall v l, In (v, l) brought -> (v = 0 \/ f v = true) -> In (a, n, i) l -> exists v added, In (v, added) brought /\ In (a, n, i) added /\ (v = 0 \/ f v = true)) by eauto.
    assert (B : forall v w, f w = true -> 1 <= v <= w -> v = 0 \/ f v = true) by (intros; right; eauto).
    destruct (f 14) eqn:F14; [|destruct (f 11) eqn:F11; [|destruct (f 9) eqn:F9; [|destruct (f 8) eqn:F8; [|destruct (f 6) eqn:F6; [|destruct (f 5) eqn:F5; [|destruct (f 4) eqn:F4; [|destruct (f 2) eqn:F2]]]]]]];
      cbn [methods]; unfold m_DexCrossTransfer, m_DexEnrichOrder, m_DexStableMarket, m_DexRobot, m_Earth, m_Leaf, m_DexAgent, m_Dex; rewrite ?in_app_iff; intro J;
      repeat match type of J with _ \/ _ => destruct J as [J|J] end;
      match goal with
      | H : In _ m_Simple |- _ => apply (P 0 _ ltac:(unfold brought; cbn [In]; tauto) (or_introl eq_refl) H)
      | H : In _ add_Dex |- _ => apply (P 2 _ ltac:(unfold brought; cbn [In]; tauto)) in H; [exact H|eapply B; [eassumption|lia]]
      | H : In _ add_DexAgent |- _ => apply (P 4 _ ltac:(unfold brought; cbn [In]; tauto)) in H; [exact H|eapply B; [eassumption|lia]]
      | H : In _ add_Leaf |- _ => apply (P 5 _ ltac:(unfold brought; cbn [In]; tauto)) in H; [exact H|eapply B; [eassumption|lia]]
      | H : In _ add_Earth |- _ => apply (P 6 _ ltac:(unfold brought; cbn [In]; tauto)) in H; [exact H|eapply B; [eassumption|lia]]
      | H : In _ add_DexRobot |- _ => apply (P 8 _ ltac:(unfold brought; cbn [In]; tauto)) in H; [exact H|eapply B; [eassumption|lia]]
      | H : In _ add_DexStableMarket |- _ => apply (P 9 _ ltac:(unfold brought; cbn [In]; tauto)) in H; [exact H|eapply B; [eassumption|lia]]
      | H : In _ add_DexEnrichOrder |- _ => apply (P 11 _ ltac:(unfold brought; cbn [In]; tauto)) in H; [exact H|eapply B; [eassumption|lia]]
      | H : In _ add_DexCrossTransfer |- _ => apply (P 14 _ ltac:(unfold brought; cbn [In]; tauto)) in H; [exact H|eapply B; [eassumption|lia]]
      end.
  - intros (v & l & I & J & K). eapply IN; eauto.
Qed.
Theorem method_never_lost : forall dec pts b a n h h' i, new_box dec pts = Some b -> h <= h' ->
  builtin_method b a n h = Some i -> builtin_method b a n h' = Some i.
Proof.
  intros dec pts b a n h h' i E L. rewrite !(method_callable_since dec pts b a n _ i E).
  intros (v & l & I & J & K). exists v, l. split; [assumption|]. split; [assumption|]. destruct K as [K|(p & C & H)]; [auto|].
  right. exists p. split; [assumption|lia].
Qed.
Example method_eg : builtin_method eg_box AQuota "AgentPledge" 9 = None /\
  builtin_method eg_box AQuota "AgentPledge" 10 = Some "MethodDelegateStake"%string /\
  builtin_method eg_box AAsset "Mint" 9 = Some "MethodIssue"%string.
Proof. repeat split. Qed.

(** C32, on the main network: the height from which each feature is active. *)
Definition mainnet_box : box := match new_box eg_dec mainnet_points with Some b => b | None => eg_box end.
Lemma mainnet_new dec : new_box dec mainnet_points = Some mainnet_box.
Proof. vm_compute. reflexivity. Qed.
Theorem mainnet_heights : forall h,
  is_seed mainnet_box h = (3488471 <=? h) /\ is_dex mainnet_box h = (5442723 <=? h) /\
  is_dex_fee mainnet_box h = (8013367 <=? h) /\ is_stem mainnet_box h = (8403110 <=? h) /\
  is_leaf mainnet_box h = (9413600 <=? h) /\ is_earth mainnet_box h = (16634530 <=? h) /\
  is_dex_mining mainnet_box h = (17142720 <=? h) /\ is_dex_robot mainnet_box h = (31305900 <=? h) /\
  is_dex_stable_market mainnet_box h = (39694000 <=? h) /\ is_version10 mainnet_box h = (77106666 <=? h) /\
  is_version11 mainnet_box h = (101320000 <=? h) /\ is_version12 mainnet_box h = (116480000 <=? h) /\
  is_version13 mainnet_box h = (166869900 <=? h) /\ is_versionX mainnet_box h = (1000000000 <=? h).
Proof. intro h. repeat split. Qed.
(** A network started at the latest rules has all of them from its first block on. *)
Theorem latest_network : forall dec, exists b, new_box dec latest_points = Some b /\
  forall h v, 1 <= h -> 1 <= v <= 14 -> is_active b v h = true.
Proof.
  intro dec. destruct (new_box dec latest_points) as [b|] eqn:E; [|discriminate].
  exists b. split; [reflexivity|]. intros h v H V. apply (earlier_versions_active dec latest_points b v 14 h E V).
  apply (active_in_force dec latest_points b _ _ E). exists (Pt [] 1 14). split; [|cbn; lia].
  exists (map (fun v => Pt [] 1 v) [1; 2; 3; 4; 5; 6; 7; 8; 9; 10; 11; 12; 13]), []. cbn. auto.
Qed.

(** C32: adding the next version at or above the last height keeps all of the above: the
    result answers like a table started with that point. *)
Theorem add_next_point : forall dec pts b h, new_box dec pts = Some b -> typed pts -> pts <> [] ->
  0 <= h <= max_u64 -> (forall p, In p pts -> p_height p <= h) -> zlen (b_sorted b) + 1 < 4294967296 ->
  exists b', add_point b (zlen (b_sorted b) + 1) h = Some b' /\
    (forall v x, is_active b' v x = if v =? zlen (b_sorted b) + 1 then h <=? x else is_active b v x) /\
    (forall x, is_point b' x = (x =? h) || is_point b x) /\
    exists c, new_box dec (pts ++ [Pt [] h (zlen (b_sorted b) + 1)]) = Some c /\
      forall v x, is_active c v x = is_active b' v x.
Proof.
  intros dec pts b h E T NE H0 HM SM. pose proof (new_box_shape dec pts b E) as (S & _). set (n := zlen (b_sorted b)) in *.
  assert (NP : 1 <= n).
  { destruct pts as [|p pts]; [congruence|]. assert (I : In (p_version p) (map p_version (p :: pts))) by now left.
    apply lastof_in in I as (q & Q). apply lastof_configured in Q.
    assert (A : assoc (p_version p) (b_map b) = Some (name_point dec q)) by (apply (get_configured _ _ _ _ _ E); eauto).
    rewrite (sh_get b S) in A. destruct (p_version p <? 1); [discriminate|]. assert (nth_error (b_sorted b) (Z.to_nat (p_version p - 1)) <> None) as X by congruence.
    apply nth_error_Some in X. unfold n, zlen. lia. }
  unfold add_point. replace ((n + 1 - 1) mod 4294967296) with n by (rewrite Z.mod_small; lia).
  assert (G : exists q, assoc n (b_map b) = Some q).
  { rewrite (sh_get b S). destruct (Z.ltb_spec n 1); [lia|]. destruct (nth_error (b_sorted b) (Z.to_nat (n - 1))) eqn:X; [eauto|].
    apply nth_error_None in X. unfold n, zlen in *. lia. }
  destruct G as [q G]. rewrite G, andb_false_r. eexists. split; [reflexivity|].
  assert (A : forall v x, is_active (Box (assoc_set (n + 1) (Pt [] h (n + 1)) (b_map b)) (h :: b_heights b) (sort_points (assoc_set (n + 1) (Pt [] h (n + 1)) (b_map b)))) v x
      = if v =? n + 1 then h <=? x else is_active b v x).
  { intros v x. unfold is_active. cbn [b_map]. rewrite assoc_set_get. destruct (v =? n + 1); reflexivity. }
  split; [exact A|]. split; [intro x; reflexivity|].
  assert (U : usable (pts ++ [Pt [] h (n + 1)])).
  { assert (US : usable pts) by (apply (table_accepted dec pts T); eauto). destruct US as [_ M].
    assert (X : forall v p, configured (pts ++ [Pt [] h (n + 1)]) v p <-> if v =? n + 1 then p = Pt [] h (n + 1) else configured pts v p).
    { intros v p. rewrite <- lastof_configured, lastof_snoc. cbn [p_version]. destruct (v =? n + 1); [|apply lastof_configured]. split; congruence. }
    assert (Y : forall v, (exists p, configured pts v p) <-> 1 <= v <= n).
    { intro v. split.
      - intros (p & C). assert (B : assoc v (b_map b) = Some (name_point dec p)) by (apply (get_configured dec pts b v _ E); eauto).
        rewrite (sh_get b S) in B. destruct (Z.ltb_spec v 1); [discriminate|].
        assert (nth_error (b_sorted b) (Z.to_nat (v - 1)) <> None) as N by congruence. apply nth_error_Some in N. unfold n, zlen. lia.
      - intro L. destruct (nth_error (b_sorted b) (Z.to_nat (v - 1))) as [r|] eqn:N.
        2:{ apply nth_error_None in N. unfold n, zlen in L. lia. }
        assert (B : assoc v (b_map b) = Some r) by (rewrite (sh_get b S); destruct (Z.ltb_spec v 1); [lia|assumption]).
        apply (get_configured dec pts b v r E) in B as (p & C & _). eauto. }
    split.
    - exists (n + 1). split; [lia|]. intro v. split.
      + intros (p & C). apply X in C. destruct (Z.eqb_spec v (n + 1)); [lia|]. assert (1 <= v <= n) by (apply Y; eauto). lia.
      + intro L. destruct (Z.eqb_spec v (n + 1)) as [->|].
        * exists (Pt [] h (n + 1)). apply X. now rewrite Z.eqb_refl.
        * destruct (proj2 (Y v) ltac:(lia)) as [p C]. exists p. apply X. destruct (Z.eqb_spec v (n + 1)); [lia|assumption].
    - intros v w p r P R L. apply X in P, R. destruct (Z.eqb_spec v (n + 1)), (Z.eqb_spec w (n + 1)).
      + subst. lia.
      + assert (1 <= w <= n) by (apply Y; eauto). lia.
      + subst r. cbn. apply HM. destruct P as (l & k & -> & _). apply in_or_app. cbn. auto.
      + eapply M; eauto. }
  assert (T' : typed (pts ++ [Pt [] h (n + 1)])).
  { apply Forall_app. split; [exact T|]. constructor; [|constructor]. cbn [p_height p_version]. lia. }
  apply (table_accepted dec _ T') in U as [c C]. exists c. split; [exact C|]. intros v x. rewrite A.
  apply Bool.eq_iff_eq_true. rewrite (active_in_force dec _ c v x C). unfold in_force. split.
  - intros (p & P & L). apply lastof_configured in P. rewrite lastof_snoc in P. cbn [p_version] in P. destruct (v =? n + 1).
    + injection P as <-. cbn in L. lia.
    + apply (active_in_force dec pts b v x E). exists p. split; [now apply lastof_configured|assumption].
  - destruct (v =? n + 1) eqn:V.
    + intro L. exists (Pt [] h (n + 1)). split; [|cbn; lia]. apply lastof_configured. rewrite lastof_snoc. cbn [p_version]. now rewrite V.
    + intro L. apply (active_in_force dec pts b v x E) in L as (p & P & L). exists p. split; [|assumption].
      apply lastof_configured. rewrite lastof_snoc. cbn [p_version]. rewrite V. now apply lastof_configured.
Qed.
Example add_next_eg : eg_pts <> [] /\ (forall p, In p eg_pts -> p_height p <= 40) /\
  option_map b_sorted (add_point eg_box (zlen (b_sorted eg_box) + 1) 40) =
    Some [Pt [97] 10 1; Pt [50] 10 2; Pt [51] 40 3; Pt [] 40 4].
Proof.
  split; [discriminate|]. split; [|reflexivity]. intros p [<-|[<-|[<-|[]]]]; cbn; lia.
Qed.
(** Finding: a point added later is not checked.  Below the last height, the later version is
    active while an earlier one is not, and the current point misses it. *)
Theorem added_point_order_refuted : exists dec pts b b' h, new_box dec pts = Some b /\ add_point b 4 h = Some b' /\
  is_active b' 4 h = true /\ is_active b' 3 h = false /\ option_map p_version (current_point b' h) <> Some 4 /\
  install dec b' = None.
Proof.
  exists eg_dec, eg_pts, eg_box.
  exists (Box [(3, Pt [51] 40 3); (1, Pt [97] 10 1); (2, Pt [50] 10 2); (4, Pt [] 20 4)] [20; 10; 10; 40]
              [Pt [97] 10 1; Pt [50] 10 2; Pt [51] 40 3; Pt [] 20 4]), 20.
  repeat split; try reflexivity. cbn. discriminate.
Qed.
(** Finding: adding a version again moves it, so an active upgrade can become inactive, and
    its old height is still reported as an upgrade point. *)
Theorem added_point_replaces_refuted : exists dec pts b b' h, new_box dec pts = Some b /\ add_point b 3 90 = Some b' /\
  is_active b 3 h = true /\ is_active b' 3 h = false /\ is_point b' h = true.
Proof.
  exists eg_dec, eg_pts, eg_box.
  exists (Box [(3, Pt [] 90 3); (1, Pt [97] 10 1); (2, Pt [50] 10 2)] [90; 10; 10; 40]
              [Pt [97] 10 1; Pt [50] 10 2; Pt [] 90 3]), 40.
  repeat split; reflexivity.
Qed.

Print Assumptions table_accepted.
Print Assumptions active_exactly_from_its_height.
Print Assumptions never_deactivated.
Print Assumptions earlier_versions_active.
Print Assumptions current_is_greatest.
Print Assumptions active_points_exact.
Print Assumptions points_are_shown.
Print Assumptions upgrade_points_exact.
Print Assumptions upgrade_points_activate.
Print Assumptions upgrade_points_activate_refuted.
Print Assumptions order_free.
Print Assumptions custom_order_free.
Print Assumptions custom_order_free_refuted.
Print Assumptions install_same.
Print Assumptions latest_is_greatest.
Print Assumptions snapshot_version_defined.
Print Assumptions quota_table_chosen.
Print Assumptions contract_set_chosen.
Print Assumptions rules_change_at_points.
Print Assumptions method_callable_since.
Print Assumptions method_never_lost.
Print Assumptions mainnet_heights.
Print Assumptions latest_network.
Print Assumptions add_next_point.
Print Assumptions added_point_order_refuted.
Print Assumptions added_point_replaces_refuted.
