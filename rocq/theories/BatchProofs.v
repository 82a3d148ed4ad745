(** Invariant of the batch under every sequence of additions. *)
From Coq Require Import ZArith List Bool Lia Permutation.
From Verif Require Import Lib BatchModel BatchSpec.
Import ListNotations.
Open Scope Z_scope.

(** * Arrays of levels *)
Lemma zlen_nonneg' {A} (l : list A) : 0 <= zlen l.
Proof. unfold zlen. lia. Qed.
Lemma get_some i ls l : get_level i ls = Some l -> 0 <= i < zlen ls.
Proof.
  unfold get_level, zlen. destruct (i <? 0) eqn:E; [discriminate|]. intros H.
  apply Z.ltb_ge in E. assert (Z.to_nat i < length ls)%nat; [apply nth_error_Some; congruence|lia].
Qed.
Lemma get_ex i ls : 0 <= i < zlen ls -> exists l, get_level i ls = Some l.
Proof.
  unfold get_level, zlen. intros H. destruct (Z.ltb_spec i 0); [lia|].
  destruct (nth_error ls (Z.to_nat i)) eqn:E; [eauto|]. apply nth_error_None in E. lia.
Qed.
Lemma put_nth_spec i l : forall ls ls', put_nth i l ls = Some ls' ->
  (i <= length ls)%nat /\
  length ls' = (if (i <? length ls)%nat then length ls else S (length ls)) /\
  forall j, nth_error ls' j = if (j =? i)%nat then Some l else nth_error ls j.
Proof.
  induction i as [|i IH]; intros [|x r] ls'; cbn [put_nth]; intros H; try discriminate; try (injection H as <-).
  - repeat split; cbn; try lia. intros [|[|j]]; reflexivity.
  - repeat split; cbn; try lia. intros [|j]; reflexivity.
  - destruct (put_nth i l r) as [r1|] eqn:E; [|discriminate]. injection H as <-.
    apply IH in E. destruct E as [A [B C]]. split; [cbn; lia|split].
    + change (length (x :: r1)) with (S (length r1)). rewrite B.
      destruct (Nat.ltb_spec i (length r)), (Nat.ltb_spec (S i) (length (x :: r))); cbn [length] in *; lia.
    + intros [|j]; [reflexivity|]. cbn [nth_error]. rewrite C. reflexivity.
Qed.
Lemma put_nth_ok i l : forall ls, (i <= length ls)%nat -> exists ls', put_nth i l ls = Some ls'.
Proof.
  induction i as [|i IH]; intros [|x r]; cbn; intros H; eauto; try lia.
  destruct (IH r ltac:(lia)) as [r1 ->]. eauto.
Qed.
Lemma put_spec i l ls ls' : put_level i l ls = Some ls' ->
  0 <= i <= zlen ls /\ zlen ls' = (if i <? zlen ls then zlen ls else zlen ls + 1) /\
  forall j, get_level j ls' = if j =? i then Some l else get_level j ls.
Proof.
  unfold put_level. destruct (Z.ltb_spec i 0) as [|P]; [discriminate|]. intros H.
  apply put_nth_spec in H. destruct H as [A [B C]]. unfold zlen. repeat split; try lia.
  - rewrite B. destruct (Nat.ltb_spec (Z.to_nat i) (length ls)), (Z.ltb_spec i (Z.of_nat (length ls))); lia.
  - intros j. unfold get_level. destruct (Z.ltb_spec j 0) as [Q|Q].
    + destruct (Z.eqb_spec j i); [lia|reflexivity].
    + rewrite C. destruct (Nat.eqb_spec (Z.to_nat j) (Z.to_nat i)), (Z.eqb_spec j i); try lia; reflexivity.
Qed.
Lemma put_ok i l ls : 0 <= i <= zlen ls -> exists ls', put_level i l ls = Some ls'.
Proof.
  unfold put_level, zlen. intros H. destruct (Z.ltb_spec i 0); [lia|]. apply put_nth_ok. lia.
Qed.

(** * Buckets *)
Fixpoint bk (o : option Z) (bs : list (option Z * list item)) : list item :=
  match bs with [] => [] | (o', b) :: r => if oeqb o' o then b else bk o r end.
Lemma oeqb_eq a b : oeqb a b = true <-> a = b.
Proof.
  destruct a, b; cbn; split; intros H; try congruence.
  - f_equal; lia.
  - injection H as ->; lia.
Qed.
Lemma oeqb_refl a : oeqb a a = true.
Proof. apply oeqb_eq; reflexivity. Qed.
Lemma bk_notin o bs : ~ In o (map fst bs) -> bk o bs = [].
Proof.
  induction bs as [|[o' b] r IH]; cbn; [reflexivity|]. intros H.
  destruct (oeqb o' o) eqn:E; [apply oeqb_eq in E; tauto|tauto].
Qed.
Lemma bk_in o b bs : NoDup (map fst bs) -> In (o, b) bs -> bk o bs = b.
Proof.
  induction bs as [|[o' b'] r IH]; cbn; [tauto|]. intros N [E|I]; apply NoDup_cons_iff in N; destruct N as [N1 N2].
  - injection E as -> ->. rewrite oeqb_refl. reflexivity.
  - destruct (oeqb o' o) eqn:E; [|auto]. apply oeqb_eq in E. subst. destruct N1.
    change o with (fst (o, b)). apply in_map; assumption.
Qed.
Lemma bk_nonnil o bs : bk o bs <> [] -> In (o, bk o bs) bs.
Proof.
  induction bs as [|[o' b'] r IH]; cbn; [tauto|]. destruct (oeqb o' o) eqn:E; [|auto].
  apply oeqb_eq in E; subst. auto.
Qed.
Definition items_of (l : level) : list item := concat (map snd (l_bs l)).
Lemma items_bk bs y : NoDup (map fst bs) ->
  In y (concat (map snd bs)) <-> exists o, In y (bk o bs).
Proof.
  intros N. rewrite in_concat. split.
  - intros [b [I J]]. apply in_map_iff in I. destruct I as [[o b'] [E I]]. cbn in E; subst.
    exists o. rewrite (bk_in o b bs N I). assumption.
  - intros [o I]. exists (bk o bs). split; [|assumption].
    assert (bk o bs <> []) as Q by (intros Q; rewrite Q in I; exact I).
    apply bk_nonnil in Q. change (bk o bs) with (snd (o, bk o bs)) at 1. apply in_map; assumption.
Qed.
Lemma badd_spec b x b' : badd b x = Some b' -> b' = b ++ [x].
Proof.
  unfold badd. destruct (rev b) as [|y r] eqn:E.
  - intros H. injection H as <-. apply (f_equal (@rev _)) in E. rewrite rev_involutive in E. subst. reflexivity.
  - destruct (_ =? _); [|discriminate]. congruence.
Qed.
Lemma ladd_spec x : forall bs bs', ladd bs x = Some bs' ->
  (forall o, bk o bs' = if oeqb o (i_owner x) then bk o bs ++ [x] else bk o bs) /\
  (NoDup (map fst bs) -> NoDup (map fst bs')) /\
  (forall o, In o (map fst bs') <-> In o (map fst bs) \/ o = i_owner x) /\
  Permutation (concat (map snd bs')) (x :: concat (map snd bs)).
Proof.
  induction bs as [|[o b] r IH]; cbn [ladd]; intros bs' H.
  - injection H as <-. cbn. split; [|split; [|split]].
    + intros o. destruct (oeqb (i_owner x) o) eqn:E, (oeqb o (i_owner x)) eqn:F; try reflexivity;
        [apply oeqb_eq in E|apply oeqb_eq in F]; subst; rewrite oeqb_refl in *; discriminate.
    + intros _. constructor; [exact (fun H => H)|constructor].
    + intros o. intuition.
    + reflexivity.
  - destruct (oeqb o (i_owner x)) eqn:E.
    + destruct (badd b x) as [b1|] eqn:B; [|discriminate]. injection H as <-. apply badd_spec in B. subst.
      apply oeqb_eq in E. subst o. split; [|split; [|split]].
      * intros o. cbn [bk]. destruct (oeqb (i_owner x) o) eqn:F.
        -- apply oeqb_eq in F. subst. rewrite oeqb_refl. reflexivity.
        -- destruct (oeqb o (i_owner x)) eqn:G; [|reflexivity]. apply oeqb_eq in G. subst.
           rewrite oeqb_refl in F. discriminate.
      * auto.
      * cbn. intuition.
      * cbn. rewrite <- app_assoc. cbn. symmetry. apply Permutation_middle.
    + destruct (ladd r x) as [r1|] eqn:L; [|discriminate]. injection H as <-.
      destruct (IH r1 eq_refl) as [A [B [C D]]]. split; [|split; [|split]].
      * intros o'. cbn [bk]. destruct (oeqb o o') eqn:F; [|apply A].
        apply oeqb_eq in F. subst o'. rewrite E. reflexivity.
      * cbn. intros N. apply NoDup_cons_iff in N. destruct N as [N1 N2]. constructor; [|auto].
        intros I. apply C in I. destruct I as [I|I]; [tauto|]. subst. rewrite oeqb_refl in E. discriminate.
      * intros o'. cbn. rewrite C. intuition.
      * cbn. rewrite D. symmetry. apply Permutation_middle.
Qed.

(** The blocks of owner [o] at level [i]. *)
Definition at_ (ls : list level) (i : Z) (o : option Z) : list item :=
  match get_level i ls with Some l => bk o (l_bs l) | None => [] end.
Definition all_items (ls : list level) : list item := concat (map items_of ls).

Lemma at_some ls i o x : In x (at_ ls i o) -> exists l, get_level i ls = Some l.
Proof. unfold at_. destruct (get_level i ls); [eauto|intros []]. Qed.
Lemma at_put ls ls' i l :
  put_level i l ls = Some ls' -> forall j o, at_ ls' j o = if j =? i then bk o (l_bs l) else at_ ls j o.
Proof.
  intros P j o. apply put_spec in P. destruct P as [_ [_ G]]. unfold at_. rewrite G.
  destruct (j =? i); reflexivity.
Qed.
Lemma all_items_put_nth i l : forall ls ls', put_nth i l ls = Some ls' ->
  forall its old, Permutation (items_of l) (its ++ old) ->
  (match nth_error ls i with Some l0 => items_of l0 = old | None => old = [] end) ->
  Permutation (all_items ls') (its ++ all_items ls).
Proof.
  unfold all_items. induction i as [|i IH]; intros [|x r] ls' P its old H Q; cbn in P; try discriminate; cbn in Q.
  - injection P as <-. subst. cbn. rewrite !app_nil_r in *. assumption.
  - injection P as <-. cbn. subst. rewrite H, <- app_assoc. reflexivity.
  - destruct (put_nth i l r) as [r1|] eqn:E; [|discriminate]. injection P as <-. cbn.
    rewrite (IH r r1 E its old H Q). rewrite !app_assoc. apply Permutation_app_tail, Permutation_app_comm.
Qed.
Lemma all_items_put i l ls ls' its old : put_level i l ls = Some ls' ->
  Permutation (items_of l) (its ++ old) ->
  (match get_level i ls with Some l0 => items_of l0 = old | None => old = [] end) ->
  Permutation (all_items ls') (its ++ all_items ls).
Proof.
  unfold put_level, get_level. destruct (i <? 0); [discriminate|]. intros. eapply all_items_put_nth; eauto.
Qed.

(** * The invariant *)
(** Shape: levels up to the last snapshot level are closed or snapshot levels, the
    others are open account levels. *)
Record shape (ls : list level) (last : Z) : Prop := {
  sh_old : forall i l, get_level i ls = Some l -> i <= last -> l_closed l = negb (l_snap l);
  sh_new : forall i l, get_level i ls = Some l -> last < i -> l_closed l = false /\ l_snap l = false;
  sh_last : forall l, get_level last ls = Some l -> l_snap l = true;
  sh_nodup : forall i l, get_level i ls = Some l -> NoDup (map fst (l_bs l));
  sh_snap : forall i l, get_level i ls = Some l -> l_snap l = true -> forall o, In o (map fst (l_bs l)) <-> o = None;
  sh_acc : forall i l, get_level i ls = Some l -> l_snap l = false -> ~ In None (map fst (l_bs l))
}.
(** Order: everything a block names is on the chain, earlier in its bucket, or at a
    lower level. *)
Definition lower (ls : list level) (i : Z) (r : Z) : Prop :=
  exists j o y, j < i /\ In y (at_ ls j o) /\ In r (i_keys y).
Definition ordered (ops : list add_op) (ls : list level) : Prop :=
  forall i o b1 x b2, at_ ls i o = b1 ++ x :: b2 ->
    i_owner x = o /\
    forall r, In r (needs x) ->
      was_on_chain ops x r \/ (exists y, In y b1 /\ In r (i_keys y)) \/ lower ls i r.
Definition indexed (all : list (Z * (option Z * Z))) (ls : list level) : Prop :=
  forall r o i, lookup r all = Some (o, i) -> exists x, In x (at_ ls i o) /\ In r (i_keys x).

Record binv (ops : list add_op) (b : batch) : Prop := {
  v_cur : b_cur b = zlen (b_ls b) - 1;
  v_len : zlen (b_ls b) <= b_max b;
  v_last : -1 <= b_last b <= b_cur b;
  v_shape : shape (b_ls b) (b_last b);
  v_ord : ordered ops (b_ls b);
  v_all : indexed (b_all b) (b_ls b)
}.

Lemma binv_new ops max : 0 <= max -> binv ops (new_batch max).
Proof.
  intros M. unfold new_batch. constructor; cbn; try (unfold zlen; cbn; lia).
  - constructor; intros; match goal with H : get_level ?i [] = _ |- _ =>
      unfold get_level in H; destruct (i <? 0); try discriminate; destruct (Z.to_nat i); discriminate
      | H : get_level _ _ = _ |- _ => cbn in H; discriminate end.
  - intros i o b1 x b2 H. unfold at_, get_level in H.
    destruct (i <? 0); [destruct b1; discriminate|]. destruct (Z.to_nat i); destruct b1; discriminate.
  - intros r o i H. discriminate.
Qed.

Lemma chain_mono ops o x r : was_on_chain ops x r -> was_on_chain (ops ++ [o]) x r.
Proof. intros [q [I E]]. exists q. split; [apply in_or_app; auto|assumption]. Qed.
Lemma ordered_mono ops o ls : ordered ops ls -> ordered (ops ++ [o]) ls.
Proof.
  intros H i w b1 x b2 E. destruct (H i w b1 x b2 E) as [A B]. split; [assumption|].
  intros r I. destruct (B r I) as [C|C]; [left; apply chain_mono; assumption|right; assumption].
Qed.
Lemma binv_mono ops o b : binv ops b -> binv (ops ++ [o]) b.
Proof. intros []. constructor; try assumption. apply ordered_mono; assumption. Qed.

(** Arrays with the same buckets. *)
Lemma ordered_at ops ls ls' : (forall i o, at_ ls' i o = at_ ls i o) -> ordered ops ls -> ordered ops ls'.
Proof.
  intros E H i o b1 x b2 K. rewrite E in K. destruct (H i o b1 x b2 K) as [A B]. split; [assumption|].
  intros r I. destruct (B r I) as [C|[C|C]]; [auto|auto|]. right. right.
  destruct C as [j [o' [y [L [J K']]]]]. exists j, o', y. rewrite E. auto.
Qed.
Lemma indexed_at all ls ls' : (forall i o, at_ ls' i o = at_ ls i o) -> indexed all ls -> indexed all ls'.
Proof. intros E H r o i L. destruct (H r o i L) as [x [I K]]. exists x. rewrite E. auto. Qed.

(** Putting a block behind what it needs. *)
Lemma app_cons_split {A} (l : list A) (x : A) : forall b1 y b2, l ++ [x] = b1 ++ y :: b2 ->
  (exists b3, b2 = b3 ++ [x] /\ l = b1 ++ y :: b3) \/ (b2 = [] /\ y = x /\ l = b1).
Proof.
  intros b1 y b2 H. destruct b2 as [|z b2] using rev_ind.
  - right. apply app_inj_tail in H. intuition.
  - left. clear IHb2. exists b2. rewrite app_comm_cons, app_assoc in H. apply app_inj_tail in H.
    destruct H as [-> ->]. auto.
Qed.
Lemma add_ordered ops ls ls' i x :
  (forall j o, at_ ls' j o = if (j =? i) && oeqb o (i_owner x) then at_ ls j o ++ [x] else at_ ls j o) ->
  ordered ops ls ->
  (forall r, In r (needs x) ->
     was_on_chain ops x r \/ (exists y, In y (at_ ls i (i_owner x)) /\ In r (i_keys y)) \/ lower ls i r) ->
  ordered ops ls'.
Proof.
  intros E H N.
  assert (S : forall j o y, In y (at_ ls j o) -> In y (at_ ls' j o)).
  { intros j o y I. rewrite E. destruct (_ && _); [apply in_or_app; auto|assumption]. }
  assert (LM : forall j r, lower ls j r -> lower ls' j r).
  { intros j r [k [o [y [A [B C]]]]]. exists k, o, y. auto. }
  intros j o b1 y b2 K. rewrite E in K.
  destruct ((j =? i) && oeqb o (i_owner x)) eqn:C.
  - apply andb_true_iff in C. destruct C as [C1 C2]. apply Z.eqb_eq in C1. apply oeqb_eq in C2. subst.
    apply app_cons_split in K. destruct K as [[b3 [-> K]]|[-> [-> K]]].
    + destruct (H i _ b1 y b3 K) as [A B]. split; [assumption|]. intros r I.
      destruct (B r I) as [Q|[Q|Q]]; auto.
    + split; [reflexivity|]. intros r I. destruct (N r I) as [Q|[Q|Q]]; auto.
      subst b1. auto.
  - destruct (H j o b1 y b2 K) as [A B]. split; [assumption|]. intros r I.
    destruct (B r I) as [Q|[Q|Q]]; auto.
Qed.
Lemma lookup_add_all keys v : forall all r w, lookup r (add_all keys v all) = Some w ->
  (In r keys /\ w = v) \/ lookup r all = Some w.
Proof.
  induction keys as [|k keys IH]; intros all r w H; [auto|]. cbn [add_all fold_left] in H.
  apply IH in H. destruct H as [[I ->]|H]; [left; cbn; auto|]. cbn in H.
  destruct (Z.eqb_spec r k); [injection H as <-; left; cbn; auto|auto].
Qed.
Lemma add_indexed all ls ls' i x :
  (forall j o, at_ ls' j o = if (j =? i) && oeqb o (i_owner x) then at_ ls j o ++ [x] else at_ ls j o) ->
  indexed all ls -> indexed (add_all (i_keys x) (i_owner x, i) all) ls'.
Proof.
  intros E H r o j L. apply lookup_add_all in L. destruct L as [[I W]|L].
  - injection W as -> ->. exists x. rewrite E, Z.eqb_refl, oeqb_refl. cbn. split; [apply in_or_app; cbn; auto|assumption].
  - destruct (H r o j L) as [y [I K]]. exists y. split; [|assumption]. rewrite E.
    destruct (_ && _); [apply in_or_app; auto|assumption].
Qed.

(** [add_at] in terms of [at_]. *)
Lemma add_at_spec b ls i x ok ls' : add_at b ls i x = Some (ok, ls') ->
  exists l, get_level i ls = Some l /\ l_closed l = false /\
  (ok = false -> ls' = ls) /\
  (ok = true -> exists bs, ladd (l_bs l) x = Some bs /\
     put_level i (mkL (l_snap l) false bs) ls = Some ls').
Proof.
  unfold add_at. destruct (get_level i ls) as [l|] eqn:G; [|discriminate].
  destruct (l_closed l) eqn:C; [discriminate|]. destruct (ladd (l_bs l) x) as [bs|] eqn:L.
  - destruct (put_level i _ ls) as [ls1|] eqn:P; [|discriminate]. intros H. injection H as <- <-.
    exists l. repeat split; auto; try discriminate. intros _. exists bs. auto.
  - intros H. injection H as <- <-. exists l. repeat split; auto; discriminate.
Qed.
Lemma add_at_at i x l bs ls ls' : get_level i ls = Some l -> ladd (l_bs l) x = Some bs ->
  put_level i (mkL (l_snap l) false bs) ls = Some ls' ->
  forall j o, at_ ls' j o = if (j =? i) && oeqb o (i_owner x) then at_ ls j o ++ [x] else at_ ls j o.
Proof.
  intros G L P j o. rewrite (at_put _ _ _ _ P). cbn [l_bs]. destruct (Z.eqb_spec j i) as [->|]; cbn [andb]; [|reflexivity].
  rewrite (proj1 (ladd_spec _ _ _ L)). unfold at_. rewrite G. reflexivity.
Qed.
(** Adding a block keeps the shape. *)
Lemma add_shape last i x l bs ls ls' : get_level i ls = Some l -> l_closed l = false ->
  ladd (l_bs l) x = Some bs -> put_level i (mkL (l_snap l) false bs) ls = Some ls' ->
  (l_snap l = true <-> i_owner x = None) ->
  shape ls last -> shape ls' last.
Proof.
  intros G C L P O [S1 S2 S3 S4 S5 S6]. apply put_spec in P. destruct P as [_ [_ K]].
  destruct (ladd_spec _ _ _ L) as [_ [N [F _]]].
  assert (Q : forall j l', get_level j ls' = Some l' ->
     (j = i /\ l' = mkL (l_snap l) false bs) \/ get_level j ls = Some l').
  { intros j l' E. rewrite K in E. destruct (Z.eqb_spec j i); [left|auto]. split; congruence. }
  constructor; intros.
  - destruct (Q _ _ H) as [[-> ->]|E]; [|eauto]. cbn. rewrite <- C. eauto.
  - destruct (Q _ _ H) as [[-> ->]|E]; [|eauto]. cbn. split; [reflexivity|]. apply (S2 i l G H0).
  - destruct (Q _ _ H) as [[-> ->]|E]; [|eauto]. cbn. eauto.
  - destruct (Q _ _ H) as [[-> ->]|E]; [|eauto]. cbn. eauto.
  - destruct (Q _ _ H) as [[-> ->]|E]; [|eauto]. cbn in *. rewrite F, (S5 i l G H0).
    apply O in H0. rewrite H0. tauto.
  - destruct (Q _ _ H) as [[-> ->]|E]; [|eauto]. cbn in *. rewrite F. intros [I|I].
    + apply (S6 i l G H0 I).
    + symmetry in I. apply O in I. congruence.
Qed.
(** Appending an empty level. *)
Lemma new_at snap ls ls' : put_level (zlen ls) (new_level snap) ls = Some ls' ->
  forall j o, at_ ls' j o = at_ ls j o.
Proof.
  intros P j o. rewrite (at_put _ _ _ _ P). destruct (Z.eqb_spec j (zlen ls)) as [->|]; [|reflexivity].
  unfold at_. destruct (get_level (zlen ls) ls) as [l|] eqn:G; [apply get_some in G; lia|].
  destruct snap; cbn; [destruct o|]; reflexivity.
Qed.
Lemma new_shape last ls ls' : put_level (zlen ls) (new_level false) ls = Some ls' -> last < zlen ls ->
  shape ls last -> shape ls' last.
Proof.
  intros P L [S1 S2 S3 S4 S5 S6]. apply put_spec in P. destruct P as [_ [_ K]].
  assert (Q : forall j l', get_level j ls' = Some l' ->
     (j = zlen ls /\ l' = new_level false) \/ get_level j ls = Some l').
  { intros j l' E. rewrite K in E. destruct (Z.eqb_spec j (zlen ls)); [left|auto]. split; congruence. }
  constructor; intros; destruct (Q _ _ H) as [[E ->]|E]; eauto; cbn in *; auto; try lia; try constructor; try discriminate.
Qed.
(** Closing. *)
Lemma close_spec : forall n i ls ls', close_down n i ls = Some ls' ->
  zlen ls' = zlen ls /\
  (forall j, get_level j ls' =
     if (i - Z.of_nat n <? j) && (j <=? i) then
       match get_level j ls with Some l => Some (mkL (l_snap l) true (l_bs l)) | None => None end
     else get_level j ls) /\
  Permutation (all_items ls') (all_items ls).
Proof.
  induction n as [|n IH]; cbn [close_down]; intros i ls ls' H.
  - injection H as <-. repeat split; [|reflexivity]. intros j.
    destruct (Z.ltb_spec (i - Z.of_nat 0) j), (Z.leb_spec j i); cbn; try lia; reflexivity.
  - destruct (get_level i ls) as [l|] eqn:G; [|discriminate]. unfold close in H.
    destruct (l_closed l); [discriminate|]. destruct (put_level i _ ls) as [ls1|] eqn:P; [|discriminate].
    pose proof (all_items_put i _ ls ls1 [] (items_of l) P ltac:(cbn; reflexivity)) as PI. rewrite G in PI.
    specialize (PI eq_refl). pose proof (get_some _ _ _ G).
    apply put_spec in P. destruct P as [_ [P1 P2]].
    apply IH in H. destruct H as [A [B C]]. split; [|split].
    + destruct (Z.ltb_spec i (zlen ls)); lia.
    + intros j. rewrite B, P2.
      destruct (Z.eqb_spec j i) as [->|N].
      * rewrite G. destruct (Z.ltb_spec (i - 1 - Z.of_nat n) i), (Z.leb_spec i (i - 1)), (Z.ltb_spec (i - Z.of_nat (S n)) i),
          (Z.leb_spec i i); cbn; try lia; reflexivity.
      * destruct (Z.ltb_spec (i - 1 - Z.of_nat n) j), (Z.leb_spec j (i - 1)), (Z.ltb_spec (i - Z.of_nat (S n)) j),
          (Z.leb_spec j i); cbn; try lia; reflexivity.
    + rewrite C. assumption.
Qed.
Lemma close_ok : forall n i ls, i < zlen ls -> -1 <= i - Z.of_nat n ->
  (forall j l, get_level j ls = Some l -> i - Z.of_nat n < j <= i -> l_closed l = false) ->
  exists ls', close_down n i ls = Some ls'.
Proof.
  induction n as [|n IH]; cbn [close_down]; intros i ls L B H; [eauto|].
  destruct (get_ex i ls ltac:(lia)) as [l G]. rewrite G. unfold close.
  rewrite (H i l G) by lia. destruct (put_ok i (mkL (l_snap l) true (l_bs l)) ls ltac:(lia)) as [ls1 P].
  rewrite P. apply put_spec in P. destruct P as [_ [P1 P2]]. apply IH.
  - destruct (Z.ltb_spec i (zlen ls)); lia.
  - lia.
  - intros j l' E R. rewrite P2 in E. destruct (Z.eqb_spec j i); [lia|]. eapply H; [eassumption|lia].
Qed.
Lemma all_items_new snap ls ls' : put_level (zlen ls) (new_level snap) ls = Some ls' ->
  Permutation (all_items ls') (all_items ls).
Proof.
  intros P. apply (all_items_put _ _ _ _ [] [] P).
  - destruct snap; reflexivity.
  - destruct (get_level (zlen ls) ls) as [l|] eqn:G; [apply get_some in G; lia|reflexivity].
Qed.
Lemma all_items_add i x l bs ls ls' : get_level i ls = Some l -> ladd (l_bs l) x = Some bs ->
  put_level i (mkL (l_snap l) false bs) ls = Some ls' -> Permutation (all_items ls') (x :: all_items ls).
Proof.
  intros G L P. apply (all_items_put i _ ls ls' [x] (items_of l) P).
  - unfold items_of. cbn [l_bs]. apply (ladd_spec _ _ _ L).
  - rewrite G. reflexivity.
Qed.
