(** The execution of a batch under every interleaving. *)
From Coq Require Import ZArith List Bool Lia Permutation.
From Verif Require Import Lib BatchModel BatchSpec BatchProofs BatchProofs2.
Import ListNotations.
Open Scope Z_scope.

Lemma in_order_nil ops : in_order ops [].
Proof. intros t1 x t2 E. destruct t1; discriminate. Qed.
Lemma in_order_snoc ops out x : in_order ops out ->
  (forall r, In r (needs x) -> was_on_chain ops x r \/ exists y, In y out /\ In r (i_keys y)) ->
  in_order ops (out ++ [x]).
Proof.
  intros H N t1 y t2 E. apply app_cons_split in E. destruct E as [[b3 [-> E]]|[-> [-> E]]].
  - apply (H t1 y b3 E).
  - subst. assumption.
Qed.

Definition rests (ws : list worker) : list item :=
  concat (map (fun w => match w with Busy r => r | _ => [] end) ws).
Lemma rests_set n w : forall ws w0, nth_error ws n = Some w0 ->
  Permutation (rests (set_w n w ws) ++ match w0 with Busy r => r | _ => [] end)
              (match w with Busy r => r | _ => [] end ++ rests ws).
Proof.
  unfold rests. induction n as [|n IH]; intros [|v ws] w0 H; cbn in H; try discriminate.
  - injection H as ->. cbn. rewrite <- app_assoc. apply Permutation_app_head, Permutation_app_comm.
  - cbn. rewrite <- app_assoc, (IH ws w0 H).
    rewrite !app_assoc. apply Permutation_app_tail, Permutation_app_comm.
Qed.
Lemma nth_set n w : forall ws w0, nth_error ws n = Some w0 -> forall v, In v (set_w n w ws) -> v = w \/ In v ws.
Proof.
  induction n as [|n IH]; intros [|u ws] w0 H v I; cbn in H; try discriminate; cbn in I.
  - destruct I as [<- |I]; [auto|right; cbn; auto].
  - destruct I as [<- |I]; [right; cbn; auto|]. destruct (IH ws w0 H v I); [auto|right; cbn; auto].
Qed.
Lemma set_nil n w : forall ws w0, nth_error ws n = Some w0 -> set_w n w ws <> [].
Proof. destruct n; intros [|u ws] w0 H; cbn in *; discriminate. Qed.
Lemma in_gone_set n w : forall ws w0, nth_error ws n = Some w0 -> w <> Gone ->
  In Gone (set_w n w ws) -> In Gone ws.
Proof. intros ws w0 H N I. destruct (nth_set n w ws w0 H Gone I); [congruence|assumption]. Qed.

Section Exec.
Context (ops : list add_op) (LS : list level).
Hypothesis ND : forall j l, get_level j LS = Some l -> NoDup (map fst (l_bs l)).
Hypothesis OR : ordered ops LS.

Lemma get_app D L T : LS = D ++ L :: T -> get_level (zlen D) LS = Some L.
Proof.
  intros E. unfold get_level, zlen. destruct (Z.ltb_spec (Z.of_nat (length D)) 0); [lia|].
  rewrite Nat2Z.id, E, nth_error_app2, Nat.sub_diag by lia. reflexivity.
Qed.
Lemma lower_before D L T r : LS = D ++ L :: T -> lower LS (zlen D) r ->
  exists y, In y (all_items D) /\ In r (i_keys y).
Proof.
  intros E [j [o [y [J [Y K]]]]]. exists y. split; [|assumption].
  destruct (at_some _ _ _ _ Y) as [l G]. pose proof (get_some _ _ _ G) as R.
  assert (NL := ND _ _ G). unfold at_ in Y. rewrite G in Y. unfold all_items. apply in_concat. exists (items_of l). split.
  - apply in_map. unfold get_level in G. destruct (Z.ltb_spec j 0); [discriminate|].
    rewrite E, nth_error_app1 in G by (unfold zlen in J; lia). eapply nth_error_In; eassumption.
  - apply (items_bk (l_bs l) y NL). eauto.
Qed.
(** The next block of a bucket has everything it needs. *)
Lemma next_ready D L T pre x r out : LS = D ++ L :: T ->
  In (pre ++ x :: r) (map snd (l_bs L)) -> incl (all_items D) out -> incl pre out ->
  forall q, In q (needs x) -> was_on_chain ops x q \/ exists y, In y out /\ In q (i_keys y).
Proof.
  intros E B I1 I2 q Q. pose proof (get_app _ _ _ E) as G.
  apply in_map_iff in B. destruct B as [[o b] [E1 B]]. cbn in E1. subst b.
  assert (A : at_ LS (zlen D) o = pre ++ x :: r).
  { unfold at_. rewrite G. apply bk_in; [eapply ND; eassumption|assumption]. }
  destruct (OR _ _ _ _ _ A) as [_ N]. destruct (N q Q) as [C|[[y [Y K]]|C]].
  - auto.
  - right. exists y. auto.
  - right. destruct (lower_before _ _ _ _ E C) as [y [Y K]]. exists y. auto.
Qed.

Definition xinv (s : exec) : Prop :=
  in_order ops (x_out s) /\
  match x_run s with
  | None =>
    exists D, LS = D ++ x_todo s /\ (x_stop s = false -> Permutation (x_out s) (all_items D))
  | Some (ws, q, err) =>
    x_stop s = false /\
    exists D L, LS = D ++ L :: x_todo s /\ incl (all_items D) (x_out s) /\
      incl q (map snd (l_bs L)) /\
      (forall r, In (Busy r) ws -> exists pre, In (pre ++ r) (map snd (l_bs L)) /\ incl pre (x_out s)) /\
      (err = false -> Permutation (x_out s ++ rests ws ++ concat q) (all_items D ++ items_of L) /\
                      (In Gone ws \/ ws = [] -> q = []))
  end.

Lemma xinv_start : xinv (mkX LS None false []).
Proof. split; [apply in_order_nil|]. cbn. exists []. split; [reflexivity|]. intros _. reflexivity. Qed.

Lemma concat_perm {A} (l l' : list (list A)) : Permutation l l' -> Permutation (concat l) (concat l').
Proof.
  induction 1; cbn; [reflexivity|apply Permutation_app_head; assumption| |etransitivity; eassumption].
  rewrite !app_assoc. apply Permutation_app_tail, Permutation_app_comm.
Qed.
Lemma rests_idle n : rests (repeat Idle n) = [].
Proof. unfold rests. induction n; cbn; [reflexivity|assumption]. Qed.
Lemma repeat_in_idle n w : In w (repeat Idle n) -> w = Idle.
Proof. intros H. apply repeat_spec in H. assumption. Qed.

Lemma xinv_step s s' : xinv s -> estep s s' -> xinv s'.
Proof.
  intros [H0 H] E. destruct E as [l todo out bs P|todo ws n b q err out N|todo ws n b q out N
    |todo ws n x r q err out N|todo ws n x r q err out N|todo ws n q err out N|todo ws n err out N|todo ws q err out F];
    cbn [x_run x_out x_stop x_todo] in *.
  - (* start *)
    destruct H as [D [E S]]. specialize (S eq_refl). split; [assumption|]. cbn. split; [reflexivity|].
    exists D, l. split; [assumption|]. split; [intros y Y; rewrite S; assumption|]. split; [|split].
    + intros y Y. rewrite <- P. assumption.
    + intros r I. apply repeat_in_idle in I. discriminate.
    + intros _. rewrite rests_idle. cbn [app]. split.
      * rewrite S. apply Permutation_app_head. unfold items_of. apply concat_perm. assumption.
      * intros [I|I]; [apply repeat_in_idle in I; discriminate|].
        unfold workers_for in I. destruct (l_snap l); [discriminate|].
        destruct (l_bs l) as [|p r]; [|cbn in I; discriminate].
        apply Permutation_sym, Permutation_nil in P. assumption.
  - (* take *)
    destruct H as [_ [D [L [E [I1 [I2 [I3 I4]]]]]]]. split; [assumption|]. cbn. split; [reflexivity|].
    exists D, L. split; [assumption|]. split; [assumption|]. split; [|split].
    + intros y Y. apply I2. right; assumption.
    + intros r I. destruct (nth_set _ _ _ _ N _ I) as [C|C].
      * injection C as ->. exists []. split; [apply I2; left; reflexivity|intros y []].
      * apply I3; assumption.
    + intros ->. destruct (I4 eq_refl) as [P G]. split.
      * rewrite <- P. cbn [concat]. apply Permutation_app_head.
        pose proof (rests_set n (Busy b) ws _ N) as R. cbn in R. rewrite app_nil_r in R. rewrite R.
        rewrite !app_assoc. apply Permutation_app_tail, Permutation_app_comm.
      * intros [Q|Q]; [|apply set_nil with (w := Busy b) in N; contradiction].
        apply in_gone_set with (w0 := Idle) in Q; [|assumption|discriminate]. discriminate (G (or_introl Q)).
  - (* see *)
    destruct H as [_ [D [L [E [I1 [I2 [I3 I4]]]]]]]. split; [assumption|]. cbn. split; [reflexivity|].
    exists D, L. split; [assumption|]. split; [assumption|]. split; [|split].
    + intros y Y. apply I2. right; assumption.
    + intros r I. destruct (nth_set _ _ _ _ N _ I) as [C|C]; [discriminate|apply I3; assumption].
    + discriminate.
  - (* insert *)
    destruct H as [_ [D [L [E [I1 [I2 [I3 I4]]]]]]].
    destruct (I3 _ (nth_error_In _ _ N)) as [pre [B1 B2]]. split.
    + apply in_order_snoc; [assumption|]. apply (next_ready D L todo pre x r out E B1 I1 B2).
    + cbn. split; [reflexivity|]. exists D, L. split; [assumption|].
      split; [intros y Y; apply in_or_app; auto|]. split; [assumption|]. split.
      * intros r' I. destruct (nth_set _ _ _ _ N _ I) as [C|C].
        -- injection C as ->. exists (pre ++ [x]). rewrite <- app_assoc. split; [assumption|].
           intros y Y. apply in_app_or in Y. apply in_or_app. destruct Y as [Y|Y]; [left; auto|right; assumption].
        -- destruct (I3 _ C) as [p [C1 C2]]. exists p. split; [assumption|]. intros y Y. apply in_or_app; auto.
      * intros ->. destruct (I4 eq_refl) as [P G]. split.
        -- rewrite <- P. pose proof (rests_set n (Busy r) ws _ N) as R. cbn in R.
           rewrite <- app_assoc. apply Permutation_app_head. cbn [app]. rewrite app_comm_cons.
           apply Permutation_app_tail.
           assert (Permutation ((x :: rests (set_w n (Busy r) ws)) ++ r) (rests ws ++ r)) as Q.
           { cbn. rewrite Permutation_middle. rewrite R. apply Permutation_app_comm. }
           apply Permutation_app_inv_r in Q. assumption.
        -- intros [Q|Q]; [|apply set_nil with (w := Busy r) in N; contradiction].
           apply in_gone_set with (w0 := Busy (x :: r)) in Q; [|assumption|discriminate]. auto.
  - (* fail *)
    destruct H as [_ [D [L [E [I1 [I2 [I3 I4]]]]]]]. split; [assumption|]. cbn. split; [reflexivity|].
    exists D, L. split; [assumption|]. split; [assumption|]. split; [assumption|]. split.
    + intros r' I. destruct (nth_set _ _ _ _ N _ I) as [C|C]; [discriminate|apply I3; assumption].
    + discriminate.
  - (* next *)
    destruct H as [_ [D [L [E [I1 [I2 [I3 I4]]]]]]]. split; [assumption|]. cbn. split; [reflexivity|].
    exists D, L. split; [assumption|]. split; [assumption|]. split; [assumption|]. split.
    + intros r' I. destruct (nth_set _ _ _ _ N _ I) as [C|C]; [discriminate|apply I3; assumption].
    + intros ->. destruct (I4 eq_refl) as [P G]. split.
      * rewrite <- P. pose proof (rests_set n Idle ws _ N) as R. cbn in R. rewrite app_nil_r in R. rewrite R. reflexivity.
      * intros [Q|Q]; [|apply set_nil with (w := Idle) in N; contradiction].
        apply in_gone_set with (w0 := Busy []) in Q; [|assumption|discriminate]. auto.
  - (* quit *)
    destruct H as [_ [D [L [E [I1 [I2 [I3 I4]]]]]]]. split; [assumption|]. cbn. split; [reflexivity|].
    exists D, L. split; [assumption|]. split; [assumption|]. split; [assumption|]. split.
    + intros r' I. destruct (nth_set _ _ _ _ N _ I) as [C|C]; [discriminate|apply I3; assumption].
    + intros ->. destruct (I4 eq_refl) as [P G]. split; [|auto].
      rewrite <- P. pose proof (rests_set n Gone ws _ N) as R. cbn in R. rewrite app_nil_r in R. rewrite R. reflexivity.
  - (* done *)
    destruct H as [_ [D [L [E [I1 [I2 [I3 I4]]]]]]]. split; [assumption|]. cbn.
    exists (D ++ [L]). split; [rewrite <- app_assoc; assumption|]. intros ->. destruct (I4 eq_refl) as [P G].
    assert (Q : q = []).
    { apply G. destruct ws as [|w ws]; [auto|]. left. apply Forall_inv in F. subst. left; reflexivity. }
    assert (R : rests ws = []).
    { unfold rests. clear -F. induction F as [|w ws -> F IH]; [reflexivity|assumption]. }
    rewrite Q, R in P. cbn in P. rewrite app_nil_r in P. rewrite P. unfold all_items.
    rewrite map_app, concat_app. cbn. rewrite app_nil_r. reflexivity.
Qed.
Lemma xinv_steps s s' : esteps s s' -> xinv s -> xinv s'.
Proof. induction 1 as [|x y z A IH B]; intros I; [assumption|]. exact (xinv_step y z (IH I) B). Qed.
End Exec.

(** * Termination: every step makes this smaller, and a run can always go on until it is
    finished or stopped. *)
Definition wsize (w : worker) : nat :=
  match w with Gone => 0 | Idle => 1 | Busy r => 2 + length r end.
Definition wsum (ws : list worker) : nat := list_sum (map wsize ws).
Definition qsize (q : list (list item)) : nat := list_sum (map (fun b => 3 + length b)%nat q).
Definition lsize (l : level) : nat := 3 + qsize (map snd (l_bs l)) + workers_for l.
Definition msize (s : exec) : nat :=
  (list_sum (map lsize (x_todo s)) +
   match x_run s with None => 0 | Some (ws, q, _) => 1 + wsum ws + qsize q end)%nat.
Lemma wsum_set n w : forall ws w0, nth_error ws n = Some w0 ->
  (wsum (set_w n w ws) + wsize w0 = wsize w + wsum ws)%nat.
Proof.
  unfold wsum. induction n as [|n IH]; intros [|v ws] w0 H; cbn in H; try discriminate.
  - injection H as ->. cbn. lia.
  - specialize (IH ws w0 H). unfold list_sum in *. cbn [map set_w fold_right]. lia.
Qed.
Lemma wsum_idle n : wsum (repeat Idle n) = n.
Proof. unfold wsum, list_sum. induction n; cbn [repeat map fold_right wsize]; [reflexivity|lia]. Qed.
Lemma qsize_perm a b : Permutation a b -> qsize a = qsize b.
Proof. unfold qsize, list_sum. induction 1; cbn [map fold_right]; lia. Qed.
Lemma msize_step s s' : estep s s' -> (msize s' < msize s)%nat.
Proof.
  destruct 1 as [l todo out bs P|todo ws n b q err out N|todo ws n b q out N
    |todo ws n x r q err out N|todo ws n x r q err out N|todo ws n q err out N|todo ws n err out N|todo ws q err out F];
    unfold msize; cbn [x_run x_out x_stop x_todo].
  - cbn [map list_sum fold_right]. change (fold_right plus 0%nat (map lsize todo)) with (list_sum (map lsize todo)).
    rewrite wsum_idle, (qsize_perm _ _ P). unfold lsize at 2. lia.
  - pose proof (wsum_set n (Busy b) ws _ N). cbn [wsize] in H. unfold qsize. cbn [map list_sum fold_right].
    change (fold_right plus 0%nat (map (fun b => (3 + length b)%nat) q)) with (list_sum (map (fun b => (3 + length b)%nat) q)). lia.
  - pose proof (wsum_set n Gone ws _ N). cbn [wsize] in H. unfold qsize. cbn [map list_sum fold_right].
    change (fold_right plus 0%nat (map (fun b => (3 + length b)%nat) q)) with (list_sum (map (fun b => (3 + length b)%nat) q)). lia.
  - pose proof (wsum_set n (Busy r) ws _ N). cbn [wsize length] in H. lia.
  - pose proof (wsum_set n Gone ws _ N). cbn [wsize length] in H. lia.
  - pose proof (wsum_set n Idle ws _ N). cbn [wsize length] in H. lia.
  - pose proof (wsum_set n Gone ws _ N). cbn [wsize length] in H. lia.
  - lia.
Qed.
Lemma gone_dec (w : worker) : {w = Gone} + {w <> Gone}.
Proof. destruct w; [right|right|left]; congruence. Qed.
Lemma progress s : x_stop s = false -> finished s \/ exists s', estep s s'.
Proof.
  destruct s as [todo [[[ws q] err]|] stop out]; cbn; intros ->.
  - right. destruct (Forall_dec (fun w => w = Gone) gone_dec ws) as [F|F].
    + eexists. apply E_done. assumption.
    + assert (exists n w, nth_error ws n = Some w /\ w <> Gone) as [n [w [N W]]].
      { clear -F. induction ws as [|w ws IH]; [destruct F; constructor|].
        assert (w = Gone \/ w <> Gone) as [-> |W] by (destruct w; auto; right; discriminate).
        - destruct IH as [n [w [N W]]]; [intros C; apply F; constructor; auto|]. exists (S n), w. auto.
        - exists O, w. auto. }
      destruct w as [|[|x r]|]; [| | |congruence].
      * destruct q as [|b q]; eexists; [eapply E_quit|eapply E_take]; eassumption.
      * eexists. eapply E_next. eassumption.
      * eexists. eapply E_insert. eassumption.
  - destruct todo as [|l todo]; [left; split; reflexivity|]. right. eexists. apply E_start. reflexivity.
Qed.
