(** Insertion batches (C26): whatever is added and however the workers interleave, a
    block is inserted only after everything it names; all that was accepted is inserted
    exactly once unless an insertion fails; and no run goes on for ever. *)
From Coq Require Import ZArith List Bool Lia Permutation.
From Verif Require Import Lib BatchModel BatchSpec BatchProofs BatchProofs2 BatchProofs3.
Import ListNotations.
Open Scope Z_scope.

(** Additions never panic.  Premise: no account block names a snapshot block as its
    predecessor or send block ([typed]). *)
Theorem batch_adds_never_panic : forall max ops, 1 <= max -> typed ops ->
  exists b, adds (new_batch max) ops = Some b.
Proof.
  intros max ops M T. destruct (adds_spec ops [] (new_batch max)) as [b [A _]]; eauto.
  - apply binv_new. lia.
  - intros y [].
Qed.

Lemma reach_inv max ops b s : 1 <= max -> typed ops -> adds (new_batch max) ops = Some b ->
  esteps (start b) s -> xinv ops (b_ls b) s /\ Permutation (batch_items b) (accepted (new_batch max) ops).
Proof.
  intros M T A E. destruct (adds_spec ops [] (new_batch max)) as [b' [A' [V [_ [P _]]]]]; auto.
  - apply binv_new. lia.
  - intros y [].
  - rewrite A in A'. injection A' as <-. cbn [app] in V. split.
    + apply (xinv_steps ops (b_ls b) (sh_nodup _ _ (v_shape _ _ V)) (v_ord _ _ V) _ _ E). apply xinv_start.
    + rewrite P. unfold batch_items at 1. cbn. rewrite app_nil_r. reflexivity.
Qed.

(** At every moment of every interleaving, the blocks inserted so far are in an order in
    which each comes after everything it names (or that was on the chain before). *)
Theorem batch_respects_dependencies : forall max ops b s, 1 <= max -> typed ops ->
  adds (new_batch max) ops = Some b -> esteps (start b) s -> in_order ops (x_out s).
Proof. intros. eapply reach_inv; eassumption. Qed.

(** The same said of blocks: an account block is inserted after its predecessor and the
    send block it receives; a snapshot block after its predecessor and every account
    block it confirms. *)
Theorem account_block_after_what_it_names : forall max ops b s a t1 t2, 1 <= max -> typed ops ->
  adds (new_batch max) ops = Some b -> esteps (start b) s ->
  x_out s = t1 ++ account_item a :: t2 ->
  (1 < ab_height a ->
     was_on_chain ops (account_item a) (ab_prev a) \/ exists y, In y t1 /\ In (ab_prev a) (i_keys y)) /\
  (ab_receive a = true ->
     was_on_chain ops (account_item a) (ab_from a) \/ exists y, In y t1 /\ In (ab_from a) (i_keys y)).
Proof.
  intros max ops b s a t1 t2 M T A E X. pose proof (batch_respects_dependencies max ops b s M T A E _ _ _ X) as N.
  split; intros H; apply N; unfold needs; cbn [account_item i_refs i_owner]; apply in_or_app; left; apply in_or_app.
  - right. destruct (Z.ltb_spec 1 (ab_height a)); [left; reflexivity|lia].
  - left. rewrite H. left; reflexivity.
Qed.
Theorem snapshot_block_after_what_it_names : forall max ops b s z t1 t2, 1 <= max -> typed ops ->
  adds (new_batch max) ops = Some b -> esteps (start b) s ->
  x_out s = t1 ++ snapshot_item z :: t2 ->
  (1 < sb_height z ->
     was_on_chain ops (snapshot_item z) (sb_prev z) \/ exists y, In y t1 /\ In (sb_prev z) (i_keys y)) /\
  (forall h, In h (sb_content z) ->
     was_on_chain ops (snapshot_item z) h \/ exists y, In y t1 /\ In h (i_keys y)).
Proof.
  intros max ops b s z t1 t2 M T A E X. pose proof (batch_respects_dependencies max ops b s M T A E _ _ _ X) as N.
  split; intros H.
  - apply N; unfold needs; cbn [snapshot_item i_refs i_owner i_snap]. apply in_or_app; right.
    destruct (Z.ltb_spec 1 (sb_height z)); [left; reflexivity|lia].
  - intros I. apply N. unfold needs; cbn [snapshot_item i_refs i_owner i_snap]. apply in_or_app; left; assumption.
Qed.

(** When the execution ends without an error, exactly the accepted blocks were inserted,
    each as often as it was accepted. *)
Theorem batch_inserts_all_accepted : forall max ops b s, 1 <= max -> typed ops ->
  adds (new_batch max) ops = Some b -> esteps (start b) s -> finished s -> x_stop s = false ->
  Permutation (x_out s) (accepted (new_batch max) ops).
Proof.
  intros max ops b s M T A E [F1 F2] S. destruct (reach_inv max ops b s M T A E) as [[_ X] P].
  rewrite F2, F1 in X. destruct X as [D [ED XD]]. rewrite app_nil_r in ED. subst D.
  rewrite (XD S). exact P.
Qed.

(** The workers never block each other and the execution always comes to its end. *)
Theorem batch_execution_terminates : forall s,
  Acc (fun t u => estep u t) s /\
  (x_stop s = false -> finished s \/ exists s', estep s s').
Proof.
  intros s. split; [|apply progress].
  remember (msize s) as n eqn:E. revert s E. induction n as [n IH] using (well_founded_induction Wf_nat.lt_wf).
  intros s E. constructor. intros t T. apply msize_step in T. apply (IH (msize t)); [lia|reflexivity].
Qed.
(** An error is only reported when some block could not be inserted: a run without such
    a failure never stops early. *)
Theorem batch_error_means_failure : forall s s', estep s s' ->
  x_stop s' = true -> exists ws q, x_run s = Some (ws, q, true) /\ Forall (fun w => w = Gone) ws.
Proof. destruct 1; cbn; intros H0; try discriminate. subst. eauto. Qed.
Theorem batch_error_source : forall s s', estep s s' ->
  (exists ws q, x_run s' = Some (ws, q, true)) ->
  (exists ws q, x_run s = Some (ws, q, true)) \/
  (exists ws q n x r, x_run s = Some (ws, q, false) /\ nth_error ws n = Some (Busy (x :: r)) /\ x_out s' = x_out s).
Proof.
  destruct 1; cbn; intros [ws' [q' E]]; try discriminate; try (injection E as _ _ ->; left; eauto; fail).
  - left; eauto.
  - destruct err; [left; eauto|]. right. exists ws, q, n, x, r. auto.
Qed.

(** A block is never refused for a missing reference when everything it names is on the
    chain or was made by a block already in the batch: the block itself or one of the
    sends carried inside a contract's receive. *)
Definition made_by (a : ablock) (r : Z) : Prop := r = ab_hash a \/ In r (ab_sends a).
Lemma lookup_add_all_in keys v : forall all r, In r keys \/ lookup r all <> None ->
  lookup r (add_all keys v all) <> None.
Proof.
  induction keys as [|k keys IH]; intros all r H; [destruct H as [[]|H]; exact H|].
  cbn [add_all fold_left]. apply IH. destruct H as [[->|H]|H]; [right|left; exact H|right]; cbn [lookup].
  - rewrite Z.eqb_refl. discriminate.
  - destruct (r =? k); [discriminate|exact H].
Qed.
Lemma add_keys b o : match add b o with
  | Added b1 => exists v, b_all b1 = add_all (i_keys (op_x o)) v (b_all b)
  | Failed b1 => b_all b1 = b_all b
  | Panic => True
  end.
Proof.
  unfold add, add_snapshot, add_account.
  repeat (match goal with
          | |- context[match ?e with _ => _ end] =>
            match e with context[match _ with _ => _ end] => fail 1 | _ => destruct e end
          end; cbn [b_all]; eauto).
Qed.
Lemma adds_keys : forall ops b0 b r, adds b0 ops = Some b ->
  (lookup r (b_all b0) <> None \/ exists x, In x (accepted b0 ops) /\ In r (i_keys x)) ->
  lookup r (b_all b) <> None.
Proof.
  induction ops as [|o ops IH]; intros b0 b r A H; cbn [adds accepted] in *.
  - injection A as <-. destruct H as [H|[x [[] _]]]; exact H.
  - pose proof (add_keys b0 o) as K. destruct (add b0 o) as [b1|b1|]; [| |discriminate].
    + destruct K as [v K]. apply (IH b1 b r A). rewrite K.
      destruct H as [H|[x [[<-|I] J]]]; [left|left|right; eauto]; apply lookup_add_all_in; auto.
    + apply (IH b1 b r A). rewrite K. exact H.
Qed.
Lemma find_level_missing b ex w : forall refs m, find_level b ex w refs m = PMissing ->
  exists r, In r refs /\ lookup r (b_all b) = None /\ ex r = false.
Proof.
  induction refs as [|r refs IH]; intros m H; cbn [find_level] in H; [discriminate|].
  destruct (lookup r (b_all b)) as [[ow ln]|] eqn:L.
  - assert (F : exists m', find_level b ex w refs m' = PMissing).
    { destruct (get_level ln (b_ls b)) as [lv|]; [|discriminate]. destruct (l_closed lv); [eauto|].
      destruct (ln <? m); [destruct (b_max b - 1 <? m); [discriminate|eauto]|].
      destruct ow as [o|]; [|discriminate]. cbn zeta in H.
      destruct (b_max b - 1 <? _); [discriminate|eauto]. }
    destruct F as [m' F]. destruct (IH m' F) as [r' [I J]]. exists r'. split; [right; exact I|exact J].
  - destruct (ex r) eqn:X.
    + destruct (IH m H) as [r' [I J]]. exists r'. split; [right; exact I|exact J].
    + exists r. auto using in_eq.
Qed.
Theorem never_refused_as_missing : forall max ops b ex a, adds (new_batch max) ops = Some b ->
  (forall r, (ab_receive a = true /\ r = ab_from a \/ 1 < ab_height a /\ r = ab_prev a) ->
     ex r = true \/ exists a', In (account_item a') (accepted (new_batch max) ops) /\ made_by a' r) ->
  find_level b ex (ab_addr a) (i_refs (account_item a)) (-1) <> PMissing.
Proof.
  intros max ops b ex a A N F. apply find_level_missing in F. destruct F as [r [I [L X]]].
  destruct (N r) as [Y|[a' [J M]]].
  - cbn [account_item i_refs] in I. apply in_app_or in I. destruct I as [I|I].
    + destruct (ab_receive a); [|destruct I]. destruct I as [<-|[]]. auto.
    + destruct (Z.ltb_spec 1 (ab_height a)); [|destruct I]. destruct I as [<-|[]]. auto.
  - congruence.
  - refine (adds_keys ops (new_batch max) b r A _ L). right. exists (account_item a'). split; [exact J|].
    destruct M as [->|M]; [left; reflexivity|right; exact M].
Qed.
(** A contract's receive (21) carries the send 25, which account 1 receives in the same batch. *)
Example eg_inner_send : map i_hash (accepted (new_batch 50)
    (map (fun x => mkOp x (fun r => (r =? 10) || (r =? 20) || (r =? 5)) (fun _ => false))
       [account_item (mkAB 21 20 5 2 true 5 [25]); account_item (mkAB 11 10 2 1 true 25 [])])) = [21; 11].
Proof. vm_compute. reflexivity. Qed.

(** * A concrete batch: account 1 sends (hash 11), account 2 receives it (21) and sends
    on (22), account 1 receives that (12); a snapshot block (91) confirms 12 and 22;
    then account 2 goes on (23). *)
Definition yes1 (r : Z) : bool := (r =? 10) || (r =? 20) || (r =? 90).
Definition a11 := account_item (mkAB 11 10 2 1 false 0 []).
Definition a21 := account_item (mkAB 21 20 5 2 true 11 []).
Definition a22 := account_item (mkAB 22 21 6 2 false 0 []).
Definition a12 := account_item (mkAB 12 11 3 1 true 22 []).
Definition s91 := snapshot_item (mkSB 91 90 7 [12; 22]).
Definition a23 := account_item (mkAB 23 22 7 2 false 0 []).
Definition eg_ops : list add_op :=
  map (fun x => mkOp x yes1 yes1) [a21; a11; a21; a22; a12; s91; a23].
Definition typedb (l : list add_op) : bool :=
  forallb (fun a => forallb (fun s =>
    match i_owner (op_x a), i_owner (op_x s) with
    | Some _, None => forallb (fun r => negb (existsb (Z.eqb r) (i_keys (op_x s)))) (i_refs (op_x a))
    | _, _ => true
    end) l) l.
Lemma typedb_ok l : typedb l = true -> typed l.
Proof.
  intros H a s r A S OA OS R K. unfold typedb in H. rewrite forallb_forall in H. specialize (H a A).
  rewrite forallb_forall in H. specialize (H s S). rewrite OS in H.
  destruct (i_owner (op_x a)); [|congruence]. rewrite forallb_forall in H. specialize (H r R).
  apply negb_true_iff in H. assert (existsb (Z.eqb r) (i_keys (op_x s)) = true); [|congruence].
  apply existsb_exists. exists r. split; [assumption|apply Z.eqb_refl].
Qed.
Example eg_typed : typed eg_ops.
Proof. apply typedb_ok. reflexivity. Qed.
Example eg_levels : option_map (fun b => map (fun l => map (fun '(o, xs) => (o, map i_hash xs)) (l_bs l)) (b_ls b))
    (adds (new_batch 50) eg_ops) =
  Some [ [(Some 1, [11])]; [(Some 2, [21; 22])]; [(Some 1, [12])]; [(None, [91])]; [(Some 2, [23])] ].
Proof. vm_compute. reflexivity. Qed.
Example eg_accepted : map i_hash (accepted (new_batch 50) eg_ops) = [11; 21; 22; 12; 91; 23].
Proof. vm_compute. reflexivity. Qed.

Lemma esteps_trans x y z : esteps x y -> esteps y z -> esteps x z.
Proof. intros A B. induction B as [|u v w B IH C]; [assumption|]. exact (es_step _ _ _ (IH A) C). Qed.
Lemma esteps_cons x y z : estep x y -> esteps y z -> esteps x z.
Proof. intros A B. apply (esteps_trans x y z); [|assumption]. exact (es_step _ _ _ (es_refl x) A). Qed.
(** Two accounts side by side: worker 1 overtakes worker 0. *)
Example eg_interleaving : exists s,
  esteps (start (match adds (new_batch 50) (map (fun x => mkOp x yes1 yes1)
            [a11; account_item (mkAB 31 20 2 3 false 0 [])]) with Some b => b | None => new_batch 0 end)) s /\
  finished s /\ x_stop s = false /\ map i_hash (x_out s) = [31; 11].
Proof.
  eexists. split.
  - vm_compute start.
    eapply esteps_cons; [eapply E_start; apply Permutation_refl|]. vm_compute repeat. cbn [l_bs map snd].
    eapply esteps_cons; [eapply (E_take _ _ 0%nat); reflexivity|]. cbn [set_w].
    eapply esteps_cons; [eapply (E_take _ _ 1%nat); reflexivity|]. cbn [set_w].
    eapply esteps_cons; [eapply (E_insert _ _ 1%nat); reflexivity|]. cbn [set_w app].
    eapply esteps_cons; [eapply (E_insert _ _ 0%nat); reflexivity|]. cbn [set_w app].
    eapply esteps_cons; [eapply (E_next _ _ 0%nat); reflexivity|]. cbn [set_w app].
    eapply esteps_cons; [eapply (E_quit _ _ 0%nat); reflexivity|]. cbn [set_w app].
    eapply esteps_cons; [eapply (E_next _ _ 1%nat); reflexivity|]. cbn [set_w app].
    eapply esteps_cons; [eapply (E_quit _ _ 1%nat); reflexivity|]. cbn [set_w app].
    eapply esteps_cons; [eapply E_done; repeat constructor|]. apply es_refl.
  - split; [split; reflexivity|]. split; reflexivity.
Qed.

Print Assumptions batch_adds_never_panic.
Print Assumptions batch_respects_dependencies.
Print Assumptions account_block_after_what_it_names.
Print Assumptions snapshot_block_after_what_it_names.
Print Assumptions batch_inserts_all_accepted.
Print Assumptions batch_execution_terminates.
Print Assumptions batch_error_means_failure.
Print Assumptions batch_error_source.
Print Assumptions never_refused_as_missing.
