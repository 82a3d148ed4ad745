(** Every addition keeps the invariant and never panics. *)
From Coq Require Import ZArith List Bool Lia Permutation.
From Verif Require Import Lib BatchModel BatchSpec BatchProofs.
Import ListNotations.
Open Scope Z_scope.

Definition batch_items (b : batch) : list item := all_items (b_ls b).

(** What an addition does. *)
Definition effect (ops : list add_op) (b : batch) (x : item) (r : outcome) : Prop :=
  match r with
  | Added b1 => binv ops b1 /\ b_max b1 = b_max b /\ Permutation (batch_items b1) (x :: batch_items b)
  | Failed b1 => binv ops b1 /\ b_max b1 = b_max b /\ Permutation (batch_items b1) (batch_items b)
  | Panic => False
  end.

Lemma known_spec ops b ex r o : binv ops b -> known b ex r = true -> In o ops ->
  (ex r = op_exA o r \/ ex r = op_exS o r) ->
  was_on_chain ops (op_x o) r \/
  exists i w y, i <= b_cur b /\ In y (at_ (b_ls b) i w) /\ In r (i_keys y).
Proof.
  intros V K I E. unfold known in K. destruct (lookup r (b_all b)) as [[w i]|] eqn:L.
  - right. destruct (v_all _ _ V _ _ _ L) as [y [J Q]]. exists i, w, y. split; [|auto].
    destruct (at_some _ _ _ _ J) as [l G]. apply get_some in G. rewrite (v_cur _ _ V). lia.
  - left. exists o. split; [assumption|]. split; [reflexivity|]. destruct E as [E|E]; rewrite <- E; auto.
Qed.

Lemma snap_level_at ls last i w y : shape ls last -> In y (at_ ls i w) ->
  forall l, get_level i ls = Some l -> (l_snap l = true <-> w = None).
Proof.
  intros S J l G. unfold at_ in J. rewrite G in J.
  assert (In w (map fst (l_bs l))) as I.
  { destruct (in_dec (fun a b : option Z => ltac:(repeat decide equality) : {a = b} + {a <> b}) w (map fst (l_bs l))); [assumption|].
    rewrite bk_notin in J by assumption. destruct J. }
  split; intros H.
  - apply (sh_snap _ _ S _ _ G H w). assumption.
  - subst. destruct (l_snap l) eqn:E; [reflexivity|]. destruct (sh_acc _ _ S _ _ G E I).
Qed.

Lemma add_snapshot_effect ops b o : binv ops b -> In o ops -> 1 <= b_max b -> i_owner (op_x o) = None ->
  effect ops b (op_x o) (add_snapshot b (op_exA o) (op_exS o) (op_x o)).
Proof.
  intros V I M O. set (x := op_x o) in *. unfold add_snapshot.
  destruct (forallb _ (i_refs x)) eqn:F; cbn [negb]; [|exact (conj V (conj eq_refl (Permutation_refl _)))].
  destruct (match i_snap x with None => true | Some s => known b (op_exS o) s end) eqn:FS; cbn [negb];
    [|exact (conj V (conj eq_refl (Permutation_refl _)))].
  assert (N : forall r, In r (needs x) -> was_on_chain ops x r \/
     exists i w y, i <= b_cur b /\ In y (at_ (b_ls b) i w) /\ In r (i_keys y)).
  { intros r J. unfold needs in J. apply in_app_or in J. destruct J as [J|J].
    - eapply (known_spec ops b (op_exA o) r o V); [|assumption|left; reflexivity].
      rewrite forallb_forall in F. apply F; assumption.
    - rewrite O in J. destruct (i_snap x) as [s|]; [|destruct J]. destruct J as [<-|[]].
      eapply (known_spec ops b (op_exS o) s o V FS); [assumption|right; reflexivity]. }
  clear F FS. pose proof (v_cur _ _ V) as VC. pose proof (v_len _ _ V) as VN. pose proof (v_last _ _ V) as VL.
  pose proof (v_shape _ _ V) as S. pose proof (zlen_nonneg' (b_ls b)) as ZN.
  (* a snapshot level at the end *)
  assert (FRESH : forall ls1, put_level (zlen (b_ls b)) (new_level true) (b_ls b) = Some ls1 -> zlen (b_ls b) < b_max b ->
    effect ops b x
     match add_at b ls1 (zlen (b_ls b)) x with
     | None => Panic
     | Some (ok, ls2) =>
       match close_down (Z.to_nat (zlen (b_ls b) - 1 - b_last b)) (zlen (b_ls b) - 1) ls2 with
       | None => Panic
       | Some ls3 =>
         let b1 := mkB (if b_cur b <? zlen (b_ls b) then zlen (b_ls b) else b_cur b) (zlen (b_ls b))
                       (if ok then add_all (i_keys x) (i_owner x, zlen (b_ls b)) (b_all b) else b_all b)
                       ls3 (b_max b) in
         if ok then Added b1 else Failed b1
       end
     end).
  { intros ls1 P L. set (n := zlen (b_ls b)) in *.
    pose proof (new_at _ _ _ P) as NA. pose proof (all_items_new _ _ _ P) as NI. pose proof P as P'.
    apply put_spec in P. destruct P as [_ [P1 P2]]. fold n in P1. rewrite Z.ltb_irrefl in P1.
    assert (GN : get_level n ls1 = Some (new_level true)) by (rewrite P2; unfold n; rewrite Z.eqb_refl; reflexivity).
    unfold add_at. rewrite GN. cbn [l_closed new_level l_bs l_snap]. cbn [ladd]. rewrite O. cbn [oeqb badd rev].
    destruct (put_ok n (mkL true false [(None, [x])]) ls1 ltac:(lia)) as [ls2 Q].
    assert (LD : ladd (l_bs (new_level true)) x = Some [(None, [x])]).
    { cbn. rewrite O. reflexivity. }
    rewrite Q. pose proof (add_at_at n x (new_level true) _ ls1 ls2 GN LD Q) as AA.
    pose proof (all_items_add n x (new_level true) _ ls1 ls2 GN LD Q) as AI.
    apply put_spec in Q. destruct Q as [_ [Q1 Q2]].
    assert (Q1' : zlen ls2 = n + 1) by (destruct (n <? zlen ls1) eqn:E; lia). clear Q1.
    destruct (close_ok (Z.to_nat (n - 1 - b_last b)) (n - 1) ls2) as [ls3 C]; [lia|lia| |].
    { intros j l G R. rewrite Q2 in G. destruct (Z.eqb_spec j n); [lia|]. rewrite P2 in G.
      destruct (Z.eqb_spec j n); [lia|]. eapply (sh_new _ _ S); [eassumption|lia]. }
    rewrite C. apply close_spec in C. destruct C as [C1 [C2 C3]]. cbn [negb effect].
    assert (AE : forall j w, at_ ls3 j w = at_ ls2 j w).
    { intros j w. unfold at_. rewrite C2. destruct (_ && _); [|reflexivity]. destruct (get_level j ls2); reflexivity. }
    assert (AN : forall w, at_ (b_ls b) n w = []).
    { intros w. unfold at_. destruct (get_level n (b_ls b)) eqn:E; [apply get_some in E; unfold n in E; lia|reflexivity]. }
    split; [|split; [reflexivity|]].
    - constructor; cbn [b_cur b_last b_all b_ls b_max].
      + destruct (Z.ltb_spec (b_cur b) n); lia.
      + lia.
      + destruct (Z.ltb_spec (b_cur b) n); lia.
      + assert (GE : forall j l', get_level j ls3 = Some l' ->
            (j = n /\ l' = mkL true false [(None, [x])]) \/
            (j < n /\ exists l, get_level j (b_ls b) = Some l /\ l_snap l' = l_snap l /\ l_bs l' = l_bs l /\
               l_closed l' = (if b_last b <? j then true else l_closed l))).
        { intros j l' G. rewrite C2 in G. pose proof (Q2 j) as QQ. rewrite P2 in QQ. fold n in QQ.
          destruct (Z.eqb_spec j n) as [->|NE].
          - left. split; [reflexivity|]. rewrite QQ in G.
            destruct (Z.leb_spec n (n - 1)); [lia|]. rewrite andb_false_r in G. congruence.
          - right. rewrite QQ in G. replace (n - 1 - Z.of_nat (Z.to_nat (n - 1 - b_last b))) with (b_last b) in G by lia.
            destruct (get_level j (b_ls b)) as [l|] eqn:E.
            + pose proof (get_some _ _ _ E). fold n in H. split; [lia|]. exists l. split; [reflexivity|].
              destruct (Z.leb_spec j (n - 1)); [|lia]. rewrite andb_true_r in G.
              destruct (b_last b <? j); injection G as <-; auto.
            + destruct (_ && _); discriminate. }
        constructor.
        * intros j l' G R. destruct (GE _ _ G) as [[-> ->]|[J [l [E [E1 [E2 E3]]]]]]; [reflexivity|].
          rewrite E1, E3. destruct (Z.ltb_spec (b_last b) j).
          -- rewrite (proj2 (sh_new _ _ S _ _ E H)). reflexivity.
          -- apply (sh_old _ _ S _ _ E H).
        * intros j l' G R. destruct (GE _ _ G) as [[-> ->]|[J _]]; lia.
        * intros l' G. destruct (GE _ _ G) as [[_ ->]|[J _]]; [reflexivity|lia].
        * intros j l' G. destruct (GE _ _ G) as [[-> ->]|[J [l [E [E1 [E2 E3]]]]]].
          -- cbn. constructor; [exact (fun q => q)|constructor].
          -- rewrite E2. eapply (sh_nodup _ _ S); eassumption.
        * intros j l' G R w. destruct (GE _ _ G) as [[-> ->]|[J [l [E [E1 [E2 E3]]]]]].
          -- cbn. intuition.
          -- rewrite E2. eapply (sh_snap _ _ S); [eassumption|congruence].
        * intros j l' G R. destruct (GE _ _ G) as [[-> ->]|[J [l [E [E1 [E2 E3]]]]]].
          -- discriminate.
          -- rewrite E2. eapply (sh_acc _ _ S); [eassumption|congruence].
      + apply (ordered_at _ ls2 _ AE). apply (add_ordered ops ls1 ls2 n x AA).
        * apply (ordered_at _ (b_ls b) _ NA). apply (v_ord _ _ V).
        * intros r R. destruct (N r R) as [Q|[i [w [y [A [B D]]]]]]; [auto|]. right; right.
          exists i, w, y. rewrite NA. split; [lia|auto].
      + apply (indexed_at _ ls2 _ AE). rewrite <- O. apply (add_indexed _ ls1 ls2 n x AA).
        apply (indexed_at _ (b_ls b) _ NA). apply (v_all _ _ V).
    - unfold batch_items. cbn [b_ls]. rewrite C3, AI, NI. reflexivity. }
  destruct (Z.ltb_spec (b_cur b) 0) as [LT|GE].
  - assert (Z0 : zlen (b_ls b) = 0) by lia.
    destruct (put_ok 0 (new_level true) (b_ls b) ltac:(lia)) as [ls1 P]. rewrite P.
    pose proof P as P'. apply put_spec in P'. destruct P' as [_ [_ P2]]. rewrite (P2 0), Z.eqb_refl.
    cbn [l_snap new_level negb andb]. specialize (FRESH ls1). rewrite Z0 in FRESH.
    specialize (FRESH P ltac:(lia)). destruct (Z.ltb_spec (b_cur b) 0); [exact FRESH|lia].
  - destruct (get_ex (b_cur b) (b_ls b) ltac:(lia)) as [tmp G]. rewrite G.
    destruct (l_snap tmp) eqn:T; cbn [negb andb].
    + (* the last level is a snapshot level *)
      assert (LC : b_last b = b_cur b).
      { destruct (Z.lt_ge_cases (b_last b) (b_cur b)) as [Q|Q]; [|lia].
        pose proof (sh_new _ _ S _ _ G Q). intuition congruence. }
      unfold add_at. rewrite G.
      assert (CL : l_closed tmp = false) by (rewrite (sh_old _ _ S _ _ G ltac:(lia)), T; reflexivity).
      rewrite CL. replace (Z.to_nat (b_cur b - 1 - b_last b)) with 0%nat by lia. cbn [close_down].
      destruct (ladd (l_bs tmp) x) as [bs|] eqn:L.
      * destruct (put_ok (b_cur b) (mkL (l_snap tmp) false bs) (b_ls b) ltac:(lia)) as [ls2 Q]. rewrite Q.
        pose proof (add_at_at _ _ _ _ _ _ G L Q) as AA. pose proof (all_items_add _ _ _ _ _ _ G L Q) as AI.
        assert (SS : shape ls2 (b_last b)).
        { eapply add_shape; try eassumption. rewrite T, O. tauto. }
        apply put_spec in Q. destruct Q as [_ [Q1 Q2]].
        destruct (Z.ltb_spec (b_cur b) (zlen (b_ls b))); [|lia].
        cbn [effect]. split; [|split; [reflexivity|exact AI]].
        constructor; cbn [b_cur b_last b_all b_ls b_max]; try rewrite Z.ltb_irrefl; try lia.
        -- rewrite <- LC. assumption.
        -- apply (add_ordered ops (b_ls b) ls2 (b_cur b) x AA); [apply (v_ord _ _ V)|].
           intros r R. destruct (N r R) as [Y|[i [w [y [A [B D]]]]]]; [auto|]. right.
           destruct (Z.eq_dec i (b_cur b)) as [->|NE].
           ++ left. exists y. split; [|assumption]. rewrite O.
              destruct (snap_level_at _ _ _ _ _ S B _ G) as [Y _]. rewrite (Y T) in B. assumption.
           ++ right. exists i, w, y. split; [lia|auto].
        -- apply (add_indexed _ (b_ls b) ls2 (b_cur b) x AA). apply (v_all _ _ V).
      * cbn [effect]. split; [|split; [reflexivity|reflexivity]]. rewrite Z.ltb_irrefl.
        constructor; cbn [b_cur b_last b_all b_ls b_max]; try lia.
        -- rewrite <- LC. assumption.
        -- apply (v_ord _ _ V).
        -- apply (v_all _ _ V).
    + destruct (Z.ltb_spec (b_max b - 1) (b_cur b + 1)) as [Q|Q]; [exact (conj V (conj eq_refl (Permutation_refl _)))|].
      replace (b_cur b + 1) with (zlen (b_ls b)) by lia.
      destruct (put_ok (zlen (b_ls b)) (new_level true) (b_ls b) ltac:(lia)) as [ls1 P]. rewrite P.
      apply (FRESH ls1 P). lia.
Qed.

(** * Account blocks *)
(** No account block names a snapshot block of the batch. *)
Definition apart (b : batch) (x : item) : Prop :=
  forall r i y, In r (i_refs x) -> In y (at_ (b_ls b) i None) -> ~ In r (i_keys y).

Lemma find_level_spec ops b exA w : binv ops b ->
  forall refs max, -1 <= max -> (max = -1 \/ b_last b < max <= b_cur b + 1 /\ max <= b_max b - 1) ->
  (forall r i y, In r refs -> In y (at_ (b_ls b) i None) -> ~ In r (i_keys y)) ->
  match find_level b exA w refs max with
  | PPanic => False
  | PMissing | PMax => True
  | PLevel m =>
    (m = -1 \/ b_last b < m <= b_cur b + 1 /\ m <= b_max b - 1) /\ max <= m /\
    forall r, In r refs -> exA r = true \/
      exists o i y, In y (at_ (b_ls b) i o) /\ In r (i_keys y) /\
        (i < m \/ (i = m /\ o = Some w) \/ i <= b_last b)
  end.
Proof.
  intros V. pose proof (v_shape _ _ V) as S. pose proof (v_cur _ _ V) as VC.
  induction refs as [|r refs IH]; intros max M B A; cbn [find_level].
  - split; [assumption|]. split; [lia|]. intros r [].
  - assert (A' : forall r0 i y, In r0 refs -> In y (at_ (b_ls b) i None) -> ~ In r0 (i_keys y)).
    { intros r0 i y J. apply A. right; assumption. }
    destruct (lookup r (b_all b)) as [[o i]|] eqn:L.
    + destruct (v_all _ _ V _ _ _ L) as [y [Y K]]. destruct (at_some _ _ _ _ Y) as [l G]. rewrite G.
      pose proof (get_some _ _ _ G) as R.
      destruct (l_closed l) eqn:C.
      * specialize (IH max M B A'). destruct (find_level b exA w refs max); try assumption.
        destruct IH as [I1 [I2 I3]]. split; [assumption|]. split; [assumption|].
        intros r0 [<- |J]; [|auto]. right. exists o, i, y. split; [assumption|]. split; [assumption|]. right; right.
        destruct (Z.le_gt_cases i (b_last b)) as [Q|Q]; [assumption|].
        pose proof (sh_new _ _ S _ _ G Q). intuition congruence.
      * destruct (Z.ltb_spec i max) as [LT|GE].
        -- destruct (b_max b - 1 <? max) eqn:Q; [exact I|].
           specialize (IH max M B A'). destruct (find_level b exA w refs max); try assumption.
           destruct IH as [I1 [I2 I3]]. split; [assumption|]. split; [assumption|].
           intros r0 [<- |J]; [|auto]. right. exists o, i, y. split; [assumption|]. split; [assumption|]. left; lia.
        -- destruct o as [o|].
           2:{ exact (A r i y (or_introl eq_refl) Y K). }
           assert (NS : l_snap l = false).
           { destruct (l_snap l) eqn:E; [|reflexivity]. apply (snap_level_at _ _ _ _ _ S Y _ G) in E. discriminate. }
           assert (LI : b_last b < i).
           { destruct (Z.le_gt_cases i (b_last b)) as [Q|Q]; [|assumption].
             rewrite (sh_old _ _ S _ _ G Q), NS in C. discriminate. }
           set (m := if o =? w then i else i + 1) in *.
           assert (MB : i <= m <= i + 1) by (unfold m; destruct (o =? w); lia).
           destruct (Z.ltb_spec (b_max b - 1) m) as [Q|Q]; [exact I|].
           specialize (IH m ltac:(lia) ltac:(right; lia) A'). destruct (find_level b exA w refs m); try assumption.
           destruct IH as [I1 [I2 I3]]. split; [assumption|]. split; [lia|].
           intros r0 [<- |J]; [|auto]. right. exists (Some o), i, y. split; [assumption|]. split; [assumption|].
           unfold m in I2. destruct (Z.eqb_spec o w) as [->|NE]; [|left; lia].
           destruct (Z.eq_dec i max0); [right; left; auto|left; lia].
    + destruct (exA r) eqn:E; [|exact I].
      specialize (IH max M B A'). destruct (find_level b exA w refs max); try assumption.
      destruct IH as [I1 [I2 I3]]. split; [assumption|]. split; [assumption|].
      intros r0 [<- |J]; [auto|auto].
Qed.

Lemma add_account_effect ops b o w : binv ops b -> In o ops -> 1 <= b_max b -> i_owner (op_x o) = Some w ->
  apart b (op_x o) -> effect ops b (op_x o) (add_account b (op_exA o) (op_x o) w).
Proof.
  intros V I M O A. set (x := op_x o) in *. unfold add_account.
  pose proof (find_level_spec ops b (op_exA o) w V (i_refs x) (-1) ltac:(lia) ltac:(auto) A) as F.
  destruct (find_level b (op_exA o) w (i_refs x) (-1)) as [m| | |]; try exact (conj V (conj eq_refl (Permutation_refl _)));
    [|destruct F].
  destruct F as [F1 [F2 F3]].
  pose proof (v_cur _ _ V) as VC. pose proof (v_len _ _ V) as VN. pose proof (v_last _ _ V) as VL.
  pose proof (v_shape _ _ V) as S. pose proof (zlen_nonneg' (b_ls b)) as ZN.
  set (max := if m <? 0 then b_last b + 1 else m) in *.
  assert (MX : b_last b < max <= b_cur b + 1 /\ m <= max /\ (max = m \/ m = -1)).
  { unfold max. destruct (Z.ltb_spec m 0); lia. }
  destruct (Z.ltb_spec (b_max b - 1) max) as [Q|MB]; [exact (conj V (conj eq_refl (Permutation_refl _)))|].
  assert (N : forall r, In r (needs x) ->
     was_on_chain ops x r \/ (exists y, In y (at_ (b_ls b) max (i_owner x)) /\ In r (i_keys y)) \/ lower (b_ls b) max r).
  { intros r R. unfold needs in R. rewrite O in R. rewrite app_nil_r in R.
    destruct (F3 r R) as [E|[o' [i [y [Y [K B]]]]]].
    - left. exists o. auto.
    - right. destruct (at_some _ _ _ _ Y) as [l G]. pose proof (get_some _ _ _ G).
      destruct B as [B|[[B1 B2]|B]].
      + right. exists i, o', y. split; [lia|auto].
      + left. exists y. rewrite O, <- B2. replace max with i by lia. auto.
      + right. exists i, o', y. split; [lia|auto]. }
  destruct (Z.ltb_spec (b_cur b) max) as [LT|GE].
  - assert (MZ : max = zlen (b_ls b)) by lia. rewrite MZ in *.
    destruct (put_ok (zlen (b_ls b)) (new_level false) (b_ls b) ltac:(lia)) as [ls1 P]. rewrite P.
    pose proof (new_at _ _ _ P) as NA. pose proof (all_items_new _ _ _ P) as NI.
    assert (S1 : shape ls1 (b_last b)) by (eapply new_shape; try eassumption; lia).
    apply put_spec in P. destruct P as [_ [P1 P2]]. rewrite Z.ltb_irrefl in P1.
    assert (GN : get_level (zlen (b_ls b)) ls1 = Some (new_level false)) by (rewrite P2, Z.eqb_refl; reflexivity).
    unfold add_at. rewrite GN. cbn [l_closed new_level l_bs l_snap ladd].
    assert (LD : ladd (l_bs (new_level false)) x = Some [(i_owner x, [x])]) by reflexivity.
    destruct (put_ok (zlen (b_ls b)) (mkL (l_snap (new_level false)) false [(i_owner x, [x])]) ls1 ltac:(lia)) as [ls2 Q].
    pose proof (add_at_at _ _ _ _ _ _ GN LD Q) as AA. pose proof (all_items_add _ _ _ _ _ _ GN LD Q) as AI.
    assert (SS : shape ls2 (b_last b)).
    { eapply (add_shape (b_last b) (zlen (b_ls b)) x (new_level false)); try eassumption; try reflexivity. rewrite O. cbn. split; discriminate. }
    cbn [l_snap new_level] in Q. rewrite Q.
    apply put_spec in Q. destruct Q as [_ [Q1 Q2]].
    destruct (Z.ltb_spec (zlen (b_ls b)) (zlen ls1)); [|lia].
    cbn [effect]. split; [|split; [reflexivity|unfold batch_items; cbn [b_ls]; rewrite AI, NI; reflexivity]].
    destruct (Z.ltb_spec (b_cur b) (zlen (b_ls b))); [|lia].
    constructor; cbn [b_cur b_last b_all b_ls b_max]; try lia; try assumption.
    + apply (add_ordered ops ls1 ls2 _ x AA).
      * apply (ordered_at _ (b_ls b) _ NA). apply (v_ord _ _ V).
      * intros r R. destruct (N r R) as [Y|[[y [Y1 Y2]]|[j [o' [y [A1 [A2 A3]]]]]]]; [auto| |].
        -- right; left. exists y. rewrite NA. auto.
        -- right; right. exists j, o', y. rewrite NA. auto.
    + apply (add_indexed _ ls1 ls2 _ x AA). apply (indexed_at _ (b_ls b) _ NA). apply (v_all _ _ V).
  - destruct (Z.leb_spec 0 (b_cur b)); [|lia].
    destruct (get_ex (b_cur b) (b_ls b) ltac:(lia)) as [tmp G]. rewrite G.
    rewrite (proj2 (sh_new _ _ S _ _ G ltac:(lia))).
    replace (if max <? b_cur b then max else b_cur b) with max by (destruct (Z.ltb_spec max (b_cur b)); lia).
    destruct (get_ex max (b_ls b) ltac:(lia)) as [l GL]. unfold add_at. rewrite GL.
    destruct (sh_new _ _ S _ _ GL ltac:(lia)) as [C1 C2]. rewrite C1.
    destruct (Z.ltb_spec (b_cur b) max); [lia|].
    destruct (ladd (l_bs l) x) as [bs|] eqn:L.
    + destruct (put_ok max (mkL (l_snap l) false bs) (b_ls b) ltac:(lia)) as [ls2 Q]. rewrite Q.
      pose proof (add_at_at _ _ _ _ _ _ GL L Q) as AA. pose proof (all_items_add _ _ _ _ _ _ GL L Q) as AI.
      assert (SS : shape ls2 (b_last b)).
      { eapply add_shape; try eassumption. rewrite C2, O. split; discriminate. }
      apply put_spec in Q. destruct Q as [_ [Q1 Q2]]. destruct (Z.ltb_spec max (zlen (b_ls b))); [|lia].
      cbn [effect]. split; [|split; [reflexivity|exact AI]].
      constructor; cbn [b_cur b_last b_all b_ls b_max]; try lia; try assumption.
      * apply (add_ordered ops (b_ls b) ls2 max x AA); [apply (v_ord _ _ V)|assumption].
      * apply (add_indexed _ (b_ls b) ls2 max x AA). apply (v_all _ _ V).
    + cbn [effect]. split; [|split; reflexivity]. constructor; cbn [b_cur b_last b_all b_ls b_max]; try lia; try assumption; apply V.
Qed.

(** * Whole sequences *)
(** Account blocks name account blocks only: no key of a snapshot block among the
    requests is named by an account block. *)
Definition typed (l : list add_op) : Prop :=
  forall a s r, In a l -> In s l -> i_owner (op_x a) <> None -> i_owner (op_x s) = None ->
    In r (i_refs (op_x a)) -> ~ In r (i_keys (op_x s)).

Lemma at_all_items ls i o y : (forall j l, get_level j ls = Some l -> NoDup (map fst (l_bs l))) ->
  In y (at_ ls i o) -> In y (all_items ls).
Proof.
  intros N I. destruct (at_some _ _ _ _ I) as [l G]. unfold at_ in I. rewrite G in I.
  unfold all_items. apply in_concat. exists (items_of l). split.
  - apply in_map. unfold get_level in G. destruct (i <? 0); [discriminate|]. eapply nth_error_In; eassumption.
  - apply (items_bk (l_bs l) y (N _ _ G)). eauto.
Qed.

Lemma adds_spec : forall l pre b, binv pre b -> 1 <= b_max b -> typed (pre ++ l) ->
  (forall y, In y (batch_items b) -> exists o, In o pre /\ op_x o = y) ->
  exists b1, adds b l = Some b1 /\ binv (pre ++ l) b1 /\ b_max b1 = b_max b /\
    Permutation (batch_items b1) (accepted b l ++ batch_items b) /\
    (forall y, In y (batch_items b1) -> exists o, In o (pre ++ l) /\ op_x o = y).
Proof.
  induction l as [|o l IH]; intros pre b V M T H; cbn [adds accepted].
  - exists b. rewrite app_nil_r. split; [reflexivity|]. split; [assumption|]. split; [reflexivity|]. split; [reflexivity|assumption].
  - assert (E : effect (pre ++ [o]) b (op_x o) (add b o)).
    { unfold add. apply (binv_mono _ o) in V.
      assert (J : In o (pre ++ [o])) by (apply in_or_app; cbn; auto).
      destruct (i_owner (op_x o)) as [w|] eqn:O.
      - apply add_account_effect; try assumption. intros r i y R Y K.
        assert (Y' := at_all_items _ _ _ _ (sh_nodup _ _ (v_shape _ _ V)) Y).
        destruct (H y Y') as [s [S1 S2]].
        apply in_split in Y. destruct Y as [b1 [b2 Y]]. destruct (v_ord _ _ V _ _ _ _ _ Y) as [Y1 _].
        subst y. apply (T o s r); try assumption.
        + apply in_or_app; cbn; auto.
        + apply in_or_app; auto.
        + congruence.
      - apply add_snapshot_effect; assumption. }
    replace (pre ++ o :: l) with ((pre ++ [o]) ++ l) in * by (rewrite <- app_assoc; reflexivity).
    destruct (add b o) as [b1|b1|] eqn:AB; [| |destruct E].
    + destruct E as [E1 [E2 E3]]. destruct (IH (pre ++ [o]) b1 E1 ltac:(lia) T) as [b2 [A [B [C [D F]]]]].
      { intros y Y. rewrite E3 in Y. destruct Y as [<- |Y].
        - exists o. split; [apply in_or_app; cbn; auto|reflexivity].
        - destruct (H y Y) as [q [Q1 Q2]]. exists q. split; [apply in_or_app; auto|assumption]. }
      exists b2. split; [assumption|]. split; [assumption|]. split; [lia|]. split; [|assumption].
      rewrite D, E3. cbn [app]. symmetry. apply Permutation_middle.
    + destruct E as [E1 [E2 E3]]. destruct (IH (pre ++ [o]) b1 E1 ltac:(lia) T) as [b2 [A [B [C [D F]]]]].
      { intros y Y. rewrite E3 in Y. destruct (H y Y) as [q [Q1 Q2]]. exists q. split; [apply in_or_app; auto|assumption]. }
      exists b2. split; [assumption|]. split; [assumption|]. split; [lia|]. split; [|assumption].
      rewrite D, E3. reflexivity.
Qed.
