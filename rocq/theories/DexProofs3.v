(** Proofs for DexProps: one order against the book. *)
From Coq Require Import ZArith List Bool Lia Sorted.
From Verif Require Import Lib DexFloat DexFloatProofs DexModel DexSpec DexProofs DexProofs2.
Import ListNotations.
Open Scope Z_scope.

Definition agrees (mk0 : Z) (F : order -> Z) (w : Z -> bool -> Z) : Prop :=
  forall o, o_market o = mk0 -> F o = own w o.

Lemma total_agrees mk0 F w l : agrees mk0 F w -> Forall (fun o => o_market o = mk0) l -> total F l = total (own w) l.
Proof.
  intros A H. apply total_ext. intros x I. apply A. exact (proj1 (Forall_forall _ _) H x I).
Qed.

Lemma handle_makers_spec mk0 P M :
  Forall2 (fun p q => stat p q /\ within q /\ (closed q = false -> open q)) P M ->
  Forall (fun p => o_market p = mk0) P -> NoDup (map o_id P) ->
  forall b l, bsorted b -> Forall (fun p => bget (o_id p) b = Some p) P ->
  let '(b', l') := handle_makers M b l in
  bsorted b'
  /\ (forall x, In x b' -> In x b \/ exists p, In p P /\ stat p x /\ within x /\ open x)
  /\ (forall F w, agrees mk0 F w -> total F b' + takes w l' = total F b + takes w l - total F P + total F M)
  /\ (forall v, net v l' = net v l) /\ (Forall snn l -> Forall snn l')
  /\ (forall id, ~ In id (map o_id P) -> bget id b' = bget id b).
Proof.
  induction 1 as [|p q P M (S & W & O) FF IH]; intros MK ND b l SB HB; cbn [handle_makers].
  { split; [exact SB|]. split; [auto|]. split; [intros; cbn; lia|]. auto. }
  inversion MK; subst. inversion ND as [|? ? NI ND']; subst. inversion HB as [|? ? HP HR]; subst.
  assert (ID : o_id q = o_id p) by apply S.
  destruct (closed q) eqn:C.
  - destruct (refund_spec q l W C) as (R1 & R2 & R3).
    specialize (IH H2 ND' (bdel (o_id q) b) (refund q l) (bdel_sorted _ _ SB)).
    destruct (handle_makers M (bdel (o_id q) b) (refund q l)) as [b' l'].
    destruct IH as (I1 & I2 & I3 & I4 & I5 & I6).
    { apply Forall_forall. intros x X. rewrite bget_bdel; [exact (proj1 (Forall_forall _ _) HR x X)|].
      rewrite ID. intro K. apply NI. rewrite K. now apply in_map. }
    split; [exact I1|]. split.
    { intros x X. destruct (I2 x X) as [Y|(p' & Y1 & Y2)].
      - apply filter_In in Y as [Y _]. now left.
      - right. exists p'. split; [now right|exact Y2]. }
    split.
    { intros F w A. rewrite (I3 F w A), R1, !total_cons, (bdel_total F (o_id q) p b SB) by congruence.
      rewrite (A q) by (rewrite (stat_market _ _ S); reflexivity). lia. }
    split; [intro v; rewrite I4, R2; reflexivity|]. split; [auto|].
    intros id N. cbn [map] in N. rewrite I6 by (intro K; apply N; now right).
    apply bget_bdel. intro K. apply N. left. congruence.
  - specialize (IH H2 ND' (bput q b) l (bput_sorted _ _ SB)).
    destruct (handle_makers M (bput q b) l) as [b' l'].
    destruct IH as (I1 & I2 & I3 & I4 & I5 & I6).
    { apply Forall_forall. intros x X. rewrite bget_bput; [exact (proj1 (Forall_forall _ _) HR x X)|].
      rewrite ID. intro K. apply NI. rewrite K. now apply in_map. }
    split; [exact I1|]. split.
    { intros x X. destruct (I2 x X) as [Y|(p' & Y1 & Y2)].
      - apply bput_in in Y as [->|Y]; [|now left]. right. exists p. split; [now left|]. auto.
      - right. exists p'. split; [now right|exact Y2]. }
    split.
    { intros F w A. rewrite (I3 F w A), !total_cons, (bput_replace F q p b SB) by congruence. lia. }
    split; [exact I4|]. split; [exact I5|].
    intros id N. cbn [map] in N. rewrite I6 by (intro K; apply N; now right).
    apply bget_bput. intro K. apply N. left. congruence.
Qed.

(** An order on its way: nothing executed yet. *)
Definition fresh (o : order) : Prop :=
  within o /\ rates_ok o /\ o_status o = Pending /\ o_reason o = 0
  /\ o_exq o = 0 /\ o_exa o = 0 /\ o_exb o = 0 /\ o_exo o = 0.

Lemma undo_spec tk tk1 r : fresh tk -> stat tk tk1 ->
  stat tk (undo tk1 r) /\ within (undo tk1 r) /\ closed (undo tk1 r) = true
  /\ held (undo tk1 r) = held tk /\ o_reason (undo tk1 r) = r.
Proof.
  intros (W & _ & _ & _ & E1 & E2 & E3 & E4) S. pose proof (stat_side _ _ S) as SS.
  destruct S as (A1 & A2 & A3 & A4 & A5 & A6 & A7 & A8 & A9 & A10 & A11 & A12).
  unfold undo. split; [repeat split; assumption|]. destruct W as (W1 & W2 & W3 & W4 & W5). split.
  - unfold within. unfold o_side in *. cbn in *. rewrite SS, A5, A6, A7.
    repeat split; try lia; destruct (W5 H); lia.
  - split; [reflexivity|]. split; [|reflexivity]. unfold held.
    change (o_side (set_exec (set_status tk1 Cancelled r) Cancelled 0 0 0 0)) with (o_side tk1). rewrite SS. cbn.
    rewrite A5, A6, A7, E1, E2, E3, E4. destruct (o_side tk); lia.
Qed.

Ltac conj := repeat (split; [first [assumption|reflexivity|(apply set_status_within; assumption)]|]); first [assumption|reflexivity].

(** The three ways out of handling the taker. *)
Lemma taker_res_spec tk tk1 b l : fresh tk -> stat tk tk1 -> within tk1 -> undone tk1 = false ->
  (open tk1 \/ closed tk1 = true) ->
  let '(tk2, b', l') := taker_res tk1 b l in
  stat tk tk2 /\
  ((undone tk2 = true /\ b' = b /\ l' = refund tk2 l /\ closed tk2 = true /\ within tk2 /\ held tk2 = held tk)
   \/ (undone tk2 = false /\ b' = b /\ l' = refund tk2 l /\ closed tk2 = true /\ within tk2 /\ held tk2 = held tk1)
   \/ (undone tk2 = false /\ tk2 = tk1 /\ (open tk1 /\ rests tk1) /\ b' = bput tk1 b /\ l' = l)).
Proof.
  intros F S W U OC. unfold taker_res.
  destruct (over_threshold tk1).
  { destruct (undo_spec tk tk1 cancelledByExceedThreshold F S) as (A & B & C & D & E).
    split; [exact A|]. left. conj. }
  destruct ((o_status tk1 =? PartialExecuted) || (o_status tk1 =? Pending)) eqn:OP.
  2:{ split; [exact S|]. right. left.
      assert (closed tk1 = true) by (destruct OC as [[K|K]|C]; [rewrite K in OP; discriminate|rewrite K in OP; discriminate|exact C]).
      conj. }
  assert (O : open tk1).
  { unfold open. apply orb_prop in OP as [K|K]; apply Z.eqb_eq in K; auto. }
  assert (NC : (o_status tk1 =? Cancelled) = false) by (destruct O as [-> | ->]; reflexivity).
  destruct ((o_type tk1 =? Market) || (o_type tk1 =? ImmediateOrCancel)) eqn:TM.
  { cbn [set_status o_status]. change (Cancelled =? Cancelled) with true. cbv iota.
    split; [exact S|]. right. left. conj. }
  destruct (o_type tk1 =? FillOrKill) eqn:TF.
  { destruct (undo_spec tk tk1 cancelledByFillOrKillNotFilled F S) as (A & B & C & D & E).
    change (o_status (undo tk1 cancelledByFillOrKillNotFilled) =? Cancelled) with true. cbv iota.
    split; [exact A|]. left. conj. }
  rewrite NC. split; [exact S|]. right. right.
  assert (open tk1 /\ rests tk1).
  { split; [exact O|]. apply orb_false_elim in TM as [TM TI]. unfold rests. rewrite <- !Z.eqb_neq. auto. }
  conj.
Qed.

Lemma take_status e now m : e_fee e = true -> forall makers tk mods txs,
  Forall (fun o => good o /\ o_side o = negb (o_side tk)) makers -> within tk -> rates_ok tk ->
  open tk ->
  let '(tk', _, _) := take e now m tk makers mods txs in open tk' \/ closed tk' = true.
Proof.
  intro E. induction makers as [|mk rest IH]; intros tk mods txs G W RT O; cbn [take]; [now left|].
  inversion G as [|x y [[Wm [Rm Om]] Sm] Gr]; subst.
  destruct (timed_out e now mk).
  { destruct (_ || _); [now left|]. apply IH; auto. }
  destruct (match_price tk mk); [|now left].
  destruct (o_type tk =? PostOnly); [right; reflexivity|].
  pose proof (calc_spec e m tk mk E W Wm RT Rm Sm) as CS.
  destruct (calc_tx e m tk mk) as [[tk1 mk1] t].
  destruct CS as (C1 & C2 & C3 & C4 & C5 & _).
  destruct ((o_status tk1 =? PartialExecuted) && (maxTxsCountPerTaker <=? zlen (txs ++ [t]))).
  - cbn [set_status o_status]. change (Cancelled =? FullyExecuted) with false. change (Cancelled =? Cancelled) with true.
    cbn [orb]. right. reflexivity.
  - destruct ((o_status tk1 =? FullyExecuted) || (o_status tk1 =? Cancelled)) eqn:CL; [right; exact CL|].
    apply IH; auto.
    + rewrite (stat_side _ _ C1). exact Gr.
    + eapply stat_rates; eauto.
    + destruct C5 as [K|K]; [rewrite K in CL; discriminate|right; exact K].
Qed.

Lemma makers_good tk b : Forall good b ->
  Forall (fun o => good o /\ o_side o = negb (o_side tk)) (makers_of (o_market tk) (negb (o_side tk)) b)
  /\ Forall (fun o => o_market o = o_market tk) (makers_of (o_market tk) (negb (o_side tk)) b).
Proof.
  intro G. split; apply Forall_forall; intros x X; apply filter_In in X as [X Y]; apply andb_prop in Y as [Y1 Y2].
  - split; [exact (proj1 (Forall_forall _ _) G x X)|now apply eqb_prop].
  - now apply Z.eqb_eq.
Qed.
Lemma filter_sorted (f : order -> bool) b : bsorted b -> bsorted (filter f b).
Proof.
  induction 1 as [|y r S IH F]; cbn [filter]; [constructor|]. destruct (f y); [|exact IH].
  constructor; [exact IH|]. apply Forall_forall. intros z Z1. apply filter_In in Z1 as [Z1 _].
  exact (proj1 (Forall_forall _ _) F z Z1).
Qed.
Lemma sorted_nodup b : bsorted b -> NoDup (map o_id b).
Proof.
  induction 1 as [|y r S IH F]; cbn [map]; constructor; auto.
  intro I. apply in_map_iff in I as (z & Z1 & Z2). pose proof (proj1 (Forall_forall _ _) F z Z2) as K. unfold blt in K. lia.
Qed.
Lemma sorted_app_l l1 l2 : bsorted (l1 ++ l2) -> bsorted l1.
Proof.
  induction l1 as [|x r IH]; intro H; [constructor|]. inversion H; subst. constructor; [auto|].
  apply Forall_app in H3. apply H3.
Qed.

Theorem do_match_spec e now m tk b : e_fee e = true -> fresh tk -> bsorted b -> Forall good b ->
  bget (o_id tk) b = None ->
  let '(tk2, b2, l, f, T) := do_match e now m tk b in
  stat tk tk2 /\ within tk2
  /\ bsorted b2 /\ Forall good b2
  /\ (forall x, In x b2 -> stat tk x \/ exists p, In p b /\ stat p x)
  /\ (forall F w, agrees (o_market tk) F w -> total F b2 + takes w l = total F b + F tk)
  /\ (forall v, net v l + v false * fee_sum f = 0) /\ Forall snn l /\ Forall fnn f
  /\ Forall (tx_of m tk (makers_of (o_market tk) (negb (o_side tk)) b)) T.
Proof.
  intros E F SB GB NB. unfold do_match.
  pose proof F as (W & RT & ST & RS & _).
  assert (UN : undone tk = false) by (unfold undone; rewrite RS; reflexivity).
  assert (OT : open tk) by (left; exact ST).
  destruct (makers_good tk b GB) as [MG MM].
  destruct (makers_of (o_market tk) (negb (o_side tk)) b) as [|mk0 mr] eqn:MK.
  - pose proof (taker_res_spec tk tk b [] F (stat_refl tk) W UN (or_introl OT)) as T.
    destruct (taker_res tk b []) as [[tk2 b2] l]. destruct T as [S2 T].
    assert (CASE : closed tk2 = true -> within tk2 -> held tk2 = held tk -> l = refund tk2 [] -> b2 = b ->
      bsorted b2 /\ Forall good b2 /\ (forall x, In x b2 -> stat tk x \/ exists p, In p b /\ stat p x)
      /\ (forall F w, agrees (o_market tk) F w -> total F b2 + takes w l = total F b + F tk)
      /\ (forall v, net v l + v false * fee_sum [] = 0) /\ Forall snn l).
    { intros C W2 H2 -> ->. destruct (refund_spec tk2 [] W2 C) as (R1 & R2 & R3).
      split; [exact SB|]. split; [exact GB|]. split; [intros x X; right; exists x; split; [exact X|apply stat_refl]|].
      split; [|split; [intro v; rewrite R2; cbn; lia|apply R3; constructor]].
      intros G w A. rewrite R1, (A tk eq_refl). rewrite (stat_own w _ _ S2), H2. unfold own, takes. cbn. lia. }
    destruct T as [(U & B & L & C & W2 & H2)|[(U & B & L & C & W2 & H2)|(U & -> & O & -> & ->)]].
    1,2: split; [exact S2|]; split; [exact W2|]; destruct (CASE C W2 H2 L B) as (K1 & K2 & K3 & K4 & K5 & K6);
      split; [exact K1|]; split; [exact K2|]; split; [exact K3|]; split; [exact K4|]; split; [exact K5|];
      split; [exact K6|]; split; constructor.
    split; [exact S2|]. split; [exact W|]. split; [apply bput_sorted, SB|].
    split. { apply Forall_forall. intros x X. apply bput_in in X as [->|X]; [split; [exact W|split; [exact RT|exact O]]|].
             exact (proj1 (Forall_forall _ _) GB x X). }
    split. { intros x X. apply bput_in in X as [->|X]; [left; apply stat_refl|right; exists x; split; [exact X|apply stat_refl]]. }
    split. { intros G w A. rewrite bput_new by exact NB. cbn. lia. }
    split; [intro; cbn; lia|]. split; [constructor|]. split; constructor.
  - assert (SM : bsorted (mk0 :: mr)) by (rewrite <- MK; apply filter_sorted, SB).
    assert (IM : forall x, In x (mk0 :: mr) -> In x b) by (rewrite <- MK; intros x X; apply filter_In in X; apply X).
    clear MK. pose proof (take_spec e now m E (mk0 :: mr) tk [] [] MG W RT UN) as TS.
    pose proof (take_status e now m E (mk0 :: mr) tk [] [] MG W RT OT) as TT.
    destruct (take e now m tk (mk0 :: mr) [] []) as [[tk1 mods] txs].
    destruct TS as (P & R & M & T & HP & HM & HT & K1 & K2 & K3 & K4 & K5 & K6 & K7 & K8).
    cbn [app] in HM, HT. subst mods txs.
    pose proof (taker_res_spec tk tk1 b [] F K2 K3 K7 TT) as TR.
    destruct (taker_res tk1 b []) as [[tk2 b1] l1]. destruct TR as [S2 TR].
    assert (PB : forall p, In p P -> In p b) by (intros p X; apply IM; rewrite HP; apply in_or_app; now left).
    assert (PM : Forall (fun p => o_market p = o_market tk) P).
    { rewrite HP in MM. apply Forall_app in MM. apply MM. }
    assert (PN : NoDup (map o_id P)).
    { rewrite HP in SM. apply sorted_nodup. eapply sorted_app_l. exact SM. }
    assert (TO : Forall tx_ok T) by (eapply Forall_impl; [|exact K4]; intros t (X & _); exact X).
    assert (TM : Forall (tx_of m tk (mk0 :: mr)) T).
    { eapply Forall_impl; [|exact K4]. intros t X. eapply tx_of_more; [|exact X]. rewrite HP. intros; apply in_or_app; now left. }
    destruct TR as [(U & B & L & C & W2 & H2)|TR].
    { rewrite U. subst b1 l1. destruct (refund_spec tk2 [] W2 C) as (R1 & R2 & R3).
      split; [exact S2|]. split; [exact W2|]. split; [exact SB|]. split; [exact GB|].
      split; [intros x X; right; exists x; split; [exact X|apply stat_refl]|].
      split. { intros G w A. rewrite R1, (A tk eq_refl), (stat_own w _ _ S2), H2. unfold own, takes. cbn. lia. }
      split; [intro v; rewrite R2; cbn; lia|]. split; [apply R3; constructor|]. split; constructor. }
    assert (U : undone tk2 = false) by (destruct TR as [TR|TR]; apply TR). rewrite U.
    assert (B1 : exists b1', b1' = b1 /\ bsorted b1 /\ within tk2
      /\ (forall x, In x b1 -> (In x b) \/ (x = tk2 /\ open x /\ rests x))
      /\ (forall G w, agrees (o_market tk) G w -> total G b1 + takes w l1 = total G b + own w tk1)
      /\ (forall v, net v l1 = 0) /\ Forall snn l1
      /\ (forall p, In p P -> bget (o_id p) b1 = Some p)).
    { exists b1. split; [reflexivity|].
      destruct TR as [(_ & B & L & C & W2 & H2)|(_ & -> & O & -> & ->)].
      - subst b1 l1. destruct (refund_spec tk2 [] W2 C) as (R1 & R2 & R3).
        split; [exact SB|]. split; [exact W2|]. split; [auto|].
        split; [|split; [intro v; rewrite R2; reflexivity|split; [apply R3; constructor|]]].
        + intros G w A. rewrite R1, (stat_own w _ _ S2), H2, (stat_own w _ _ K2). cbn. lia.
        + intros p X. apply bget_in; auto.
      - split; [apply bput_sorted, SB|]. split; [exact K3|].
        split; [intros x X; apply bput_in in X as [->|X]; auto|].
        split; [|split; [reflexivity|split; [constructor|]]].
        + intros G w A. rewrite bput_new; [|destruct K2 as (-> & _); exact NB].
          rewrite (A tk1) by apply (stat_market _ _ K2). cbn. lia.
        + intros p X. rewrite bget_bput; [apply bget_in; auto|].
          destruct K2 as (-> & _). apply PB in X. intro Q. exact (bget_none _ _ NB p X (eq_sym Q)). }
    destruct B1 as (_ & _ & B1 & W2 & B2 & B3 & B4 & B5 & B6).
    pose proof (handle_makers_spec (o_market tk) P M K1 PM PN b1 l1 B1 (proj2 (Forall_forall _ _) B6)) as HM.
    destruct (handle_makers M b1 l1) as [b2 l2]. destruct HM as (H1 & H2 & H3 & H4 & H5 & _).
    destruct (fold_settles T TO l2 []) as (F1 & F2 & F3 & F4). cbv zeta in *.
    split; [exact S2|]. split; [exact W2|]. split; [exact H1|].
    split. { apply Forall_forall. intros x X. destruct (H2 x X) as [Y|(p & Y & Z1 & Z2 & Z3)].
             - destruct (B2 x Y) as [Z|[-> O]]; [exact (proj1 (Forall_forall _ _) GB x Z)|].
               split; [exact W2|]. split; [eapply stat_rates; [exact S2|exact RT]|exact O].
             - destruct (proj1 (Forall_forall _ _) GB p (PB p Y)) as (_ & Q1 & _ & Q2).
               split; [exact Z2|]. split; [eapply stat_rates; [exact Z1|exact Q1]|]. split; [exact Z3|].
               unfold rests in *. rewrite (stat_type _ _ Z1). exact Q2. }
    split. { intros x X. destruct (H2 x X) as [Y|(p & Y & Z1 & _)].
             - destruct (B2 x Y) as [Z|[-> O]]; [right; exists x; split; [exact Z|apply stat_refl]|left; exact S2].
             - right. exists p. auto. }
    split. { intros G w A. rewrite F1.
             assert (X1 : total G P = total (own w) P) by (eapply total_agrees; eauto).
             assert (X2 : total G M = total (own w) M).
             { eapply total_agrees; [exact A|]. clear -K1 PM. induction K1 as [|p q P M (S & _) FF IH]; [constructor|].
               inversion PM; subst. constructor; [rewrite (stat_market _ _ S); assumption|auto]. }
             pose proof (H3 G w A) as X3. pose proof (B3 G w A) as X4. pose proof (K5 w) as X5. pose proof (K6 w) as X6.
             rewrite (A tk eq_refl). lia. }
    split; [intro v; rewrite F2, H4, B4; cbn; lia|]. split; [apply F3, H5, B5|]. split; [apply F4; constructor|exact TM].
Qed.
