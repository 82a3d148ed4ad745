(** Proofs for DexProps: order types and price-time priority. *)
From Coq Require Import ZArith List Bool Lia Sorted.
From Verif Require Import Lib DexFloat DexFloatProofs DexModel DexSpec DexProofs DexProofs2 DexProofs3 DexProofs4 DexProofs5.
Import ListNotations.
Open Scope Z_scope.

Lemma take_postonly e now m makers : forall tk mods txs, o_type tk = PostOnly ->
  let '(tk', mods', txs') := take e now m tk makers mods txs in
  txs' = txs /\ o_type tk' = PostOnly
  /\ exists P, mods' = mods ++ map expire P /\ Forall (fun p => timed_out e now p = true) P.
Proof.
  induction makers as [|mk rest IH]; intros tk mods txs PO; cbn [take].
  { split; [reflexivity|]. split; [exact PO|]. exists []. rewrite app_nil_r. auto. }
  destruct (timed_out e now mk) eqn:TO.
  - destruct (_ || _).
    + split; [reflexivity|]. split; [exact PO|]. exists [mk]. auto.
    + specialize (IH tk (mods ++ [expire mk]) txs PO). destruct (take _ _ _ _ _ _ _) as [[tk' mods'] txs'].
      destruct IH as (A & B & P & C & D). split; [exact A|]. split; [exact B|].
      exists (mk :: P). rewrite C, <- app_assoc. auto.
  - assert (NIL : exists P, mods = mods ++ map expire P /\ Forall (fun p => timed_out e now p = true) P)
      by (exists []; rewrite app_nil_r; auto).
    destruct (match_price tk mk); [|auto]. rewrite PO. change (PostOnly =? PostOnly) with true.
    split; [reflexivity|]. split; [exact PO|exact NIL].
Qed.

(** Fully executed: nothing is left, or what is left is worth less than one unit. *)
Definition filled (m : market) (o : order) : Prop :=
  o_exq o = o_qty o \/ flt1 (raw_amount_f (o_qty o - o_exq o) (o_price o) (m_diff m)) = true.

Lemma upd_filled (e : dexenv) o q a b f m p : within o -> 0 <= q <= o_qty o - o_exq o -> o_type o <> Market ->
  let o' := (if e_v12 e then update_after else update_before) o q a b f (m_diff m) p in
  (o_status o' = FullyExecuted <-> filled m o').
Proof.
  intros (W & _) Q T o'. unfold o', filled.
  assert (TM : (o_type o =? Market) = false) by (now apply Z.eqb_neq).
  assert (D : dust_price o q (m_diff m) (o_price o)
              = flt1 (raw_amount_f (o_qty o - (o_exq o + q)) (o_price o) (m_diff m))).
  { unfold dust_price. rewrite (subabs_eq (o_qty o)), subabs_eq by lia.
    replace (o_qty o - o_exq o - q) with (o_qty o - (o_exq o + q)) by lia. reflexivity. }
  destruct (e_v12 e); unfold update_after, update_before; rewrite TM, D; cbn [andb];
    rewrite (subabs_eq (o_qty o)) by lia; unfold o_price; cbn [set_exec o_status o_exq o_qty o_id];
    rewrite orb_false_r;
    destruct (Z.eqb_spec (o_qty o - o_exq o) q) as [E|E]; cbn [orb].
  all: try (split; [intros _; left; lia|reflexivity]).
  all: destruct (flt1 _); split; intro H; try reflexivity; try (right; reflexivity); try discriminate.
  all: destruct H as [H|H]; [lia|discriminate].
Qed.

Lemma calc_filled e m tk mk : within tk -> within mk ->
  let '(tk', mk', t) := calc_tx e m tk mk in
  (o_type tk <> Market -> (o_status tk' = FullyExecuted <-> filled m tk'))
  /\ (o_type mk <> Market -> (o_status mk' = FullyExecuted <-> filled m mk')).
Proof.
  intros W V. unfold calc_tx. destruct (exec_qty_spec e m tk mk W V) as [Q1 Q2].
  set (q := exec_qty e m tk mk) in *. set (a := minz _ _).
  destruct (fees_of e tk a (o_tb tk) (o_to tk)) as [[[tf txb] tof] txo].
  destruct (fees_of e mk a (o_mb mk) (o_mo mk)) as [[[mf mxb] mof] mxo].
  split; intro T.
  - apply upd_filled; assumption.
  - apply upd_filled; try assumption. lia.
Qed.

Lemma take_more e now m makers : forall tk mods txs,
  let '(_, _, txs') := take e now m tk makers mods txs in zlen txs <= zlen txs'.
Proof.
  induction makers as [|mk rest IH]; intros tk mods txs; cbn [take]; [lia|].
  destruct (timed_out e now mk).
  { destruct (_ || _); [lia|]. apply IH. }
  destruct (match_price tk mk); [|lia]. destruct (o_type tk =? PostOnly); [lia|].
  destruct (calc_tx e m tk mk) as [[tk1 mk1] t].
  assert (zlen txs <= zlen (txs ++ [t])) by (unfold zlen; rewrite app_length; lia).
  match goal with |- context [if ?b then (?x, ?y, ?z) else take _ _ _ ?q _ ?mo ?tx] => destruct b; [lia|]; specialize (IH q mo tx) end.
  destruct (take _ _ _ _ _ _ _) as [[? ?] txs']. lia.
Qed.

(** A taker of fewer than a hundred transactions is filled or still open. *)
Lemma take_done e now m : e_fee e = true -> forall makers tk mods txs,
  Forall (fun o => good o /\ o_side o = negb (o_side tk)) makers -> within tk -> rates_ok tk ->
  open tk -> o_type tk <> Market -> o_type tk <> PostOnly ->
  let '(tk', _, txs') := take e now m tk makers mods txs in
  zlen txs' < 100 -> open tk' \/ (o_status tk' = FullyExecuted /\ filled m tk').
Proof.
  intro E. induction makers as [|mk rest IH]; intros tk mods txs G W RT O TM TP; cbn [take]; [now left|].
  inversion G as [|x y [[Wm [Rm Om]] Sm] Gr]; subst.
  destruct (timed_out e now mk).
  { destruct (_ || _); [now left|]. apply IH; auto. }
  destruct (match_price tk mk); [|now left].
  destruct (Z.eqb_spec (o_type tk) PostOnly); [contradiction|].
  pose proof (calc_spec e m tk mk E W Wm RT Rm Sm) as CS. pose proof (calc_filled e m tk mk W Wm) as CF.
  destruct (calc_tx e m tk mk) as [[tk1 mk1] t].
  destruct CS as (C1 & C2 & C3 & C4 & C5 & _). destruct CF as [CF _]. specialize (CF TM).
  destruct (Z.leb_spec maxTxsCountPerTaker (zlen (txs ++ [t]))) as [L|L].
  - destruct (o_status tk1 =? PartialExecuted) eqn:SP; cbn [andb].
    + cbn [set_status o_status]. change (Cancelled =? FullyExecuted) with false. change (Cancelled =? Cancelled) with true.
      cbn [orb]. unfold maxTxsCountPerTaker in L. lia.
    + destruct ((o_status tk1 =? FullyExecuted) || (o_status tk1 =? Cancelled)) eqn:CL.
      * unfold maxTxsCountPerTaker in L. lia.
      * destruct C5 as [K5|K5]; rewrite K5 in *; discriminate.
  - rewrite andb_false_r. destruct C5 as [K5|K5]; rewrite K5.
    + cbn. intros _. right. split; [exact K5|]. apply CF, K5.
    + change (PartialExecuted =? FullyExecuted) with false. change (PartialExecuted =? Cancelled) with false. cbn [orb].
      destruct C1 as (D1 & D2 & D3 & D4 & D) eqn:?.
      apply IH.
      * rewrite (stat_side _ _ C1). exact Gr.
      * exact C3.
      * eapply stat_rates; eauto.
      * right. exact K5.
      * rewrite D4. exact TM.
      * rewrite D4. exact TP.
Qed.

Theorem fok_spec e now m tk b : e_fee e = true -> fresh tk -> Forall good b -> o_type tk = FillOrKill ->
  let '(tk2, b2, l, f, T) := do_match e now m tk b in
  zlen T < 100 ->
  (o_status tk2 = FullyExecuted /\ filled m tk2)
  \/ (o_status tk2 = Cancelled /\ o_exq tk2 = 0 /\ b2 = b /\ f = [] /\ T = []
      /\ l = (if 0 <? held tk then [mkS (o_addr tk) (o_side tk) 0 (held tk) 0] else [])).
Proof.
  intros E F GB FK. pose proof F as (W & RT & ST & RS & X1 & X2 & X3 & X4).
  assert (OT : open tk) by (left; exact ST).
  destruct (makers_good tk b GB) as [MG _].
  (* the outcome of handling a taker that is still open *)
  assert (UNDO : forall tk1, stat tk tk1 -> open tk1 ->
    let '(tk2, b1, l1) := taker_res tk1 b [] in
    undone tk2 = true /\ o_status tk2 = Cancelled /\ o_exq tk2 = 0 /\ b1 = b
    /\ l1 = (if 0 <? held tk then [mkS (o_addr tk) (o_side tk) 0 (held tk) 0] else [])).
  { intros tk1 S O. unfold taker_res, over_threshold.
    assert (TY : o_type tk1 = FillOrKill) by (destruct S as (_ & _ & _ & -> & _); exact FK).
    rewrite TY. change (FillOrKill =? Market) with false. change (FillOrKill =? ImmediateOrCancel) with false.
    change (FillOrKill =? FillOrKill) with true. cbn [andb orb].
    assert (OP : ((o_status tk1 =? PartialExecuted) || (o_status tk1 =? Pending)) = true) by (destruct O as [-> | ->]; reflexivity).
    rewrite OP.
    destruct (undo_spec tk tk1 cancelledByFillOrKillNotFilled F S) as (A & B & C & D & _).
    change (o_status (undo tk1 cancelledByFillOrKillNotFilled) =? Cancelled) with true. cbv iota.
    destruct (refund_of_held _ B) as [R _]. unfold refund. rewrite C, R, D. cbn [andb].
    pose proof (stat_side _ _ A) as SS. destruct A as (_ & A2 & _). rewrite SS, A2.
    repeat (split; [reflexivity|]). destruct (0 <? held tk); reflexivity. }
  unfold do_match. destruct (makers_of (o_market tk) (negb (o_side tk)) b) as [|mk0 mr].
  - specialize (UNDO tk (stat_refl tk) OT). destruct (taker_res tk b []) as [[tk2 b1] l1].
    intros _. right. destruct UNDO as (A & B & C & D & G). auto 7.
  - assert (UN : undone tk = false) by (unfold undone; rewrite RS; reflexivity).
    pose proof (take_done e now m E (mk0 :: mr) tk [] [] MG W RT OT ltac:(rewrite FK; discriminate) ltac:(rewrite FK; discriminate)) as TD.
    pose proof (take_spec e now m E (mk0 :: mr) tk [] [] MG W RT UN) as TS.
    pose proof (take_status e now m E (mk0 :: mr) tk [] [] MG W RT OT) as TT.
    destruct (take e now m tk (mk0 :: mr) [] []) as [[tk1 mods] txs].
    destruct TS as (P & R & M & T & _ & _ & HT & _ & K2 & K3 & _ & _ & _ & K7 & _).
    destruct TT as [O|C].
    + specialize (UNDO tk1 K2 O). destruct (taker_res tk1 b []) as [[tk2 b1] l1].
      destruct UNDO as (A & B & C & D & G). rewrite A. intros _. right. auto 7.
    + assert (TY : o_type tk1 = FillOrKill) by (destruct K2 as (_ & _ & _ & -> & _); exact FK).
      unfold taker_res, over_threshold. rewrite TY. change (FillOrKill =? Market) with false. cbn [andb].
      assert (NO : ((o_status tk1 =? PartialExecuted) || (o_status tk1 =? Pending)) = false).
      { unfold closed in C. apply orb_prop in C as [C|C]; apply Z.eqb_eq in C; rewrite C; reflexivity. }
      rewrite NO, K7. destruct (handle_makers mods b (refund tk1 [])) as [b2 l2].
      intro L. left. destruct (TD L) as [O|X]; [|exact X].
      rewrite (closed_open _ O) in C. discriminate.
Qed.

(** * Priority *)

Lemma removelast_cons {A} (x y : A) l : removelast (x :: y :: l) = x :: removelast (y :: l).
Proof. reflexivity. Qed.

Lemma take_order e now m : e_fee e = true -> forall makers tk mods txs,
  Forall (fun o => good o /\ o_side o = negb (o_side tk)) makers -> within tk -> rates_ok tk -> open tk ->
  Forall (fun o => o_type o <> Market) makers ->
  (o_type tk = Market -> o_side tk = true) ->
  let '(tk', mods', txs') := take e now m tk makers mods txs in
  exists P R M T, makers = P ++ R /\ mods' = mods ++ M /\ txs' = txs ++ T
    /\ map t_maker T = map o_id (filter (fun p => negb (timed_out e now p)) P)
    /\ (closed tk' = false -> match R with [] => True | r :: _ => match_price tk r = false end)
    /\ Forall (fun o => closed o = true) (removelast M)
    /\ Forall2 (fun p q => stat p q /\ within q /\ (closed q = false -> open q)) P M.
Proof.
  intro E. induction makers as [|mk rest IH]; intros tk mods txs G W RT O NM TM; cbn [take].
  { exists [], [], [], []. rewrite !app_nil_r. cbn. auto 10. }
  inversion G as [|x y [[Wm [Rm Om]] Sm] Gr]; subst. inversion NM as [|? ? NM1 NM2]; subst.
  destruct (timed_out e now mk) eqn:TO.
  { assert (NC : (o_status tk =? FullyExecuted) || (o_status tk =? Cancelled) = false) by (apply closed_open, O).
    rewrite NC. specialize (IH tk (mods ++ [expire mk]) txs Gr W RT O NM2 TM).
    destruct (take _ _ _ _ _ _ _) as [[tk' mods'] txs'].
    destruct IH as (P & R & M & T & A & B & C & D & F & H & FF). exists (mk :: P), R, (expire mk :: M), T.
    subst. rewrite <- !app_assoc. repeat (split; [reflexivity|]). split; [|split; [exact F|split]].
    - cbn [filter]. rewrite TO. exact D.
    - destruct M as [|z M]; [constructor|]. rewrite removelast_cons. constructor; [reflexivity|exact H].
    - destruct (expire_spec mk) as (X1 & X2 & X3 & X4). constructor; [|exact FF].
      split; [exact X1|]. split; [auto|congruence]. }
  destruct (match_price tk mk) eqn:MP.
  2:{ exists [], (mk :: rest), [], []. rewrite !app_nil_r. cbn. auto 10. }
  destruct (o_type tk =? PostOnly) eqn:PO.
  { exists [], (mk :: rest), [], []. rewrite !app_nil_r. repeat (split; [reflexivity|]). split; [discriminate|split; constructor]. }
  pose proof (calc_spec e m tk mk E W Wm RT Rm Sm) as CS. pose proof (calc_filled e m tk mk W Wm) as CF.
  assert (QQ : t_qty (snd (calc_tx e m tk mk)) = minz (subabs (o_qty tk) (o_exq tk)) (subabs (o_qty mk) (o_exq mk))).
  { unfold calc_tx.
    destruct (fees_of e tk _ (o_tb tk) (o_to tk)) as [[[tf txb] tof] txo].
    destruct (fees_of e mk _ (o_mb mk) (o_mo mk)) as [[[mf mxb] mof] mxo]. cbn [snd t_qty]. unfold exec_qty.
    destruct (e_v12 e && (o_type tk =? Market) && negb (o_side tk)) eqn:MB; [|reflexivity].
    apply andb_prop in MB as [MB1 MB2]. apply andb_prop in MB1 as [_ MB1]. apply Z.eqb_eq in MB1.
    rewrite (TM MB1) in MB2. discriminate. }
  assert (TF : let '(tk1, _, t) := calc_tx e m tk mk in o_qty tk - o_exq tk = t_qty t -> o_status tk1 = FullyExecuted).
  { unfold calc_tx.
    destruct (fees_of e tk _ (o_tb tk) (o_to tk)) as [[[tf txb] tof] txo].
    destruct (fees_of e mk _ (o_mb mk) (o_mo mk)) as [[[mf mxb] mof] mxo]. cbn [t_qty]. intro Q.
    destruct W as (W & _).
    destruct (e_v12 e); unfold update_after, update_before; cbn [set_exec o_status]; rewrite (subabs_eq (o_qty tk)) by lia;
      rewrite Q, Z.eqb_refl; reflexivity. }
  destruct (calc_tx e m tk mk) as [[tk1 mk1] t]. cbn [snd] in QQ.
  destruct CS as (C1 & C2 & C3 & C4 & C5 & C6 & C7 & C8 & C9 & C10 & C11 & C12 & C13 & C14 & C15 & C16 & C17 & C18 & C19 & C20).
  destruct CF as [_ CF]. specialize (CF NM1).
  rewrite minz_spec, (subabs_eq (o_qty tk)), (subabs_eq (o_qty mk)) in QQ by (unfold within in *; lia).
  assert (FILT : forall P T, map t_maker T = map o_id (filter (fun p => negb (timed_out e now p)) P) ->
    map t_maker (t :: T) = map o_id (filter (fun p => negb (timed_out e now p)) (mk :: P))).
  { intros P T H. cbn [filter map]. rewrite TO. cbn [negb map]. rewrite C15, H. reflexivity. }
  assert (MO : closed mk1 = false -> open mk1).
  { unfold closed, open. destruct C6 as [-> | ->]; [discriminate|auto]. }
  set (tk2 := if (o_status tk1 =? PartialExecuted) && (maxTxsCountPerTaker <=? zlen (txs ++ [t]))
              then set_status tk1 Cancelled partialExecutedCancelledByMarket else tk1).
  destruct ((o_status tk2 =? FullyExecuted) || (o_status tk2 =? Cancelled)) eqn:CL.
  - exists [mk], rest, [mk1], [t]. repeat (split; [reflexivity|]). split; [apply (FILT [] []); reflexivity|].
    split; [unfold closed; rewrite CL; discriminate|]. split; [constructor|]. constructor; [auto|constructor].
  - assert (ST2 : stat tk tk2 /\ within tk2 /\ tk2 = tk1).
    { unfold tk2 in *. destruct (_ && _); [discriminate|]. auto. }
    destruct ST2 as (S21 & S22 & S23).
    assert (O2 : open tk2).
    { rewrite S23 in *. destruct C5 as [K5|K5]; [rewrite K5 in CL; discriminate|right; exact K5]. }
    assert (MC : closed mk1 = true).
    { assert (K : o_status mk1 = FullyExecuted).
      { apply CF. left. rewrite C20. destruct C2 as (_ & _ & _ & _ & -> & _).
        destruct (Z.le_gt_cases (o_qty mk - o_exq mk) (o_qty tk - o_exq tk)); [lia|].
        exfalso. rewrite TF in *; [|lia]. rewrite S23 in CL. rewrite TF in CL by lia. discriminate. }
      unfold closed. rewrite K. reflexivity. }
    specialize (IH tk2 (mods ++ [mk1]) (txs ++ [t])).
    destruct (take _ _ _ _ _ _ _) as [[tk' mods'] txs'].
    destruct IH as (P & R & M & T & A & B & C & D & F & H & FF); auto.
    { rewrite (stat_side _ _ S21). exact Gr. }
    { eapply stat_rates; eauto. }
    { rewrite (stat_side _ _ S21). destruct S21 as (_ & _ & _ & -> & _). exact TM. }
    exists (mk :: P), R, (mk1 :: M), (t :: T).
    rewrite A, B, C, <- !app_assoc. repeat (split; [reflexivity|]). split; [apply FILT, D|].
    split; [|split; [|constructor; [auto|exact FF]]].
    + intro X. specialize (F X). destruct R; [exact I|]. rewrite <- (stat_match _ _ _ S21). exact F.
    + destruct M as [|z M]; [constructor|]. rewrite removelast_cons. constructor; [exact MC|exact H].
Qed.

Lemma handle_closed P M :
  Forall2 (fun p q => stat p q /\ within q /\ (closed q = false -> open q)) P M -> NoDup (map o_id P) ->
  forall b l q, In q M -> closed q = true ->
  bget (o_id q) (fst (handle_makers M b l)) = None.
Proof.
  assert (STAY : forall P M, Forall2 (fun p q => stat p q /\ within q /\ (closed q = false -> open q)) P M ->
    forall b l id, ~ In id (map o_id P) -> bget id (fst (handle_makers M b l)) = bget id b).
  { induction 1 as [|p q P0 M0 (S & _) FF IH]; intros b l id N; cbn [handle_makers]; [reflexivity|].
    assert (ID : o_id q = o_id p) by apply S. cbn [map] in N.
    destruct (closed q); rewrite IH by (intro; apply N; now right).
    - apply bget_bdel. intro K. apply N. left. congruence.
    - apply bget_bput. intro K. apply N. left. congruence. }
  induction 1 as [|p q P M (S & _) FF IH]; intros ND b l x X C; [destruct X|]. cbn [map] in ND. inversion ND; subst.
  assert (ID : o_id q = o_id p) by apply S. cbn [handle_makers]. destruct X as [->|X].
  - rewrite C, (STAY P M FF) by (rewrite ID; assumption).
    unfold bget, bdel. induction b as [|y r IHb]; [reflexivity|]. cbn [filter].
    destruct (Z.eqb_spec (o_id y) (o_id x)) as [Q|Q]; cbn [negb]; [exact IHb|]. cbn [find].
    destruct (Z.eqb_spec (o_id y) (o_id x)); [contradiction|exact IHb].
  - destruct (closed q); apply IH; auto.
Qed.

(** Ids of one market and side order by price, then time, then serial number. *)
Lemma id_split id : wf_id id ->
  id = (((id_market id * 2 ^ 8 + (if id_side id then 1 else 0)) * 2 ^ 80 + id / 2 ^ 64 mod 2 ^ 80)
     * 2 ^ 40 + id_time id) * 2 ^ 24 + id mod 2 ^ 24
  /\ 0 <= id / 2 ^ 64 mod 2 ^ 80 < 2 ^ 80 /\ 0 <= id_time id < 2 ^ 40 /\ 0 <= id mod 2 ^ 24 < 2 ^ 24.
Proof.
  intros [R B]. rewrite id_market_pow, id_side_pow, id_time_pow.
  assert (E1 : id / 2 ^ 64 = id / 2 ^ 24 / 2 ^ 40) by (rewrite Z.div_div by lia; reflexivity).
  assert (E2 : id / 2 ^ 144 = id / 2 ^ 64 / 2 ^ 80) by (rewrite Z.div_div by lia; reflexivity).
  assert (E3 : id / 2 ^ 152 = id / 2 ^ 144 / 2 ^ 8) by (rewrite Z.div_div by lia; reflexivity).
  assert (E4 : id / 2 ^ 152 mod 2 ^ 24 = id / 2 ^ 152).
  { apply Z.mod_small. split; [apply Z.div_pos; lia|]. apply Z.div_lt_upper_bound; lia. }
  pose proof (Z.div_mod id (2 ^ 24) ltac:(lia)) as D1. pose proof (Z.mod_pos_bound id (2 ^ 24) ltac:(lia)) as M1.
  pose proof (Z.div_mod (id / 2 ^ 24) (2 ^ 40) ltac:(lia)) as D2. pose proof (Z.mod_pos_bound (id / 2 ^ 24) (2 ^ 40) ltac:(lia)) as M2.
  pose proof (Z.div_mod (id / 2 ^ 64) (2 ^ 80) ltac:(lia)) as D3. pose proof (Z.mod_pos_bound (id / 2 ^ 64) (2 ^ 80) ltac:(lia)) as M3.
  pose proof (Z.div_mod (id / 2 ^ 144) (2 ^ 8) ltac:(lia)) as D4. pose proof (Z.mod_pos_bound (id / 2 ^ 144) (2 ^ 8) ltac:(lia)) as M4.
  rewrite <- E1 in D2. rewrite <- E2 in D3. rewrite <- E3 in D4.
  split; [|auto]. rewrite E4.
  assert (S : (if id / 2 ^ 144 mod 2 ^ 8 =? 1 then 1 else 0) = id / 2 ^ 144 mod 2 ^ 8).
  { destruct (Z.eqb_spec (id / 2 ^ 144 mod 2 ^ 8) 1); lia. }
  rewrite S.
  set (a := id / 2 ^ 152) in *. set (b := id / 2 ^ 144) in *. set (c := id / 2 ^ 64) in *. set (d := id / 2 ^ 24) in *.
  set (bm := b mod 2 ^ 8) in *. set (cm := c mod 2 ^ 80) in *. set (dm := d mod 2 ^ 40) in *. set (im := id mod 2 ^ 24) in *.
  clearbody a b c d bm cm dm im. lia.
Qed.

Theorem id_priority i j : wf_id i -> wf_id j -> id_market i = id_market j -> id_side i = id_side j -> i < j ->
  (if id_side i then id_price i < id_price j else id_price j < id_price i)
  \/ (id_price i = id_price j
      /\ (id_time i < id_time j \/ (id_time i = id_time j /\ i mod 2 ^ 24 < j mod 2 ^ 24))).
Proof.
  intros Wi Wj M S L. destruct (id_split i Wi) as (Ei & A1 & A2 & A3). destruct (id_split j Wj) as (Ej & B1 & B2 & B3).
  rewrite !id_price_pow. rewrite <- M, <- S in Ej. rewrite <- S.
  set (c := i / 2 ^ 64 mod 2 ^ 80) in *. set (c' := j / 2 ^ 64 mod 2 ^ 80) in *.
  set (t := id_time i) in *. set (t' := id_time j) in *. set (n := i mod 2 ^ 24) in *. set (n' := j mod 2 ^ 24) in *.
  set (h := id_market i * 2 ^ 8 + (if id_side i then 1 else 0)) in *.
  assert (X : c < c' \/ (c = c' /\ (t < t' \/ (t = t' /\ n < n')))).
  { clearbody c c' t t' n n' h. lia. }
  destruct X as [X|[X1 X2]].
  - left. unfold price_key. destruct (id_side i); lia.
  - right. split; [unfold price_key; destruct (id_side i); lia|exact X2].
Qed.
