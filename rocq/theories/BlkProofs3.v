(** Proofs about the block files: cutting back, and starting from the files on disk. *)
From Verif Require Import Lib BlkModel BlkSpec BlkProofs BlkProofs2.
Import ListNotations.

Section Files.
Context (fs cl : Z) (FS : 0 < fs) (CL : 1 <= cl).
Notation pos := (pos fs).
Notation loc_ok := (loc_ok fs).
Notation file := (file fs).
Notation item_ok := (item_ok fs).
Notation mem_ok := (mem_ok fs).
Notation durable := (durable fs).

Lemma pop_spec : forall n its, (n <= length its)%nat -> pop n its = Some (skipn n its).
Proof. induction n as [|n IH]; intros [|x r] H; try reflexivity; cbn in *; [lia|]. apply IH. lia. Qed.
Lemma consec_skipn : forall n its, consec its -> consec (skipn n its).
Proof. induction n as [|n IH]; intros [|x r] C; try exact C; try exact Logic.I. cbn [skipn]. apply IH, C. Qed.
Lemma low_skipn : forall n its, (n < length its)%nat -> low (skipn n its) = low its.
Proof.
  induction n as [|n IH]; intros [|x r] H; try reflexivity; cbn in H; try lia. cbn [skipn]. rewrite IH by lia. destruct r as [|y r]; [cbn in H; lia|]. reflexivity.
Qed.
Lemma head_skipn its n x : consec its -> match its with it :: _ => nth_error its n = Some x -> i_id x = i_id it - Z.of_nat n | [] => True end.
Proof. intro C. destruct its as [|it r]; [exact Logic.I|]. intro N. now apply (consec_nth _ C n it x). Qed.
Lemma file_shorter g l : loc_ok l -> pos l <= zlen g -> file (take (pos l) g) (l_id l) = take (l_off l) (file g (l_id l)).
Proof.
  intros [O1 O2] H. assert (0 <= (l_id l - 1) * fs) by nia. assert (PL : pos l = (l_id l - 1) * fs + l_off l) by reflexivity. unfold BlkProofs.file. rewrite take_drop by lia. rewrite !take_take by lia. f_equal. f_equal. lia.
Qed.
Lemma delete_spec s g q l : mem_ok (f_items s) (f_disk s) g q -> loc_ok l -> loc_lt l (latest s) = true -> low (f_items s) <= l_id l + 1 ->
  exists its, delete_to fs cl s l = Some (FState its (f_disk s) (if loc_lt l (f_next s) then l else f_next s) (f_prev s) (f_fly s)) /\
  match its with it :: _ => Loc (i_id it) (i_len it) = l | [] => False end /\
  (forall q', q' <= q -> q' <= l_id l -> Z.min (low (f_items s)) (l_id l) <= q' -> mem_ok its (f_disk s) (take (pos l) g) q') /\
  (forall Q : Z -> bool -> Prop, all_fl Q (f_items s) -> low (f_items s) <= l_id l \/ Q (l_id l) (0 <? l_off l) -> all_fl Q its).
Proof.
  intros M O LT LO. assert (PG := latest_pos fs s g q M). destruct PG as [PG PO]. pose proof (proj1 (lt_true _ _) LT) as [LE NE]. assert (PLE : pos l <= zlen g) by (rewrite PG; now apply pos_le).
  destruct M as (C & F & D & Lq & L). unfold delete_to. rewrite LT. cbn [negb]. unfold latest in *. destruct (f_items s) as [|it r] eqn:EI; [contradiction|]. destruct L as [Zg Q]. cbn [l_id l_off] in *.
  pose proof (consec_range (it :: r) C) as (R1 & R2 & R3). assert (ID : l_id l <= i_id it) by (unfold le in LE; cbn in LE; lia).
  assert (FT : forall id, 1 <= id < l_id l -> file (take (pos l) g) id = file g id) by (intros id H; apply file_take; [assumption|lia|unfold BlkSpec.pos; destruct O; nia]).
  assert (ZT : zlen (take (pos l) g) = pos l) by (assert (0 <= pos l) by (unfold BlkSpec.pos; destruct O; nia); rewrite zlen_take by lia; lia).
  rewrite pop_spec by (unfold zlen in R3; lia). set (n := Z.to_nat (i_id it - l_id l)).
  destruct (Z.le_gt_cases (low (it :: r)) (l_id l)) as [K|K].
  - destruct (nth_error (it :: r) n) as [x|] eqn:N; [|apply nth_error_None in N; unfold zlen in R3; lia].
    assert (ES : skipn n (it :: r) = x :: skipn (S n) (it :: r)) by (clear -N; revert N; generalize (it :: r); induction n as [|n IH]; intros [|y z] N; try discriminate; [injection N as ->; reflexivity|cbn [skipn]; now apply IH]).
    assert (IX : i_id x = l_id l) by (rewrite (consec_nth _ C n it x eq_refl N); lia).
    assert (JX : In x (it :: r)) by (eapply nth_error_In, N).
    assert (LS : low (skipn n (it :: r)) = low (it :: r)) by (apply low_skipn; unfold zlen in R3; lia).
    pose proof (consec_skipn n (it :: r) C) as CS. rewrite ES in *. cbn [open_file]. unfold open_file. rewrite IX, Z.eqb_refl. eexists. split; [reflexivity|]. set (new := Item (l_id l) (i_buf x) (l_off l) (i_writer x)).
    rewrite Forall_forall in F. assert (FX := F x JX). destruct FX as (A1 & A2 & A3 & A4). split; [destruct l; reflexivity|]. split.
    + intros q' Q1 Q2 Q3. eapply (mem_change fs new _ (f_disk s) g (take (pos l) g) q').
      * destruct (skipn (S n) (it :: r)); [split; [exact Logic.I|exact Logic.I]|]. destruct CS as [C1 C2]. split; [|exact C2]. cbn. now rewrite <- IX.
      * destruct O as [O1 O2]. repeat split; cbn [new i_id i_buf i_len]; try lia. rewrite file_shorter by (try split; assumption). rewrite <- IX, <- A4, take_take by lia. f_equal. f_equal.
        assert (IL := item_len fs g x (conj A1 (conj A2 (conj A3 A4)))). rewrite file_len in IL by assumption. rewrite IX, Zg in IL. unfold BlkSpec.pos in IL. cbn [l_id l_off] in IL.
        assert (HI := F it (or_introl eq_refl)). destruct HI as (_ & _ & H3 & _). unfold le in LE. cbn in LE. destruct (Z.eq_dec (l_id l) (i_id it)) as [Y|Y]; [rewrite Y in IL; lia|nia].
      * rewrite Forall_forall. intros y J. apply F. rewrite <- (firstn_skipn (S n) (it :: r)). apply in_or_app. now right.
      * exact FT.
      * intros id H. apply D. lia.
      * exact Q2.
      * assert (LN : low (new :: skipn (S n) (it :: r)) = low (x :: skipn (S n) (it :: r))) by (destruct (skipn (S n) (it :: r)); [unfold low; cbn; congruence|reflexivity]). rewrite LN, LS. lia.
      * rewrite ZT. destruct l; reflexivity.
    + intros Qf W _ y [<-|J].
      * cbn [new i_writer i_id]. rewrite <- IX. now apply W.
      * apply W. rewrite <- (firstn_skipn (S n) (it :: r)). apply in_or_app. now right.
  - assert (n = length (it :: r)) as -> by (unfold zlen in R3; lia). rewrite skipn_all. unfold open_file. cbn [rev drop_stale reuse].
    assert (FF : l_id l < i_id it -> zlen (file g (l_id l)) = fs). { intro H. apply file_full; [assumption|apply O|]. rewrite Zg. unfold BlkSpec.pos. cbn. destruct O. rewrite Forall_forall in F. destruct (F it (or_introl eq_refl)) as (_ & _ & X & _). nia. }
    set (new := fun fl : list Z => Item (l_id l) (take (l_off l) fl ++ drop (l_off l) (repeat 0 (Z.to_nat fs))) (l_off l) (0 <? l_off l)).
    assert (X : exists fl, (if 0 <? l_off l then dget (f_disk s) (l_id l) else Some []) = Some fl /\ l_off l <= zlen fl /\ take (l_off l) fl = take (l_off l) (file g (l_id l))).
    { destruct (Z.ltb_spec 0 (l_off l)) as [Y|Y].
      - rewrite (D (l_id l)) by (destruct O; lia). eexists. split; [reflexivity|]. rewrite FF by lia. split; [apply O|reflexivity].
      - exists []. assert (l_off l = 0) as -> by (destruct O; lia). split; [reflexivity|]. split; [cbn; lia|reflexivity]. }
    destruct X as (fl & X1 & X2 & X3). rewrite X1. destruct (Nat.ltb_spec (length fl) (Z.to_nat (l_off l))); [unfold zlen in X2; lia|]. destruct (Z.ltb_spec fs (l_off l)); [destruct O; lia|]. cbn [orb]. change (rev (@nil item)) with (@nil item). eexists. split; [reflexivity|]. fold (new fl). split; [destruct l; reflexivity|]. split.
    + intros q' Q1 Q2 Q3. eapply (mem_change fs (new fl) [] (f_disk s) g (take (pos l) g) q').
      * split; exact Logic.I.
      * destruct O as [O1 O2]. repeat split; cbn [new i_id i_buf i_len]; try lia.
        -- rewrite zlen_app, zlen_take, zlen_drop, zlen_repeat by lia. lia.
        -- rewrite take_app_le by (rewrite zlen_take by lia; lia). rewrite take_take, Z.min_id by lia. rewrite file_shorter by (try split; assumption). exact X3.
      * constructor.
      * exact FT.
      * intros id H'. apply D. lia.
      * exact Q2.
      * unfold low. cbn. lia.
      * rewrite ZT. destruct l; reflexivity.
    + intros Qf W [F2|F2]; [lia|]. intros y [<-|[]]. exact F2.
Qed.

(** ** The files on disk *)
Definition sane (d : disk) : Prop := forall id f, dget d id = Some f -> 1 <= id /\ zlen f <= fs.
Lemma last_id_ge d id f : dget d id = Some f -> id <= last_id d.
Proof. induction d as [|[x b] r IH]; cbn; [discriminate|]. destruct (Z.eqb_spec x id); [lia|]. intro H. specialize (IH H). unfold last_id in IH. lia. Qed.
Lemma last_id_in d : sane d -> d = [] \/ exists f, dget d (last_id d) = Some f.
Proof.
  intro H. destruct d as [|e r]; [now left|right]. assert (X : forall e r, (exists b, In (last_id (e :: r), b) (e :: r)) \/ last_id (e :: r) = 0).
  { clear. intros e r. revert e. induction r as [|e' r IH]; intros [x b]; unfold last_id in *; cbn [fold_right fst] in *.
    - destruct (Z.max_spec x 0) as [[_ ->]|[_ ->]]; [now right|left; exists b; now left].
    - destruct (IH e') as [(b' & J)|J]; destruct (Z.max_spec x (Z.max (fst e') (fold_right (fun e m => Z.max (fst e) m) 0 r))) as [[_ ->]|[_ ->]].
      + left. exists b'. now right. + left. exists b. now left. + now right. + left. exists b. now left. }
  assert (P : forall d id b, In (id, b) d -> exists f, dget d id = Some f).
  { clear. induction d as [|[x c] r IH]; intros id b J; [destruct J|]; destruct J as [E|J]; cbn.
    - injection E as -> ->. rewrite Z.eqb_refl. now exists b.
    - destruct (Z.eqb_spec x id); [now exists c|]. now apply (IH id b). }
  destruct (X e r) as [(b & J)|J]; [now apply (P _ _ b)|]. exfalso. destruct e as [x b]. assert (G : dget ((x, b) :: r) x = Some b) by (cbn; now rewrite Z.eqb_refl). pose proof (last_id_ge _ _ _ G). destruct (H _ _ G). lia.
Qed.
Lemma end_spec d : sane d -> loc_ok (disk_end d) /\ (forall id f, dget d id = Some f -> le (Loc id (zlen f)) (disk_end d)) /\
  (dget d (l_id (disk_end d)) = None /\ disk_end d = Loc 1 0 \/ exists f, dget d (l_id (disk_end d)) = Some f /\ zlen f = l_off (disk_end d)).
Proof.
  intro S. destruct (last_id_in d S) as [->|(f & E)]; [cbn; split; [split; cbn; lia|]; split; [discriminate|now left]|]. unfold disk_end. rewrite E. destruct (S _ _ E) as [S1 S2]. pose proof (zlen_nonneg f). split; [split; cbn; lia|]. split; [|right; exists f; split; [exact E|reflexivity]].
  intros id b G. pose proof (last_id_ge _ _ _ G). unfold le. cbn. destruct (Z.eq_dec id (last_id d)) as [->|]; [|lia]. rewrite E in G. injection G as ->. lia.
Qed.
Lemma start_spec d : sane d -> exists buf, start fs cl d = Some (FState [Item (l_id (disk_end d)) buf (l_off (disk_end d)) (0 <? l_off (disk_end d))] d (disk_end d) (disk_end d) None) /\
  zlen buf = fs /\ take (l_off (disk_end d)) buf = match dget d (l_id (disk_end d)) with Some f => f | None => [] end.
Proof.
  intro S. destruct (end_spec d S) as ([O1 O2] & U & X). set (e := disk_end d) in *. unfold start. fold e. unfold open_file. cbn [rev].
  assert (Y : exists fl, (if 0 <? l_off e then dget d (l_id e) else Some []) = Some fl /\ zlen fl = l_off e /\ fl = match dget d (l_id e) with Some f => f | None => [] end).
  { destruct X as [[X1 X2]|(f & X1 & X2)]; rewrite X1.
    - rewrite X2. cbn. now exists [].
    - destruct (Z.ltb_spec 0 (l_off e)) as [P|P]; [now exists f|]. exists []. split; [reflexivity|]. pose proof (zlen_nonneg f). rewrite zlen_nil. split; [lia|]. symmetry. apply zlen_nil_inv. lia. }
  destruct Y as (fl & Y1 & Y2 & Y3). rewrite Y1. destruct (Nat.ltb_spec (length fl) (Z.to_nat (l_off e))); [unfold zlen in Y2; lia|]. destruct (Z.ltb_spec fs (l_off e)); [lia|]. cbn [orb]. eexists. split; [reflexivity|]. split.
  - rewrite zlen_app, zlen_take, zlen_drop, zlen_repeat by lia. lia.
  - rewrite take_app_le by (rewrite zlen_take by lia; lia). rewrite take_take, Z.min_id by lia. rewrite <- Y3. apply take_all. lia.
Qed.
End Files.
