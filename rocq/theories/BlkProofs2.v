(** Proofs about the block files: appending, cutting back, and starting a flush keep the log. *)
From Verif Require Import Lib BlkModel BlkSpec BlkProofs.
Import ListNotations.

Section Files.
Context (fs cl : Z) (FS : 0 < fs) (CL : 1 <= cl).
Notation pos := (pos fs).
Notation loc_ok := (loc_ok fs).
Notation file := (file fs).
Notation item_ok := (item_ok fs).
Notation mem_ok := (mem_ok fs).
Notation durable := (durable fs).

Lemma mem_change it its d g g' q : consec (it :: its) -> item_ok g' it -> Forall (item_ok g) its ->
  (forall id, 1 <= id < i_id it -> file g' id = file g id) -> durable d g q -> q <= i_id it -> low (it :: its) <= q ->
  zlen g' = pos (Loc (i_id it) (i_len it)) -> mem_ok (it :: its) d g' q.
Proof.
  intros C I F E D Q L Z. repeat split; try assumption; try (apply C).
  - constructor; [assumption|]. rewrite Forall_forall in *. intros x J. specialize (F x J). destruct F as (A1 & A2 & A3 & A4).
    assert (i_id x < i_id it). { destruct its as [|y r]; [destruct J|]. destruct C as [C1 C2]. pose proof (consec_range (y :: r) C2) as (_ & R & _). specialize (R x J). lia. }
    repeat split; try lia. rewrite A4. symmetry. apply E. lia.
  - intros id H. rewrite (D id H). f_equal. symmetry. apply E. lia.
Qed.
(** ** Items dropped from the cache *)
Lemma stale_suffix n : forall old, exists j, drop_stale cl n old = skipn j old /\ (j <= length old)%nat /\
  Forall (fun x => i_id x < n) (firstn j old) /\ (j <> O -> cl <= zlen old - Z.of_nat j).
Proof.
  induction old as [|x r IH]; [exists O; cbn; repeat split; try constructor; intros []; reflexivity|]. cbn [drop_stale].
  destruct ((cl <? zlen (x :: r)) && (i_id x <? n)) eqn:E; [|exists O; cbn; repeat split; try constructor; try lia; intros []; reflexivity].
  apply andb_true_iff in E as [E1 E2]. destruct IH as (j & A & B & C & D). exists (S j). cbn [skipn firstn length]. rewrite zlen_cons in *. repeat split; [assumption|lia|constructor; [lia|assumption]|].
  intros _. destruct j as [|j]; [lia|]. specialize (D ltac:(discriminate)). lia.
Qed.
Lemma reuse_suffix n old : Forall (fun x => zlen (i_buf x) = fs) old -> exists j buf, reuse fs cl n (drop_stale cl n old) = (skipn j old, buf) /\ zlen buf = fs /\ (j <= length old)%nat /\
  Forall (fun x => i_id x < n) (firstn j old) /\ (j <> O -> cl - 1 <= zlen old - Z.of_nat j).
Proof.
  intro B. destruct (stale_suffix n old) as (j & A & L & F & K). rewrite A. unfold reuse.
  assert (Z : zlen (repeat 0 (Z.to_nat fs)) = fs) by (rewrite zlen_repeat; lia).
  destruct (skipn j old) as [|x r] eqn:E.
  - exists j, (repeat 0 (Z.to_nat fs)). rewrite E. repeat split; try assumption. intro N. specialize (K N). lia.
  - destruct ((cl <=? zlen (x :: r)) && (i_id x <? n)) eqn:G.
    + apply andb_true_iff in G as [G1 G2]. exists (S j), (i_buf x). assert (E' : skipn (S j) old = r). { replace (S j) with (j + 1)%nat by lia. rewrite <- skipn_skipn', E. reflexivity. }
      assert (LE : (length (x :: r) = length old - j)%nat) by (rewrite <- E; apply skipn_length). cbn [length] in LE.
      rewrite E'. split; [reflexivity|]. rewrite Forall_forall in B. split; [apply B; rewrite <- (firstn_skipn j old), E; apply in_or_app; right; now left|]. split; [lia|]. split.
      * replace (S j) with (j + 1)%nat by lia. rewrite <- (firstn_skipn j old) at 1. rewrite E. rewrite firstn_app. rewrite firstn_all2 by (rewrite firstn_length; lia). rewrite firstn_length. replace (j + 1 - Nat.min j (length old))%nat with 1%nat by lia. cbn [firstn]. apply Forall_app. split; [assumption|]. constructor; [lia|constructor].
      * intros _. unfold zlen in *. cbn [length] in G1. lia.
    + exists j, (repeat 0 (Z.to_nat fs)). rewrite E. repeat split; try assumption. intro N. specialize (K N). lia.
Qed.
Lemma kept n its : Forall (fun x => zlen (i_buf x) = fs) its -> exists k buf, reuse fs cl n (drop_stale cl n (rev its)) = (rev (firstn k its), buf) /\ zlen buf = fs /\ (k <= length its)%nat /\
  ((k < length its)%nat -> (exists x, nth_error its k = Some x /\ i_id x < n) /\ cl - 1 <= Z.of_nat k).
Proof.
  intro B. destruct (reuse_suffix n (rev its)) as (j & buf & E & Z & L & F & K); [now apply Forall_rev|]. rewrite rev_length in L. exists (length its - j)%nat, buf. rewrite E, skipn_rev. repeat split; try assumption; try lia; unfold zlen in K; rewrite rev_length in K; [|lia].
  destruct (nth_error its (length its - j)) as [x|] eqn:N; [|apply nth_error_None in N; lia]. exists x. split; [reflexivity|]. rewrite Forall_forall in F. apply F. rewrite firstn_rev. apply in_rev. rewrite rev_involutive.
  pose proof (nth_error_split its (length its - j) N) as (l1 & l2 & X1 & X2). rewrite X1 at 2. rewrite skipn_app. apply in_or_app. right. rewrite X2, Nat.sub_diag. now left.
Qed.
Lemma consec_nth : forall its, consec its -> forall k x y, nth_error its 0 = Some x -> nth_error its k = Some y -> i_id y = i_id x - Z.of_nat k.
Proof.
  induction its as [|it r IH]; intros C k x y X Y; [discriminate|]. injection X as <-. destruct k as [|k]; [injection Y as <-; lia|]. destruct C as [C1 C2]. destruct r as [|z r]; [destruct k; discriminate|]. specialize (IH C2 k z y eq_refl Y). lia.
Qed.
Lemma consec_firstn : forall its k, consec its -> consec (firstn k its).
Proof.
  induction its as [|it r IH]; intros [|k] C; try exact Logic.I. destruct C as [C1 C2]. cbn [firstn]. split; [|now apply IH]. destruct r as [|x r], k; try exact Logic.I. exact C1.
Qed.
Lemma low_firstn it its k : consec (it :: its) -> (k <= length its)%nat -> low (it :: firstn k its) = i_id it - Z.of_nat k.
Proof.
  revert it k. induction its as [|x r IH]; intros it k C L; [destruct k; [unfold low; cbn; lia|cbn in L; lia]|]. destruct k as [|k]; [unfold low; cbn; lia|]. cbn [firstn]. destruct C as [C1 C2]. change (low (it :: x :: firstn k r)) with (low (x :: firstn k r)). rewrite IH by (try assumption; cbn in L; lia). lia.
Qed.
(** Something about the numbers of the items and whether their files are open. *)
Definition all_fl (Q : Z -> bool -> Prop) (its : list item) : Prop := forall x, In x its -> Q (i_id x) (i_writer x).
Lemma new_file it its d g q n (Q : Z -> bool -> Prop) b : mem_ok (it :: its) d g q -> i_len it = fs -> l_id n <= q \/ i_id it + 1 <= q + cl - 1 -> all_fl Q (it :: its) -> (forall id, q < id -> Q id false) ->
  b = Loc (i_id it + 1) 0 -> exists its', open_file fs cl (it :: its) d (Some n) b = Some its' /\ mem_ok its' d g q /\ all_fl Q its' /\ match its' with x :: _ => i_id x = i_id it + 1 /\ i_len x = 0 | [] => False end.
Proof.
  intros (C & F & D & Lq & Zg & Qi) Full Safe W Fq ->. unfold open_file. cbn [l_id l_off]. destruct (Z.eqb_spec (i_id it) (i_id it + 1)); [lia|].
  destruct (kept (l_id n) (it :: its)) as (k & buf & E & Zb & Lk & K). { rewrite Forall_forall in *. intros x J. apply (F x J). }
  rewrite E. change (0 <? 0) with false. cbn [Z.to_nat firstn skipn app length Nat.ltb orb]. change (0 <? 0)%nat with false. destruct (Z.ltb_spec fs 0); [lia|]. cbn [orb Nat.leb]. eexists. split; [reflexivity|]. rewrite rev_involutive. cbn [i_id i_len].
  set (new := Item (i_id it + 1) buf 0 false).
  assert (CN : consec (new :: it :: its)) by (split; [reflexivity|exact C]).
  assert (LN : low (new :: firstn k (it :: its)) = i_id it + 1 - Z.of_nat k) by (rewrite low_firstn by assumption; reflexivity).
  assert (LQ : low (new :: firstn k (it :: its)) <= q).
  { rewrite LN. destruct (Nat.eq_dec k (length (it :: its))) as [->|N].
    - pose proof (consec_range (it :: its) C) as (_ & _ & R). unfold zlen in R. lia.
    - destruct (K ltac:(lia)) as ((x & X1 & X2) & X3). rewrite (consec_nth _ C k it x eq_refl X1) in X2. lia. }
  split; [|split; [|split; reflexivity]].
  - eapply (mem_change new (firstn k (it :: its)) d g g q).
    + apply (consec_firstn (new :: it :: its) (S k) CN).
    + pose proof (Forall_inv F) as F1; pose proof (Forall_inv_tail F) as F2. destruct F1 as (A1 & _). repeat split; cbn [new i_id i_len i_buf]; try lia. cbn [Z.to_nat firstn]. symmetry. apply zlen_nil_inv. rewrite file_len by lia. rewrite Zg. unfold BlkSpec.pos. cbn [l_id l_off]. rewrite Full. nia.
    + rewrite Forall_forall in *. intros x J. apply F. rewrite <- (firstn_skipn k (it :: its)). apply in_or_app. now left.
    + reflexivity.
    + assumption.
    + cbn. lia.
    + exact LQ.
    + rewrite Zg. unfold BlkSpec.pos. cbn [l_id l_off i_id i_len new]. rewrite Full. nia.
  - intros x [<-|J]; [apply Fq; cbn; lia|]. apply W. rewrite <- (firstn_skipn k (it :: its)). apply in_or_app. now left.
Qed.
(** ** Appending *)
Lemma put_item it its d g q b n it' : mem_ok (it :: its) d g q -> fd_write fs it b = (it', n) ->
  mem_ok (it' :: its) d (g ++ firstn n b) q /\ i_id it' = i_id it /\ i_writer it' = i_writer it /\ i_len it' = i_len it + Z.of_nat n /\ n = Nat.min (Z.to_nat (fs - i_len it)) (length b).
Proof.
  intros (C & F & D & Lq & Zg & Q) E. pose proof (Forall_inv F) as F1; pose proof (Forall_inv_tail F) as F2. destruct F1 as (A1 & A2 & A3 & A4). unfold fd_write in E. destruct (Z.leb_spec fs (i_len it)) as [X|X].
  - injection E as <- <-. cbn [firstn]. rewrite app_nil_r. repeat split; try assumption; try lia; try apply C.
  - injection E as <- En. rewrite <- En in *. clear En. set (n' := Nat.min (Z.to_nat (fs - i_len it)) (length b)) in *. cbn [i_id i_len i_writer]. split; [|repeat split; lia].
    assert (Zn : zlen (firstn n' b) = Z.of_nat n') by (unfold zlen; rewrite firstn_length; lia).
    assert (Lp : length (firstn (Z.to_nat (i_len it)) (i_buf it)) = Z.to_nat (i_len it)) by (rewrite firstn_length; unfold zlen in A2; lia).
    assert (GL : (i_id it - 1) * fs + i_len it = zlen g) by (rewrite Zg; reflexivity).
    eapply (mem_change _ its d g (g ++ firstn n' b) q); cbn [i_id i_len].
    + exact C.
    + repeat split; cbn [i_id i_len i_buf]; try lia.
      * unfold zlen in *. rewrite !app_length, firstn_length, skipn_length. rewrite firstn_length in *. lia.
      * replace (Z.to_nat (i_len it + Z.of_nat n')) with (Z.to_nat (i_len it) + n')%nat by lia. rewrite app_assoc, firstn_app. rewrite firstn_all2 by (rewrite app_length, firstn_length in *; rewrite firstn_length; lia).
        rewrite app_length, Lp. replace (Z.to_nat (i_len it) + n' - (Z.to_nat (i_len it) + length (firstn n' b)))%nat with O by (unfold zlen in Zn; lia). cbn [firstn]. rewrite app_nil_r, A4.
        unfold BlkProofs.file. rewrite drop_app_le by nia. assert (0 <= (i_id it - 1) * fs) by nia. rewrite (take_all fs (drop _ g ++ _)) by (rewrite zlen_app, zlen_drop by lia; lia). rewrite take_all by (rewrite zlen_drop by lia; lia). reflexivity.
    + assumption.
    + intros id H. apply file_app; [assumption|lia|nia].
    + assumption.
    + assumption.
    + destruct its; exact Lq.
    + rewrite zlen_app, Zn, <- GL. unfold BlkSpec.pos. cbn [l_id l_off]. lia.
Qed.
Lemma write_spec (Q : Z -> bool -> Prop) q : (forall id, q < id -> Q id false) -> forall fuel s g b, mem_ok (f_items s) (f_disk s) g q -> all_fl Q (f_items s) ->
  l_id (f_next s) <= q \/ zlen g + zlen b <= fs * (q + cl - 1) ->
  2 * zlen b + (if l_off (latest s) =? fs then 1 else 0) < Z.of_nat fuel ->
  exists its, write_loop fs cl fuel s b = Some (with_items s its) /\ mem_ok its (f_disk s) (g ++ b) q /\ all_fl Q its /\ le (latest s) (latest (with_items s its)).
Proof.
  intro Fq. induction fuel as [|fu IH]; intros s g b M W Safe Fu; [pose proof (zlen_nonneg b); destruct (l_off (latest s) =? fs); lia|].
  destruct b as [|x b']; [exists (f_items s); cbn [write_loop]; rewrite app_nil_r; destruct s; repeat split; try assumption; try apply M; apply le_refl|]. set (b := x :: b') in *.
  assert (Hb : 0 < zlen b) by (unfold b; rewrite zlen_cons; pose proof (zlen_nonneg b'); lia). cbn [write_loop].
  replace (match b with [] => Some s | _ => match f_items s with it :: r => let (it', n) := fd_write fs it b in if (n <? length b)%nat then match create_next fs cl (with_items s (it' :: r)) with Some s2 => write_loop fs cl fu s2 (skipn n b) | None => None end else write_loop fs cl fu (with_items s (it' :: r)) (skipn n b) | [] => None end end)
   with (match f_items s with it :: r => let (it', n) := fd_write fs it b in if (n <? length b)%nat then match create_next fs cl (with_items s (it' :: r)) with Some s2 => write_loop fs cl fu s2 (skipn n b) | None => None end else write_loop fs cl fu (with_items s (it' :: r)) (skipn n b) | [] => None end) by (destruct (f_items s); reflexivity).
  unfold latest in *. destruct (f_items s) as [|it r] eqn:EI; [destruct M as (_ & _ & _ & _ & []) |]. cbn [l_off l_id] in *.
  destruct (fd_write fs it b) as [it' n] eqn:EW. destruct (put_item it r (f_disk s) g q b n it' M EW) as (M1 & P1 & P2 & P3 & P4).
  assert (W1 : all_fl Q (it' :: r)). { intros y [<-|J]; [rewrite P1, P2; apply W; now left|apply W; now right]. }
  assert (IL : 0 <= i_len it <= fs /\ 1 <= i_id it) by (destruct M as (_ & F & _); inversion F as [|? ? F1 _]; destruct F1 as (A & _ & B & _); split; assumption).
  destruct (Nat.ltb_spec n (length b)) as [Ln|Ln].
  - assert (Full : i_len it' = fs) by lia. 
    assert (Zn : zlen (g ++ firstn n b) = zlen g + Z.of_nat n) by (rewrite zlen_app; unfold zlen; rewrite firstn_length; lia).
    assert (Zs : zlen (skipn n b) = zlen b - Z.of_nat n) by (unfold zlen; rewrite skipn_length; lia).
    unfold create_next. cbn [with_items f_items f_disk f_next latest l_id].
    destruct (new_file it' r (f_disk s) (g ++ firstn n b) q (f_next s) Q (Loc (i_id it' + 1) 0) M1 Full) as (its2 & E2 & M2 & W2 & H2); try assumption; try reflexivity.
    { destruct Safe as [Sf|Sf]; [now left|right]. destruct M1 as (_ & _ & _ & _ & Z1 & _). unfold BlkSpec.pos in Z1. cbn [l_id l_off] in Z1. rewrite Full in Z1. assert (zlen b > Z.of_nat n) by (unfold zlen; lia). nia. }
    rewrite E2. destruct its2 as [|y ys]; [contradiction|]. destruct H2 as [Hy1 Hy2].
    destruct (IH (with_items s (y :: ys)) (g ++ firstn n b) (skipn n b)) as (its3 & E3 & M3 & W3 & L3).
    + exact M2. + exact W2. + destruct Safe as [Sf|Sf]; [now left|right; rewrite Zn, Zs; lia].
    + cbn [with_items f_items l_off]. rewrite Hy2, Zs. destruct (Z.eqb_spec 0 fs); [lia|]. destruct (Z.eqb_spec (i_len it) fs); lia.
    + rewrite <- app_assoc, firstn_skipn in M3. exists its3. split; [exact E3|]. split; [exact M3|]. split; [exact W3|]. cbn [with_items f_items] in *. eapply le_trans; [|exact L3]. left. cbn. lia.
  - assert (n = length b) by lia. subst n. rewrite firstn_all2 in M1 by lia. rewrite skipn_all2 by lia. exists (it' :: r). split; [destruct fu; reflexivity|]. split; [exact M1|]. split; [exact W1|]. cbn [with_items f_items]. right. cbn. lia.
Qed.
End Files.
