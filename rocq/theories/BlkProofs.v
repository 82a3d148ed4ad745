(** Proofs about the block files: lists cut at integer places; reading. *)
From Verif Require Import Lib BlkModel BlkSpec.
Import ListNotations.
Notation take n l := (firstn (Z.to_nat n) l).
Notation drop n l := (skipn (Z.to_nat n) l).

Lemma zlen_take {A} n (l : list A) : 0 <= n -> zlen (take n l) = Z.min n (zlen l).
Proof. intro H. unfold zlen. rewrite firstn_length. lia. Qed.
Lemma zlen_drop {A} n (l : list A) : 0 <= n -> zlen (drop n l) = Z.max 0 (zlen l - n).
Proof. intro H. unfold zlen. rewrite skipn_length. lia. Qed.
Lemma take_all {A} n (l : list A) : zlen l <= n -> take n l = l.
Proof. intro H. apply firstn_all2. unfold zlen in H. lia. Qed.
Lemma drop_all {A} n (l : list A) : zlen l <= n -> drop n l = [].
Proof. intro H. apply skipn_all2. unfold zlen in H. lia. Qed.
Lemma take_take {A} n m (l : list A) : 0 <= n -> 0 <= m -> take n (take m l) = take (Z.min n m) l.
Proof. intros H H'. rewrite firstn_firstn. f_equal. lia. Qed.
Lemma skipn_skipn' {A} : forall n m (l : list A), skipn n (skipn m l) = skipn (m + n) l.
Proof. intros n m. revert n. induction m as [|m IH]; intros n l; [reflexivity|]. destruct l as [|x r]; [now rewrite !skipn_nil|]. cbn [skipn plus]. apply IH. Qed.
Lemma drop_drop {A} n m (l : list A) : 0 <= n -> 0 <= m -> drop n (drop m l) = drop (m + n) l.
Proof. intros H H'. rewrite skipn_skipn'. f_equal. lia. Qed.
Lemma take_drop {A} n m (l : list A) : 0 <= n -> 0 <= m -> drop m (take n l) = take (n - m) (drop m l).
Proof. intros H H'. rewrite skipn_firstn_comm. f_equal. lia. Qed.
Lemma take_app_le {A} n (l m : list A) : n <= zlen l -> take n (l ++ m) = take n l.
Proof. intro H. rewrite firstn_app. unfold zlen in H. replace (Z.to_nat n - length l)%nat with O by lia. rewrite firstn_O. apply app_nil_r. Qed.
Lemma drop_app_le {A} n (l m : list A) : n <= zlen l -> drop n (l ++ m) = drop n l ++ m.
Proof. intro H. rewrite skipn_app. unfold zlen in H. now replace (Z.to_nat n - length l)%nat with O by lia. Qed.
Lemma take_app_ge {A} n (l m : list A) : zlen l <= n -> take n (l ++ m) = l ++ take (n - zlen l) m.
Proof. intro H. rewrite firstn_app. unfold zlen in *. rewrite firstn_all2 by lia. do 2 f_equal. lia. Qed.
Lemma drop_app_ge {A} n (l m : list A) : zlen l <= n -> drop n (l ++ m) = drop (n - zlen l) m.
Proof. intro H. rewrite skipn_app. unfold zlen in *. rewrite skipn_all2 by lia. cbn [app]. f_equal. lia. Qed.
Lemma take_split {A} n m (l : list A) : 0 <= n -> 0 <= m -> take (n + m) l = take n l ++ take m (drop n l).
Proof.
  intros H H'. rewrite Z2Nat.inj_add by lia. generalize (Z.to_nat n) as a. generalize (Z.to_nat m) as b. clear. intros b a. revert l. induction a as [|a IH]; intros l; [reflexivity|].
  destruct l as [|x r]; [now rewrite skipn_nil, !firstn_nil|]. cbn [plus firstn skipn app]. now rewrite IH.
Qed.
Lemma take_drop_id {A} n (l : list A) : take n l ++ drop n l = l.
Proof. apply firstn_skipn. Qed.
Lemma take_0 {A} (l : list A) : take 0 l = []. Proof. reflexivity. Qed.
Lemma drop_0 {A} (l : list A) : drop 0 l = l. Proof. reflexivity. Qed.
Lemma zlen_repeat {A} (x : A) n : 0 <= n -> zlen (repeat x (Z.to_nat n)) = n.
Proof. intro H. unfold zlen. rewrite repeat_length. lia. Qed.
Lemma zlen_nil_inv {A} (l : list A) : zlen l = 0 -> l = [].
Proof. destruct l; [reflexivity|]. unfold zlen. cbn. lia. Qed.

Section Files.
Context (fs cl : Z) (FS : 0 < fs) (CL : 1 <= cl).
Notation pos := (pos fs).
Notation loc_ok := (loc_ok fs).
(** Locations: the order of Compare. *)
Definition le (a b : loc) : Prop := l_id a < l_id b \/ (l_id a = l_id b /\ l_off a <= l_off b).
Lemma lt_le a b : loc_lt a b = false <-> le b a.
Proof. unfold loc_lt, le. rewrite orb_false_iff, andb_false_iff. lia. Qed.
Lemma lt_true a b : loc_lt a b = true <-> le a b /\ a <> b.
Proof.
  unfold loc_lt, le. rewrite orb_true_iff, andb_true_iff. destruct a as [i o], b as [i' o']. cbn. split.
  - intro H. split; [lia|]. intro E. injection E as -> ->. lia.
  - intros [H N]. destruct (Z.eq_dec i i') as [->|]; [|lia]. destruct (Z.eq_dec o o') as [->|]; [congruence|lia].
Qed.
Lemma le_refl a : le a a. Proof. unfold le. lia. Qed.
Lemma le_trans a b c : le a b -> le b c -> le a c. Proof. unfold le. lia. Qed.
Lemma le_total a b : le a b \/ le b a. Proof. unfold le. lia. Qed.
Lemma pos_le a b : loc_ok a -> loc_ok b -> le a b -> pos a <= pos b.
Proof.
  unfold BlkSpec.loc_ok, le, BlkSpec.pos. intros [A1 A2] [B1 B2] [H|[-> H]]; [|lia]. assert ((l_id b - 1) * fs >= l_id a * fs) by nia. lia.
Qed.
Lemma pos_lt_le a b : loc_ok a -> loc_ok b -> pos a < pos b -> le a b /\ a <> b.
Proof.
  intros A B H. destruct (le_total a b) as [L|L]; [|pose proof (pos_le b a B A L); lia]. split; [assumption|]. intros ->. lia.
Qed.
(** The bytes of the log in one file. *)
Definition file (g : list Z) (id : Z) : list Z := take fs (drop ((id - 1) * fs) g).
Lemma file_len g id : 1 <= id -> zlen (file g id) = Z.max 0 (Z.min fs (zlen g - (id - 1) * fs)).
Proof. intro H. assert (0 <= (id - 1) * fs) by nia. unfold file. rewrite zlen_take, zlen_drop by lia. lia. Qed.
Lemma file_cut g id off n : 1 <= id -> 0 <= off -> 0 <= n -> off + n <= fs -> take n (drop off (file g id)) = take n (drop (pos (Loc id off)) g).
Proof.
  intros H Ho Hn L. assert (0 <= (id - 1) * fs) by nia. unfold file, BlkSpec.pos. cbn [l_id l_off]. rewrite take_drop, take_take, drop_drop by lia. f_equal. lia.
Qed.
Lemma file_ext g h id n : 1 <= id -> id * fs <= n -> take n g = take n h -> file g id = file h id.
Proof.
  intros H L E. assert (0 <= (id - 1) * fs) by nia. unfold file. 
  assert (F : forall x : list Z, take fs (drop ((id - 1) * fs) x) = take fs (drop ((id - 1) * fs) (take n x))).
  { intro x. rewrite take_drop by lia. rewrite take_take by lia. f_equal. lia. }
  now rewrite (F g), (F h), E.
Qed.
Lemma file_app g x id : 1 <= id -> id * fs <= zlen g -> file (g ++ x) id = file g id.
Proof. intros H L. apply (file_ext _ _ id (zlen g) H L). rewrite take_app_le by lia. reflexivity. Qed.
Lemma file_take g n id : 1 <= id -> id * fs <= n -> file (take n g) id = file g id.
Proof. intros H L. assert (0 <= n) by nia. apply (file_ext _ _ id n H L). rewrite take_take by lia. now rewrite Z.min_id. Qed.
Lemma file_full g id : 1 <= id -> id * fs <= zlen g -> zlen (file g id) = fs.
Proof. intros H L. rewrite file_len by assumption. nia. Qed.
Lemma file_prefix g h id n : 1 <= id -> 0 <= n <= fs -> take ((id - 1) * fs + n) g = take ((id - 1) * fs + n) h -> take n (file g id) = take n (file h id).
Proof.
  intros H L E. assert (0 <= (id - 1) * fs) by nia.
  rewrite <- (drop_0 (file g id)), <- (drop_0 (file h id)), !file_cut by lia. unfold BlkSpec.pos. cbn [l_id l_off]. rewrite Z.add_0_r.
  assert (F : forall x : list Z, take n (drop ((id - 1) * fs) x) = drop ((id - 1) * fs) (take ((id - 1) * fs + n) x)).
  { intro x. rewrite take_drop by lia. f_equal. lia. }
  now rewrite !F, E.
Qed.

(** * The cache *)
Definition item_ok (g : list Z) (it : item) : Prop :=
  1 <= i_id it /\ zlen (i_buf it) = fs /\ 0 <= i_len it <= fs /\ take (i_len it) (i_buf it) = file g (i_id it).
Fixpoint consec (its : list item) : Prop :=
  match its with
  | [] => True
  | it :: r => match r with [] => True | x :: _ => i_id it = i_id x + 1 end /\ consec r
  end.
Definition low (its : list item) : Z := i_id (last its (Item 1 [] 0 false)).
Definition durable (d : disk) (g : list Z) (q : Z) : Prop := forall id, 1 <= id < q -> dget d id = Some (file g id).
(** The log [g] is in the items and, below the file [q], on disk. *)
Definition mem_ok (its : list item) (d : disk) (g : list Z) (q : Z) : Prop :=
  consec its /\ Forall (item_ok g) its /\ durable d g q /\ low its <= q /\
  match its with it :: _ => zlen g = pos (Loc (i_id it) (i_len it)) /\ q <= i_id it | [] => False end.
Lemma item_len g it : item_ok g it -> zlen (file g (i_id it)) = i_len it.
Proof. intros (_ & B & L & E). rewrite <- E, zlen_take by lia. lia. Qed.
Lemma low_cons it x r : low (it :: x :: r) = low (x :: r). Proof. reflexivity. Qed.
Lemma consec_find its : consec its -> match its with it :: _ => forall id, low its <= id <= i_id it -> exists x, find (fun y => i_id y =? id) its = Some x /\ i_id x = id /\ In x its | [] => True end.
Proof.
  induction its as [|it r IH]; [exact (fun _ => Logic.I)|]. intros [C1 C2] id H. cbn [find]. destruct (Z.eqb_spec (i_id it) id) as [Y|N]; [exists it; split; [reflexivity|]; split; [exact Y|now left]|].
  destruct r as [|x r]; [unfold low in H; cbn in H; lia|]. rewrite low_cons in H. specialize (IH C2 id). cbn [find] in *. destruct IH as (y & E & F & G); [lia|]. exists y. split; [exact E|]. split; [assumption|now right].
Qed.
Lemma consec_range its : consec its -> match its with it :: _ => low its <= i_id it /\ (forall x, In x its -> low its <= i_id x <= i_id it) /\ zlen its = i_id it - low its + 1 | [] => True end.
Proof.
  induction its as [|it r IH]; [exact (fun _ => Logic.I)|]. intros [C1 C2]. destruct r as [|x r].
  - unfold low, zlen. cbn. split; [lia|]. split; [intros y [<-|[]]; lia|lia].
  - specialize (IH C2). rewrite low_cons. destruct IH as (I1 & I2 & I3). split; [lia|]. split; [intros y [<-|J]; [lia|specialize (I2 y J); lia]|]. unfold zlen in *. cbn [length] in *. lia.
Qed.
Lemma find_none_id (its : list item) id : (forall x, In x its -> i_id x <> id) -> find (fun y => i_id y =? id) its = None.
Proof. intro H. destruct (find _ its) as [y|] eqn:E; [|reflexivity]. apply find_some in E as [E1 E2]. exfalso. apply (H y E1). lia. Qed.
Section Reading.
Context (s : fstate) (g : list Z) (q : Z) (M : mem_ok (f_items s) (f_disk s) g q).
Lemma latest_pos : zlen g = pos (latest s) /\ loc_ok (latest s).
Proof.
  destruct M as (_ & F & _ & _ & L). unfold latest. destruct (f_items s) as [|it r]; [contradiction|]. inversion F as [|? ? F1 _]; subst. split; [apply L|]. destruct F1 as (A & _ & B & _). split; cbn; lia.
Qed.
Lemma fd_ok id : 1 <= id <= l_id (latest s) -> get_fd s id <> FNone /\
  forall off n, 0 <= off <= zlen (file g id) -> read_at (get_fd s id) off n = cut (file g id) off n.
Proof.
  intro H. destruct M as (C & F & D & Lq & L). unfold get_fd, latest in *. destruct (f_items s) as [|it r] eqn:E; [contradiction|]. cbn [l_id] in *. destruct (Z.ltb_spec (i_id it) id); [lia|].
  destruct (Z.le_gt_cases (low (it :: r)) id) as [Q|Q].
  - destruct (consec_find (it :: r) C id ltac:(lia)) as (x & E1 & E2 & E3). rewrite E1. split; [discriminate|]. intros off n Ho. rewrite Forall_forall in F. specialize (F x E3). rewrite <- E2 in *. pose proof (item_len g x F) as IL.
    cbn [read_at]. destruct (Z.ltb_spec (i_len x) off); [lia|]. destruct F as (_ & _ & _ & F). now rewrite F.
  - rewrite find_none_id by (intros x I; pose proof (consec_range (it :: r) C) as (_ & R & _); specialize (R x I); lia). split; [discriminate|]. intros off n Ho. rewrite (D id) by lia. reflexivity.
Qed.
Lemma file_size id : 1 <= id <= l_id (latest s) -> zlen (file g id) = Z.min fs (zlen g - (id - 1) * fs) /\ (id < l_id (latest s) -> zlen (file g id) = fs).
Proof.
  intro H. destruct latest_pos as [P [O1 O2]]. rewrite file_len by lia. unfold BlkSpec.pos in P. split; [nia|]. intro. nia.
Qed.
Theorem read_spec : forall fuel l n, loc_ok l -> 0 <= n -> 2 * n + (if l_off l =? fs then 1 else 0) < Z.of_nat fuel ->
  if pos l + n <=? zlen g then exists l', read_raw fs fuel s l n = Done l' (take n (drop (pos l) g)) /\ loc_ok l' /\ pos l' = pos l + n /\ (n = 0 -> l' = l) /\ (0 < n -> l_off l' < fs)
  else 0 < n -> read_raw fs fuel s l n = Eof.
Proof.
  destruct latest_pos as [P PO]. induction fuel as [|f IH]; intros l n O Hn Fu; [destruct (l_off l =? fs); lia|]. cbn [read_raw]. destruct (Z.leb_spec n 0) as [N0|N0].
  { assert (n = 0) as -> by lia. rewrite take_0. destruct (Z.leb_spec (pos l + 0) (zlen g)); [|lia]. exists l. repeat split; try apply O; try lia. }
  destruct (Z.le_gt_cases (l_id l) (l_id (latest s))) as [Q|Q].
  2:{ unfold get_fd. destruct (Z.ltb_spec (l_id (latest s)) (l_id l)); [|lia].
      assert (zlen g <= pos l). { destruct O, PO. unfold BlkSpec.pos in *. assert ((l_id l - 1) * fs >= l_id (latest s) * fs) by nia. lia. }
      destruct (Z.leb_spec (pos l + n) (zlen g)); [lia|reflexivity]. }
  assert (R1 : 1 <= l_id l <= l_id (latest s)) by (destruct O; lia). destruct (fd_ok (l_id l) R1) as [FN FR]. destruct (file_size (l_id l) R1) as [S1 S2].
  set (size := Z.min n (fs - l_off l)). assert (SZ : 0 <= size) by (destruct O; lia).
  assert (EX : forall A (y : A) (z : A), match get_fd s (l_id l) with FNone => y | _ => z end = z) by (intros; destruct (get_fd s (l_id l)); congruence). 
  replace (match get_fd s (l_id l) with FNone => Eof | x => if size <? 0 then Panic else match read_at x (l_off l) size with RPanic => Panic | REof _ => Eof | ROk b => match read_raw fs f s (if fs <=? l_off l + size then Loc (l_id l + 1) 0 else Loc (l_id l) (l_off l + size)) (n - size) with Done e r => Done e (b ++ r) | x0 => x0 end end end)
    with (if size <? 0 then Panic else match read_at (get_fd s (l_id l)) (l_off l) size with RPanic => Panic | REof _ => Eof | ROk b => match read_raw fs f s (if fs <=? l_off l + size then Loc (l_id l + 1) 0 else Loc (l_id l) (l_off l + size)) (n - size) with Done e r => Done e (b ++ r) | x0 => x0 end end)
    by (destruct (get_fd s (l_id l)); congruence).
  destruct (Z.ltb_spec size 0); [lia|].
  assert (PL : pos l = (l_id l - 1) * fs + l_off l) by reflexivity.
  destruct (Z.le_gt_cases (l_off l) (zlen (file g (l_id l)))) as [W|W].
  2:{ (* beyond the end of the newest file *)
      assert (l_id l = l_id (latest s)) by (destruct (Z.eq_dec (l_id l) (l_id (latest s))); [assumption|]; rewrite S2 in W by lia; destruct O; lia).
      assert (zlen g < pos l) by (destruct O; lia). destruct (Z.leb_spec (pos l + n) (zlen g)); [lia|]. intros _.
      unfold get_fd. destruct (Z.ltb_spec (l_id (latest s)) (l_id l)); [lia|]. destruct M as (C & F & D & Lq & L). unfold latest in *. destruct (f_items s) as [|it r] eqn:E; [contradiction|]. cbn [l_id] in *.
      destruct (consec_find (it :: r) C (l_id l)) as (x & E1 & E2 & E3); [pose proof (consec_range (it :: r) C) as (A & _); lia|]. rewrite E1. cbn [read_at]. rewrite Forall_forall in F. specialize (F x E3). pose proof (item_len g x F) as IL. rewrite E2 in IL. destruct (Z.ltb_spec (i_len x) (l_off l)); [reflexivity|lia]. }
  rewrite FR by (destruct O; lia). unfold cut. rewrite file_cut by (destruct O; lia). 
  replace (Loc (l_id l) (l_off l)) with l by (destruct l; reflexivity).
  assert (PN : 0 <= pos l) by (rewrite PL; destruct O; nia).
  assert (LR : zlen (take size (drop (pos l) g)) = Z.max 0 (Z.min size (zlen g - pos l))) by (rewrite zlen_take, zlen_drop by lia; lia).
  set (l' := if fs <=? l_off l + size then Loc (l_id l + 1) 0 else Loc (l_id l) (l_off l + size)).
  assert (O' : loc_ok l') by (unfold l'; destruct (Z.leb_spec fs (l_off l + size)); split; cbn [l_id l_off]; destruct O; lia).
  assert (P' : pos l' = pos l + size). { unfold l', BlkSpec.pos. destruct (Z.leb_spec fs (l_off l + size)) as [Y|Y]; cbn [l_id l_off]; destruct O; [|lia]. assert (l_off l + size = fs) by lia. nia. }
  assert (LO : l_off l' < fs) by (unfold l'; destruct (Z.leb_spec fs (l_off l + size)); cbn; lia).
  assert (Fu' : 2 * (n - size) + (if l_off l' =? fs then 1 else 0) < Z.of_nat f).
  { destruct (Z.eqb_spec (l_off l') fs); [lia|]. destruct (Z.eqb_spec (l_off l) fs); [lia|]. destruct O. lia. }
  specialize (IH l' (n - size) O' ltac:(lia) Fu'). rewrite P' in IH.
  destruct (Nat.ltb_spec (length (take size (drop (pos l) g))) (Z.to_nat size)) as [Y|Y]; unfold zlen in LR at 1.
  - destruct (Z.leb_spec (pos l + n) (zlen g)); [lia|reflexivity].
  - replace (pos l + size + (n - size)) with (pos l + n) in IH by lia. destruct (Z.leb_spec (pos l + n) (zlen g)) as [K|K].
    + destruct IH as (e & E & OE & PE & IE & IL). exists e. rewrite E. assert (TS : take n (drop (pos l) g) = take size (drop (pos l) g) ++ take (n - size) (drop (pos l + size) g)) by (rewrite <- (drop_drop size) by lia; rewrite <- take_split by lia; f_equal; lia). rewrite TS. split; [reflexivity|]. split; [assumption|]. split; [lia|]. split; [lia|].
      intros _. destruct (Z.eq_dec n size); [rewrite IE by lia; exact LO|apply IL; lia].
    + intros _. destruct (Z.le_gt_cases (n - size) 0) as [Z0|Z0]; [|now rewrite IH]. exfalso. lia.
Qed.
Lemma range_spec : forall fuel l e, loc_ok l -> loc_ok e -> le l e -> le e (latest s) -> l_id e - l_id l < Z.of_nat fuel ->
  exists ps, read_range fs fuel s l e = Some ps /\ concat ps = take (pos e - pos l) (drop (pos l) g).
Proof.
  destruct latest_pos as [P PO]. induction fuel as [|f IH]; intros l e Ol Oe Lle Le Fu; [unfold le in Lle; lia|]. cbn [read_range].
  destruct (Z.ltb_spec (l_id e) (l_id l)) as [Q|Q]; [unfold le in Lle; lia|]. set (to := if l_id l =? l_id e then l_off e else fs).
  assert (R1 : 1 <= l_id l <= l_id (latest s)) by (unfold le in *; destruct Ol; lia). destruct (fd_ok (l_id l) R1) as [FN FR]. destruct (file_size (l_id l) R1) as [S1 S2].
  assert (T : l_off l <= to <= fs) by (unfold to, le in *; destruct Ol, Oe; destruct (Z.eqb_spec (l_id l) (l_id e)); lia).
  assert (W : to <= zlen (file g (l_id l))).
  { destruct (Z.eq_dec (l_id l) (l_id (latest s))) as [Y|Y]; [|rewrite S2 by lia; lia]. unfold to. destruct (Z.eqb_spec (l_id l) (l_id e)); [|unfold le in *; lia].
    rewrite S1, P, Y. unfold BlkSpec.pos. unfold le in Le. destruct PO. lia. }
  replace (match get_fd s (l_id l) with FNone => None | x => if to <? l_off l then None else match read_at x (l_off l) (to - l_off l) with ROk b => match read_range fs f s (Loc (l_id l + 1) 0) e with Some r => Some (b :: r) | None => None end | _ => None end end)
    with (if to <? l_off l then None else match read_at (get_fd s (l_id l)) (l_off l) (to - l_off l) with ROk b => match read_range fs f s (Loc (l_id l + 1) 0) e with Some r => Some (b :: r) | None => None end | _ => None end)
    by (destruct (get_fd s (l_id l)); congruence).
  destruct (Z.ltb_spec to (l_off l)); [lia|]. rewrite FR by (destruct Ol; lia). unfold cut. rewrite file_cut by (destruct Ol; lia). replace (Loc (l_id l) (l_off l)) with l by (destruct l; reflexivity).
  assert (PN : 0 <= pos l) by (unfold BlkSpec.pos; destruct Ol; nia). assert (PL : pos l = (l_id l - 1) * fs + l_off l) by reflexivity.
  assert (LR : zlen (take (to - l_off l) (drop (pos l) g)) = to - l_off l).
  { rewrite zlen_take, zlen_drop by lia. rewrite S1 in W. lia. }
  destruct (Nat.ltb_spec (length (take (to - l_off l) (drop (pos l) g))) (Z.to_nat (to - l_off l))); [unfold zlen in LR; lia|].
  destruct (Z.eq_dec (l_id l) (l_id e)) as [Y|Y].
  - destruct f as [|f]; cbn [read_range]; (destruct (Z.ltb_spec (l_id e) (l_id (Loc (l_id l + 1) 0))) as [X|X]; [|cbn in X; lia]); eexists; (split; [reflexivity|]); cbn [concat]; rewrite app_nil_r; f_equal; f_equal; unfold to, BlkSpec.pos; rewrite Y, Z.eqb_refl; lia.
  - assert (O2 : loc_ok (Loc (l_id l + 1) 0)) by (split; cbn; lia). assert (L2 : le (Loc (l_id l + 1) 0) e) by (unfold le in *; cbn; destruct Oe; lia).
    destruct (IH (Loc (l_id l + 1) 0) e O2 Oe L2 Le ltac:(cbn; lia)) as (ps & E & C). rewrite E. eexists. split; [reflexivity|]. cbn [concat]. rewrite C. unfold to. destruct (Z.eqb_spec (l_id l) (l_id e)); [contradiction|].
    assert (PP : pos (Loc (l_id l + 1) 0) = pos l + (fs - l_off l)) by (unfold BlkSpec.pos; cbn; nia). pose proof (pos_le _ _ O2 Oe L2) as PQ. rewrite PP in *. replace (pos e - pos l) with ((fs - l_off l) + (pos e - (pos l + (fs - l_off l)))) by lia.
    rewrite take_split, drop_drop by (destruct Ol; lia). reflexivity.
Qed.
End Reading.
End Files.
