(** Proofs about the block files: a flush, and what is on disk at any point of it. *)
From Verif Require Import Lib BlkModel BlkSpec BlkProofs BlkProofs2 BlkProofs3.
Import ListNotations.

(** ** Directories *)
Lemma dget_ddel d id : forall x, dget (ddel d id) x = if x =? id then None else dget d x.
Proof.
  intro x. induction d as [|[y b] r IH]; cbn; [now destruct (x =? id)|]. destruct (Z.eqb_spec y id) as [->|N].
  - rewrite IH. rewrite (Z.eqb_sym id x). destruct (x =? id); reflexivity.
  - cbn. rewrite IH. destruct (Z.eqb_spec y x) as [<-|M]; [|reflexivity]. destruct (Z.eqb_spec y id); [contradiction|reflexivity].
Qed.
Lemma dget_dset d id b x : dget (dset d id b) x = if x =? id then Some b else dget d x.
Proof. unfold dset. cbn. rewrite dget_ddel. rewrite (Z.eqb_sym id x). destruct (x =? id) eqn:E; reflexivity. Qed.
Lemma apply_app d os os' : dapply_all d (os ++ os') = dapply_all (dapply_all d os) os'.
Proof. apply fold_left_app. Qed.

Section Files.
Context (fs cl : Z) (FS : 0 < fs) (CL : 1 <= cl).
Notation pos := (pos fs).
Notation loc_ok := (loc_ok fs).
Notation file := (file fs).
Notation sane := (sane fs).

(** The bytes before [a] are those of [g]. *)
Definition pre (d : disk) (g : list Z) (a : loc) : Prop :=
  sane d /\ (forall id, 1 <= id < l_id a -> dget d id = Some (file g id)) /\
  (0 < l_off a -> exists f, dget d (l_id a) = Some f /\ l_off a <= zlen f /\ take (l_off a) f = take (l_off a) (file g (l_id a))).
Definition op_safe (a : loc) (o : dop) : Prop :=
  match o with
  | DCreate id => 1 <= id /\ le a (Loc id 0)
  | DWrite id off b => 1 <= id /\ 0 <= off /\ le a (Loc id off) /\ off + zlen b <= fs
  | DRemove id => l_id a < id
  | DTrunc id n => 1 <= id /\ le a (Loc id n) /\ 0 <= n <= fs
  end.
Lemma safe_le a b o : le a b -> op_safe b o -> op_safe a o.
Proof. intro L. destruct o; cbn; intros; repeat split; try tauto; try lia; unfold le in *; cbn in *; lia. Qed.
Lemma grown_len (f : list Z) n : length (grown f n) = n.
Proof. unfold grown. rewrite app_length, firstn_length, repeat_length. lia. Qed.
Lemma grown_take (f : list Z) n m : (m <= n)%nat -> (m <= length f)%nat -> firstn m (grown f n) = firstn m f.
Proof.
  intros A B. unfold grown. rewrite firstn_app, firstn_firstn. replace (m - length (firstn n f))%nat with O by (rewrite firstn_length; lia). rewrite firstn_O, app_nil_r. f_equal. lia.
Qed.
Lemma grown_short (f : list Z) n : (n <= length f)%nat -> grown f n = firstn n f.
Proof. intro H. unfold grown. replace (n - length f)%nat with O by lia. apply app_nil_r. Qed.
Lemma pre_set d g a id f : pre d g a -> 1 <= id -> zlen f <= fs ->
  (id < l_id a -> False) -> (id = l_id a -> 0 < l_off a -> l_off a <= zlen f /\ take (l_off a) f = take (l_off a) (file g (l_id a))) -> pre (dset d id f) g a.
Proof.
  intros (S & B & C) I L N1 N2. split; [|split].
  - intros x y. rewrite dget_dset. destruct (Z.eqb_spec x id) as [->|]; [intro E; injection E as <-; lia|apply S].
  - intros x H. rewrite dget_dset. destruct (Z.eqb_spec x id) as [->|]; [exfalso; apply N1; lia|now apply B].
  - intro H. rewrite dget_dset. destruct (Z.eqb_spec (l_id a) id) as [E|]; [|now apply C]. exists f. destruct (N2 (eq_sym E) H). now repeat split.
Qed.
Lemma pre_op d g a o : pre d g a -> op_safe a o -> pre (dapply d o) g a.
Proof.
  intros P S. destruct o as [id|id off b|id|id n]; cbn [dapply op_safe] in *.
  - destruct S as [S1 S2]. unfold le in S2. cbn in S2. apply pre_set; try assumption; try lia. rewrite zlen_nil. lia.
  - destruct S as (S1 & S2 & S3 & S4). destruct b as [|x b']; [exact P|]. set (b := x :: b') in *. replace (match b with [] => d | _ :: _ => match dget d id with Some f => dset d id (grown f (Z.to_nat off) ++ b ++ skipn (Z.to_nat off + length b) f) | None => d end end) with (match dget d id with Some f => dset d id (grown f (Z.to_nat off) ++ b ++ skipn (Z.to_nat off + length b) f) | None => d end) by reflexivity.
    destruct (dget d id) as [f|] eqn:E; [|exact P]. assert (SF : zlen f <= fs) by (destruct P as (S & _); now destruct (S id f E)). unfold le in S3. cbn in S3. apply pre_set; try assumption; try lia.
    + unfold zlen in *. rewrite !app_length, grown_len, skipn_length. lia.
    + intros I O. destruct P as (_ & _ & C). destruct (C O) as (f' & E' & F1 & F2). rewrite <- I, E in E'. injection E' as <-. split.
      * unfold zlen in *. rewrite !app_length, grown_len. lia.
      * rewrite take_app_le by (unfold zlen; rewrite grown_len; lia). rewrite grown_take by (unfold zlen in *; lia). exact F2.
  - destruct P as (S1 & B & C). split; [|split].
    + intros x y. rewrite dget_ddel. destruct (x =? id); [discriminate|apply S1].
    + intros x H. rewrite dget_ddel. destruct (Z.eqb_spec x id); [lia|now apply B].
    + intro H. rewrite dget_ddel. destruct (Z.eqb_spec (l_id a) id); [lia|now apply C].
  - destruct S as (S1 & S2 & S3). destruct (dget d id) as [f|] eqn:E; [|exact P]. unfold le in S2. cbn in S2. apply pre_set; try assumption; try lia.
    + unfold zlen. rewrite grown_len. lia.
    + intros I O. destruct P as (_ & _ & C). destruct (C O) as (f' & E' & F1 & F2). rewrite <- I, E in E'. injection E' as <-. split.
      * unfold zlen. rewrite grown_len. lia.
      * rewrite grown_take by (unfold zlen in *; lia). exact F2.
Qed.
Lemma pre_ops d g a os : pre d g a -> Forall (op_safe a) os -> pre (dapply_all d os) g a.
Proof. revert d. induction os as [|o r IH]; intros d P F; [exact P|]. cbn. apply IH; [|exact (Forall_inv_tail F)]. apply pre_op; [exact P|exact (Forall_inv F)]. Qed.
Lemma pre_crashed d g a os k j : pre d g a -> Forall (op_safe a) os -> pre (crashed d os k j) g a.
Proof.
  intros P F. unfold crashed. apply pre_ops; [exact P|]. apply Forall_app. split; [rewrite Forall_forall in *; intros x J; apply F; rewrite <- (firstn_skipn k os); apply in_or_app; now left|].
  destruct (nth_error os k) as [[| id off b | |]|] eqn:E; constructor; [|constructor]. rewrite Forall_forall in F. specialize (F _ (nth_error_In _ _ E)). cbn in *. destruct F as (F1 & F2 & F3 & F4). repeat split; try assumption. unfold zlen in *. rewrite firstn_length. lia.
Qed.

(** ** The loop *)
Definition mark (P : Z -> bool) (its : list item) : list item := map (fun it => if P (i_id it) then Item (i_id it) (i_buf it) (i_len it) true else it) its.
Lemma mark_none its : mark (fun _ => false) its = its. Proof. apply map_id. Qed.
Lemma mark_mark P Q its : mark P (mark Q its) = mark (fun i => P i || Q i) its.
Proof. unfold mark. rewrite map_map. apply map_ext. intro x. destruct (Q (i_id x)) eqn:E; cbn; destruct (P (i_id x)) eqn:E'; reflexivity. Qed.
Definition mk (P : Z -> bool) (it : item) := if P (i_id it) then Item (i_id it) (i_buf it) (i_len it) true else it.
Lemma find_mark P its id : find (fun y => i_id y =? id) (mark P its) = option_map (mk P) (find (fun y => i_id y =? id) its).
Proof.
  induction its as [|x r IH]; [reflexivity|]. cbn [mark map find]. fold (mark P r). change (if P (i_id x) then Item (i_id x) (i_buf x) (i_len x) true else x) with (mk P x).
  replace (i_id (mk P x)) with (i_id x) by (unfold mk; destruct (P (i_id x)); reflexivity). destruct (i_id x =? id); [reflexivity|exact IH].
Qed.
Lemma latest_mark s P : latest (with_items s (mark P (f_items s))) = latest s.
Proof. unfold latest. cbn [with_items f_items]. destruct (f_items s) as [|x r]; [reflexivity|]. cbn. destruct (P (i_id x)); reflexivity. Qed.
Lemma with_same s : with_items s (f_items s) = s. Proof. now destruct s. Qed.
Lemma mark_in P its x : In x (mark P its) -> exists y, In y its /\ i_id x = i_id y /\ i_writer x = (P (i_id y) || i_writer y).
Proof. unfold mark. intro H. apply in_map_iff in H as (y & E & J). exists y. split; [exact J|]. rewrite <- E. destruct (P (i_id y)); split; reflexivity. Qed.

Definition size_at (d : disk) (id : Z) : Z := match dget d id with Some f => zlen f | None => 0 end.
(** One file. *)
Lemma piece d g l hi os : pre d g l -> loc_ok l -> l_off l <= hi <= fs -> (l_id l - 1) * fs + hi <= zlen g ->
  os = [DWrite (l_id l) (l_off l) (take (hi - l_off l) (drop (pos l) g))] /\ dget d (l_id l) <> None \/
  os = [DCreate (l_id l); DWrite (l_id l) (l_off l) (take (hi - l_off l) (drop (pos l) g))] /\ l_off l = 0 ->
  Forall (op_safe l) os /\ exists f, dget (dapply_all d os) (l_id l) = Some f /\ hi <= zlen f /\ take hi f = take hi (file g (l_id l)) /\ zlen f <= Z.max hi (size_at d (l_id l)) /\
  forall id, id <> l_id l -> dget (dapply_all d os) id = dget d id.
Proof.
  intros P [O1 O2] H1 H2 HO. set (b := take (hi - l_off l) (drop (pos l) g)) in *. assert (PL : pos l = (l_id l - 1) * fs + l_off l) by reflexivity. assert (0 <= (l_id l - 1) * fs) by nia.
  assert (Zb : zlen b = hi - l_off l) by (unfold b; rewrite zlen_take, zlen_drop by lia; lia).
  assert (SW : op_safe l (DWrite (l_id l) (l_off l) b)) by (cbn; repeat split; try lia; right; cbn; lia).
  assert (FH : take hi (file g (l_id l)) = take (l_off l) (file g (l_id l)) ++ b).
  { replace hi with (l_off l + (hi - l_off l)) at 1 by lia. rewrite take_split by lia. f_equal. rewrite file_cut by lia. unfold b. destruct l; reflexivity. }
  assert (X : forall d0 f0, dget d0 (l_id l) = Some f0 -> l_off l <= zlen f0 -> take (l_off l) f0 = take (l_off l) (file g (l_id l)) -> zlen f0 <= size_at d (l_id l) ->
     exists f, dget (dapply d0 (DWrite (l_id l) (l_off l) b)) (l_id l) = Some f /\ hi <= zlen f /\ take hi f = take hi (file g (l_id l)) /\ zlen f <= Z.max hi (size_at d (l_id l)) /\
     forall id, id <> l_id l -> dget (dapply d0 (DWrite (l_id l) (l_off l) b)) id = dget d0 id).
  { intros d0 f0 E L T SZ. cbn [dapply]. destruct b as [|x b'] eqn:EB.
    - rewrite zlen_nil in Zb. assert (hi = l_off l) by lia. exists f0. subst hi. repeat split; try assumption; try lia.
    - rewrite <- EB in *. rewrite E. eexists. split; [rewrite dget_dset, Z.eqb_refl; reflexivity|]. rewrite grown_short by (unfold zlen in L; lia).
      assert (LB : Z.of_nat (length b) = hi - l_off l) by exact Zb. replace (Z.to_nat (l_off l) + length b)%nat with (Z.to_nat hi) by lia.
      split; [rewrite !zlen_app, zlen_take, zlen_drop by lia; lia|]. split; [|split; [rewrite !zlen_app, zlen_take, zlen_drop by lia; lia|]].
      + rewrite app_assoc, take_app_le by (rewrite zlen_app, zlen_take by lia; lia). rewrite take_all by (rewrite zlen_app, zlen_take by lia; lia). rewrite T. now rewrite FH.
      + intros id N. rewrite dget_dset. destruct (Z.eqb_spec id (l_id l)); [contradiction|reflexivity]. }
  destruct HO as [[-> N]|[-> N]].
  - split; [constructor; [exact SW|constructor]|]. cbn [dapply_all fold_left]. destruct (dget d (l_id l)) as [f0|] eqn:E; [|contradiction].
    apply (X d f0 E).
    + destruct (Z.eq_dec (l_off l) 0) as [->|NZ]; [apply zlen_nonneg|]. destruct P as (_ & _ & C). destruct (C ltac:(lia)) as (f & E' & F1 & _). rewrite E in E'. now injection E' as <-.
    + destruct (Z.eq_dec (l_off l) 0) as [->|NZ]; [reflexivity|]. destruct P as (_ & _ & C). destruct (C ltac:(lia)) as (f & E' & _ & F1). rewrite E in E'. now injection E' as <-.
    + unfold size_at. rewrite E. lia.
  - split; [constructor; [cbn; split; [lia|right; cbn; lia]|constructor; [exact SW|constructor]]|]. cbn [dapply_all fold_left]. destruct (X (dapply d (DCreate (l_id l))) []) as (f & A & B & C & D & E).
    + cbn. now rewrite Z.eqb_refl. + rewrite zlen_nil. lia. + rewrite N. reflexivity. + rewrite zlen_nil. unfold size_at. destruct (dget d (l_id l)); [apply zlen_nonneg|lia].
    + exists f. repeat split; try assumption. intros id NE. rewrite (E id NE). cbn [dapply]. rewrite dget_dset. destruct (Z.eqb_spec id (l_id l)); [contradiction|reflexivity].
Qed.
Lemma le_antisym a b : le a b -> le b a -> a = b.
Proof. destruct a, b. unfold le. cbn. intros. f_equal; lia. Qed.
Lemma loop_stop fuel s l t b : loc_lt l t = false -> flush_loop fs fuel s l t b = Some ([], s).
Proof. intro E. destruct fuel; cbn [flush_loop]; now rewrite E. Qed.
Lemma loop_spec g t : loc_ok t -> pos t = zlen g -> forall fuel s l b d, loc_ok l -> le l t -> b = drop (pos l) g -> l_id t - l_id l < Z.of_nat fuel ->
  (forall id, l_id l <= id <= l_id (latest s) -> exists x, find (fun y => i_id y =? id) (f_items s) = Some x) ->
  (0 < l_off l -> loc_lt l t = true -> l_id l <= l_id (latest s) /\ all_fl (fun id w => id = l_id l -> w = true) (f_items s)) ->
  all_fl (fun id w => l_id l <= id -> w = true -> dget d id <> None) (f_items s) ->
  pre d g l -> (forall id, l_id l <= id -> dget d id = dget (f_disk s) id) ->
  exists os P, flush_loop fs fuel s l t b = Some (os, with_items s (mark P (f_items s))) /\ Forall (op_safe l) os /\
  (forall id, l_id l <= id <= l_id (latest s) -> loc_lt (Loc id 0) t = true -> loc_lt l t = true -> P id = true) /\
  (forall id, P id = true -> id <= l_id t /\ dget (dapply_all d os) id <> None) /\
  (forall id, dget d id <> None -> dget (dapply_all d os) id <> None) /\
  pre (dapply_all d os) g t /\ (forall id, l_id t < id -> dget (dapply_all d os) id = dget d id) /\
  size_at (dapply_all d os) (l_id t) <= Z.max (l_off t) (size_at d (l_id t)).
Proof.
  intros Ot Pt. induction fuel as [|fu IH]; intros s l b d Ol Lt Eb Fu Ca Wr Fi P Sa.
  { unfold le in Lt. lia. }
  destruct (loc_lt l t) eqn:LT.
  2:{ rewrite loop_stop by assumption. exists [], (fun _ => false). rewrite mark_none, with_same. assert (l = t) as -> by (apply le_antisym; [assumption|now apply lt_le]). split; [reflexivity|]. split; [constructor|]. split; [discriminate|]. split; [discriminate|]. cbn [dapply_all fold_left]. split; [auto|]. split; [exact P|]. split; [auto|lia]. }
  assert (NT : l <> t) by (intros ->; apply lt_true in LT; tauto).
  set (hi := if l_id l =? l_id t then l_off t else fs).
  assert (HI : l_off l <= hi <= fs) by (unfold hi, le in *; destruct Ol, Ot; destruct (Z.eqb_spec (l_id l) (l_id t)); lia).
  assert (HG : (l_id l - 1) * fs + hi <= zlen g). { rewrite <- Pt. unfold BlkSpec.pos, hi, le in *. destruct Ol, Ot. destruct (Z.eqb_spec (l_id l) (l_id t)) as [->|]; [lia|nia]. }
  assert (PL : pos l = (l_id l - 1) * fs + l_off l) by reflexivity. assert (PN : 0 <= pos l) by (rewrite PL; destruct Ol; nia).
  assert (Zb : zlen b = zlen g - pos l) by (rewrite Eb, zlen_drop by lia; destruct Ol; lia).
  cbn [flush_loop]. rewrite LT. cbn [negb]. fold hi. destruct (Z.ltb_spec (hi - l_off l) 0); [lia|]. destruct (Z.ltb_spec (zlen b) (hi - l_off l)); [lia|]. cbn [orb].
  set (w := DWrite (l_id l) (l_off l) (take (hi - l_off l) b)).
  assert (GO : forall os0 P0, Forall (op_safe l) os0 -> (exists f, dget (dapply_all d os0) (l_id l) = Some f /\ hi <= zlen f /\ take hi f = take hi (file g (l_id l)) /\ zlen f <= Z.max hi (size_at d (l_id l)) /\
       forall id, id <> l_id l -> dget (dapply_all d os0) id = dget d id) -> (forall id, P0 id = true -> id = l_id l) -> (l_id l <= l_id (latest s) -> P0 (l_id l) = true) -> 
       exists os P, match flush_loop fs fu (with_items s (mark P0 (f_items s))) (if fs <=? l_off l + (hi - l_off l) then Loc (l_id l + 1) 0 else Loc (l_id l) (l_off l + (hi - l_off l))) t (drop (hi - l_off l) b) with Some (r, s'') => Some (os0 ++ r, s'') | None => None end = Some (os, with_items s (mark P (f_items s))) /\ Forall (op_safe l) os /\
  (forall id, l_id l <= id <= l_id (latest s) -> loc_lt (Loc id 0) t = true -> true = true -> P id = true) /\
  (forall id, P id = true -> id <= l_id t /\ dget (dapply_all d os) id <> None) /\
  (forall id, dget d id <> None -> dget (dapply_all d os) id <> None) /\
  pre (dapply_all d os) g t /\ (forall id, l_id t < id -> dget (dapply_all d os) id = dget d id) /\
  size_at (dapply_all d os) (l_id t) <= Z.max (l_off t) (size_at d (l_id t))).
  { intros os0 P0 S0 (f & F1 & F2 & F3 & F4 & F5) PA PB. replace (l_off l + (hi - l_off l)) with hi by lia.
    assert (P1 : pre (dapply_all d os0) g l) by now apply pre_ops.
    assert (SN : zlen f <= fs) by (destruct P1 as (S1 & _); now destruct (S1 _ _ F1)).
    assert (KE : forall id, dget d id <> None -> dget (dapply_all d os0) id <> None) by (intros id N; destruct (Z.eq_dec id (l_id l)) as [->|]; [congruence|now rewrite F5]).
    destruct (Z.eq_dec (l_id l) (l_id t)) as [Y|Y].
    - assert (hi = l_off t) as Hh by (unfold hi; now rewrite Y, Z.eqb_refl). rewrite loop_stop.
      2:{ apply lt_le. unfold le. destruct (Z.leb_spec fs hi); cbn; lia. }
      exists os0, P0. rewrite app_nil_r. split; [reflexivity|]. split; [exact S0|]. split; [|split; [|split; [exact KE|split; [|split]]]].
      + intros id H1 H2 _. apply lt_true in H2 as [H2 H3]. unfold le in H2. cbn in H2. assert (id = l_id l) by lia. subst id. apply PB. lia.
      + intros id H1. apply PA in H1. subst id. split; [lia|congruence].
      + destruct P1 as (S1 & B1 & _). split; [exact S1|]. rewrite <- Y, <- Hh. split; [exact B1|]. intros _. exists f. now repeat split.
      + intros id H1. apply F5. lia.
      + rewrite <- Y, <- Hh. unfold size_at at 1. rewrite F1. exact F4.
    - assert (hi = fs) as Hh by (unfold hi; destruct (Z.eqb_spec (l_id l) (l_id t)); [contradiction|reflexivity]). rewrite Hh. destruct (Z.leb_spec fs fs); [|lia].
      assert (LE' : le (Loc (l_id l + 1) 0) t) by (unfold le in *; cbn; destruct Ot; lia).
      assert (EX : f = file g (l_id l)). { rewrite <- (take_all hi f) by lia. rewrite F3. apply take_all. rewrite file_len by (destruct Ol; lia). lia. }
      assert (PP : pos (Loc (l_id l + 1) 0) = pos l + (fs - l_off l)) by (unfold BlkSpec.pos; cbn; lia).
      destruct (IH (with_items s (mark P0 (f_items s))) (Loc (l_id l + 1) 0) (drop (fs - l_off l) b) (dapply_all d os0)) as (os1 & P1' & E1 & G1 & G2 & G3 & G4 & G5 & G6 & G7).
      + split; cbn; destruct Ol; lia.
      + exact LE'.
      + rewrite PP, Eb, drop_drop by lia. reflexivity.
      + cbn. lia.
      + intros id K1. rewrite latest_mark in K1. cbn [l_id with_items f_items] in *. rewrite find_mark. destruct (Ca id ltac:(lia)) as (x & ->). cbn. eauto.
      + cbn. lia.
      + intros x J K1 K2. cbn [with_items f_items l_id] in *. apply mark_in in J as (y & J & I1 & I2). rewrite I1 in *. rewrite F5 by lia. destruct (P0 (i_id y)) eqn:E0; [apply PA in E0; lia|]. cbn in I2. apply (Fi y J); [lia|congruence].
      + destruct P1 as (S1 & B1 & _). split; [exact S1|]. cbn [l_id l_off]. split; [|lia]. intros id K1. destruct (Z.eq_dec id (l_id l)) as [->|]; [rewrite F1; now rewrite EX|apply B1; lia].
      + intros id K1. cbn [l_id] in K1. cbn [with_items f_disk]. rewrite F5 by lia. apply Sa. lia.
      + rewrite E1. exists (os0 ++ os1), (fun i => P1' i || P0 i). cbn [with_items f_items]. rewrite mark_mark. split; [reflexivity|]. rewrite apply_app. split; [|split; [|split; [|split; [|split; [|split]]]]].
        * apply Forall_app. split; [exact S0|]. eapply Forall_impl; [|exact G1]. intros o. apply safe_le. left. cbn. lia.
        * intros id K1 K2 _. destruct (Z.eq_dec id (l_id l)) as [->|]; [rewrite PB by lia; apply orb_true_r|]. apply orb_true_iff. left. destruct (loc_lt (Loc (l_id l + 1) 0) t) eqn:E2; [apply G2; [rewrite latest_mark; cbn; lia|exact K2|reflexivity]|].
          exfalso. apply lt_le in E2. apply lt_true in K2 as [K2 K3]. assert (t = Loc (l_id l + 1) 0) by (apply le_antisym; assumption). subst t. unfold le in K2. cbn in K2. assert (id = l_id l + 1) by lia. subst id. now apply K3.
        * intros id K1. apply orb_true_iff in K1 as [K1|K1]; [now apply G3|]. apply PA in K1. subst id. split; [unfold le in Lt; lia|]. apply G4. congruence.
        * intros id K1. now apply G4, KE.
        * exact G5.
        * intros id K1. rewrite (G6 id K1). apply F5. unfold le in Lt. lia.
        * unfold size_at in *. rewrite F5 in G7 by congruence. exact G7. }
  assert (EW : take (hi - l_off l) b = take (hi - l_off l) (drop (pos l) g)) by now rewrite Eb.
  destruct (Z.ltb_spec (l_id (latest s)) (l_id l)) as [NF|NF].
  - assert (O0 : l_off l = 0) by (destruct (Z.eq_dec (l_off l) 0) as [|N0]; [assumption|]; destruct (Wr ltac:(destruct Ol; lia) eq_refl); lia).
    unfold get_fd. destruct (Z.ltb_spec (l_id (latest s)) (l_id l)); [|lia]. rewrite <- (Sa (l_id l)) by lia.
    destruct (piece d g l hi (match dget d (l_id l) with Some _ => [w] | None => [DCreate (l_id l); w] end) P Ol HI HG) as [S0 F0].
    { unfold w. rewrite EW. destruct (dget d (l_id l)); [left; split; [reflexivity|discriminate]|right; split; [reflexivity|assumption]]. }
    destruct (GO _ (fun _ => false) S0 F0 ltac:(discriminate) ltac:(lia)) as (os & Q & E & R). rewrite mark_none, with_same in E. exists os, Q. split; [exact E|exact R].
  - destruct (Ca (l_id l) ltac:(lia)) as (x & X). unfold get_fd. destruct (Z.ltb_spec (l_id (latest s)) (l_id l)); [lia|]. rewrite X. apply find_some in X as [X1 X2]. apply Z.eqb_eq in X2.
    destruct (piece d g l hi (if i_writer x then [w] else [DCreate (l_id l); w]) P Ol HI HG) as [S0 F0].
    { unfold w. rewrite EW. destruct (i_writer x) eqn:Ex; [left; split; [reflexivity|]; rewrite <- X2; apply (Fi x X1); [lia|assumption]|right; split; [reflexivity|]].
      destruct (Z.eq_dec (l_off l) 0) as [|N0]; [assumption|]. destruct (Wr ltac:(destruct Ol; lia) eq_refl) as [_ W]. rewrite (W x X1 X2) in Ex. discriminate. }
    destruct (GO _ (fun i => i =? l_id l) S0 F0) as (os & Q & E & R); [intros id; apply Z.eqb_eq|intros _; apply Z.eqb_refl|]. exists os, Q. split; [exact E|exact R].
Qed.
End Files.
