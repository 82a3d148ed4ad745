(** Proofs about the block files: the invariant of every history. *)
From Verif Require Import Lib BlkModel BlkSpec BlkProofs BlkProofs2 BlkProofs3 BlkProofs4.
Import ListNotations.

Lemma removals_spec : forall n d hi id, dget (dapply_all d (removals n hi)) id = if (hi - Z.of_nat n <? id) && (id <=? hi) then None else dget d id.
Proof.
  induction n as [|n IH]; intros d hi id; cbn [removals dapply_all fold_left].
  - destruct (Z.ltb_spec (hi - Z.of_nat 0) id), (Z.leb_spec id hi); try reflexivity. lia.
  - fold (dapply_all (dapply d (DRemove hi)) (removals n (hi - 1))). rewrite IH. cbn [dapply]. rewrite dget_ddel.
    destruct (Z.ltb_spec (hi - 1 - Z.of_nat n) id), (Z.leb_spec id (hi - 1)), (Z.ltb_spec (hi - Z.of_nat (S n)) id), (Z.leb_spec id hi), (Z.eqb_spec id hi); cbn; try reflexivity; lia.
Qed.
Section Files.
Context (fs cl : Z) (FS : 0 < fs) (CL : 1 <= cl).
Notation pos := (pos fs).
Notation loc_ok := (loc_ok fs).
Notation file := (file fs).
Notation sane := (sane fs).
Notation pre := (pre fs).
Notation op_safe := (op_safe fs).
Notation mem_ok := (mem_ok fs).
Notation durable := (durable fs).

(** The directory holds [g] up to [p]. *)
Definition layout (d : disk) (g : list Z) (p : loc) : Prop :=
  loc_ok p /\ pos p = zlen g /\ sane d /\ (forall id, 1 <= id < l_id p -> dget d id = Some (file g id)) /\
  (dget d (l_id p) = Some (file g (l_id p)) \/ l_off p = 0 /\ dget d (l_id p) = None) /\ (forall id, l_id p < id -> dget d id = None).
Lemma last_file g p : loc_ok p -> pos p = zlen g -> zlen (file g (l_id p)) = l_off p.
Proof. intros [O1 O2] P. rewrite file_len by assumption. rewrite <- P. unfold BlkSpec.pos. lia. Qed.
Lemma full_file g p id : loc_ok p -> pos p = zlen g -> 1 <= id < l_id p -> zlen (file g id) = fs.
Proof. intros [O1 O2] P H. apply file_full; [assumption|lia|]. rewrite <- P. unfold BlkSpec.pos. nia. Qed.
Lemma flush_spec g s a t b : loc_ok a -> loc_ok t -> pos t = zlen g -> le a t -> b = drop (pos a) g ->
  (forall id, l_id a <= id <= l_id (latest s) -> exists x, find (fun y => i_id y =? id) (f_items s) = Some x) ->
  (0 < l_off a -> l_id a <= l_id (latest s) /\ all_fl (fun id w => id = l_id a -> w = true) (f_items s)) ->
  all_fl (fun id w => w = true -> dget (f_disk s) id <> None) (f_items s) ->
  pre (f_disk s) g a -> (forall id f, dget (f_disk s) id = Some f -> le (Loc id (zlen f)) (f_prev s)) ->
  exists os P, flush fs s a t b = Some (os, FState (mark P (f_items s)) (dapply_all (f_disk s) os) (f_next s) t (f_fly s)) /\ Forall (op_safe a) os /\
  layout (dapply_all (f_disk s) os) g t /\
  (forall id, l_id a <= id <= l_id (latest s) -> loc_lt (Loc id 0) t = true -> loc_lt a t = true -> P id = true) /\
  (forall id, P id = true -> dget (dapply_all (f_disk s) os) id <> None) /\
  (forall id, id <= l_id t -> dget (f_disk s) id <> None -> dget (dapply_all (f_disk s) os) id <> None).
Proof.
  intros Oa Ot Pt L Eb Ca Wr Fi P U. set (d := f_disk s) in *.
  destruct (loop_spec fs cl FS g t Ot Pt (Z.to_nat (l_id t - l_id a) + 2) s a b d Oa L Eb ltac:(lia) Ca ltac:(intros; now apply Wr) ltac:(intros x J _; now apply Fi) P ltac:(reflexivity)) as (os & Q & E & G1 & G2 & G3 & G4 & G5 & G6 & G7).
  unfold flush. rewrite E. cbn [with_items f_items]. set (dd := if loc_lt t (f_prev s) then disk_delete (f_prev s) t else []). fold d. set (d1 := dapply_all d os) in *.
  assert (SD : Forall (op_safe a) dd).
  { unfold dd. destruct (loc_lt t (f_prev s)) eqn:LT; [|constructor]. unfold disk_delete. apply Forall_app. split.
    - assert (X : forall n hi, l_id t <= hi - Z.of_nat n -> Forall (op_safe a) (removals n hi)).
      { induction n as [|n IH]; intros hi H; cbn [removals]; constructor; [cbn; unfold le in L; lia|apply IH; lia]. }
      apply lt_true in LT as [LT _]. unfold le in LT. apply X. lia.
    - constructor; [|constructor]. destruct Ot. cbn. repeat split; try lia. unfold le in *. cbn. lia. }
  assert (SA : sane (dapply_all d (os ++ dd))). { assert (PA : pre (dapply_all d (os ++ dd)) g a) by (apply pre_ops; [assumption|exact P|]; apply Forall_app; split; assumption). apply PA. }
  assert (LF := last_file g t Ot Pt).
  assert (KEY : (forall id, id < l_id t -> dget (dapply_all d (os ++ dd)) id = dget d1 id) /\ (forall id, l_id t < id -> dget (dapply_all d (os ++ dd)) id = None) /\ 
     (dget d1 (l_id t) <> None -> dget (dapply_all d (os ++ dd)) (l_id t) = Some (file g (l_id t))) /\ (dget d1 (l_id t) = None -> dget (dapply_all d (os ++ dd)) (l_id t) = None)).
  { rewrite apply_app. fold d1. unfold dd. destruct (loc_lt t (f_prev s)) eqn:LT.
    - apply lt_true in LT as [LT _]. unfold disk_delete. rewrite apply_app. set (d2 := dapply_all d1 (removals (Z.to_nat (l_id (f_prev s) - l_id t)) (l_id (f_prev s)))).
      assert (R : forall id, dget d2 id = if (l_id t <? id) && (id <=? l_id (f_prev s)) then None else dget d1 id).
      { intro id. unfold d2. rewrite removals_spec. replace (l_id (f_prev s) - Z.of_nat (Z.to_nat (l_id (f_prev s) - l_id t))) with (l_id t) by (unfold le in LT; lia). reflexivity. }
      assert (Rt : dget d2 (l_id t) = dget d1 (l_id t)) by (rewrite R; destruct (Z.ltb_spec (l_id t) (l_id t)); [lia|reflexivity]).
      cbn [dapply_all fold_left dapply]. rewrite Rt.
      assert (RH : forall id, l_id t < id -> dget d2 id = None).
      { intros id H. rewrite R. destruct (Z.ltb_spec (l_id t) id); [|lia]. destruct (Z.leb_spec id (l_id (f_prev s))); [reflexivity|]. cbn. rewrite (G6 id H). destruct (dget d id) as [f|] eqn:Ed; [|reflexivity]. apply U in Ed. unfold le in Ed. cbn in Ed. lia. }
      assert (RL : forall id, id < l_id t -> dget d2 id = dget d1 id) by (intros id H; rewrite R; destruct (Z.ltb_spec (l_id t) id); [lia|reflexivity]).
      destruct (dget d1 (l_id t)) as [f|] eqn:Ef.
      + split; [|split; [|split]].
        * intros id H. rewrite dget_dset. destruct (Z.eqb_spec id (l_id t)); [lia|now apply RL].
        * intros id H. rewrite dget_dset. destruct (Z.eqb_spec id (l_id t)); [lia|now apply RH].
        * intros _. rewrite dget_dset, Z.eqb_refl. f_equal. destruct (Z.eq_dec (l_off t) 0) as [Z0|Z0].
          -- rewrite Z0 in *. change (Z.to_nat 0) with O. replace (grown f 0) with (@nil Z) by (unfold grown; cbn; reflexivity). symmetry. now apply zlen_nil_inv.
          -- destruct G5 as (_ & _ & G5). destruct (G5 ltac:(destruct Ot; lia)) as (f' & X1 & X2 & X3). rewrite Ef in X1. injection X1 as <-. rewrite grown_short by (unfold zlen in X2; lia). rewrite X3. apply take_all. lia.
        * discriminate.
      + split; [exact RL|]. split; [exact RH|]. split; [intros X; now contradiction X|]. intros _. exact Rt.
    - apply lt_le in LT. cbn [dapply_all fold_left]. split; [reflexivity|]. split; [|split; [|auto]].
      + intros id H. rewrite (G6 id H). destruct (dget d id) as [f|] eqn:Ed; [|reflexivity]. apply U in Ed. unfold le in *. cbn in Ed. lia.
      + intros N. destruct (dget d1 (l_id t)) as [f|] eqn:Ef; [|contradiction]. f_equal. unfold size_at in G7. rewrite Ef in G7.
        assert (X : match dget d (l_id t) with Some f0 => zlen f0 | None => 0 end <= l_off t). { destruct (dget d (l_id t)) as [f0|] eqn:Ed; [|destruct Ot; lia]. apply U in Ed. unfold le in *. cbn in Ed. lia. }
        destruct (Z.eq_dec (l_off t) 0) as [Z0|Z0].
        * pose proof (zlen_nonneg f). rewrite (zlen_nil_inv f) by lia. symmetry. apply zlen_nil_inv. lia.
        * destruct G5 as (_ & _ & G5). destruct (G5 ltac:(destruct Ot; lia)) as (f' & X1 & X2 & X3). rewrite Ef in X1. injection X1 as <-. rewrite <- (take_all (l_off t) f) by lia. rewrite X3. apply take_all. lia. }
  destruct KEY as (K1 & K2 & K3 & K4).
  exists (os ++ dd), Q. split; [reflexivity|]. split; [apply Forall_app; split; assumption|].
  split; [|split; [exact G2|]].
  - split; [exact Ot|]. split; [exact Pt|]. split; [exact SA|]. split; [|split].
    + intros id H. rewrite K1 by lia. apply G5. exact H.
    + destruct (dget d1 (l_id t)) as [f|] eqn:Ef; [left; apply K3; discriminate|right]. split; [|now apply K4]. destruct (Z.eq_dec (l_off t) 0); [assumption|]. destruct G5 as (_ & _ & G5). destruct (G5 ltac:(destruct Ot; lia)) as (f' & X1 & _). congruence.
    + exact K2.
  - assert (Y : forall id, id <= l_id t -> dget d1 id <> None -> dget (dapply_all d (os ++ dd)) id <> None).
    { intros id H N. destruct (Z.eq_dec id (l_id t)) as [->|]; [rewrite K3 by assumption; discriminate|rewrite K1 by lia; assumption]. }
    split; [intros id H; destruct (G3 id H); now apply Y|]. intros id H N. apply Y; [assumption|]. now apply G4.
Qed.

(** ** What is on disk when the process starts *)
Lemma layout_pre d g gt p a : layout d g p -> loc_ok a -> le a p -> take (pos a) g = take (pos a) gt -> pre d gt a.
Proof.
  intros (O & P & S & B & C & D) Oa L A. assert (NA : 0 <= (l_id a - 1) * fs) by (destruct Oa; nia). split; [exact S|]. split.
  - intros id H. rewrite B by (unfold le in L; lia). f_equal. apply (file_ext fs FS g gt id (pos a)); [lia| |exact A]. unfold BlkSpec.pos. destruct Oa. nia.
  - intro H. assert (X : take (l_off a) (file g (l_id a)) = take (l_off a) (file gt (l_id a))) by (apply file_prefix; [assumption|apply Oa|apply Oa|exact A]).
    destruct (Z.eq_dec (l_id a) (l_id p)) as [E|E].
    + unfold le in L. destruct C as [C|[C _]]; [|lia]. exists (file g (l_id a)). rewrite E at 1. rewrite C, E. split; [reflexivity|]. rewrite (last_file g p O P). split; [lia|]. now rewrite <- E.
    + exists (file g (l_id a)). unfold le in L. rewrite B by (destruct Oa; lia). split; [reflexivity|]. rewrite (full_file g p) by (try assumption; destruct Oa; lia). split; [apply Oa|exact X].
Qed.
Lemma layout_ub d g p : layout d g p -> forall id f, dget d id = Some f -> le (Loc id (zlen f)) p.
Proof.
  intros (O & P & S & B & C & D) id f E. destruct (Z.lt_trichotomy id (l_id p)) as [H|[H|H]].
  - left. exact H. 
  - subst id. right. split; [reflexivity|]. cbn. destruct C as [C|[_ C]]; rewrite C in E; [|discriminate]. injection E as <-. rewrite (last_file g p O P). lia.
  - rewrite D in E by assumption. discriminate.
Qed.
Lemma layout_end d g p : layout d g p -> layout d g (disk_end d).
Proof.
  intros LY. assert (UB := layout_ub d g p LY). destruct LY as (O & P & S & B & C & D). destruct (end_spec fs FS d S) as (EO & EU & EX). set (e := disk_end d) in *.
  assert (HE : forall id, l_id e < id -> dget d id = None) by (intros id H; destruct (dget d id) as [f|] eqn:E; [|reflexivity]; apply EU in E; unfold le in E; cbn in E; lia).
  assert (K : e = p \/ e = Loc (l_id p - 1) fs /\ l_off p = 0 /\ 2 <= l_id p).
  { destruct C as [C|[C1 C2]].
    - left. assert (L1 := EU _ _ C). rewrite (last_file g p O P) in L1. apply le_antisym; [|destruct p; exact L1]. destruct EX as [[X1 X2]|(f & X1 & X2)]; [rewrite X2; unfold le; cbn; destruct O; lia|]. apply UB in X1. rewrite X2 in X1. destruct e; exact X1.
    - destruct (Z.eq_dec (l_id p) 1) as [P1|P1].
      + left. destruct EX as [[X1 X2]|(f & X1 & X2)]; [rewrite X2; destruct p; cbn in *; congruence|]. exfalso. apply S in X1 as Y. assert (Y2 := UB _ _ X1). unfold le in Y2. cbn in Y2. assert (l_id e = l_id p) by lia. congruence.
      + right. destruct O as [O1 O2]. split; [|lia]. assert (Bp := B (l_id p - 1) ltac:(lia)). assert (L1 := EU _ _ Bp). rewrite (full_file g p) in L1 by (try split; try assumption; lia).
        destruct EX as [[X1 X2]|(f & X1 & X2)]; [rewrite X2 in *; unfold le in L1; cbn in L1; lia|]. assert (Y2 := UB _ _ X1). unfold le in L1, Y2. cbn in L1, Y2. assert (l_id e <> l_id p) by congruence. destruct EO as [EO1 EO2]. destruct e as [i o]. cbn in *. f_equal; lia. }
  destruct K as [->|(K1 & K2 & K3)]; [exact (conj O (conj P (conj S (conj B (conj C D)))))|]. split; [exact EO|]. rewrite K1 in *. split; [rewrite <- P; unfold BlkSpec.pos; cbn; lia|]. split; [exact S|]. cbn [l_id l_off] in *. split; [intros id H; apply B; lia|]. split; [left; apply B; lia|exact HE].
Qed.

(** ** The invariant *)
Definition front (s : fstate) : loc := match f_fly s with Some (a, _, _) => a | None => f_next s end.
Definition flags (f : loc) (d : disk) (fly : option (loc * loc * list Z)) (id : Z) (w : bool) : Prop :=
  (loc_lt (Loc id 0) f = true -> w = true) /\ (w = true -> dget d id <> None) /\
  match fly with Some (_, t, _) => l_id t < id -> w = false | None => True end.
Record inv (s : fstate) (g : log) : Prop := {
  v_mem : mem_ok (f_items s) (f_disk s) (g_now g) (l_id (front s));
  v_fl : all_fl (flags (front s) (f_disk s) (f_fly s)) (f_items s);
  v_lay : layout (f_disk s) (g_disk g) (f_prev s);
  v_ok : loc_ok (f_next s) /\ loc_ok (front s);
  v_next : le (f_next s) (latest s);
  v_prev : le (front s) (f_prev s);
  v_win : match f_fly s with
          | None => g_fly g = None /\ take (pos (f_next s)) (g_now g) = take (pos (f_next s)) (g_disk g)
          | Some (a, t, b) => exists gt, g_fly g = Some gt /\ loc_ok t /\ pos t = zlen gt /\ le a t /\ b = drop (pos a) gt /\
              take (pos a) (g_disk g) = take (pos a) gt /\ le (f_next s) t /\ l_id a <= l_id (f_next s) /\ take (pos (f_next s)) (g_now g) = take (pos (f_next s)) gt
          end }.
Lemma agree_le (g h : list Z) n m : 0 <= m <= n -> take n g = take n h -> take m g = take m h.
Proof. intros H E. rewrite <- (Z.min_l m n) by lia. rewrite <- !take_take by lia. now rewrite E. Qed.
Lemma pos_nonneg l : loc_ok l -> 0 <= pos l. Proof. intros [A B]. unfold BlkSpec.pos. nia. Qed.
Lemma lt_mono f f' x : le f' f -> loc_lt x f' = true -> loc_lt x f = true.
Proof. unfold le, loc_lt. rewrite !orb_true_iff, !andb_true_iff. lia. Qed.
Lemma start_inv d g p : layout d g p -> exists s, start fs cl d = Some s /\ inv s (Log g g None).
Proof.
  intro LY. apply layout_end in LY. assert (LY' := LY). destruct LY as (O & P & S & B & C & D). destruct (start_spec fs cl FS d S) as (buf & E & Zb & T). set (e := disk_end d) in *. eexists. split; [exact E|]. constructor; cbn [front f_fly f_next f_items f_disk f_prev g_now g_disk g_fly].
  - assert (I : file g (l_id e) = match dget d (l_id e) with Some f => f | None => [] end). { destruct C as [C|[C1 C2]]; [now rewrite C|rewrite C2]. apply zlen_nil_inv. rewrite (last_file g e O P). exact C1. }
    repeat split.
    + constructor; [|constructor]. destruct O. repeat split; cbn [i_id i_buf i_len]; try lia. now rewrite T, I.
    + exact B.
    + unfold low. cbn. lia.
    + symmetry. rewrite <- P. now destruct e.
    + cbn. lia.
  - intros x [<-|[]]. cbn [i_id i_writer]. split; [|split; [|exact Logic.I]].
    + intro H. apply lt_true in H as [H1 H2]. apply Z.ltb_lt. destruct O. destruct (Z.eq_dec (l_off e) 0) as [Z0|]; [|lia]. exfalso. apply H2. destruct e as [i o]. cbn in *. congruence.
    + intro H. apply Z.ltb_lt in H. destruct C as [C|[C _]]; [rewrite C; discriminate|lia].
  - exact LY'.
  - split; exact O.
  - unfold latest. cbn. destruct e; apply le_refl.
  - apply le_refl.
  - split; reflexivity.
Qed.
Lemma inv_ub s g : inv s g -> forall x, In x (f_items s) -> i_id x <= l_id (latest s).
Proof.
  intros V x J. destruct (v_mem s g V) as (C & _ & _ & _ & L). unfold latest. destruct (f_items s) as [|it r]; [contradiction|]. pose proof (consec_range (it :: r) C) as (_ & R & _). cbn. apply R, J.
Qed.
Lemma mem_cache its d g q a : mem_ok its d g q -> q <= l_id a -> forall id, l_id a <= id <= match its with it :: _ => i_id it | [] => 0 end -> exists x, find (fun y => i_id y =? id) its = Some x.
Proof.
  intros (C & _ & _ & Lq & L) H id K. destruct its as [|it r]; [contradiction|]. destruct (consec_find (it :: r) C id ltac:(lia)) as (x & E & _). now exists x.
Qed.
Lemma mem_mark its d d' g q0 q P : mem_ok its d g q0 -> durable d' g q -> q0 <= q -> q <= match its with it :: _ => i_id it | [] => 0 end -> mem_ok (mark P its) d' g q.
Proof.
  intros (C & F & _ & Lq & L) D Q1 Q2. assert (ID : forall x, i_id (mk P x) = i_id x /\ i_buf (mk P x) = i_buf x /\ i_len (mk P x) = i_len x) by (intro x; unfold mk; destruct (P (i_id x)); repeat split).
  change (mark P its) with (map (mk P) its). split; [|split; [|split; [exact D|split]]].
  - clear -C ID. induction its as [|x r IH]; [exact Logic.I|]. destruct C as [C1 C2]. split; [|now apply IH]. destruct r as [|y r]; [exact Logic.I|]. cbn [map]. destruct (ID x) as [-> _]. destruct (ID y) as [-> _]. exact C1.
  - rewrite Forall_forall in *. intros y J. apply in_map_iff in J as (x & <- & J). specialize (F x J). unfold BlkProofs.item_ok. destruct (ID x) as (-> & -> & ->). exact F.
  - assert (LL : low (map (mk P) its) = low its). { clear -ID. unfold low. induction its as [|x r IH]; [reflexivity|]. destruct r as [|y r]; [cbn; apply ID|]. exact IH. } rewrite LL. lia.
  - destruct its as [|x r]; [contradiction|]. cbn [map]. destruct (ID x) as (-> & _ & ->). split; [apply L|exact Q2].
Qed.

Lemma inv_write s g b : inv s g -> allowed fs cl s g (OWrite b) -> exists s', fm_write fs cl s b = Some (latest s, s') /\ inv s' (lstep fs g (OWrite b)).
Proof.
  intros V A. destruct V as [Vm Vf Vl Vo Vn Vp Vw]. destruct (latest_pos fs s _ _ Vm) as [PG PO].
  destruct (write_spec fs cl FS CL (flags (front s) (f_disk s) (f_fly s)) (l_id (front s))) with (fuel := (2 * length b + 2)%nat) (s := s) (g := g_now g) (b := b) as (its & E & M & F & L).
  - intros id H. split; [|split; [discriminate|destruct (f_fly s) as [[[? ?] ?]|]; auto]]. intro K. apply lt_true in K as [K _]. unfold le in K. cbn in K. lia.
  - exact Vm. - exact Vf.
  - unfold front in *. cbn [allowed] in A. destruct (f_fly s) as [[[a t] x]|]; [now right|left; lia].
  - unfold zlen. destruct (l_off (latest s) =? fs); lia.
  - unfold fm_write. rewrite E. eexists. split; [reflexivity|]. cbn [lstep]. 
    assert (AP : take (pos (f_next s)) (g_now g ++ b) = take (pos (f_next s)) (g_now g)) by (apply take_app_le; rewrite PG; apply pos_le; [assumption|apply Vo|exact PO|exact Vn]).
    constructor; cbn [with_items f_items f_disk f_next f_prev f_fly g_now g_disk g_fly]; try assumption.
    + eapply le_trans; [exact Vn|exact L].
    + destruct (f_fly s) as [[[a t] x]|].
      * destruct Vw as (gt & W). exists gt. rewrite AP. exact W.
      * rewrite AP. exact Vw.
Qed.
Lemma inv_delete s g l : inv s g -> allowed fs cl s g (ODelete l) -> exists s', delete_to fs cl s l = Some s' /\ inv s' (lstep fs g (ODelete l)).
Proof.
  intros V (O & A1 & A2). assert (V' := V). destruct V' as [Vm Vf Vl [Vo1 Vo2] Vn Vp Vw]. destruct (latest_pos fs s _ _ Vm) as [PG PO]. destruct (loc_lt l (latest s)) eqn:LT.
  2:{ exists s. split; [unfold delete_to; now rewrite LT|]. cbn [lstep]. rewrite take_all; [destruct g; exact V|]. rewrite PG. apply pos_le; try assumption. now apply lt_le. }
  destruct (delete_spec fs cl FS s _ _ l Vm O LT A1) as (its & E & H & M & F). eexists. split; [exact E|]. set (nx := if loc_lt l (f_next s) then l else f_next s).
  assert (N1 : le nx l /\ le nx (f_next s) /\ loc_ok nx /\ (nx = l \/ nx = f_next s /\ le (f_next s) l)).
  { unfold nx. destruct (loc_lt l (f_next s)) eqn:K; [apply lt_true in K as [K _]; repeat split; try apply le_refl; try assumption; try apply O; now left|apply lt_le in K; repeat split; try apply le_refl; try assumption; try apply Vo1; now right]. }
  destruct N1 as (N1 & N2 & N3 & N4). assert (LL : match its with it :: _ => Loc (i_id it) (i_len it) | [] => Loc 0 0 end = l) by (destruct its; [contradiction|exact H]).
  assert (Lq : low (f_items s) <= l_id (front s)) by apply Vm.
  assert (PNX : 0 <= pos nx <= pos l) by (split; [now apply pos_nonneg|now apply pos_le]).
  assert (PNN : 0 <= pos nx <= pos (f_next s)) by (split; [now apply pos_nonneg|now apply pos_le]).
  assert (AP : take (pos nx) (take (pos l) (g_now g)) = take (pos nx) (g_now g)) by (rewrite take_take by lia; f_equal; f_equal; lia).
  unfold front in *. destruct (f_fly s) as [[[a t] x]|] eqn:EF.
  - constructor; cbn [lstep front f_items f_disk f_next f_prev f_fly g_now g_disk g_fly]; try assumption; unfold front; cbn [f_fly f_next].
    + apply M; lia.
    + apply F; [exact Vf|left; lia].
    + split; assumption.
    + unfold latest. cbn. rewrite LL. exact N1.
    + destruct Vw as (gt & W1 & W2 & W3 & W4 & W5 & W6 & W7 & W8 & W9). exists gt. repeat split; try assumption; try apply W2; try (eapply le_trans; eassumption).
      * destruct N4 as [->|[-> _]]; assumption.
      * rewrite AP. now apply (agree_le _ _ (pos (f_next s))).
  - constructor; cbn [lstep front f_items f_disk f_next f_prev f_fly g_now g_disk g_fly]; try assumption; unfold front; cbn [f_fly f_next].
    + apply M; [unfold le in N2; lia|unfold le in N1; lia|destruct N4 as [->|[-> _]]; lia].
    + apply F.
      * intros y J. destruct (Vf y J) as (F1 & F2 & F3). split; [|split; assumption]. intro K. apply F1. eapply lt_mono; eassumption.
      * destruct (Z.le_gt_cases (low (f_items s)) (l_id l)) as [K|K]; [now left|right]. assert (nx = l) as -> by (destruct N4 as [|[_ N4]]; [assumption|unfold le in N4; lia]). split; [|split; [|exact Logic.I]].
        -- intro X. apply lt_true in X as [X1 X2]. apply Z.ltb_lt. destruct O. destruct (Z.eq_dec (l_off l) 0) as [Z0|]; [|lia]. exfalso. apply X2. destruct l as [i o]. cbn in *. congruence.
        -- intro X. destruct Vm as (_ & _ & D & _). rewrite (D (l_id l)) by (destruct O; lia). discriminate.
    + split; assumption.
    + unfold latest. cbn. rewrite LL. exact N1.
    + eapply le_trans; eassumption.
    + split; [apply Vw|]. rewrite AP. apply (agree_le _ _ (pos (f_next s))); [assumption|apply Vw].
Qed.
Lemma inv_prepare s g : inv s g -> f_fly s = None -> exists s', prepare fs s = Some s' /\ inv s' (lstep fs g OPrepare).
Proof.
  intros V A. destruct V as [Vm Vf Vl [Vo1 Vo2] Vn Vp Vw]. destruct (latest_pos fs s _ _ Vm) as [PG PO]. unfold front in *. rewrite A in *.
  destruct (range_spec fs FS s _ _ Vm (Z.to_nat (l_id (latest s) - l_id (f_next s)) + 1) (f_next s) (latest s) Vo1 PO Vn (le_refl _) ltac:(unfold le in Vn; lia)) as (ps & E & C).
  unfold prepare, range. rewrite E. eexists. split; [reflexivity|]. constructor; unfold front; cbn [lstep f_items f_disk f_next f_prev f_fly g_now g_disk g_fly]; try assumption.
  - intros y J. destruct (Vf y J) as (F1 & F2 & F3). split; [exact F1|]. split; [exact F2|]. intro K. exfalso. unfold latest in K. destruct Vm as (C1 & _ & _ & _ & L). destruct (f_items s) as [|it r]; [contradiction|]. pose proof (consec_range (it :: r) C1) as (_ & R & _). specialize (R y J). cbn in K. lia.
  - split; assumption.
  - apply le_refl.
  - exists (g_now g). destruct Vw as [W1 W2]. split; [reflexivity|]. split; [exact PO|]. split; [congruence|]. split; [exact Vn|]. split; [|split; [congruence|split; [apply le_refl|split; [unfold le in Vn; lia|reflexivity]]]].
    rewrite C. pose proof (pos_nonneg _ Vo1). rewrite take_all; [reflexivity|]. rewrite zlen_drop by assumption. pose proof (pos_le fs FS _ _ Vo1 PO Vn). lia.
Qed.
Lemma inv_cancel s g : inv s g -> f_fly s <> None -> inv (cancel s) (lstep fs g OCancel).
Proof.
  intros V A. destruct V as [Vm Vf Vl [Vo1 Vo2] Vn Vp Vw]. unfold cancel. unfold front in *. destruct (f_fly s) as [[[a t] b]|] eqn:EF; [|contradiction]. destruct Vw as (gt & W1 & W2 & W3 & W4 & W5 & W6 & W7 & W8 & W9).
  set (nx := if loc_lt a (f_next s) then a else f_next s).
  assert (N : loc_ok nx /\ le nx a /\ le nx (f_next s) /\ l_id nx = l_id a).
  { unfold nx. destruct (loc_lt a (f_next s)) eqn:K; [apply lt_true in K as [K _]; repeat split; try apply le_refl; try assumption; apply Vo2|apply lt_le in K; repeat split; try apply le_refl; try assumption; try apply Vo1; unfold le in K; lia]. }
  destruct N as (N1 & N2 & N3 & N4). pose proof (pos_nonneg _ N1). pose proof (pos_le fs FS _ _ N1 Vo2 N2). pose proof (pos_le fs FS _ _ N1 Vo1 N3).
  constructor; unfold front; cbn [lstep f_items f_disk f_next f_prev f_fly g_now g_disk g_fly]; try assumption.
  - now rewrite N4.
  - intros y J. destruct (Vf y J) as (F1 & F2 & F3). split; [|split; [exact F2|exact Logic.I]]. intro K. apply F1. eapply lt_mono; eassumption.
  - split; assumption.
  - exact (le_trans _ _ _ N3 Vn).
  - exact (le_trans _ _ _ N2 Vp).
  - split; [reflexivity|]. rewrite (agree_le _ _ (pos (f_next s)) (pos nx) ltac:(lia) W9). symmetry. apply (agree_le _ _ (pos a)); [lia|exact W6].
Qed.
(** A flush of the window. *)
Lemma window_flush s g a t b : inv s g -> f_fly s = Some (a, t, b) -> exists gt os P, g_fly g = Some gt /\ loc_ok a /\ loc_ok t /\ pos t = zlen gt /\ le a t /\ b = drop (pos a) gt /\ pre (f_disk s) gt a /\
  flush fs s a t b = Some (os, FState (mark P (f_items s)) (dapply_all (f_disk s) os) (f_next s) t (f_fly s)) /\ Forall (op_safe a) os /\
  layout (dapply_all (f_disk s) os) gt t /\
  (forall id, l_id a <= id <= l_id (latest s) -> loc_lt (Loc id 0) t = true -> loc_lt a t = true -> P id = true) /\
  (forall id, P id = true -> dget (dapply_all (f_disk s) os) id <> None) /\
  (forall id, id <= l_id t -> dget (f_disk s) id <> None -> dget (dapply_all (f_disk s) os) id <> None).
Proof.
  intros [Vm Vf Vl [Vo1 Vo2] Vn Vp Vw] EF. unfold front in *. rewrite EF in *. destruct Vw as (gt & W1 & W2 & W3 & W4 & W5 & W6 & W7 & W8 & W9).
  assert (PR : pre (f_disk s) gt a) by (eapply layout_pre; eassumption).
  destruct (flush_spec gt s a t b Vo2 W2 W3 W4 W5) as (os & P & E & G1 & G2 & G3 & G4 & G5).
  - intros id H. apply (mem_cache _ _ _ _ a Vm ltac:(lia)). unfold latest in H. destruct (f_items s); exact H.
  - intro K. split; [unfold latest; destruct Vm as (_ & _ & _ & _ & L); destruct (f_items s); [contradiction|apply L]|]. intros y J I. apply (Vf y J). rewrite I. apply lt_true. unfold le. cbn. split; [lia|]. intros X. rewrite <- X in K. cbn in K. lia.
  - intros y J. apply (Vf y J).
  - exact PR.
  - eapply layout_ub. exact Vl.
  - exists gt, os, P. rewrite EF in E. exact (conj W1 (conj Vo2 (conj W2 (conj W3 (conj W4 (conj W5 (conj PR (conj E (conj G1 (conj G2 (conj G3 (conj G4 G5)))))))))))).
Qed.
Lemma inv_commit s g : inv s g -> f_fly s <> None -> exists s', commit fs s = Some s' /\ inv s' (lstep fs g OCommit).
Proof.
  intros V A. destruct (f_fly s) as [[[a t] b]|] eqn:EF; [|contradiction]. destruct (window_flush s g a t b V EF) as (gt & os & P & B1 & B2 & B3 & B4 & B5 & B6 & B7 & E & G1 & G2 & G3 & G4 & G5).
  assert (UB := inv_ub s g V). destruct V as [Vm Vf Vl [Vo1 Vo2] Vn Vp Vw]. unfold commit. rewrite EF, E. cbn [f_items f_disk f_next f_prev f_fly]. eexists. split; [reflexivity|]. cbn [lstep]. rewrite B1.
  unfold front in *. rewrite EF in *. destruct Vw as (gt' & W1 & W2 & W3 & W4 & W5 & W6 & W7 & W8 & W9). assert (gt' = gt) as -> by congruence.
  constructor; unfold front; cbn [lstep f_items f_disk f_next f_prev f_fly g_now g_disk g_fly]; try assumption.
  - apply (mem_mark _ (f_disk s) _ _ (l_id a)); [exact Vm| |exact W8|].
    + intros id H. destruct G2 as (_ & _ & _ & D & _). rewrite D by (unfold le in W7; lia). f_equal. apply (file_ext fs FS _ _ id (pos (f_next s))); [lia| |congruence]. unfold BlkSpec.pos. destruct Vo1. nia.
    + unfold latest, le in Vn. destruct (f_items s); cbn in Vn; lia.
  - intros x J. apply mark_in in J as (y & J & I1 & I2). destruct (Vf y J) as (F1 & F2 & F3). rewrite I1, I2. split; [|split; [|exact Logic.I]].
    + intro K. destruct (loc_lt (Loc (i_id y) 0) a) eqn:X; [rewrite F1 by reflexivity; apply orb_true_r|]. apply lt_le in X. assert (K' := lt_mono _ _ _ W7 K). rewrite G3; [reflexivity|split; [unfold le in X; cbn in X; lia|now apply UB]|exact K'|]. apply lt_true in K' as [K1 K2]. apply lt_true. split; [exact B5|]. intros ->. apply K2. now apply le_antisym.
    + intro K. apply orb_true_iff in K as [K|K]; [now apply G4|]. apply G5; [|now apply F2]. destruct (Z.le_gt_cases (i_id y) (l_id t)); [assumption|]. rewrite F3 in K by lia. discriminate.
  - split; assumption.
  - unfold latest in *. cbn [f_items]. destruct (f_items s) as [|y r]; [exact Vn|]. cbn. destruct (P (i_id y)); exact Vn.
  - split; [reflexivity|]. congruence.
Qed.
Lemma inv_crash s g : inv s g -> exists s', start fs cl (f_disk s) = Some s' /\ inv s' (lstep fs g OCrash).
Proof. intros V. exact (start_inv _ _ _ (v_lay s g V)). Qed.
(** ** Recovery *)
Lemma cut_back d g a : pre d g a -> loc_ok a -> pos a <= zlen g -> last_id d <= l_id a + 1 -> exists s0 x n, start fs cl d = Some s0 /\ delete_to fs cl s0 a = Some (FState [x] d n (disk_end d) None) /\
  mem_ok [x] d (take (pos a) g) (l_id n) /\ loc_ok n /\ le n a /\ Loc (i_id x) (i_len x) = n /\ (n = a \/ l_off a = 0) /\ flags n d None (i_id x) (i_writer x).
Proof.
  intros P O PG LI. destruct P as (S & B & C). destruct (start_spec fs cl FS d S) as (buf & E & Zb & T). destruct (end_spec fs FS d S) as (EO & EU & EX). set (e := disk_end d) in *.
  assert (PA : 0 <= pos a) by now apply pos_nonneg.
  assert (FT : forall id, 1 <= id < l_id a -> file (take (pos a) g) id = file g id) by (intros id H; apply file_take; [assumption|lia|unfold BlkSpec.pos; destruct O; nia]).
  assert (ZT : zlen (take (pos a) g) = pos a) by (rewrite zlen_take by lia; lia).
  assert (LA : file (take (pos a) g) (l_id a) = take (l_off a) (file g (l_id a))) by now apply file_shorter.
  assert (DU : forall q, q <= l_id a -> durable d (take (pos a) g) q) by (intros q Q id H; rewrite FT by lia; apply B; lia).
  (* a single item at [a] *)
  assert (ONE : forall buf' w, zlen buf' = fs -> take (l_off a) buf' = take (l_off a) (file g (l_id a)) -> mem_ok [Item (l_id a) buf' (l_off a) w] d (take (pos a) g) (l_id a)).
  { intros buf' w Z1 T1. split; [split; exact Logic.I|]. split; [constructor; [|constructor]; destruct O; repeat split; cbn [i_id i_buf i_len]; try lia; now rewrite LA|]. split; [now apply DU|]. split; [unfold low; cbn; lia|]. split; [rewrite ZT; now destruct a|cbn; lia]. }
  assert (FW : forall o, l_off a <= o -> (0 < o -> dget d (l_id a) <> None) -> flags a d None (l_id a) (0 <? o)).
  { intros o H1 H2. split; [|split; [|exact Logic.I]].
    - intro H. apply lt_true in H as [_ H]. apply Z.ltb_lt. destruct O. destruct (Z.eq_dec (l_off a) 0) as [Z0|]; [|lia]. exfalso. apply H. destruct a as [i o']. cbn in *. congruence.
    - intro H. apply Z.ltb_lt in H. now apply H2. }
  assert (AF : 0 < l_off a -> dget d (l_id a) <> None) by (intro H; destruct (C H) as (f & C1 & _); congruence).
  assert (AE : l_id a = l_id e -> l_off a <= l_off e). { intros H. destruct (Z.eq_dec (l_off a) 0) as [Z0|Z0]; [destruct EO; lia|]. destruct (C ltac:(destruct O; lia)) as (f & C1 & C2 & _). apply EU in C1. unfold le in C1. cbn in C1. lia. }
  (* the bytes of the last file up to [a] *)
  assert (TA : l_id a = l_id e -> take (l_off a) buf = take (l_off a) (file g (l_id a))).
  { intro Y. specialize (AE Y). destruct (Z.eq_dec (l_off a) 0) as [->|Z0]; [reflexivity|]. destruct (C ltac:(destruct O; lia)) as (f & C1 & C2 & C3). rewrite <- C3. rewrite <- Y, C1 in T. rewrite <- T, take_take by (destruct O, EO; lia). f_equal. f_equal. lia. }
  set (s0 := FState [Item (l_id e) buf (l_off e) (0 <? l_off e)] d e e None) in *. exists s0. assert (LE0 : latest s0 = e) by (unfold latest; cbn; now destruct e).
  unfold delete_to. rewrite LE0. cbn [s0 f_items f_disk f_next f_prev f_fly]. destruct (loc_lt a e) eqn:LT; cbn [negb].
  - apply lt_true in LT as LT'. destruct LT' as [LE _]. assert (LI' : l_id e <= l_id a + 1). { destruct EX as [[_ X]|(f & X & _)]; [rewrite X; cbn; destruct O; lia|]. apply last_id_ge in X. lia. }
    destruct (Z.eq_dec (l_id a) (l_id e)) as [Y|Y].
    + exists (Item (l_id a) buf (l_off a) (0 <? l_off e)), a. split; [exact E|]. rewrite <- Y, Z.sub_diag. cbn [Z.to_nat pop]. unfold open_file. cbn [i_id i_buf i_writer]. rewrite Z.eqb_refl. split; [reflexivity|].
      split; [apply ONE; [exact Zb|now apply TA]|]. split; [exact O|]. split; [apply le_refl|]. split; [now destruct a|]. split; [now left|]. cbn [i_id i_writer]. apply FW; [now apply AE|]. intro H. destruct EX as [[_ X]|(f & X & _)]; [rewrite X in H; cbn in H; lia|]. rewrite Y, X. discriminate.
    + assert (Y' : l_id e = l_id a + 1) by (unfold le in LE; lia). exists (Item (l_id a) (take (l_off a) (match dget d (l_id a) with Some f => f | None => [] end) ++ drop (l_off a) (repeat 0 (Z.to_nat fs))) (l_off a) (0 <? l_off a)), a. split; [exact E|].
      rewrite Y'. replace (l_id a + 1 - l_id a) with 1 by lia. change (Z.to_nat 1) with 1%nat. cbn [pop]. unfold open_file. cbn [rev drop_stale reuse].
      assert (X : exists fl, (if 0 <? l_off a then dget d (l_id a) else Some []) = Some fl /\ l_off a <= zlen fl /\ take (l_off a) fl = take (l_off a) (file g (l_id a)) /\ take (l_off a) fl = take (l_off a) (match dget d (l_id a) with Some f => f | None => [] end)).
      { destruct (Z.ltb_spec 0 (l_off a)) as [Y2|Y2].
        - destruct (C Y2) as (f & C1 & C2 & C3). rewrite C1. exists f. now repeat split.
        - exists []. assert (l_off a = 0) as -> by (destruct O; lia). split; [reflexivity|]. split; [apply zlen_nonneg|]. split; reflexivity. }
      destruct X as (fl & X1 & X2 & X3 & X4). rewrite X1. destruct (Nat.ltb_spec (length fl) (Z.to_nat (l_off a))); [unfold zlen in X2; lia|]. destruct (Z.ltb_spec fs (l_off a)); [destruct O; lia|]. cbn [orb]. rewrite X4. split; [reflexivity|].
      split; [apply ONE|split; [exact O|split; [apply le_refl|split; [now destruct a|split; [now left|]]]]].
      * rewrite <- X4. destruct O. rewrite zlen_app, zlen_take, zlen_drop, zlen_repeat by lia. lia.
      * rewrite <- X4. destruct O. rewrite take_app_le by (rewrite zlen_take by lia; lia). rewrite take_take, Z.min_id by lia. exact X3.
      * cbn [i_id i_writer]. apply FW; [lia|exact AF].
  - apply lt_le in LT. exists (Item (l_id e) buf (l_off e) (0 <? l_off e)), e. split; [exact E|]. split; [reflexivity|].
    destruct (Z.eq_dec (l_id a) (l_id e)) as [Y|Y].
    + specialize (AE Y). assert (EA : e = a) by (unfold le in LT; destruct e as [i o], a as [i' o']; cbn in *; f_equal; lia). rewrite EA in *. split; [apply ONE; [exact Zb|now apply TA]|]. split; [exact O|]. split; [apply le_refl|]. split; [now destruct a|]. split; [now left|]. cbn [i_id i_writer]. apply FW; [lia|exact AF].
    + assert (O0 : l_off a = 0). { destruct (Z.eq_dec (l_off a) 0) as [|Z0]; [assumption|]. destruct (C ltac:(destruct O; lia)) as (f & C1 & _). apply EU in C1. unfold le in *. cbn in *. lia. }
      assert (A2 : 2 <= l_id a) by (unfold le in LT; destruct EO; lia). assert (Bp := B (l_id a - 1) ltac:(lia)). assert (L1 := EU _ _ Bp).
      assert (FL : zlen (file g (l_id a - 1)) = fs) by (apply file_full; [assumption|lia|]; unfold BlkSpec.pos in PG; nia). rewrite FL in L1.
      assert (EE : e = Loc (l_id a - 1) fs) by (unfold le in *; destruct EO; destruct e as [i o]; cbn in *; f_equal; lia). clear E LE0 s0. clearbody e. subst e. cbn [l_id l_off] in *. rewrite Bp in T.
      split; [|split; [exact EO|split; [exact LT|split; [reflexivity|split; [now right|]]]]].
      * split; [split; exact Logic.I|]. split; [constructor; [|constructor]; repeat split; cbn [i_id i_buf i_len]; try lia; rewrite FT by lia; exact T|]. split; [apply DU; lia|]. split; [unfold low; cbn; lia|]. split; [|cbn; lia]. rewrite ZT. unfold BlkSpec.pos. cbn. lia.
      * split; [|split; [|exact Logic.I]]; intros _; [destruct (Z.ltb_spec 0 fs); [reflexivity|lia]|cbn [i_id]; rewrite Bp; discriminate].
Qed.
Lemma recover_inv d g a t b : pre d g a -> loc_ok a -> loc_ok t -> pos t = zlen g -> le a t -> b = drop (pos a) g -> last_id d <= l_id a + 1 ->
  exists s, recover fs cl d a t b = Some s /\ inv s (Log g g None).
Proof.
  intros P Oa Ot Pt L Eb LI. assert (PG : pos a <= zlen g) by (rewrite <- Pt; now apply pos_le). destruct (cut_back d g a P Oa PG LI) as (s0 & x & n & E0 & E1 & M1 & N1 & N2 & N3 & N4 & N5).
  assert (NI : i_id x = l_id n) by (rewrite <- N3; reflexivity). unfold recover. rewrite E0, E1. set (s1 := FState [x] d n (disk_end d) None) in *.
  assert (Q1 : forall id, l_id n < id -> (fun id w => flags n d None id w /\ (l_id n < id -> w = false)) id false).
  { intros id H. split; [|auto]. split; [|split; [discriminate|exact Logic.I]]. intro K. apply lt_true in K as [K _]. unfold le in K. cbn in K. lia. }
  destruct (write_spec fs cl FS CL (fun id w => flags n d None id w /\ (l_id n < id -> w = false)) (l_id n) Q1 (2 * length b + 2) s1 (take (pos a) g) b M1) as (its & E2 & M2 & F2 & L2).
  - intros y [<-|[]]. split; [exact N5|lia].
  - left. cbn. lia.
  - unfold zlen. destruct (l_off (latest s1) =? fs); lia.
  - unfold fm_write. rewrite E2. rewrite Eb, take_drop_id in M2. set (s2 := with_items s1 its) in *.
    assert (LX : latest s1 = n) by exact N3. rewrite LX in L2.
    assert (QL : l_id n <= l_id (latest s2)) by (unfold le in L2; lia).
    destruct (flush_spec g s2 a t b Oa Ot Pt L Eb) as (os & Q & E & G1 & G2 & G3 & G4 & G5).
    + intros id H. apply (mem_cache its d g (l_id n) a M2); [unfold le in N2; lia|]. unfold latest in H. cbn [s2 with_items f_items] in H. destruct its; exact H.
    + intro K. destruct N4 as [->|N4]; [|lia]. split; [exact QL|]. intros y J I. apply (F2 y J). rewrite I. apply lt_true. unfold le. cbn. split; [lia|]. intros X. rewrite <- X in K. cbn in K. lia.
    + intros y J. apply (F2 y J).
    + exact P.
    + apply (end_spec fs FS). apply P.
    + rewrite E. eexists. split; [reflexivity|]. cbn [s2 with_items s1 f_items f_disk f_next f_prev f_fly] in *.
      constructor; unfold front; cbn [f_items f_disk f_next f_prev f_fly g_now g_disk g_fly]; try assumption.
      * apply (mem_mark _ d _ _ (l_id n)); [exact M2| |lia|unfold latest in QL; cbn in QL; destruct its; exact QL].
        intros id H. destruct G2 as (_ & _ & _ & D & _). apply D. unfold le in *. lia.
      * intros z J. apply mark_in in J as (y & J & I1 & I2). destruct (F2 y J) as ((F3 & F4 & _) & F5). rewrite I1, I2. split; [|split; [|exact Logic.I]].
        -- intro K. rewrite F3 by exact K. apply orb_true_r.
        -- intro K. apply orb_true_iff in K as [K|K]; [now apply G4|]. apply G5; [|now apply F4]. destruct (Z.le_gt_cases (i_id y) (l_id n)); [unfold le in *; lia|]. rewrite F5 in K by lia. discriminate.
      * split; assumption.
      * unfold latest in *. cbn [f_items] in *. destruct its as [|y r]; [exact L2|]. cbn. destruct (Q (i_id y)); exact L2.
      * exact (le_trans _ _ _ N2 L).
      * split; reflexivity.
Qed.
Theorem step_ok s g o : inv s g -> allowed fs cl s g o -> exists s', fstep fs cl s o = Some s' /\ inv s' (lstep fs g o).
Proof.
  intros V A. destruct o as [b|l| | | | |k j]; cbn [fstep].
  - destruct (inv_write s g b V A) as (s' & E & I). exists s'. now rewrite E.
  - now apply inv_delete.
  - now apply inv_prepare.
  - exists (cancel s). split; [reflexivity|]. now apply inv_cancel.
  - now apply inv_commit.
  - now apply inv_crash.
  - cbn [allowed] in A. destruct (f_fly s) as [[[a t] b]|] eqn:EF; [|contradiction]. destruct (window_flush s g a t b V EF) as (gt & os & P & B1 & B2 & B3 & B4 & B5 & B6 & B7 & E & G1 & G2 & _).
    rewrite E in *. cbn [lstep]. rewrite B1. apply recover_inv; try assumption. now apply pre_crashed.
Qed.
Theorem reach_inv s g : reach fs cl s g -> inv s g.
Proof.
  induction 1 as [s E|s g o s' R IH A E].
  - destruct (start_inv [] [] (Loc 1 0)) as (s' & E' & I).
    + repeat split; cbn; try lia; try discriminate; try (now right); try reflexivity.
    + rewrite E in E'. now injection E' as ->.
  - destruct (step_ok s g o IH A) as (s'' & E' & I). rewrite E in E'. now injection E' as ->.
Qed.
End Files.
