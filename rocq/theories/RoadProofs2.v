From Verif Require Import Lib RoadModel RoadSpec RoadProofs.
From Coq Require Import Permutation.
Import ListNotations.

Definition val (o : option (Z * Z)) : Z * Z := match o with Some v => v | None => (0, 0) end.
Definition opt (x : Z * Z) : option (Z * Z) := if snd x =? 0 then None else Some x.
(** Entries hold what there is, and nothing for nothing. *)
Definition good (a n : Z) : Prop := 0 <= a /\ 0 <= n < two64 /\ (n = 0 -> a = 0).
Lemma good_conflict a n : good a n -> conflict a n = false.
Proof. intros (A & B & C). unfold conflict. destruct (Z.ltb_spec a 0); [lia|]. destruct (Z.ltb_spec n 0); [lia|]. destruct (Z.ltb_spec 0 a); [|reflexivity]. destruct (Z.eqb_spec n 0); [lia|reflexivity]. Qed.

(** ** Sums by token *)
Lemma bump_get m t a n x : val (get Z.eqb (bump m t a n) x) = (fst (val (get Z.eqb m x)) + (if t =? x then a else 0), snd (val (get Z.eqb m x)) + (if t =? x then n else 0)).
Proof.
  unfold bump. change (match get Z.eqb m t with Some v => v | None => (0, 0) end) with (val (get Z.eqb m t)). destruct (val (get Z.eqb m t)) as [u v] eqn:E. rewrite (get_put _ zeq). destruct (Z.eqb_spec t x) as [->|N]; cbn [val fst snd]; [now rewrite E|]. rewrite !Z.add_0_r. now destruct (val (get Z.eqb m x)).
Qed.
Lemma bump_nodup m t a n : NoDup (map fst m) -> NoDup (map fst (bump m t a n)).
Proof. intros N. unfold bump. destruct (match get Z.eqb m t with Some v => v | None => (0, 0) end). now apply nodup_put; [exact zeq|]. Qed.
Lemma aggregate_spec L : forall es m, (forall a f, In (ERecv a f) es -> look L f <> None) -> NoDup (map fst m) ->
  exists m', aggregate L es m = Some m' /\ NoDup (map fst m') /\
  forall t, val (get Z.eqb m' t) = (fst (val (get Z.eqb m t)) + sum (tv s_amt L t) es, snd (val (get Z.eqb m t)) + sum (tv one L t) es).
Proof.
  induction es as [|e es IH]; intros m H N; cbn [aggregate].
  - exists m. split; [reflexivity|]. split; [exact N|]. intros t. cbn [sum fold_right]. rewrite !Z.add_0_r. now destruct (val (get Z.eqb m t)).
  - assert (H' : forall a f, In (ERecv a f) es -> look L f <> None) by (intros a f X; apply (H a f); now right). destruct e as [s|a f].
    + destruct (IH (bump m (s_tok s) (s_amt s) 1) H' (bump_nodup _ _ _ _ N)) as (m' & A & B & C). exists m'. split; [exact A|]. split; [exact B|]. intros t. rewrite C, bump_get, !sum_cons. cbn [fst snd tv]. unfold one at 2. f_equal; destruct (s_tok s =? t); lia.
    + destruct (look L f) as [s|] eqn:E; [|exfalso; apply (H a f); [now left|exact E]]. destruct (IH (bump m (s_tok s) (- s_amt s) (-1)) H' (bump_nodup _ _ _ _ N)) as (m' & A & B & C). exists m'. split; [exact A|]. split; [exact B|]. intros t. rewrite C, bump_get, !sum_cons. cbn [fst snd tv]. rewrite E. unfold one at 2. f_equal; destruct (s_tok s =? t); lia.
Qed.

(** ** Batches *)
Lemma apply_get c st k : get keq (apply st c) k = if keq (fst c) k then snd c else get keq st k.
Proof. unfold apply. destruct c as [x [v|]]; cbn [fst snd]; [now rewrite (get_put _ keq_ok)|now rewrite (get_del _ keq_ok)]. Qed.
Lemma batch_none : forall cs st k, ~ In k (map fst cs) -> get keq (fold_left apply cs st) k = get keq st k.
Proof.
  induction cs as [|c cs IH]; intros st k N; cbn [fold_left]; [reflexivity|]. rewrite IH by (intros X; apply N; now right). rewrite apply_get. rewrite (eqb_no keq keq_ok (fst c) k); [reflexivity|]. intros Q. apply N. now left.
Qed.
Lemma batch_some : forall cs st k v, NoDup (map fst cs) -> In (k, v) cs -> get keq (fold_left apply cs st) k = v.
Proof.
  induction cs as [|c cs IH]; intros st k v N X; [destruct X|]. cbn in N. inversion_clear N as [|? ? A B]. cbn [fold_left]. destruct X as [->|X]; [|now apply IH]. rewrite batch_none by exact A. rewrite apply_get. cbn. now rewrite (eqb_refl _ keq_ok).
Qed.
Lemma batch_nodup : forall cs st, NoDup (map fst st) -> NoDup (map fst (fold_left apply cs st)).
Proof.
  induction cs as [|c cs IH]; intros st N; cbn [fold_left]; [exact N|]. apply IH. unfold apply. destruct (snd c); [now apply nodup_put; [exact keq_ok|]|now apply nodup_del; [exact keq_ok|]].
Qed.
Lemma nodup_flat {A B C D} (g : A * B -> list ((A * C) * D)) l : NoDup (map fst l) -> (forall x, In x l -> NoDup (map fst (g x)) /\ forall e, In e (g x) -> fst (fst e) = fst x) -> NoDup (map fst (flat_map g l)).
Proof.
  induction l as [|x l IH]; intros N H; [constructor|]. cbn in N |- *. inversion_clear N as [|? ? P Q]. rewrite map_app. destruct (H x (or_introl eq_refl)) as [H1 H2]. assert (H3 : NoDup (map fst (flat_map g l))) by (apply IH; [exact Q|intros y Y; apply H; now right]).
  assert (D1 : forall k, In k (map fst (g x)) -> ~ In k (map fst (flat_map g l))).
  { intros k K1 K2. apply in_map_iff in K1. destruct K1 as (e1 & <- & E1). apply in_map_iff in K2. destruct K2 as (e2 & F & E2). apply in_flat_map in E2. destruct E2 as (y & Y1 & Y2). destruct (H y (or_intror Y1)) as [_ H4]. apply P. rewrite <- (H2 e1 E1), <- F, (H4 e2 Y2). now apply in_map. }
  revert H1 D1. clear -H3. induction (map fst (g x)) as [|k ks IH]; cbn; [intros; exact H3|]. intros N D1. inversion_clear N as [|? ? P Q]. constructor; [|apply IH; [exact Q|intros y Y; apply D1; now right]]. intros X. apply in_app_or in X. destruct X as [X|X]; [contradiction|]. exact (D1 k (or_introl eq_refl) X).
Qed.

Section Road.
Context (contract genesis : Z -> bool) (ord : forall A : Type, list A -> list A) (ORD : forall A l, Permutation (ord A l) l).
Notation parts := (parts contract genesis).
Notation unpaired := (unpaired contract genesis ord).
Notation flushed := (flushed contract genesis ord).

Lemma settle_key sg st a x e : In e (settle sg st a x) -> fst e = (a, fst x).
Proof.
  destruct x as [t [u v]]. unfold settle. destruct (match get keq st (a, t) with Some v0 => v0 | None => (0, 0) end) as [a0 n0]. destruct (conflict _ _); [intros []|]. destruct (_ =? 0); intros [<-|[]]; reflexivity.
Qed.
Lemma settle_nodup sg st a m : NoDup (map fst m) -> NoDup (map fst (flat_map (settle sg st a) m)).
Proof.
  induction m as [|x m IH]; intros N; [constructor|]. cbn in N |- *. inversion_clear N as [|? ? P Q]. rewrite map_app. assert (Y : forall e, In e (flat_map (settle sg st a) m) -> exists x, In x m /\ fst e = (a, fst x)) by (intros e E; apply in_flat_map in E; destruct E as (y & Y1 & Y2); exists y; split; [exact Y1|now apply settle_key in Y2]).
  destruct x as [t [u v]]. unfold settle at 1. destruct (match get keq st (a, t) with Some v0 => v0 | None => (0, 0) end) as [a0 n0]. destruct (conflict _ _); [now apply IH|].
  assert (Z : ~ In (a, t) (map fst (flat_map (settle sg st a) m))).
  { intros X. apply in_map_iff in X. destruct X as (e & E1 & E2). destruct (Y e E2) as (y & Y1 & Y2). apply P. rewrite Y2 in E1. injection E1 as E1. cbn. rewrite <- E1. now apply in_map. }
  destruct (_ =? 0); cbn; (constructor; [exact Z|now apply IH]).
Qed.
Lemma group_in es a g : In (a, g) (by_owner es) <-> In a (map e_owner es) /\ g = filter (fun e => e_owner e =? a) es.
Proof.
  unfold by_owner. rewrite in_map_iff. split.
  - intros (x & [= -> <-] & X). apply nodup_In in X. auto.
  - intros [X ->]. exists a. split; [reflexivity|]. now apply nodup_In.
Qed.
Lemma flushed_nodup sg L bs st : NoDup (map fst st) -> NoDup (map fst (flushed sg L bs st)).
Proof. intros N. unfold RoadModel.flushed. now apply batch_nodup. Qed.
Lemma flushed_get sg L bs st a t : (forall x f, In (ERecv x f) (unpaired bs) -> look L f <> None) ->
  get keq st (a, t) = opt (val (get keq st (a, t))) ->
  let A := fst (val (get keq st (a, t))) + sg * sum (ev s_amt L a t) (unpaired bs) in
  let N := snd (val (get keq st (a, t))) + sg * sum (ev one L a t) (unpaired bs) in
  good A N -> get keq (flushed sg L bs st) (a, t) = opt (A, N).
Proof.
  intros H O A N G. unfold RoadModel.flushed. set (es := unpaired bs) in *. set (F := fun g : Z * list ent => match aggregate L (snd g) [] with Some m => flat_map (settle sg st (fst g)) (ord _ m) | None => [] end).
  assert (AG : forall b, exists m, aggregate L (filter (fun e => e_owner e =? b) es) [] = Some m /\ NoDup (map fst m) /\ forall x, val (get Z.eqb m x) = (sum (ev s_amt L b x) es, sum (ev one L b x) es)).
  { intros b. destruct (aggregate_spec L (filter (fun e => e_owner e =? b) es) []) as (m & M1 & M2 & M3); [intros x f X; apply filter_In in X; now apply (H x f)|constructor|]. exists m. split; [exact M1|]. split; [exact M2|]. intros x. rewrite M3. cbn [get val fst snd]. rewrite !Z.add_0_l, !sum_filter. reflexivity. }
  assert (ND : NoDup (map fst (flat_map F (ord _ (by_owner es))))).
  { apply nodup_flat.
    - refine (Permutation_NoDup (Permutation_map fst (Permutation_sym (ORD _ _))) _). unfold by_owner. rewrite map_map. cbn. rewrite map_id. apply NoDup_nodup.
    - intros [b g] X. apply (Permutation_in _ (ORD _ _)) in X. apply group_in in X. destruct X as [_ ->]. destruct (AG b) as (m & M1 & M2 & _). unfold F. cbn [fst snd]. rewrite M1. split.
      + apply settle_nodup. refine (Permutation_NoDup (Permutation_map fst (Permutation_sym (ORD _ _))) M2).
      + intros e E. apply in_flat_map in E. destruct E as (y & _ & Y). apply settle_key in Y. now rewrite Y. }
  destruct (AG a) as (m & M1 & M2 & M3).
  assert (ST : forall e, In e (flat_map F (ord _ (by_owner es))) -> fst e = (a, t) -> In e (flat_map (settle sg st a) m) /\ In a (map e_owner es)).
  { intros e E K. apply in_flat_map in E. destruct E as ([b g] & X1 & X2). apply (Permutation_in _ (ORD _ _)) in X1. apply group_in in X1. destruct X1 as [X1 ->]. unfold F in X2. cbn [fst snd] in X2. destruct (AG b) as (m' & Q1 & _ & _). rewrite Q1 in X2. apply in_flat_map in X2. destruct X2 as (y & Y1 & Y2). pose proof (settle_key _ _ _ _ _ Y2) as K2. rewrite K in K2. injection K2 as <- K2. rewrite M1 in Q1. injection Q1 as <-. split; [|exact X1]. apply in_flat_map. exists y. split; [|exact Y2]. apply (Permutation_in _ (ORD _ _)). exact Y1. }
  destruct (get Z.eqb m t) as [[u v]|] eqn:GT.
  - (* the token occurs *)
    pose proof (get_in _ zeq _ _ _ GT) as GI. pose proof (M3 t) as M3t. rewrite GT in M3t. cbn [val] in M3t. injection M3t as -> ->.
    assert (IA : In a (map e_owner es)).
    { destruct (in_dec Z.eq_dec a (map e_owner es)) as [Y|Y]; [exact Y|]. exfalso. assert (X : filter (fun e => e_owner e =? a) es = []). { clear - Y. induction es as [|e r IH]; [reflexivity|]. cbn in *. destruct (Z.eqb_spec (e_owner e) a); [tauto|apply IH; tauto]. } rewrite X in M1. cbn in M1. injection M1 as <-. discriminate GT. }
    assert (SE : settle sg st a (t, (sum (ev s_amt L a t) es, sum (ev one L a t) es)) = [((a, t), opt (A, N))]).
    { unfold settle. change (match get keq st (a, t) with Some v0 => v0 | None => (0, 0) end) with (val (get keq st (a, t))). destruct (val (get keq st (a, t))) as [a0 n0] eqn:V. cbn [fst snd] in A, N. fold A. fold N. rewrite (good_conflict _ _ G). unfold opt. cbn [snd]. destruct (N =? 0); [reflexivity|]. rewrite Z.mod_small by (destruct G; lia). reflexivity. }
    apply batch_some; [exact ND|]. apply in_flat_map. exists (a, filter (fun e => e_owner e =? a) es). split; [apply (Permutation_in _ (Permutation_sym (ORD _ _))); apply group_in; auto|]. unfold F. cbn [fst snd]. rewrite M1. apply in_flat_map. eexists. split; [apply (Permutation_in _ (Permutation_sym (ORD _ _))); exact GI|]. rewrite SE. now left.
  - (* it does not *)
    rewrite batch_none.
    + pose proof (M3 t) as M3t. rewrite GT in M3t. cbn [val] in M3t. injection M3t as Z1 Z2. unfold A, N. rewrite <- Z1, <- Z2, !Z.mul_0_r, !Z.add_0_r. rewrite O at 1. now destruct (val (get keq st (a, t))).
    + intros X. apply in_map_iff in X. destruct X as (e & E1 & E2). destruct (ST e E2 E1) as [X _]. apply in_flat_map in X. destruct X as ([t' uv] & Y1 & Y2). apply settle_key in Y2. rewrite E1 in Y2. injection Y2 as ->. cbn [fst] in *. apply (in_get _ zeq) in Y1; [|exact M2]. rewrite GT in Y1. discriminate.
Qed.

(** ** Stored entries are those of the confirmed part *)
Definition psum (D : list blk) (a t : Z) : Z * Z := (sum s_amt (of_token t (pending D a)), sum one (of_token t (pending D a))).
Lemma sum_one {A} (l : list A) : sum (fun _ => 1) l = zlen l.
Proof. induction l as [|x l IH]; [reflexivity|]. rewrite sum_cons, IH, zlen_cons. lia. Qed.
Lemma summary_opt l : summary l = opt (sum s_amt l, sum one l).
Proof. unfold summary, opt. cbn [snd]. unfold one. rewrite sum_one. destruct l as [|s r]; [reflexivity|]. rewrite zlen_cons. pose proof (zlen_nonneg r). cbv zeta. destruct (Z.eqb_spec (zlen r + 1) 0); [lia|]. rewrite <- (zlen_cons s r). reflexivity. Qed.
Lemma zlen_filter {A} (q : A -> bool) l : zlen (filter q l) <= zlen l.
Proof. induction l as [|x l IH]; [reflexivity|]. cbn [filter]. destruct (q x); rewrite !zlen_cons; lia. Qed.
Lemma psum_good L D R a t : wf contract genesis L -> Permutation L (D ++ R) -> good (fst (psum D a t)) (snd (psum D a t)).
Proof.
  intros W P. assert (PS : Permutation (sends L) (sends D ++ sends R)) by (rewrite <- sends_app; now apply perm_flat). unfold psum. cbn [fst snd]. unfold one. rewrite sum_one. set (l := of_token t (pending D a)). assert (IN : forall s, In s l -> In s (sends L)).
  { intros s X. unfold l, of_token, pending in X. apply filter_In in X. destruct X as [X _]. apply filter_In in X. apply (Permutation_in _ (Permutation_sym PS)), in_or_app. left. tauto. }
  split; [apply sum_nonneg; intros s X; apply (wf_amt _ _ L W); now apply IN|]. split.
  - split; [apply zlen_nonneg|]. pose proof (wf_size _ _ L W). assert (zlen l <= zlen (sends D)) by (unfold l, of_token, pending; eapply Z.le_trans; apply zlen_filter). assert (X : zlen (sends L) = zlen (sends D) + zlen (sends R)) by (unfold zlen; rewrite (Permutation_length PS), app_length; lia). pose proof (zlen_nonneg (sends R)). lia.
  - intros Z. destruct l as [|s r]; [reflexivity|]. rewrite zlen_cons in Z. pose proof (zlen_nonneg r). lia.
Qed.
Definition stored (st : store) (D : list blk) : Prop := NoDup (map fst st) /\ forall a t, get keq st (a, t) = opt (psum D a t).
Lemma val_opt x y : (y = 0 -> x = 0) -> val (opt (x, y)) = (x, y).
Proof. unfold opt. cbn. destruct (Z.eqb_spec y 0); [intros H; cbn; now rewrite e, H|reflexivity]. Qed.
Lemma stored_step sg L D bs D' R R' X st : wf contract genesis L -> Permutation L (D ++ R) -> Permutation L (D' ++ R') -> Permutation L (bs ++ X) ->
  (forall p a t, sum p (of_token t (pending D' a)) = sum p (of_token t (pending D a)) + sg * sum (ev p L a t) (flat_map parts bs)) ->
  stored st D -> stored (flushed sg L bs st) D'.
Proof.
  intros W P P' PB Q [N S]. split; [now apply flushed_nodup|]. intros a t.
  assert (LK : forall x f, In (ERecv x f) (unpaired bs) -> look L f <> None).
  { intros x f Y. destruct (unpaired_sums contract genesis ord ORD one L a t bs X W PB) as [_ U]. apply U in Y. apply in_flat_map in Y. destruct Y as (b & B1 & B2). apply (parts_in contract genesis L W b) in B2; [|apply (Permutation_in _ (Permutation_sym PB)), in_or_app; now left]. destruct B2 as (h & subs & B3). destruct (wf_look contract genesis L x h f subs W B3) as (s & E & _). congruence. }
  pose proof (psum_good L D R a t W P) as G. pose proof (psum_good L D' R' a t W P') as G'.
  assert (V : val (get keq st (a, t)) = psum D a t) by (rewrite S; destruct (psum D a t) as [x y]; apply val_opt; apply G).
  assert (EA : forall p, sum p (of_token t (pending D' a)) = sum p (of_token t (pending D a)) + sg * sum (ev p L a t) (unpaired bs)) by (intros p; rewrite Q; destruct (unpaired_sums contract genesis ord ORD p L a t bs X W PB) as [-> _]; reflexivity).
  rewrite (flushed_get sg L bs st a t LK).
  - rewrite V. unfold psum. cbn [fst snd]. now rewrite <- !EA.
  - rewrite V, S. reflexivity.
  - rewrite V. unfold psum. cbn [fst snd]. rewrite <- !EA. exact G'.
Qed.
End Road.
