(** Users, shares and the loop of the dividend job. *)
From Verif Require Import Lib DexFloat DexFloatProofs DivModel DivSpec DivProofs.
From Coq Require Import Sorted.
Import ListNotations.

(** * Users *)
Lemma at_nil q : counts (at_ [] q) = 0. Proof. reflexivity. Qed.
Definition usorted (l : users) : Prop := StronglySorted (fun a b : Z * funds => fst a < fst b) l.
Fixpoint cs (l : users) (q : Z) : Z := match l with [] => 0 | (_, f) :: r => counts (at_ f q) + cs r q end.
Lemma uget_none u l : (forall e, In e l -> fst e <> u) -> uget u l = [].
Proof. induction l as [|[v f] r IH]; cbn; intros H; [reflexivity|]. destruct (Z.eqb_spec v u) as [->|N]; [destruct (H (u, f)); auto|]. apply IH. auto. Qed.
Lemma uget_in u f l : usorted l -> In (u, f) l -> uget u l = f.
Proof.
  induction l as [|[v g] r IH]; cbn; intros S []; inversion S as [|? ? S' F]; subst.
  - injection H as -> ->. now rewrite Z.eqb_refl.
  - rewrite Forall_forall in F. specialize (F _ H). cbn in F. rewrite (proj2 (Z.eqb_neq v u)) by lia. auto.
Qed.
Lemma in_uput u f e l : In e (uput u f l) -> e = (u, f) \/ In e l.
Proof. induction l as [|[v g] r IH]; cbn; [intros [<-|[]]; auto|]. destruct (u <? v); [intros [<-|H]; auto|]. destruct (v =? u); [intros [<-|H]; auto|]. intros [<-|H]; auto. destruct (IH H); auto. Qed.
Lemma uput_sorted u f l : usorted l -> usorted (uput u f l).
Proof.
  induction l as [|[v g] r IH]; cbn; intros S; [repeat constructor|]. inversion S as [|? ? S' F]; subst. destruct (Z.ltb_spec u v) as [L|L].
  - constructor; [exact S|]. constructor; [exact L|]. rewrite Forall_forall in *. intros x X. specialize (F x X). cbn in *. lia.
  - destruct (Z.eqb_spec v u) as [->|N]; [constructor; [exact S'|exact F]|]. constructor; [now apply IH|]. rewrite Forall_forall in *. intros x X. apply in_uput in X. destruct X as [->|X]; [cbn; lia|now apply F].
Qed.
Lemma uput_get u f v l : usorted l -> uget v (uput u f l) = if v =? u then f else uget v l.
Proof.
  induction l as [|[w g] r IH]; cbn; intros S; [destruct (Z.eqb_spec u v), (Z.eqb_spec v u); auto; lia|]. inversion S as [|? ? S' F]; subst. destruct (Z.ltb_spec u w) as [L|L]; cbn.
  - destruct (Z.eqb_spec u v), (Z.eqb_spec v u); auto; lia.
  - destruct (Z.eqb_spec w u) as [->|N]; cbn; [destruct (Z.eqb_spec u v), (Z.eqb_spec v u); auto; lia|]. rewrite IH by exact S'. destruct (Z.eqb_spec w v), (Z.eqb_spec v u); auto; lia.
Qed.
Lemma uput_cs u f l q : usorted l -> cs (uput u f l) q = cs l q - counts (at_ (uget u l) q) + counts (at_ f q).
Proof.
  induction l as [|[w g] r IH]; cbn [uput uget cs filter fst]; intros S; [rewrite at_nil; lia|]. inversion S as [|? ? S' F]; subst. destruct (Z.ltb_spec u w) as [L|L]; cbn [cs].
  - rewrite (proj2 (Z.eqb_neq w u)) by lia. rewrite uget_none; [rewrite at_nil; lia|]. intros e E. rewrite Forall_forall in F. specialize (F e E). cbn in F. lia.
  - destruct (Z.eqb_spec w u) as [->|N]; cbn [cs]; [lia|]. rewrite IH by exact S'. lia.
Qed.
Lemma filter_none {A} (p : A -> bool) l : (forall x, In x l -> p x = true) -> filter p l = l.
Proof. induction l as [|x l IH]; cbn; intros H; [reflexivity|]. rewrite (H x) by auto. f_equal. auto. Qed.
Lemma udel_ok u l : usorted l -> let l' := filter (fun e => negb (fst e =? u)) l in usorted l' /\ (forall v, uget v l' = if v =? u then [] else uget v l) /\ forall q, cs l' q = cs l q - counts (at_ (uget u l) q).
Proof.
  cbn zeta. induction l as [|[w g] r IH]; cbn [uput uget cs filter fst]; intros S; [split; [exact S|]; split; [intros v; now destruct (v =? u)|intros q; rewrite at_nil; lia]|]. inversion S as [|? ? S' F]; subst. destruct (IH S') as (A & B & C). destruct (Z.eqb_spec w u) as [->|N]; cbn.
  - rewrite filter_none in * by (intros x X; rewrite Forall_forall in F; specialize (F x X); cbn in F; apply negb_true_iff, Z.eqb_neq; lia). split; [exact S'|]. split; [|intros q; lia].
    intros v. destruct (Z.eqb_spec v u) as [->|NV]; [rewrite (B u); now rewrite Z.eqb_refl|]. cbn [uget]. now rewrite (proj2 (Z.eqb_neq u v)) by lia.
  - split; [constructor; [exact A|]; rewrite Forall_forall in *; intros x X; apply filter_In in X; apply F, X|]. split; [|intros q; rewrite C; lia].
    intros v. cbn [uget]. rewrite B. destruct (Z.eqb_spec w v), (Z.eqb_spec v u); auto; lia.
Qed.
Lemma uset_ok u f l : usorted l -> usorted (uset u f l) /\ (forall v, uget v (uset u f l) = if v =? u then f else uget v l) /\ (forall q, cs (uset u f l) q = cs l q - counts (at_ (uget u l) q) + counts (at_ f q)) /\
  forall e, In e (uset u f l) -> e = (u, f) \/ In e l.
Proof.
  intros S. unfold uset. destruct f as [|x f].
  - destruct (udel_ok u l S) as (A & B & C). split; [exact A|]. split; [exact B|]. split; [intros q; rewrite C; rewrite at_nil; lia|]. intros e E. apply filter_In in E. tauto.
  - split; [now apply uput_sorted|]. split; [intros v; now apply uput_get|]. split; [intros q; now apply uput_cs|]. intros e. apply in_uput.
Qed.

(** * Shares *)
Lemma ftrunc_nonneg p n d : 0 < d -> 0 <= ftrunc (frnd p n d).
Proof. intros D. unfold ftrunc. apply Z.div_pos; [now apply fnum_nonneg|apply fden_pos]. Qed.
Lemma fround_nonneg f : 0 <= fround f.
Proof. unfold fround, fhalf. apply ftrunc_nonneg. pose proof (fden_pos f). lia. Qed.
Lemma share_nonneg total mine amount : 0 <= share_of total mine amount.
Proof. apply fround_nonneg. Qed.
Lemma fee_nonneg a r : 0 <= fee_for a r.
Proof. unfold fee_for. destruct (0 <? r); [apply fround_nonneg|lia]. Qed.
(** Rounding at most doubles. *)
Lemma double_of x y k : 1 <= k -> 0 <= y -> k * x <= (k + 1) * y -> x <= 2 * y.
Proof. intros K Y H. assert (k * x <= k * (2 * y)) by nia. nia. Qed.
Lemma frnd_double n d : 0 < d -> 0 <= n -> fnum (frnd fprec n d) * d <= 2 * n * fden (frnd fprec n d).
Proof.
  intros D N. destruct (frnd_close fprec n d eq_refl D N) as [_ H]. pose proof (fden_pos (frnd fprec n d)) as P. replace (2 * n * fden (frnd fprec n d)) with (2 * (n * fden (frnd fprec n d))) by ring.
  apply (double_of _ _ (2 ^ fprec)); [apply (proj1 (Z.leb_le _ _)); vm_compute; reflexivity| |exact H]. apply Z.mul_nonneg_nonneg; lia.
Qed.
Lemma part_arith a n1 d1 n2 d2 n3 d3 n4 d4 : 0 < a -> 0 <= n1 -> 0 <= n2 -> 0 <= n3 -> 0 < d1 -> 0 < d2 -> 0 < d3 -> 0 < d4 ->
  n1 * 1 <= 2 * a * d1 -> n2 * 100000 <= 2 * 1000 * d2 -> n3 * (d1 * d2) <= 2 * (n1 * n2) * d3 -> n4 * (2 * d3) <= 2 * (2 * n3 + d3) * d4 -> 25 * n4 <= (8 * a + 50) * d4.
Proof.
  intros A N1 N2 N3 D1 D2 D3 D4 H1 H2 H3 H4.
  assert (E2 : 50 * n2 <= d2) by lia.
  assert (X : 50 * (n1 * n2) <= 2 * a * (d1 * d2)).
  { apply Z.le_trans with (n1 * d2); [replace (50 * (n1 * n2)) with (n1 * (50 * n2)) by ring; now apply Z.mul_le_mono_nonneg_l|]. replace (2 * a * (d1 * d2)) with (2 * a * d1 * d2) by ring. apply Z.mul_le_mono_nonneg_r; lia. }
  assert (Y : 0 < d1 * d2) by (now apply Z.mul_pos_pos).
  assert (E3 : 25 * n3 <= 2 * a * d3).
  { apply (Z.mul_le_mono_pos_r _ _ (d1 * d2) Y). apply Z.le_trans with (50 * (n1 * n2) * d3); [replace (25 * n3 * (d1 * d2)) with (25 * (n3 * (d1 * d2))) by ring; replace (50 * (n1 * n2) * d3) with (25 * (2 * (n1 * n2) * d3)) by ring; lia|].
    replace (2 * a * d3 * (d1 * d2)) with (2 * a * (d1 * d2) * d3) by ring. apply Z.mul_le_mono_nonneg_r; lia. }
  apply (Z.mul_le_mono_pos_r _ _ d3 D3). apply Z.le_trans with (25 * ((2 * n3 + d3) * d4)); [nia|]. replace (25 * ((2 * n3 + d3) * d4)) with ((50 * n3 + 25 * d3) * d4) by ring. replace ((8 * a + 50) * d4 * d3) with (((8 * a + 50) * d3) * d4) by ring. apply Z.mul_le_mono_nonneg_r; lia.
Qed.
Lemma part_le a : 0 <= a -> fee_for a per_period <= a.
Proof.
  intros A. destruct (Z.le_gt_cases a 2) as [S|B]; [assert (a = 0 \/ a = 1 \/ a = 2) as [->|[->| ->]] by lia; vm_compute; discriminate|].
  assert (C : 0 < a) by lia. assert (Z0 : 0 <= a) by lia. assert (O : 0 < 1) by reflexivity. assert (O2 : 0 < rate_cardinal) by reflexivity. assert (O3 : 0 <= per_period) by discriminate.
  unfold fee_for. change (0 <? per_period) with true. cbn iota. unfold fround, fhalf, ftrunc.
  pose proof (frnd_double a 1 O Z0) as H1. pose proof (fnum_nonneg fprec a 1 O) as N1. pose proof (frnd_double per_period rate_cardinal O2 O3) as H2. pose proof (fnum_nonneg fprec per_period rate_cardinal O2) as N2.
  unfold fmul, fint. set (f1 := frnd fprec a 1) in *. set (f2 := frnd fprec per_period rate_cardinal) in *. clearbody f1 f2. assert (D1 := fden_pos f1). assert (D2 := fden_pos f2).
  assert (P : 0 < fden f1 * fden f2) by (now apply Z.mul_pos_pos). assert (M : 0 <= fnum f1 * fnum f2) by (now apply Z.mul_nonneg_nonneg).
  pose proof (frnd_double _ _ P M) as H3. pose proof (fnum_nonneg fprec (fnum f1 * fnum f2) _ P) as N3. set (f3 := frnd fprec (fnum f1 * fnum f2) (fden f1 * fden f2)) in *. clearbody f3. assert (D3 := fden_pos f3).
  set (n := 2 * fnum f3 + fden f3). set (d := 2 * fden f3). assert (P4 : 0 < d) by (unfold d; lia). assert (M4 : 0 <= n) by (unfold n; lia). pose proof (frnd_double n d P4 M4) as H4. set (f4 := frnd fprec n d) in *. clearbody f4. assert (D4 := fden_pos f4).
  pose proof (part_arith a _ _ _ _ _ _ _ _ C N1 N2 N3 D1 D2 D3 D4 H1 H2 H3 H4) as E. clear - E D4 B. apply Z.lt_succ_r. apply Z.div_lt_upper_bound; [exact D4|]. nia.
Qed.
Lemma part_ok l : 0 <= p_amount l -> 0 <= part l /\ 0 <= rest l /\ part l + rest l = p_amount l.
Proof. intros A. unfold part, rest. pose proof (fee_nonneg (p_amount l) per_period). pose proof (part_le (p_amount l) A). destruct (p_whole l); lia. Qed.

(** * The loop *)
Fixpoint left (t : Z) (is : list item) : Z := match is with [] => 0 | i :: r => (if i_token i =? t then i_left i else 0) + left t r end.
(** The items of a job before the users [l]: a token is over, or the holders to come make up the rest. *)
Definition fit (total p : Z) (l : users) (i : item) : Prop :=
  0 <= i_left i /\ if i_over i then i_left i = 0 else i_done i < total <= i_done i + cs l p.
Lemma paid_app t a b : paid t (a ++ b) = paid t a + paid t b.
Proof. induction a as [|[[u s] x] a IH]; cbn; lia. Qed.
Lemma serve_ok total p l u i a : fit total p l i -> let r := serve total a u i in
  (forall l', cs l p = a + cs l' p -> fit total p l' (fst r)) /\ i_token (fst r) = i_token i /\ i_left i = i_left (fst r) + paid (i_token i) (snd r) /\
  forall v t x, In (v, t, x) (snd r) -> v = u /\ t = i_token i /\ 0 <= x.
Proof.
  intros [L F]. unfold serve. destruct (i_over i) eqn:O; cbn zeta; [cbn; split; [intros l' _; split; [exact L|now rewrite O]|]; split; [reflexivity|]; split; [lia|intros v t x []]|].
  unfold divide. pose proof (share_nonneg total a (i_amount i)) as SN. destruct (Z.leb_spec (i_left i - share_of total a (i_amount i)) 0) as [A|A]; cbn [orb].
  - cbn. rewrite Z.eqb_refl. split; [intros l' _; split; cbn; [lia|reflexivity]|]. split; [reflexivity|]. split; [lia|]. intros v t x [E|[]]. injection E as <- <- <-. auto.
  - destruct (Z.leb_spec total (i_done i + a)) as [B|B]; cbn; rewrite Z.eqb_refl.
    + split; [intros l' _; split; cbn; [lia|reflexivity]|]. split; [reflexivity|]. split; [lia|]. intros v t x [E|[]]. injection E as <- <- <-. auto.
    + split; [intros l' E; split; cbn; [lia|lia]|]. split; [reflexivity|]. split; [lia|]. intros v t x [E|[]]. injection E as <- <- <-. auto.
Qed.
Lemma serve_all_ok total p l u a is : Forall (fit total p l) is -> let r := serve_all total a u is in
  (forall l', cs l p = a + cs l' p -> Forall (fit total p l') (fst r)) /\ (forall t, left t is = left t (fst r) + paid t (snd r)) /\ forall v t x, In (v, t, x) (snd r) -> v = u /\ 0 <= x.
Proof.
  unfold serve_all. cbn zeta. cbn [fst snd]. induction is as [|i is IH]; intros F; [cbn; split; [constructor|]; split; [lia|intros v t x []]|].
  inversion F as [|? ? Fi F']; subst. destruct (IH F') as (A & B & C). destruct (serve_ok total p l u i a Fi) as (A1 & T1 & B1 & C1). cbn zeta in *. cbn [map flat_map left]. split; [intros l' E; constructor; auto|]. split.
  - intros t. rewrite T1, paid_app, B. destruct (Z.eqb_spec (i_token i) t) as [<-|N]; [lia|]. assert (paid t (snd (serve total a u i)) = 0) as -> by (clear - C1 N; induction (snd (serve total a u i)) as [|[[v s] x] r IH]; [reflexivity|]; cbn; destruct (C1 v s x ltac:(now left)) as (_ & -> & _); rewrite (proj2 (Z.eqb_neq _ _) N), IH; [reflexivity|]; intros v' t' x' H; apply C1; now right). lia.
  - intros v t x H. apply in_app_or in H. destruct H as [H|H]; [destruct (C1 v t x H) as (? & _ & ?); auto|exact (C v t x H)].
Qed.
Lemma left_over total p l t is : Forall (fit total p l) is -> forallb i_over is = true -> left t is = 0.
Proof. induction 1 as [|i is [_ F] _ IH]; cbn; [reflexivity|]. rewrite andb_true_iff. intros [O R]. rewrite O in F. rewrite (IH R), F. now destruct (i_token i =? t). Qed.
Definition good (c : Z) (l : users) : Prop := usorted l /\ forall e, In e l -> sf c (snd e).
Lemma good_tail c e l : good c (e :: l) -> good c l.
Proof. intros [S F]. inversion S; subst. split; [assumption|]. intros x X. apply F. now right. Qed.
Lemma good_cons c u f l : sf c f -> good c l -> (forall e, In e l -> u < fst e) -> good c ((u, f) :: l).
Proof. intros W [S F] H. split; [constructor; [exact S|]; apply Forall_forall; intros e E; exact (H e E)|]. intros e [<-|E]; auto. Qed.
Lemma uget_below u l : (forall e : Z * funds, In e l -> u < fst e) -> uget u l = [].
Proof. intros H. apply uget_none. intros e E. specialize (H e E). lia. Qed.
Lemma walk_ok total p c : forall l is, good c l -> Forall (fit total p l) is ->
  let r := walk total p is l in
  good c (fst r) /\ (forall e, In e (fst r) -> exists e', In e' l /\ fst e' = fst e) /\
  (forall q u, p < q -> counts (at_ (uget u (fst r)) q) = counts (at_ (uget u l) q)) /\ (forall q, p < q -> cs (fst r) q = cs l q) /\
  (forall t, paid t (snd r) = left t is) /\ forall u t x, In (u, t, x) (snd r) -> threshold <= at_ (uget u l) p /\ 0 <= x.
Proof.
  induction l as [|[u f] l IH]; intros is G F; cbn zeta.
  - assert (O : forallb i_over is = true) by (induction F as [|i is [L O] F IH]; cbn; [reflexivity|]; rewrite IH; destruct (i_over i); [reflexivity|cbn [cs] in O; lia]). cbn [walk]. rewrite O. cbn [fst snd]. split; [exact G|]. split; [intros e []|]. split; [reflexivity|]. split; [reflexivity|]. split; [intros t; symmetry; exact (left_over _ _ _ t is F O)|intros v t x []].
  - cbn [walk]. destruct (forallb i_over is) eqn:O.
    { cbn [fst snd]. split; [exact G|]. split; [intros e E; exists e; auto|]. split; [reflexivity|]. split; [reflexivity|]. split; [intros t; symmetry; exact (left_over _ _ _ t is F O)|intros v t x []]. }
    assert (Gl := good_tail _ _ _ G). assert (W : sf c f) by (apply (proj2 G (u, f)); now left). assert (LB : forall e, In e l -> u < fst e) by (destruct G as [S _]; inversion S as [|? ? _ H]; subst; rewrite Forall_forall in H; exact H).
    assert (NI : forall v t x (r : list (Z * Z * Z)), In (v, t, x) r -> (forall v t x, In (v, t, x) r -> threshold <= at_ (uget v l) p /\ 0 <= x) -> threshold <= at_ (uget v ((u, f) :: l)) p /\ 0 <= x).
    { intros v t x r I H. destruct (H v t x I) as [T X]. split; [|exact X]. cbn [uget]. destruct (Z.eqb_spec u v) as [<-|]; [|exact T]. rewrite uget_below in T by exact LB. change (at_ [] p) with 0 in T. pose proof threshold_pos. lia. }
    pose proof (match_ok c f p W) as M. destruct (match_funds f p) as [[a f']|].
    + destruct M as (-> & AP & W' & NE & AT).
      assert (KEEP : forall r', good c r' -> (forall e, In e r' -> exists e', In e' l /\ fst e' = fst e) -> (forall q v, p < q -> counts (at_ (uget v r') q) = counts (at_ (uget v l) q)) -> (forall q, p < q -> cs r' q = cs l q) ->
        let k := (if deletable f' then [] else [(u, f')]) ++ r' in
        good c k /\ (forall e, In e k -> exists e', In e' ((u, f) :: l) /\ fst e' = fst e) /\ (forall q v, p < q -> counts (at_ (uget v k) q) = counts (at_ (uget v ((u, f) :: l)) q)) /\ (forall q, p < q -> cs k q = cs ((u, f) :: l) q)).
      { intros r' Gr K A B. assert (LB' : forall e, In e r' -> u < fst e) by (intros e E; destruct (K e E) as (e' & E' & <-); now apply LB). cbn zeta. destruct (deletable f') eqn:D; cbn [app].
        - split; [exact Gr|]. split; [intros e E; destruct (K e E) as (e' & E' & X); exists e'; split; [now right|exact X]|]. split.
          + intros q v Q. cbn [uget]. destruct (Z.eqb_spec u v) as [<-|]; [|now apply A]. rewrite uget_below by exact LB'. rewrite <- (AT q Q), (deletable_ok f' q D). reflexivity.
          + intros q Q. cbn [cs]. rewrite B by exact Q. rewrite <- (AT q Q), (deletable_ok f' q D). lia.
        - split; [now apply good_cons|]. split; [intros e [<-|E]; [exists (u, f); cbn; auto|destruct (K e E) as (e' & E' & X); exists e'; split; [now right|exact X]]|]. split.
          + intros q v Q. cbn [uget]. destruct (Z.eqb_spec u v) as [<-|]; [now rewrite AT|now apply A].
          + intros q Q. cbn [cs]. rewrite B by exact Q. now rewrite AT. }
      destruct (valid (at_ f p)) eqn:V.
      * assert (CE : cs ((u, f) :: l) p = at_ f p + cs l p) by (cbn [cs]; rewrite counts_valid, V; reflexivity).
        destruct (serve_all_ok total p ((u, f) :: l) u (at_ f p) is F) as (A & B & C). cbn zeta in *. destruct (serve_all total (at_ f p) u is) as [is' out]. cbn [fst snd] in *. specialize (IH is' Gl (A l CE)). destruct (walk total p is' l) as [r' pays]. cbn [fst snd] in *. destruct IH as (I1 & I2 & I3 & I4 & I5 & I6). destruct (KEEP r' I1 I2 I3 I4) as (K1 & K2 & K3 & K4). split; [exact K1|]. split; [exact K2|]. split; [exact K3|]. split; [exact K4|]. split.
        -- intros t. rewrite paid_app, I5, B. lia.
        -- intros v t x I. apply in_app_or in I. destruct I as [I|I]; [|now apply (NI v t x pays)]. destruct (C v t x I) as [-> X]. split; [|exact X]. cbn [uget]. rewrite Z.eqb_refl. now apply valid_true.
      * assert (CE : cs ((u, f) :: l) p = cs l p) by (cbn [cs]; rewrite counts_valid, V; reflexivity).
        assert (F' : Forall (fit total p l) is) by (revert F; apply Forall_impl; intros i [L X]; split; [exact L|]; now rewrite CE in X). specialize (IH is Gl F'). destruct (walk total p is l) as [r' pays]. cbn [fst snd] in *. destruct IH as (I1 & I2 & I3 & I4 & I5 & I6). destruct (KEEP r' I1 I2 I3 I4) as (K1 & K2 & K3 & K4). split; [exact K1|]. split; [exact K2|]. split; [exact K3|]. split; [exact K4|]. split; [exact I5|]. intros v t x I. now apply (NI v t x pays).
    + assert (CE : cs ((u, f) :: l) p = cs l p) by (cbn [cs]; rewrite M; reflexivity).
      assert (F' : Forall (fit total p l) is) by (revert F; apply Forall_impl; intros i [L X]; split; [exact L|]; now rewrite CE in X). specialize (IH is Gl F'). destruct (walk total p is l) as [r' pays]. cbn [fst snd] in *. destruct IH as (I1 & I2 & I3 & I4 & I5 & I6).
      split; [apply good_cons; auto; intros e E; destruct (I2 e E) as (e' & E' & <-); now apply LB|]. split; [intros e [<-|E]; [exists (u, f); cbn; auto|destruct (I2 e E) as (e' & E' & X); exists e'; split; [now right|exact X]]|]. split; [intros q v Q; cbn [uget]; destruct (u =? v); [reflexivity|now apply I3]|]. split; [intros q Q; cbn [cs]; now rewrite I4|]. split; [exact I5|]. intros v t x I. now apply (NI v t x pays).
Qed.
