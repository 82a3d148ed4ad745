(** Records of VX by period. *)
From Verif Require Import Lib DexFloat DexFloatProofs DivModel DivSpec.
From Coq Require Import Sorted.
Import ListNotations.

Definition at_from (acc : Z) (f : funds) (q : Z) : Z := fold_left (fun acc e => if fst e <=? q then snd e else acc) f acc.
Definition at_ (f : funds) (q : Z) : Z := at_from 0 f q.
Definition sorted (f : funds) : Prop := StronglySorted (fun a b : Z * Z => fst a < fst b) f.
Definition sf (c : Z) (f : funds) : Prop := sorted f /\ forall e, In e f -> fst e <= c /\ 0 <= snd e.

Lemma threshold_pos : 0 < threshold. Proof. reflexivity. Qed.
Lemma counts_nonneg a : 0 <= counts a. Proof. unfold counts. pose proof threshold_pos. destruct (Z.leb_spec threshold a); lia. Qed.
Lemma counts_valid a : counts a = if valid a then a else 0. Proof. reflexivity. Qed.
Lemma counts0 : counts 0 = 0. Proof. reflexivity. Qed.
Lemma valid_true a : valid a = true -> threshold <= a. Proof. unfold valid. destruct (Z.leb_spec threshold a); [auto|discriminate]. Qed.
Lemma valid_false a : valid a = false -> a < threshold. Proof. unfold valid. destruct (Z.leb_spec threshold a); [discriminate|auto]. Qed.

Lemma at_app f e q : at_ (f ++ [e]) q = if fst e <=? q then snd e else at_ f q.
Proof. unfold at_, at_from. now rewrite fold_left_app. Qed.
Lemma at_from_in f q : forall acc, at_from acc f q = acc \/ exists e, In e f /\ at_from acc f q = snd e.
Proof.
  induction f as [|e f IH]; intros acc; [now left|]. unfold at_from in *. cbn [fold_left]. destruct (IH (if fst e <=? q then snd e else acc)) as [E|(x & X & E)].
  - destruct (fst e <=? q); [right; exists e; split; [now left|exact E]|now left].
  - right. exists x. split; [now right|exact E].
Qed.
Lemma at_nonneg c f q : sf c f -> 0 <= at_ f q.
Proof. intros [_ B]. destruct (at_from_in f q 0) as [E|(e & I & E)]; unfold at_; rewrite E; [lia|apply (B e I)]. Qed.
Lemma at_skip y r q a b : fst y <= q -> at_from a (y :: r) q = at_from b (y :: r) q.
Proof. intros L. unfold at_from. cbn [fold_left]. now rewrite (proj2 (Z.leb_le _ _) L). Qed.
Lemma at_before f q : forall acc, (forall e, In e f -> q < fst e) -> at_from acc f q = acc.
Proof.
  induction f as [|e f IH]; intros acc H; [reflexivity|]. unfold at_from. cbn [fold_left]. assert (fst e <=? q = false) as -> by (apply Z.leb_gt, H; now left). apply IH. intros x X. apply H. now right.
Qed.
Lemma at_late c f q r : sf c f -> c <= q -> c <= r -> at_ f q = at_ f r.
Proof.
  intros [_ B] Q R. unfold at_. generalize 0. induction f as [|e f IH]; intros acc; [reflexivity|]. unfold at_from. cbn [fold_left].
  pose proof (proj1 (B e (or_introl eq_refl))). rewrite !(proj2 (Z.leb_le _ _)) by lia. apply IH. intros x X. apply B. now right.
Qed.
Lemma sf_weak c c' f : sf c f -> c <= c' -> sf c' f.
Proof. intros [A B] L. split; [exact A|]. intros e H. specialize (B e H). lia. Qed.
Lemma sorted_app f e : sorted (f ++ [e]) <-> sorted f /\ forall x, In x f -> fst x < fst e.
Proof.
  unfold sorted. induction f as [|y f IH]; cbn.
  - split; [intros _; split; [constructor|intros x []]|intros _; repeat constructor].
  - split.
    + intros H. inversion H as [|? ? S F]; subst. apply IH in S. destruct S as [S L]. rewrite Forall_app in F. destruct F as [F G]. inversion G; subst. split; [constructor; auto|]. intros x [<-|X]; auto.
    + intros [H L]. inversion H as [|? ? S F]; subst. constructor; [apply IH; split; auto|]. apply Forall_app. split; [exact F|]. constructor; [apply L; now left|constructor].
Qed.
Lemma sf_app c f p a : sf c (f ++ [(p, a)]) <-> sf c f /\ p <= c /\ 0 <= a /\ forall x, In x f -> fst x < p.
Proof.
  unfold sf. rewrite sorted_app. cbn. split.
  - intros [[A L] B]. assert (P := B (p, a) ltac:(apply in_or_app; cbn; auto)). cbn in P. repeat split; auto; try apply P; apply B; apply in_or_app; auto.
  - intros ([A B] & P & N & L). split; [auto|]. intros e H. apply in_app_or in H. destruct H as [H|[<-|[]]]; [now apply B|cbn; lia].
Qed.
Lemma last_cases (f : funds) : f = [] \/ exists g e, f = g ++ [e].
Proof. destruct f as [|x r] using rev_ind; [now left|right; now exists r, x]. Qed.
Lemma newest_app f e : newest (f ++ [e]) = Some e.
Proof. unfold newest. now rewrite rev_app_distr. Qed.
Lemma set_newest_app f e p a : set_newest (f ++ [e]) p a = f ++ [(p, a)].
Proof. unfold set_newest. now rewrite removelast_last. Qed.
Lemma before_app c g p a q : sf c (g ++ [(p, a)]) -> q < p -> at_ (g ++ [(p, a)]) q = at_ g q.
Proof. intros _ L. rewrite at_app. cbn [fst snd]. now rewrite (proj2 (Z.leb_gt _ _) L). Qed.

Lemma settle_user_ok c f b x f' s : sf c f -> counts (at_ f c) = counts b -> 0 <= b + x -> settle_user f c (b + x) x = (f', s) ->
  sf c f' /\ counts (at_ f' c) = counts (b + x) /\ (forall q, q < c -> counts (at_ f' q) = counts (at_ f q)) /\ s = counts (b + x) - counts b.
Proof.
  intros W B N. unfold settle_user. destruct (last_cases f) as [->|(g & [p a] & ->)].
  - cbn [newest rev]. change (at_ [] c) with 0 in B. rewrite counts0 in B. rewrite <- B. rewrite !counts_valid. destruct (valid (b + x)) eqn:V; intros E; injection E as <- <-.
    + split; [split; [repeat constructor|intros e [<-|[]]; cbn; lia]|]. unfold at_, at_from. cbn. rewrite Z.leb_refl, V. split; [reflexivity|]. split; [|lia]. intros q Q. now rewrite (proj2 (Z.leb_gt _ _) Q).
    + split; [exact W|]. cbn. split; [reflexivity|]. split; [reflexivity|lia].
  - rewrite newest_app. assert (W' := W). apply sf_app in W'. destruct W' as (G & P & A & L). assert (at_ (g ++ [(p, a)]) c = a) as H by (rewrite at_app; cbn [fst snd]; now rewrite (proj2 (Z.leb_le _ _) P)). rewrite H in B.
    assert (AB : valid a = true -> a = b) by (intros V; rewrite !counts_valid, V in B; pose proof (valid_true _ V); pose proof threshold_pos; destruct (valid b); lia).
    assert (NB : valid a = false -> counts b = 0) by (intros V; rewrite <- B, counts_valid, V; reflexivity).
    assert (VB : valid a = true -> counts b = b) by (intros V; rewrite <- (AB V), counts_valid, V; reflexivity).
    destruct (Z.eqb_spec p c) as [->|NE].
    + destruct (valid (b + x)) eqn:V; rewrite ?set_newest_app.
      * intros E. injection E as <- <-. assert (W2 : sf c (g ++ [(c, b + x)])) by (apply sf_app; auto). split; [exact W2|]. rewrite at_app. cbn [fst snd]. rewrite Z.leb_refl. split; [reflexivity|]. split.
        -- intros q Q. now rewrite !(before_app c) by (auto; lia).
        -- rewrite (counts_valid (b + x)), V. destruct (valid a); [specialize (VB eq_refl)|specialize (NB eq_refl)]; lia.
      * assert (S : (if valid a then - a else 0) = counts (b + x) - counts b) by (rewrite (counts_valid (b + x)), V; destruct (valid a); [specialize (VB eq_refl); specialize (AB eq_refl)|specialize (NB eq_refl)]; lia).
        destruct (1 <? zlen (g ++ [(c, a)])) eqn:Z1; intros E; injection E as <- <-.
        -- assert (W2 : sf c (g ++ [(c, b + x)])) by (apply sf_app; auto). split; [exact W2|]. rewrite at_app. cbn [fst snd]. rewrite Z.leb_refl. split; [reflexivity|]. split; [intros q Q; now rewrite !(before_app c) by (auto; lia)|exact S].
        -- destruct g as [|y g]; [|exfalso; cbn [app] in Z1; unfold zlen in Z1; rewrite ?app_length in Z1; cbn in Z1; rewrite ?app_length in Z1; cbn in Z1; apply Z.ltb_ge in Z1; lia].
           split; [split; [constructor|intros e []]|]. change (at_ [] c) with 0. split; [now rewrite (counts_valid (b + x)), V|]. split; [intros q Q; now rewrite (before_app c) by (auto; lia)|exact S].
    + assert (PC : p < c) by lia.
      assert (AP : forall n, 0 <= n -> sf c ((g ++ [(p, a)]) ++ [(c, n)])) by (intros n Hn; apply sf_app; split; [exact W|]; split; [lia|]; split; [exact Hn|]; intros y Y; apply in_app_or in Y; destruct Y as [Y|[<-|[]]]; [specialize (L y Y); lia|exact PC]).
      destruct (valid (b + x)) eqn:V.
      * intros E. injection E as <- <-. split; [now apply AP|]. rewrite at_app. cbn [fst snd]. rewrite Z.leb_refl. split; [reflexivity|]. split.
        -- intros q Q. rewrite (before_app c) by (auto; lia). reflexivity.
        -- rewrite (counts_valid (b + x)), V. destruct (valid a); [specialize (VB eq_refl)|specialize (NB eq_refl)]; lia.
      * destruct (valid a) eqn:Va; intros E; injection E as <- <-.
        -- split; [now apply AP|]. rewrite at_app. cbn [fst snd]. rewrite Z.leb_refl. split; [reflexivity|]. split; [intros q Q; rewrite (before_app c) by (auto; lia); reflexivity|]. rewrite (counts_valid (b + x)), V. specialize (VB eq_refl). specialize (AB eq_refl). lia.
        -- split; [exact W|]. rewrite H. split; [rewrite !counts_valid, Va, V; reflexivity|]. split; [reflexivity|]. rewrite (counts_valid (b + x)), V. specialize (NB eq_refl). lia.
Qed.
Lemma settle_sum_ok c f s : sf c f -> 0 <= at_ f c + s -> exists f', settle_sum f c s = Some f' /\ sf c f' /\ at_ f' c = at_ f c + s /\ forall q, q < c -> at_ f' q = at_ f q.
Proof.
  intros W N. unfold settle_sum. destruct (Z.eqb_spec s 0) as [->|NZ]; [exists f; rewrite Z.add_0_r; auto|]. destruct (last_cases f) as [->|(g & [p a] & ->)].
  - cbn [newest rev]. change (at_ [] c) with 0 in *. rewrite (proj2 (Z.ltb_lt 0 s)) by lia. exists [(c, s)]. split; [reflexivity|]. split; [split; [repeat constructor|intros e [<-|[]]; cbn; lia]|]. unfold at_, at_from. cbn. rewrite Z.leb_refl. split; [reflexivity|]. intros q Q. now rewrite (proj2 (Z.leb_gt _ _) Q).
  - rewrite newest_app. assert (W' := W). apply sf_app in W'. destruct W' as (G & P & A & L). assert (at_ (g ++ [(p, a)]) c = a) as H by (rewrite at_app; cbn [fst snd]; now rewrite (proj2 (Z.leb_le _ _) P)). rewrite H in *. rewrite (proj2 (Z.ltb_ge (a + s) 0)) by lia. destruct (Z.eqb_spec p c) as [->|NE].
    + exists (g ++ [(c, a + s)]). rewrite set_newest_app. split; [reflexivity|]. assert (W2 : sf c (g ++ [(c, a + s)])) by (apply sf_app; auto). split; [exact W2|]. rewrite at_app. cbn [fst snd]. rewrite Z.leb_refl. split; [reflexivity|]. intros q Q. now rewrite !(before_app c) by (auto; lia).
    + assert (PC : p < c) by lia. exists ((g ++ [(p, a)]) ++ [(c, a + s)]). split; [reflexivity|]. assert (W2 : sf c ((g ++ [(p, a)]) ++ [(c, a + s)])) by (apply sf_app; split; [exact W|]; split; [lia|]; split; [exact N|]; intros y Y; apply in_app_or in Y; destruct Y as [Y|[<-|[]]]; [specialize (L y Y); lia|exact PC]). split; [exact W2|]. rewrite at_app. cbn [fst snd]. rewrite Z.leb_refl. split; [reflexivity|]. intros q Q. now rewrite (before_app c) by (auto; lia).
Qed.

(** * Trimming *)
Lemma drop_old_ok p : forall f c, sf c f -> sf c (drop_old p f) /\ (forall q acc, p <= q -> (f = [] \/ exists x r, f = x :: r /\ fst x <= p) -> at_from acc (drop_old p f) q = at_from acc f q) /\ (drop_old p f = [] <-> f = []) /\
  match drop_old p f with [] => True | x :: r => (fst x <= p \/ drop_old p f = f) /\ forall y, In y r -> p < fst y end.
Proof.
  induction f as [|x f IH]; intros c W; [cbn; repeat split; try apply W; auto; intros; tauto|]. destruct f as [|y r].
  - cbn [drop_old]. split; [exact W|]. split; [reflexivity|]. split; [tauto|]. split; [now right|]. intros y [].
  - change (drop_old p (x :: y :: r)) with (if fst y <=? p then drop_old p (y :: r) else x :: y :: r). destruct (Z.leb_spec (fst y) p) as [L|L].
    + assert (W' : sf c (y :: r)) by (destruct W as [S B]; inversion S; subst; split; [assumption|intros e E; apply B; now right]). destruct (IH c W') as (A & B & N & T). split; [exact A|]. split; [|split].
      * intros q acc Q _. rewrite B by (auto; right; now exists y, r). change (at_from acc (x :: y :: r) q) with (at_from (if fst x <=? q then snd x else acc) (y :: r) q). apply at_skip. lia.
      * rewrite N. split; discriminate.
      * destruct (drop_old p (y :: r)) as [|z l] eqn:E; [trivial|]. destruct T as [[T|T] T2]; split; auto. left. injection T as -> ->. exact L.
    + split; [exact W|]. split; [reflexivity|]. split; [split; discriminate|]. split; [now right|]. intros z [<-|Z]; [exact L|]. destruct W as [S _]. inversion S as [|? ? S1 _]; subst. inversion S1 as [|? ? _ F]; subst. rewrite Forall_forall in F. specialize (F z Z). lia.
Qed.
Lemma match_ok c f p : sf c f ->
  match match_funds f p with
  | None => at_ f p = 0
  | Some (a, f') => a = at_ f p /\ 0 < a /\ sf c f' /\ f' <> [] /\ forall q, p < q -> at_ f' q = at_ f q
  end.
Proof.
  intros W. unfold match_funds. destruct (drop_old_ok p f c W) as (S & D & N & T). destruct (drop_old p f) as [|[q a] r] eqn:E; [now rewrite (proj1 N eq_refl)|].
  destruct T as [T1 T2]. destruct (Z.leb_spec q p) as [L|L]; cbn [andb].
  - assert (FE : f = [] \/ exists x r, f = x :: r /\ fst x <= p).
    { destruct f as [|x f']; [now left|right]. exists x, f'. split; [reflexivity|]. destruct f' as [|y f']; [injection E as ->; exact L|]. cbn [drop_old] in E. destruct (Z.leb_spec (fst y) p); [|injection E as -> _; exact L]. destruct W as [SS _]. inversion SS as [|? ? _ F]; subst. inversion F; subst. lia. }
    assert (A : at_ f p = a). { unfold at_. rewrite <- (D p 0 ltac:(lia) FE). unfold at_from. cbn [fold_left fst snd]. rewrite (proj2 (Z.leb_le _ _) L). apply (at_before r p a). exact T2. }
    assert (A0 : 0 <= a) by (apply (proj2 S (q, a)); now left).
    destruct (Z.eqb_spec a 0) as [->|NZ]; cbn [negb]; [exact A|]. split; [now symmetry|]. split; [lia|].
    assert (AT : forall q', p < q' -> at_ ((q, a) :: r) q' = at_ f q') by (intros q' Q; apply (D q' 0); [lia|exact FE]).
    destruct r as [|[q1 b] r]; [split; [exact S|]; split; [discriminate|exact AT]|]. destruct (Z.eqb_spec q1 (p + 1)) as [->|NE]; [|split; [exact S|]; split; [discriminate|exact AT]].
    split; [destruct S as [S B]; inversion S; subst; split; [assumption|intros e He; apply B; now right]|]. split; [discriminate|]. intros q' Q. rewrite <- AT by exact Q. unfold at_. change (at_from 0 ((q, a) :: (p + 1, b) :: r) q') with (at_from (if q <=? q' then a else 0) ((p + 1, b) :: r) q'). apply at_skip. cbn. lia.
  - destruct T1 as [T1|T1]; [cbn in T1; lia|]. rewrite <- T1. unfold at_, at_from. cbn [fold_left fst snd]. rewrite (proj2 (Z.leb_gt _ _) L). apply (at_before r p 0). exact T2.
Qed.
Lemma deletable_ok f q : deletable f = true -> counts (at_ f q) = 0.
Proof. destruct f as [|[p a] [|]]; cbn; try discriminate. intros V. unfold at_, at_from. cbn. destruct (p <=? q); [|reflexivity]. rewrite counts_valid. now destruct (valid a). Qed.
