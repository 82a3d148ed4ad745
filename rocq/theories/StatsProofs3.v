From Verif Require Import Lib SchedModel SchedSpec SchedProofs SchedProofs2 StatsModel StatsSpec StatsProofs StatsProofs2.
Local Opaque sec Z.pow two64 hour search_fuel.

Lemma from_cut_nil d t : from_ (cut d t) t = [].
Proof. destruct d as [|x r]; [reflexivity|]. apply filter_none, Forall_forall. intros b B. cbn in B. apply filter_In in B as [_ B]. unfold lt_, ge_ in *. lia. Qed.
Lemma cut_cut d t s : s <= t -> cut (cut d t) s = cut d s.
Proof. intro L. destruct d as [|x r]; [reflexivity|]. cbn [cut]. f_equal. rewrite filter_filter. apply filter_ext. intro b. unfold lt_. lia. Qed.
Lemma from_mono d t s : s <= t -> from_ d s = [] -> from_ d t = [].
Proof.
  intros L F. apply filter_none, Forall_forall. intros b B. destruct (ge_ t b) eqn:E; [|auto]. exfalso.
  assert (I : In b (from_ d s)) by (apply filter_In; split; auto; unfold ge_ in *; lia). now rewrite F in I.
Qed.

Section L.
Context (g : group) (OK : group_ok g) (elected : Z -> list Z) (votes_of : Z -> votes) (anc : Z -> list sblock).
Notation anc_ok := (anc_ok anc).
Definition start (L i : Z) : Z := g_genesis g + i * L.

Fixpoint pure_merge (lower : Z -> list sblock -> point) (L : Z) (n : nat) (i : Z) (d : list sblock) (r : point) : point :=
  match n with
  | O => r
  | S k =>
      match from_ d (start L (i - 1)) with
      | [] => pure_merge lower L k (i - 1) d r
      | _ => let p := lower (i - 1) d in
             pure_merge lower L k (i - 1) (cut d (start L (i - 1))) {| p_prev := p_prev p; p_hash := p_hash r; p_sbps := merge_map (p_sbps r) (p_sbps p); p_votes := p_votes r |}
      end
  end.
Definition pure_up (lower : Z -> list sblock -> point) (L rate : Z) (extra : option (Z -> votes)) (i : Z) (d : list sblock) : point :=
  let r := pure_merge lower L (Z.to_nat rate) (i * rate + rate) d (empty_point (lasth d)) in
  match extra with
  | Some f => if is_empty r then r else {| p_prev := p_prev r; p_hash := p_hash r; p_sbps := p_sbps r; p_votes := Some (f (lasth d)) |}
  | None => r
  end.
Definition per_hour : Z := hour / round_len g.
Definition pure_hour := pure_up (pure_round g elected) (round_len g) per_hour None.
Definition pure_day := pure_up pure_hour hour 24 (Some votes_of).

Record good (s : node) : Prop := {
  gd_chain : grown elected g (n_chain s);
  gd_anc : anc_ok (n_chain s);
  gd_rounds : forall i p, get i (n_rounds s) = Some p -> p = pure_round g elected i (anc (p_hash p));
  gd_hours : forall i p, get i (n_hours s) = Some p -> p = pure_hour i (anc (p_hash p));
  gd_days : forall i p, get i (n_days s) = Some p -> p = pure_day i (anc (p_hash p)) }.

(** A query for interval [i] given the head of a prefix [d] of the chain answers [pure i d] and keeps the caches right. *)
Definition level (f : node -> Z -> Z -> option point * node) (L : Z) (pure : Z -> list sblock -> point) : Prop :=
  forall s i d e, good s -> n_chain s = d ++ e -> d <> [] -> idx_ok L i -> b_time (top d) < start L (i + 1) ->
  exists s', f s i (lasth d) = (Some (pure i d), s') /\ good s' /\ n_chain s' = n_chain s.
Definition shape (L : Z) (pure : Z -> list sblock -> point) : Prop :=
  forall i d, chain_ok g d -> anc_ok d -> d <> [] -> idx_ok L i -> from_ d (start L (i + 1)) = [] ->
  p_hash (pure i d) = lasth d /\
  (from_ d (start L i) = [] -> pure i d = empty_point (lasth d)) /\ (from_ d (start L i) <> [] -> p_prev (pure i d) = lasth (cut d (start L i))).

Lemma cut_differs d t : chain_ok g d -> anc_ok d -> d <> [] -> from_ d t <> [] -> lasth d <> lasth (cut d t).
Proof. clear elected votes_of.
  intros C A N F E. pose proof (cut_split d t (co_rise g d C)) as S. assert (d = cut d t).
  { apply (lasth_inj anc d d [] (cut d t) (from_ d t)); auto; [now rewrite app_nil_r|now apply cut_nonempty]. }
  apply F. rewrite <- H in S. rewrite <- (app_nil_r d) in S at 1. now apply app_inv_head in S.
Qed.
Lemma shape_empty L pure i d : shape L pure -> chain_ok g d -> anc_ok d -> d <> [] -> idx_ok L i -> from_ d (start L (i + 1)) = [] -> is_empty (pure i d) = match from_ d (start L i) with [] => true | _ => false end.
Proof. clear elected votes_of.
  intros SH C A N I FE. destruct (SH i d C A N I FE) as (H & H1 & H2). unfold is_empty. destruct (from_ d (start L i)) as [|x r] eqn:F.
  - rewrite H1 by auto. apply Z.eqb_refl.
  - rewrite H, H2 by discriminate. apply Z.eqb_neq. apply cut_differs; auto. congruence.
Qed.
Lemma cut_ok d t : chain_ok g d -> anc_ok d -> d <> [] -> chain_ok g (cut d t) /\ anc_ok (cut d t) /\ cut d t <> [].
Proof. clear elected votes_of.
  intros C A N. pose proof (cut_split d t (co_rise g d C)) as S. assert (CN : cut d t <> []) by now apply cut_nonempty. split; [|split; [|auto]].
  - apply (chain_ok_prefix g (cut d t) (from_ d t)); [now rewrite <- S|auto].
  - apply (anc_prefix anc (cut d t) (from_ d t)). now rewrite <- S.
Qed.

(** *** Merging *)
Lemma pm_shape lower L : 0 < L -> shape L lower -> forall n i d r, chain_ok g d -> anc_ok d -> d <> [] -> Z.of_nat n <= i -> i * L < 2 ^ 63 -> from_ d (start L i) = [] ->
  let q := pure_merge lower L n i d r in
  p_hash q = p_hash r /\ p_votes q = p_votes r /\
  (from_ d (start L (i - Z.of_nat n)) = [] -> q = r) /\ (from_ d (start L (i - Z.of_nat n)) <> [] -> p_prev q = lasth (cut d (start L (i - Z.of_nat n)))).
Proof. clear elected votes_of.
  intros P SH. induction n as [|k IH]; intros i d r C A N NI IL F q.
  - cbn in q. subst q. replace (i - Z.of_nat 0) with i by lia. rewrite F. repeat split; auto. congruence.
  - subst q. cbn [pure_merge]. replace (i - Z.of_nat (S k)) with (i - 1 - Z.of_nat k) by lia. set (s := start L (i - 1 - Z.of_nat k)).
    assert (SL : s <= start L (i - 1)) by (subst s; unfold start; nia).
    destruct (from_ d (start L (i - 1))) as [|x bs] eqn:FD.
    + apply IH; auto; try lia; nia.
    + destruct (cut_ok d (start L (i - 1)) C A N) as (C' & A' & N').
      destruct (IH (i - 1) (cut d (start L (i - 1))) {| p_prev := p_prev (lower (i - 1) d); p_hash := p_hash r; p_sbps := merge_map (p_sbps r) (p_sbps (lower (i - 1) d)); p_votes := p_votes r |}) as (H1 & H2 & H3 & H4); auto; try lia; try nia; [apply from_cut_nil|].
      cbn zeta in *. cbn [p_hash p_votes] in H1, H2. split; [exact H1|]. split; [exact H2|]. split.
      * intro Z0. exfalso. pose proof (from_mono d (start L (i - 1)) s SL Z0). congruence.
      * intros _. destruct (from_ (cut d (start L (i - 1))) s) as [|y l] eqn:FC.
        -- rewrite H3 by exact FC. cbn [p_prev]. rewrite <- (cut_cut d (start L (i - 1)) s SL), cut_all by (auto; apply C').
           apply SH; auto; [|replace (i - 1 + 1) with i by lia; exact F|congruence]. split; [lia|]. replace (i - 1 + 1) with i by lia. auto.
        -- fold s in H4. rewrite H4 by congruence. now rewrite cut_cut.
Qed.
Lemma merge_down_eq f lower L : 0 < L -> shape L lower -> level f L lower -> forall n i d e r s, good s -> n_chain s = d ++ e -> d <> [] -> Z.of_nat n <= i -> i * L < 2 ^ 63 ->
  from_ d (start L i) = [] -> p_prev r = lasth d ->
  exists s', merge_down f n i (lasth d) r s = (Some (pure_merge lower L n i d r), s') /\ good s' /\ n_chain s' = n_chain s.
Proof.
  intros P SH LV. induction n as [|k IH]; intros i d e r s GD E N NI IL F PR; [exists s; auto|]. cbn [merge_down pure_merge].
  pose proof (grown_ok g OK elected _ (gd_chain s GD)) as [C _]. pose proof (gd_anc s GD) as A. rewrite E in C, A.
  assert (CD : chain_ok g d) by (eapply chain_ok_prefix; eauto). assert (AD : anc_ok d) by (eapply anc_prefix; eauto).
  assert (II : idx_ok L (i - 1)) by (split; [lia|]; replace (i - 1 + 1) with i by lia; auto).
  destruct (LV s (i - 1) d e GD E N II) as (s1 & -> & G1 & C1).
  { replace (i - 1 + 1) with i by lia. destruct (Z_lt_le_dec (b_time (top d)) (start L i)) as [|T]; [auto|]. exfalso.
    destruct (co_first g d CD) as (b & r' & D & BT). destruct r' as [|z r'].
    - subst d. cbn in T. unfold start in T. nia.
    - assert (I : In (top d) (from_ d (start L i))); [|now rewrite F in I]. apply filter_In. split; [|unfold ge_; lia].
      subst d. cbn [tl]. unfold top. destruct (exists_last (l := z :: r')) as (u & v & UV); [easy|]. rewrite UV. rewrite app_comm_cons, last_last. apply in_app_iff. right. now left. }
  assert (FE : from_ d (start L (i - 1 + 1)) = []) by (replace (i - 1 + 1) with i by lia; exact F).
  rewrite (shape_empty L lower (i - 1) d SH CD AD N II FE). destruct (SH (i - 1) d CD AD N II FE) as (H & H1 & H2).
  destruct (from_ d (start L (i - 1))) as [|x bs] eqn:FD.
  - destruct (IH (i - 1) d e r s1) as (s2 & -> & G2 & C2); auto; try lia; try nia; [congruence|]. exists s2. split; [auto|]. split; [auto|congruence].
  - unfold left_append. rewrite H, PR, Z.eqb_refl.
    destruct (cut_ok d (start L (i - 1)) CD AD N) as (C' & A' & N'). assert (FD' : x :: bs <> []) by discriminate. rewrite (H2 FD').
    pose proof (cut_split d (start L (i - 1)) (co_rise g d CD)) as S.
    destruct (IH (i - 1) (cut d (start L (i - 1))) (from_ d (start L (i - 1)) ++ e) {| p_prev := lasth (cut d (start L (i - 1))); p_hash := p_hash r; p_sbps := merge_map (p_sbps r) (p_sbps (lower (i - 1) d)); p_votes := p_votes r |} s1) as (s2 & E2 & G2 & C2); auto; try lia; try nia.
    + rewrite C1, E. rewrite S at 1. now rewrite <- app_assoc.
    + apply from_cut_nil.
    + rewrite E2. exists s2. split; [|split; [auto|congruence]]. reflexivity.
Qed.

Lemma up_start L rate i : start (rate * L) i = start L (i * rate). Proof. clear elected votes_of. unfold start. ring. Qed.
Lemma up_shape lower L rate extra : 0 < L -> 0 < rate -> shape L lower -> shape (rate * L) (pure_up lower L rate extra).
Proof. clear elected votes_of.
  intros P R SH i d C A N [I0 I1] F. rewrite up_start in *. assert (F' : from_ d (start L (i * rate + rate)) = []) by (replace (i * rate + rate) with ((i + 1) * rate) by ring; exact F).
  destruct (pm_shape lower L P SH (Z.to_nat rate) (i * rate + rate) d (empty_point (lasth d)) C A N) as (H1 & H2 & H3 & H4); auto; try nia. cbn zeta in *.
  replace (i * rate + rate - Z.of_nat (Z.to_nat rate)) with (i * rate) in * by lia. unfold pure_up. set (q := pure_merge lower L (Z.to_nat rate) (i * rate + rate) d (empty_point (lasth d))) in *.
  destruct extra as [f|]; [|rewrite H1; auto]. destruct (is_empty q) eqn:E; [rewrite H1; auto|]. cbn [p_hash p_prev]. split; [rewrite H1; auto|]. split; [|auto].
  intro Z0. rewrite (H3 Z0) in E. unfold is_empty in E. cbn in E. rewrite Z.eqb_refl in E. discriminate.
Qed.
Lemma proof_empty_eq c s e : chain_ok g c -> (e - g_genesis g) mod sec = 0 -> g_genesis g < e -> proof_empty c s e = Some (b_time (top (cut c e)) <? s).
Proof. clear elected votes_of.
  intros C T G. unfold proof_empty. rewrite (found_before g c e C T G), (cut_filter g c e C G). pose proof (cut_split c e (co_rise g c C)) as S.
  assert (N : c <> []) by (destruct (co_first g c C) as (b & r & -> & _); discriminate). assert (CN := cut_nonempty c e N).
  rewrite (block_at_top c (cut c e) (from_ c e) S CN). pose proof (cut_time c e N) as CT. rewrite (proj2 (Z.ltb_lt (b_time (top (cut c e))) e)); [reflexivity|].
  apply CT. intros b r E. destruct (co_first g c C) as (b' & r' & E' & B'). rewrite E in E'. injection E' as -> ->. lia.
Qed.
(** If the chain has no block in the interval, neither has a prefix ending before it ends. *)
Lemma empty_prefix c d e s t : chain_ok g c -> c = d ++ e -> d <> [] -> b_time (top d) < t -> g_genesis g < t -> b_time (top (cut c t)) < s -> from_ d s = [].
Proof. clear elected votes_of.
  intros C E N T G H. assert (CD : chain_ok g d) by (apply (chain_ok_prefix g d e); [now rewrite <- E|auto]). apply from_nil; [apply CD|auto|].
  assert (I : In (top d) (cut c t)).
  { rewrite <- (cut_filter g c t C G). apply filter_In. split; [|unfold lt_; lia]. rewrite E. apply in_app_iff. left. destruct (snoc_of d N) as (r & R). rewrite R at 2. apply in_app_iff. right. now left. }
  assert (top d = top d) as _ by auto. pose proof (cut_split c t (co_rise g c C)) as S. assert (RC : rising (times (cut c t))).
  { pose proof (co_rise g c C) as R. rewrite S in R. unfold times in R. rewrite map_app in R. now apply rising_app in R. }
  pose proof (top_le _ _ RC I). lia.
Qed.

Lemma round_shape : shape (round_len g) (pure_round g elected).
Proof.
  intros i d C A N I F. unfold pure_round. change (start (round_len g) i) with (round_start g i). destruct (from_ d (round_start g i)); cbn; repeat split; congruence.
Qed.
Lemma round_level : level (round_get elected g) (round_len g) (pure_round g elected).
Proof.
  intros s i d e GD E N I T. pose proof (ok_pos g OK) as (P1 & P2 & P3 & P4). pose proof (grown_ok g OK elected _ (gd_chain s GD)) as [C _]. pose proof (gd_anc s GD) as A.
  assert (CD : chain_ok g d) by (apply (chain_ok_prefix g d e); [now rewrite <- E|auto]). unfold round_get.
  destruct (hash_at (n_chain s) 1 =? lasth d) eqn:H.
  - exists s. split; [|auto]. f_equal. f_equal. unfold pure_round. destruct (co_first g d CD) as (b & r & D & BT).
    assert (d = [b]).
    { apply (lasth_inj anc (n_chain s) d e [b] (r ++ e)); auto; [|discriminate|]; [rewrite E, D; reflexivity|]. assert (HB : hash_at (n_chain s) 1 = b_hash b) by (rewrite E, D; reflexivity). change (lasth [b]) with (b_hash b). lia. }
    rewrite H0. reflexivity.
  - assert (TN : tl d <> []).
    { intro TN. destruct (co_first g d CD) as (b & r & D & BT). rewrite D in TN. cbn in TN. subst r. assert (HB : hash_at (n_chain s) 1 = b_hash b) by (rewrite E, D; reflexivity). rewrite D in H. change (lasth [b]) with (b_hash b) in H. lia. }
    assert (COMP : exists s', match round_from_chain elected g (n_chain s) i (lasth d) with Some p => (Some p, set_rounds s (put i p (n_rounds s))) | None => (None, s) end = (Some (pure_round g elected i d), s') /\ good s' /\ n_chain s' = n_chain s).
    { rewrite (round_from_chain_eq g OK elected anc (n_chain s) d e i (gd_chain s GD) A E TN I). eexists. split; [reflexivity|]. split; [|reflexivity].
      destruct GD as [G1 G2 G3 G4 G5]. constructor; cbn [n_chain set_rounds n_rounds n_hours n_days]; auto. intros j p. rewrite get_put. destruct (j =? i) eqn:J; [|auto]. intros [= <-].
      assert (j = i) as -> by lia. assert (HH : p_hash (pure_round g elected i d) = lasth d) by (unfold pure_round; destruct (from_ d _); reflexivity). rewrite HH. now rewrite (A d e E N). }
    destruct (get i (n_rounds s)) as [p|] eqn:GT.
    + destruct (lasth d =? p_hash p) eqn:HP; [|exact COMP]. exists s. split; [|auto]. f_equal. f_equal. rewrite (gd_rounds s GD i p GT). assert (p_hash p = lasth d) as -> by lia. now rewrite (A d e E N).
    + rewrite round_index_eq by auto. cbn [fst snd]. change (round_start g (i + 1)) with (start (round_len g) (i + 1)). rewrite proof_empty_eq; auto; [|apply round_start_aligned; auto|destruct I; unfold start; nia].
      destruct (b_time (top (cut (n_chain s) (start (round_len g) (i + 1)))) <? round_start g i) eqn:Q; [|exact COMP].
      exists s. split; [|auto]. f_equal. f_equal. unfold pure_round. rewrite (empty_prefix (n_chain s) d e (round_start g i) (start (round_len g) (i + 1))); auto; [destruct I; unfold start; nia|lia].
Qed.

Lemma linked_level f lower L rate extra ix sel upd : 0 < L -> 0 < rate -> L mod sec = 0 -> shape L lower -> level f L lower ->
  ix = {| ti_genesis := g_genesis g; ti_interval := rate * L |} ->
  (forall s i p, good s -> get i (sel s) = Some p -> p = pure_up lower L rate extra i (anc (p_hash p))) ->
  (forall s x, n_chain (upd s x) = n_chain s) ->
  (forall s x, good s -> (forall i p, get i x = Some p -> p = pure_up lower L rate extra i (anc (p_hash p))) -> good (upd s x)) ->
  level (linked_get f rate extra ix sel upd) (rate * L) (pure_up lower L rate extra).
Proof.
  intros P R AL SH LV IX SEL UC UPD s i d e GD E N I T.
  pose proof (grown_ok g OK elected _ (gd_chain s GD)) as [C _]. pose proof (gd_anc s GD) as A. assert (CD : chain_ok g d) by (apply (chain_ok_prefix g d e); [now rewrite <- E|auto]).
  assert (AD : anc_ok d) by (apply (anc_prefix anc d e); now rewrite <- E). destruct I as [I0 I1].
  assert (F : from_ d (start (rate * L) (i + 1)) = []) by (apply from_nil; auto; apply CD).
  assert (GE : g_genesis g < start (rate * L) (i + 1)) by (unfold start; assert (0 < rate * L) by nia; nia).
  pose proof (up_shape lower L rate extra P R SH i d CD AD N (conj I0 I1) F) as (U1 & U2 & U3).
  assert (COMP : forall ex : bool, exists s', (let compute (exists_ : bool) := match from_kernel f rate extra s i (lasth d) with | (None, s') => (None, s') | (Some p, s') => (Some p, upd s' (if exists_ && is_empty p then del i (sel s') else put i p (sel s'))) end in compute ex)
      = (Some (pure_up lower L rate extra i d), s') /\ good s' /\ n_chain s' = n_chain s).
  { intro ex. cbn zeta. unfold from_kernel. assert (B : 0 <= i * rate /\ i * rate + rate < 2 ^ 63) by (assert ((i + 1) * rate <= (i + 1) * (rate * L)) by nia; split; nia).
    rewrite (wrap64_small (i * rate)), (wrap64_small (i * rate + rate)) by lia.
    destruct (merge_down_eq f lower L P SH LV (Z.to_nat rate) (i * rate + rate) d e (empty_point (lasth d)) s) as (s1 & -> & G1 & C1); auto; try nia.
    { rewrite up_start in F. replace (i * rate + rate) with ((i + 1) * rate) by ring. exact F. }
    set (q := pure_merge lower L (Z.to_nat rate) (i * rate + rate) d (empty_point (lasth d))).
    change (match extra with Some f0 => if is_empty q then q else {| p_prev := p_prev q; p_hash := p_hash q; p_sbps := p_sbps q; p_votes := Some (f0 (lasth d)) |} | None => q end) with (pure_up lower L rate extra i d).
    eexists. split; [reflexivity|]. rewrite UC. split; [|auto]. apply UPD; auto. intros j p. destruct (ex && is_empty (pure_up lower L rate extra i d)).
    - intro H. apply (SEL s1 j p G1). clear - H. unfold del in H. induction (sel s1) as [|[k v] l IH]; cbn in *; [discriminate|]. destruct (k =? i) eqn:K; cbn in H.
      + destruct (j =? k) eqn:J; [|auto]. exfalso. assert (j = i) by lia. subst. clear - H. induction l as [|[k' v'] l IH]; cbn in H; [discriminate|]. destruct (k' =? i) eqn:K; cbn in H; auto. replace (i =? k') with false in H by lia. auto.
      + destruct (j =? k) eqn:J; auto.
    - rewrite get_put. destruct (j =? i) eqn:J; [|apply SEL; auto]. intros [= <-]. assert (j = i) as -> by lia. rewrite U1. now rewrite (A d e E N). }
  unfold linked_get. destruct (get i (sel s)) as [p|] eqn:GT.
  - destruct (lasth d =? p_hash p) eqn:HP; [|exact (COMP true)]. exists s. split; [|auto]. f_equal. f_equal. rewrite (SEL s i p GD GT). assert (p_hash p = lasth d) as -> by lia. now rewrite (A d e E N).
  - rewrite IX, index2time_gen by (nia || (split; auto)). cbn [fst snd]. fold (start (rate * L) (i + 1)) (start (rate * L) i).
    rewrite proof_empty_eq; auto; [|unfold start; replace (g_genesis g + (i + 1) * (rate * L) - g_genesis g) with (((i + 1) * rate) * L) by ring; rewrite Z.mul_mod, AL, Z.mul_0_r by (rewrite sec_val; lia); reflexivity].
    destruct (b_time (top (cut (n_chain s) (start (rate * L) (i + 1)))) <? start (rate * L) i) eqn:Q; [|exact (COMP false)].
    exists s. split; [|auto]. f_equal. f_equal. rewrite U2; [reflexivity|]. apply (empty_prefix (n_chain s) d e _ (start (rate * L) (i + 1))); auto. lia.
Qed.
End L.
