From Verif Require Import Lib SchedModel SchedSpec SchedProofs.
Local Opaque sec Z.pow two64.

Lemma last_before_unique ts t h h' : last_before ts t h -> last_before ts t h' -> h = h'.
Proof. intros (x & X & XT & XM) (y & Y & YT & YM). pose proof (XM _ _ Y YT). pose proof (YM _ _ X XT). lia. Qed.
Lemma block_at_time c h : at_height (times c) h = option_map b_time (block_at c h).
Proof. unfold at_height, block_at, times. destruct (h <=? 0); [reflexivity|]. rewrite nth_error_map. reflexivity. Qed.
Lemma block_at_app c d h : h <= zlen c -> block_at (c ++ d) h = block_at c h.
Proof. intro H. unfold block_at. destruct (h <=? 0) eqn:E; [reflexivity|]. apply nth_error_app1. unfold zlen in H. lia. Qed.
Lemma block_at_in c h b : block_at c h = Some b -> In b c.
Proof. unfold block_at. destruct (h <=? 0); [discriminate|]. apply nth_error_In. Qed.
Lemma zlen_times c : zlen (times c) = zlen c.
Proof. unfold zlen, times. now rewrite map_length. Qed.
Lemma block_at_last c b : block_at (c ++ [b]) (zlen (c ++ [b])) = Some b.
Proof.
  unfold block_at, zlen. rewrite app_length. cbn [length]. replace (_ <=? 0) with false by lia.
  rewrite nth_error_app2 by lia. replace (Z.to_nat (Z.of_nat (length c + 1) - 1) - length c)%nat with 0%nat by lia. reflexivity.
Qed.
Lemma rising_snoc ts y : rising ts -> (forall x, at_height ts (zlen ts) = Some x -> x < y) -> rising (ts ++ [y]).
Proof.
  induction ts as [|a ts IH]; intros R H; [exact I|]. destruct ts as [|b ts].
  - cbn. split; [|trivial]. apply H. reflexivity.
  - destruct R as [R1 R2]. split; [auto|]. apply IH; [auto|]. intros x X. apply H. revert X. unfold at_height, zlen. cbn [length].
    replace (Z.of_nat (S (length ts)) <=? 0) with false by lia. replace (Z.of_nat (S (S (length ts))) <=? 0) with false by lia.
    replace (Z.to_nat (Z.of_nat (S (length ts)) - 1)) with (length ts) by lia. replace (Z.to_nat (Z.of_nat (S (S (length ts))) - 1)) with (S (length ts)) by lia.
    auto.
Qed.

Section G.
Context (g : group) (OK : group_ok g).
Lemma aligned k : (slot_at g k - g_genesis g) mod sec = 0.
Proof. unfold slot_at, slot_len. replace (g_genesis g + k * (g_interval g * sec) - g_genesis g) with ((k * g_interval g) * sec) by ring. apply Z.mod_mul. rewrite sec_val. lia. Qed.
Lemma instant_round t : instant g t -> in_range g (time2index (group_index g) t) /\ time2index (group_index g) t = (t - g_genesis g) / round_len g /\ 0 <= time2index (group_index g) t.
Proof.
  intros [T0 T1]. pose proof (ok_pos g OK) as (P1 & P2 & P3 & P4). assert (E : time2index (group_index g) t = (t - g_genesis g) / round_len g) by (apply time2index_eq; auto; lia).
  rewrite E. assert (0 <= (t - g_genesis g) / round_len g) by (apply Z.div_pos; lia). assert ((t - g_genesis g) / round_len g * round_len g <= t - g_genesis g) by (rewrite Z.mul_comm; apply Z.mul_div_le; lia).
  split; [|split; [reflexivity|auto]]. split; [auto|]. nia.
Qed.
Lemma proof_time_eq i : in_range g i -> proof_time g i = count_time g i.
Proof.
  intros [I0 I1]. pose proof (ok_pos g OK) as (P1 & P2 & P3 & P4). unfold proof_time, count_time. destruct (i <? 2) eqn:E; [reflexivity|].
  rewrite index2time_eq; auto; [cbn [snd]; ring|]. split; [lia|]. nia.
Qed.
Lemma count_aligned i : (count_time g i - g_genesis g) mod sec = 0.
Proof.
  unfold count_time. pose proof sec_val as SV. destruct (i <? 2).
  - replace (g_genesis g + sec - g_genesis g) with (1 * sec) by ring. apply Z.mod_mul. lia.
  - unfold round_len, slot_len. replace (g_genesis g + (i - 1) * (slots g * (g_interval g * sec)) - g_genesis g) with (((i - 1) * slots g * g_interval g) * sec) by ring. apply Z.mod_mul. lia.
Qed.
Lemma count_after i : g_genesis g < count_time g i.
Proof.
  pose proof (ok_pos g OK) as (P1 & P2 & P3 & P4). pose proof sec_val. unfold count_time. destruct (i <? 2) eqn:E; [lia|]. nia.
Qed.
(** A block in slot [k] after genesis is later than the vote count of its own round. *)
Lemma count_before k : 1 <= k -> count_time g (k / slots g) <= slot_at g k.
Proof.
  intro K. pose proof (ok_pos g OK) as (P1 & P2 & P3 & P4). pose proof sec_val as SV. assert (S1 : sec <= slot_len g) by (destruct OK; unfold slot_len; nia).
  assert (0 <= k / slots g) by (apply Z.div_pos; lia). assert (D : k / slots g * slots g <= k) by (rewrite Z.mul_comm; apply Z.mul_div_le; lia).
  unfold count_time, slot_at. destruct (k / slots g <? 2) eqn:E; [nia|]. unfold round_len. set (i := k / slots g) in *. clearbody i.
  assert ((i - 1) * slots g <= k) by nia. nia.
Qed.

Record chain_ok (c : list sblock) : Prop := {
  co_first : exists b r, c = b :: r /\ b_time b = g_genesis g;
  co_rise : rising (times c);
  co_slot : forall b, In b c -> exists k, 0 <= k /\ b_time b = slot_at g k;
  co_inst : forall b, In b c -> In b (tl c) -> instant g (b_time b) }.
Lemma co_whole c t : chain_ok c -> (t - g_genesis g) mod sec = 0 -> whole_seconds (times c) t.
Proof.
  intros C T. unfold whole_seconds, times. apply Forall_map, Forall_forall. intros b B. destruct (co_slot c C b B) as (k & _ & K). pose proof (aligned k) as A. rewrite K. rewrite sec_val in *. lia.
Qed.
Lemma co_first_at c : chain_ok c -> at_height (times c) 1 = Some (g_genesis g).
Proof. intro C. destruct (co_first c C) as (b & r & -> & B). cbn. now rewrite B. Qed.
(** The block the votes are counted at exists and is unique. *)
Lemma counted c t : chain_ok c -> (t - g_genesis g) mod sec = 0 -> g_genesis g < t ->
  exists h b, header_before search_fuel (times c) t = Found h /\ last_before (times c) t h /\ block_at c h = Some b.
Proof.
  intros C T GT. assert (NE : times c <> []) by (destruct (co_first c C) as (b & r & -> & _); discriminate).
  pose proof (header_before_sound (times c) search_fuel t NE (co_rise c C)) as S.
  destruct (header_before_whole (times c) t NE (co_rise c C) (co_whole c t C T) search_fuel) as [(h & H)|H]; [unfold search_fuel; lia| |].
  - rewrite H in S |- *. destruct S as (x & X & XT & XM). exists h. rewrite block_at_time in X. destruct (block_at c h) as [b|] eqn:B; [|discriminate]. exists b.
    split; [reflexivity|]. split; [|reflexivity]. exists x. rewrite block_at_time, B. auto.
  - rewrite H in S. pose proof (S 1 _ (co_first_at c C)). lia.
Qed.
Context (elected : Z -> list Z).
Lemma election_eq c i : chain_ok c -> in_range g i -> exists h b, last_before (times c) (count_time g i) h /\ block_at c h = Some b /\
  election elected g c i = Some (gen_plan g i (elected (b_hash b))).
Proof.
  intros C I. destruct (counted c (count_time g i) C (count_aligned i) (count_after i)) as (h & b & H & LB & B). exists h, b. split; [auto|]. split; [auto|].
  unfold election. rewrite proof_time_eq, H, B by auto. reflexivity.
Qed.
Lemma verify_exact c a t : chain_ok c -> instant g t -> (verify_producer elected g c a t = true <-> may_produce elected g c a t).
Proof.
  intros C T. destruct (instant_round t T) as (IR & IE & I0). unfold verify_producer. set (i := time2index (group_index g) t) in *.
  destruct (election_eq c i C IR) as (h & b & LB & B & ->). rewrite plan_has_iff. split.
  - intros (x & X & XM & XS). assert (LE : zlen (elected (b_hash b)) <= g_nodes g) by (unfold gen_plan in X; destruct (g_nodes g <? zlen _) eqn:E; [easy|lia]).
    apply plan_in in X; auto. destruct X as (k & m & K & Hm & ->). cbn in XM, XS. subst m. exists k, h, b. rewrite K. auto.
  - intros (k & h' & b' & K & LB' & B' & LE & Hm). assert (KI : k / slots g = i) by (rewrite IE, K; symmetry; now apply slot_round).
    rewrite KI in LB'. assert (h' = h) as -> by (eapply last_before_unique; eauto). rewrite B in B'. injection B' as <-.
    exists (mk g (slot_at g k) a). split; [|split; [reflexivity|cbn; auto]]. apply plan_in; auto. exists k, a. auto.
Qed.
(** Extending the chain past the counting time leaves the block votes are counted at unchanged. *)
Lemma last_before_ext c d t h : (forall b, In b d -> t <= b_time b) -> (last_before (times (c ++ d)) t h <-> last_before (times c) t h).
Proof.
  intro D.
  assert (INC : forall h' y, at_height (times c) h' = Some y -> at_height (times (c ++ d)) h' = Some y).
  { intros h' y Y. assert (h' <= zlen c) by (rewrite <- zlen_times; eapply at_height_some; eauto). rewrite block_at_time in *. now rewrite block_at_app. }
  assert (RET : forall h' y, at_height (times (c ++ d)) h' = Some y -> y < t -> at_height (times c) h' = Some y).
  { intros h' y Y L. unfold at_height, times in *. destruct (h' <=? 0); [discriminate|]. rewrite map_app in Y. destruct (Nat.ltb (Z.to_nat (h' - 1)) (length (map b_time c))) eqn:E.
    - apply Nat.ltb_lt in E. now rewrite nth_error_app1 in Y.
    - apply Nat.ltb_ge in E. rewrite nth_error_app2 in Y by auto. apply nth_error_In in Y. apply in_map_iff in Y as (b & <- & B). specialize (D b B). lia. }
  split; intros (x & X & XT & XM); exists x; split; eauto; split; auto; intros h' y Y L; eauto.
Qed.
Lemma may_produce_ext c d a k : 0 <= k -> (forall b, In b d -> count_time g (k / slots g) <= b_time b) ->
  (may_produce elected g (c ++ d) a (slot_at g k) <-> may_produce elected g c a (slot_at g k)).
Proof.
  intros K D. pose proof (ok_pos g OK) as (P1 & P2 & P3 & P4).
  assert (KE : forall k', slot_at g k = slot_at g k' -> k' = k) by (unfold slot_at; intros; nia).
  split; intros (k' & h & b & E & LB & B & LE & Hm); pose proof (KE _ E); subst k'; exists k, h, b.
  - apply last_before_ext in LB; auto. split; [auto|]. split; [auto|]. split; [|auto]. destruct LB as (x & X & _).
    assert (h <= zlen c) by (rewrite <- zlen_times; eapply at_height_some; eauto). now rewrite block_at_app in B.
  - split; [auto|]. split; [apply last_before_ext; auto|]. split; [|auto]. destruct LB as (x & X & _).
    assert (h <= zlen c) by (rewrite <- zlen_times; eapply at_height_some; eauto). now rewrite block_at_app.
Qed.
Lemma grown_ok c : grown elected g c -> chain_ok c /\ (forall b, In b (tl c) -> exists k, 1 <= k /\ b_time b = slot_at g k /\ may_produce elected g c (b_producer b) (b_time b)).
Proof.
  pose proof (ok_pos g OK) as (P1 & P2 & P3 & P4).
  induction 1 as [b B|c b GR [C P] A TB].
  - split; [|intros ? []]. constructor; cbn; eauto.
    + intros b' [<-|[]]. exists 0. split; [lia|]. unfold slot_at. lia.
    + intros b' _ [].
  - unfold accepts in A. destruct (block_at c (zlen c)) as [l|] eqn:L; [|discriminate]. apply andb_true_iff in A as [A1 A2]. apply Z.ltb_lt in A1.
    assert (LG : g_genesis g <= b_time l) by (destruct (co_slot c C l (block_at_in _ _ _ L)) as (k & K & ->); unfold slot_at; nia).
    assert (IN : instant g (b_time b)) by (split; lia).
    apply verify_exact in A2; auto. pose proof A2 as (k & h & b0 & K & _). assert (1 <= k) as K1 by (unfold slot_at in *; nia).
    assert (C' : chain_ok (c ++ [b])).
    { constructor.
      - destruct (co_first c C) as (b1 & r & -> & B1). cbn. eauto.
      - unfold times. rewrite map_app. cbn. apply rising_snoc; [apply C|]. fold (times c). rewrite zlen_times. intros x X. rewrite block_at_time, L in X. cbn in X. injection X as <-. auto.
      - intros b' IB. apply in_app_or in IB as [IB|[<-|[]]]; [now apply (co_slot c C)|]. exists k. split; [lia|auto].
      - intros b' IB TB'. destruct (co_first c C) as (b1 & r & -> & B1). cbn in TB'. apply in_app_or in TB' as [TB'|[<-|[]]]; auto. apply (co_inst _ C); [right; auto|auto]. }
    split; [exact C'|]. intros b' IB. destruct (co_first c C) as (b1 & r & E & B1). rewrite E in IB. cbn in IB. apply in_app_or in IB as [IB|[<-|[]]].
    + assert (TL : In b' (tl c)) by (rewrite E; auto). destruct (P b' TL) as (k' & K1' & K' & M). exists k'. split; [auto|]. split; [auto|].
      rewrite K'. apply may_produce_ext; [lia| |rewrite <- K'; auto]. intros b'' [<-|[]].
      pose proof (count_before k' K1'). assert (b_time b' <= b_time l); [|lia].
      assert (IC : In b' c) by (rewrite E; right; auto). apply In_nth_error in IC as (n & N).
      assert (AT : at_height (times c) (Z.of_nat n + 1) = Some (b_time b')).
      { rewrite block_at_time. unfold block_at. replace (_ <=? 0) with false by lia. replace (Z.to_nat (Z.of_nat n + 1 - 1)) with n by lia. now rewrite N. }
      assert (AL : at_height (times c) (zlen c) = Some (b_time l)) by (rewrite block_at_time, L; reflexivity).
      assert (Z.of_nat n + 1 <= zlen c) by (rewrite <- zlen_times; eapply at_height_some; eauto).
      destruct (Z.eq_dec (Z.of_nat n + 1) (zlen c)) as [EQ|]; [rewrite EQ in AT; rewrite AT in AL; injection AL as ->; lia|].
      assert (b_time b' < b_time l) by (eapply (rising_at (times c)); [apply C| |eauto|eauto]; lia). lia.
    + exists k. split; [auto|]. split; [auto|]. rewrite K. apply may_produce_ext; [lia| |rewrite <- K; auto]. intros b'' [<-|[]]. rewrite K. now apply count_before.
Qed.
End G.
