From Verif Require Import Lib SchedModel SchedSpec SchedProofs SchedProofs2 StatsModel StatsSpec StatsProofs.
Lemma fuel4 : (4 <= search_fuel)%nat. Proof. unfold search_fuel. lia. Qed.
Local Opaque sec Z.pow two64 hour search_fuel.

Section S.
Context (g : group) (OK : group_ok g) (elected : Z -> list Z).

(** The statistics of a round as a function of the chain up to the proof block. *)
Definition round_sbps (i : Z) (d bs : list sblock) : list (Z * (Z * Z)) :=
  fold_left (fun m s => add_num m (sl_member s) 1 0) (gen_plan g i (members elected g d i)) (fold_left (fun m x => add_num m (b_producer x) 0 1) (rev bs) []).
Definition pure_round (i : Z) (d : list sblock) : point :=
  match from_ d (round_start g i) with
  | [] => empty_point (lasth d)
  | bs => {| p_prev := lasth (cut d (round_start g i)); p_hash := lasth d; p_sbps := round_sbps i d bs; p_votes := None |}
  end.

Lemma idx_range i : idx_ok (round_len g) i -> in_range g i. Proof. auto. Qed.
Lemma index2time_gen G L i : 0 < L -> idx_ok L i -> index2time {| ti_genesis := G; ti_interval := L |} i = (G + i * L, G + (i + 1) * L).
Proof. clear elected.
  intros P [I0 I1]. unfold index2time. cbn [ti_genesis ti_interval]. assert (i + 1 <= (i + 1) * L) by nia.
  rewrite (wrap64_small (i + 1)), (wrap_i64_small i), (wrap_i64_small (i + 1)) by lia. rewrite !wrap_i64_small by nia. f_equal; ring.
Qed.
Lemma round_index_eq i : idx_ok (round_len g) i -> index2time (round_index g) i = (round_start g i, round_start g (i + 1)).
Proof. intro I. change (round_index g) with (group_index g). rewrite index2time_eq by auto. reflexivity. Qed.

Lemma chain_ok_prefix d e : chain_ok g (d ++ e) -> d <> [] -> chain_ok g d.
Proof.
  intros [A B C D] N. constructor.
  - destruct A as (b & r & E & T). destruct d as [|x d]; [easy|]. injection E as -> _. eauto.
  - unfold times in *. rewrite map_app in B. now apply rising_app in B.
  - intros b I. apply C. apply in_app_iff. auto.
  - intros b I J. apply D; [apply in_app_iff; auto|]. rewrite tl_app by auto. apply in_app_iff. auto.
Qed.
Lemma grown_prefix c : grown elected g c -> forall d e, c = d ++ e -> d <> [] -> grown elected g d.
Proof.
  induction 1 as [b B|c b G IH A T]; intros d e E N.
  - destruct d as [|x d]; [easy|]. injection E as -> E. symmetry in E. apply app_eq_nil in E as [-> _]. now constructor.
  - destruct e as [|y e] using rev_ind.
    + rewrite app_nil_r in E. subst d. now constructor.
    + rewrite app_assoc in E. apply app_inj_tail in E as [E _]. eauto.
Qed.
Lemma rev_head c t b : rising (times c) -> block_at c (zlen (filter (lt_ t) c)) = Some b -> exists r, filter (lt_ t) c = r ++ [b].
Proof. clear elected.
  intros R B. destruct (filter (lt_ t) c) as [|x f] eqn:F using rev_ind.
  - cbn in B. discriminate.
  - clear IHf. exists f. f_equal. f_equal. pose proof (split_at c t R) as S. rewrite F in S. rewrite S in B. rewrite block_at_app in B by lia.
    rewrite block_at_last in B. congruence.
Qed.
Lemma election_members c i : chain_ok g c -> in_range g i -> election elected g c i = Some (gen_plan g i (members elected g c i)).
Proof.
  intros C I. destruct (election_eq g OK elected c i C I) as (h & b & LB & B & ->). apply last_before_len in LB; [|apply C]. rewrite LB in B.
  apply rev_head in B as (r & E); [|apply C]. unfold members. change (fun b : sblock => b_time b <? count_time g i) with (lt_ (count_time g i)). rewrite E, rev_app_distr. reflexivity.
Qed.
Lemma members_prefix d e i : (forall b, In b e -> count_time g i <= b_time b) -> members elected g (d ++ e) i = members elected g d i.
Proof.
  intro H. unfold members. rewrite filter_app, (filter_none _ e); [now rewrite app_nil_r|]. apply Forall_forall. intros b B. specialize (H b B). lia.
Qed.
(** The search finds the end of the part before a time. *)
Lemma found_before c t : chain_ok g c -> (t - g_genesis g) mod sec = 0 -> g_genesis g < t -> header_before search_fuel (times c) t = Found (zlen (filter (lt_ t) c)).
Proof.
  intros C T G. destruct (counted g c t C T G) as (h & b & -> & LB & B). apply last_before_len in LB; [|apply C]. now rewrite LB.
Qed.
Lemma cut_filter c t : chain_ok g c -> g_genesis g < t -> filter (lt_ t) c = cut c t.
Proof. clear elected.
  intros C G. destruct (co_first g c C) as (b & r & -> & B). cbn [filter cut]. unfold lt_ at 1. replace (b_time b <? t) with true by lia. reflexivity.
Qed.
Lemma round_start_aligned i : (round_start g i - g_genesis g) mod sec = 0.
Proof. clear elected. unfold round_start, round_len, slot_len. replace (g_genesis g + i * (slots g * (g_interval g * sec)) - g_genesis g) with ((i * slots g * g_interval g) * sec) by ring. apply Z.mod_mul. rewrite sec_val. lia. Qed.
Lemma headers_after_eq c d e i : chain_ok g c -> c = d ++ e -> d <> [] -> 0 <= i -> round_start g i <= b_time (top d) ->
  exists h, headers_after c (zlen d) (round_start g i) = Some (rev (from_ d (round_start g i)), h) /\ block_at c h = Some (top (cut d (round_start g i))).
Proof.
  intros C E N I T. pose proof (ok_pos g OK) as (P1 & P2 & P3 & P4). pose proof (chain_ok_prefix d e) as CD. rewrite <- E in CD. specialize (CD C N).
  set (t := round_start g i) in *. unfold headers_after.
  assert (CT : forall u, u <> [] -> u = cut d t -> exists h, h = zlen u /\ block_at c h = Some (top u)).
  { intros u UN U. exists (zlen u). split; [auto|]. rewrite E, (cut_split d t (co_rise g d CD)), <- U, <- app_assoc, block_at_app by lia. destruct (snoc_of u UN) as (r & R). rewrite R at 1 2. apply block_at_last. }
  destruct (Z_lt_le_dec (g_genesis g) t) as [G|G].
  - rewrite found_before by (auto; apply round_start_aligned). rewrite (cut_filter c t C G).
    assert (CC : cut c t = cut d t ++ filter (lt_ t) e) by (rewrite E; destruct d as [|x d]; [easy|]; cbn [app cut]; now rewrite filter_app).
    assert (EN : filter (lt_ t) e = []).
    { apply filter_none, Forall_forall. intros b B. assert (b_time (top d) < b_time b); [|unfold lt_; lia]. pose proof (co_rise g c C) as R. rewrite E in R. destruct (snoc_of d N) as (r & D). rewrite D, <- app_assoc in R.
      unfold times in R. rewrite map_app in R. apply rising_app in R as [_ R]. cbn in R. apply rising_cons in R as [_ F]. rewrite Forall_forall in F. apply F, in_map, B. }
    rewrite EN, app_nil_r in CC. rewrite CC. exists (zlen (cut d t)). split.
    + pose proof (cut_split d t (co_rise g d CD)) as S. assert (L : zlen d = zlen (cut d t) + zlen (from_ d t)) by (rewrite S at 1; apply zlen_app).
      assert (F : (if zlen d <=? zlen (cut d t) then [] else rev (firstn (Z.to_nat (zlen d - zlen (cut d t))) (skipn (Z.to_nat (zlen (cut d t))) c))) = rev (from_ d t)).
      { destruct (zlen d <=? zlen (cut d t)) eqn:Q.
        - assert (from_ d t = []) as ->; [|reflexivity]. apply length_zero_iff_nil. unfold zlen in *. lia.
        - f_equal. rewrite L, E. replace (zlen (cut d t) + zlen (from_ d t) - zlen (cut d t)) with (zlen (from_ d t)) by lia. rewrite S at 3. rewrite <- app_assoc. unfold zlen. rewrite !Nat2Z.id.
          rewrite skipn_app, skipn_all, Nat.sub_diag. cbn [skipn app]. rewrite firstn_app, firstn_all, Nat.sub_diag. cbn. apply app_nil_r. }
      rewrite F. reflexivity.
    + destruct (CT (cut d t)) as (h & -> & B); auto. apply cut_nonempty; auto.
  - assert (TG : t = g_genesis g) by (unfold t, round_start in *; nia).
    pose proof (header_before_sound (times c) search_fuel t) as S. assert (NE : times c <> []) by (destruct (co_first g c C) as (b & r & -> & _); discriminate). specialize (S NE (co_rise g c C)).
    destruct (header_before_whole (times c) t NE (co_rise g c C) (co_whole g c t C (round_start_aligned i)) search_fuel) as [(h & H)|H]; [apply fuel4| |].
    { exfalso. rewrite H in S. destruct S as (x & X & XT & _). pose proof (co_first_at g c C) as F1. rewrite TG in XT.
      assert (H1 : 1 <= h) by (apply (at_height_some (times c) h); eauto). destruct (Z.eq_dec h 1) as [->|]; [rewrite F1 in X; injection X as <-; lia|].
      pose proof (rising_at (times c) 1 h (g_genesis g) x (co_rise g c C)). lia || (specialize (H0 ltac:(lia) F1 X); lia). }
    rewrite H. destruct (co_first g d CD) as (b & r & D & BT). exists 1.
    assert (FR : from_ d t = r).
    { unfold from_. rewrite D. cbn [tl]. apply filter_all, Forall_forall. intros x X. pose proof (co_rise g d CD) as R. rewrite D in R. cbn [times map] in R. apply rising_cons in R as [_ F].
      rewrite Forall_forall in F. specialize (F (b_time x) (in_map _ _ _ X)). unfold ge_. lia. }
    assert (CU : cut d t = [b]).
    { rewrite D. cbn [cut]. f_equal. apply filter_none, Forall_forall. intros x X. rewrite <- FR in X. apply filter_In in X. unfold ge_, lt_ in *. lia. }
    rewrite FR, CU. split.
    + f_equal. f_equal. rewrite D, E, D, zlen_cons. pose proof (zlen_nonneg r). destruct (1 + zlen r <=? 1) eqn:Q.
      * destruct r; [reflexivity|]. rewrite zlen_cons in Q. pose proof (zlen_nonneg r). lia.
      * f_equal. cbn [app skipn]. replace (1 + zlen r - 1) with (zlen r) by lia. unfold zlen. rewrite Nat2Z.id, firstn_app, firstn_all, Nat.sub_diag. cbn. apply app_nil_r.
    + rewrite E, D. reflexivity.
Qed.

Context (anc : Z -> list sblock).
Definition anc_ok (c : list sblock) : Prop := forall d e, c = d ++ e -> d <> [] -> anc (lasth d) = d.
Lemma anc_prefix d e : anc_ok (d ++ e) -> anc_ok d.
Proof. intros A d' e' E N. apply (A d' (e' ++ e)); auto. now rewrite E, app_assoc. Qed.
Lemma height_from_first c : forall n h, match height_from n c h with Some k => exists d b e, c = d ++ b :: e /\ b_hash b = h /\ k = n + zlen d | None => forall b, In b c -> b_hash b <> h end.
Proof.
  induction c as [|x c IH]; intros n h; cbn [height_from]; [easy|]. destruct (b_hash x =? h) eqn:E.
  - exists [], x, c. change (zlen (@nil sblock)) with 0. split; [auto|]. split; lia.
  - specialize (IH (n + 1) h). destruct (height_from (n + 1) c h).
    + destruct IH as (d & b & e & -> & B & K). exists (x :: d), b, e. rewrite zlen_cons. split; [auto|]. split; [auto|lia].
    + intros b [<-|B]; [lia|auto].
Qed.
Lemma height_of_eq c d e : anc_ok c -> c = d ++ e -> d <> [] -> height_of c (lasth d) = Some (zlen d).
Proof.
  intros A E N. unfold height_of. pose proof (height_from_first c 1 (lasth d)) as H. destruct (height_from 1 c (lasth d)).
  - destruct H as (d' & b & e' & E' & B & ->). pose proof (A d e E N) as A1. assert (L : lasth (d' ++ [b]) = lasth d) by (unfold lasth at 1; now rewrite top_snoc).
    assert (A2 : anc (lasth (d' ++ [b])) = d' ++ [b]) by (apply (A _ e'); [rewrite <- app_assoc; exact E'|destruct d'; discriminate]).
    rewrite L, A1 in A2. rewrite A2, zlen_app. change (zlen [b]) with 1. f_equal. lia.
  - exfalso. destruct (snoc_of d N) as (r & R). apply (H (top d)); [|reflexivity]. rewrite E. apply in_app_iff. left. rewrite R at 2. apply in_app_iff. right. now left.
Qed.
Lemma block_at_top c d e : c = d ++ e -> d <> [] -> block_at c (zlen d) = Some (top d).
Proof. intros -> N. rewrite block_at_app by lia. destruct (snoc_of d N) as (r & R). rewrite R at 1 2. apply block_at_last. Qed.
Lemma after_top c d e b : chain_ok g c -> c = d ++ e -> d <> [] -> In b e -> b_time (top d) < b_time b.
Proof.
  intros C E N B. pose proof (co_rise g c C) as R. rewrite E in R. destruct (snoc_of d N) as (r & D). rewrite D, <- app_assoc in R.
  unfold times in R. rewrite map_app in R. apply rising_app in R as [_ R]. cbn in R. apply rising_cons in R as [_ F]. rewrite Forall_forall in F. apply F, in_map, B.
Qed.
Lemma count_le_start i b : 0 <= i -> (exists k, 1 <= k /\ b_time b = slot_at g k) -> round_start g i <= b_time b -> count_time g i <= b_time b.
Proof.
  intros I (k & K & B) T. pose proof (ok_pos g OK) as (P1 & P2 & P3 & P4). pose proof sec_val. unfold count_time. destruct (i <? 2) eqn:Q.
  - rewrite B. unfold slot_at. assert (sec <= slot_len g) by (destruct OK; unfold slot_len; nia). nia.
  - unfold round_start in T. nia.
Qed.
Lemma lasth_inj c d e d' e' : anc_ok c -> c = d ++ e -> c = d' ++ e' -> d <> [] -> d' <> [] -> lasth d = lasth d' -> d = d'.
Proof. intros A E E' N N' L. rewrite <- (A d e E N), <- (A d' e' E' N'). now rewrite L. Qed.
Lemma round_from_chain_eq c d e i : grown elected g c -> anc_ok c -> c = d ++ e -> tl d <> [] -> idx_ok (round_len g) i ->
  round_from_chain elected g c i (lasth d) = Some (pure_round i d).
Proof.
  intros GR A E TN I. assert (N : d <> []) by (destruct d; easy). pose proof (grown_ok g OK elected c GR) as [C SL].
  assert (CD : chain_ok g d) by (apply (chain_ok_prefix d e); [now rewrite <- E|auto]).
  unfold round_from_chain. rewrite (height_of_eq c d e A E N), (block_at_top c d e E N), index2time_eq by auto. cbn [fst]. fold (round_start g i).
  unfold pure_round. destruct (b_time (top d) <? round_start g i) eqn:T.
  - rewrite from_nil; [reflexivity| |auto|lia]. apply CD.
  - destruct (headers_after_eq c d e i C E N) as (h & -> & B); [destruct I; auto|lia|].
    destruct (from_ d (round_start g i)) as [|x bs] eqn:F; [reflexivity|]. destruct (rev (x :: bs)) as [|y l] eqn:RV.
    { apply (f_equal (@length _)) in RV. rewrite rev_length in RV. discriminate. }
    rewrite election_members by auto. unfold gen_point.
    assert (TT : top d = y).
    { destruct (from_top d (round_start g i)) as [_ L]; [apply CD|congruence|]. rewrite F in L. rewrite L, <- (rev_involutive (x :: bs)), RV. cbn [rev]. apply last_last. }
    assert (HT : lasth d = b_hash y) by (unfold lasth; now rewrite TT). rewrite HT, Z.eqb_refl. f_equal. unfold hash_at. rewrite B.
    assert (M : members elected g c i = members elected g d i).
    { rewrite E. apply members_prefix. intros b Bi. pose proof (after_top c d e b C E N Bi). assert (count_time g i <= b_time (top d)); [|lia].
      apply count_le_start; [destruct I; auto| |lia]. destruct (SL (top d)) as (k & K & KT & _); [|eauto].
      rewrite E, tl_app by auto. apply in_app_iff. left. destruct d as [|z d]; [easy|]. cbn [tl] in *. unfold top. destruct (snoc_of d TN) as (r & R). rewrite R. rewrite app_comm_cons, last_last. apply in_app_iff. right. now left. }
    unfold round_sbps. rewrite M, RV. reflexivity.
Qed.
End S.
