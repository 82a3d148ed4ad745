From Verif Require Import Lib SchedModel SchedSpec SchedProofs SchedProofs2 StatsModel StatsSpec StatsProofs StatsProofs2 StatsProofs3.
Lemma hour_val : hour = 3600 * sec. Proof. reflexivity. Qed.
Local Opaque sec Z.pow two64 hour search_fuel.

(** ** Counting *)
Lemma count_app a l m : count a (l ++ m) = count a l + count a m.
Proof. unfold count. rewrite filter_app. apply zlen_app. Qed.
Lemma count_cons a x l : count a (x :: l) = (if a =? x then 1 else 0) + count a l.
Proof. unfold count. cbn [filter]. destruct (a =? x); [apply zlen_cons|lia]. Qed.
Lemma count_nil a : count a [] = 0. Proof. reflexivity. Qed.
Lemma count_nonneg a l : 0 <= count a l <= zlen l.
Proof. induction l as [|x l IH]; [rewrite count_nil; change (zlen (@nil Z)) with 0; lia|]. rewrite count_cons, zlen_cons. destruct (a =? x); lia. Qed.
Lemma count_rev a l : count a (rev l) = count a l.
Proof. induction l as [|x l IH]; [auto|]. cbn [rev]. rewrite count_app, IH, !count_cons, count_nil. lia. Qed.
Lemma during_split c s t u : s <= t <= u -> rising (times c) -> during c s u = during c s t ++ during c t u.
Proof.
  intros H R. unfold during. apply rising_tl in R. revert R. induction (tl c) as [|b r IH]; intro R; [auto|]. cbn [times map] in R. apply rising_cons in R as [R F].
  cbn [filter]. destruct (Z_lt_le_dec (b_time b) t) as [L|L].
  - replace ((t <=? b_time b) && (b_time b <? u)) with false by lia. replace ((s <=? b_time b) && (b_time b <? u)) with ((s <=? b_time b) && (b_time b <? t)) by lia.
    rewrite IH by auto. destruct ((s <=? b_time b) && (b_time b <? t)); reflexivity.
  - assert (A : filter (fun x => (s <=? b_time x) && (b_time x <? t)) r = []).
    { apply filter_none, Forall_forall. intros x X. rewrite Forall_forall in F. specialize (F (b_time x) (in_map _ _ _ X)). lia. }
    replace ((s <=? b_time b) && (b_time b <? t)) with false by lia. rewrite A. cbn [app]. replace ((s <=? b_time b) && (b_time b <? u)) with ((t <=? b_time b) && (b_time b <? u)) by lia.
    rewrite IH, A by auto. reflexivity.
Qed.
Lemma produced_split c a s t u : s <= t <= u -> rising (times c) -> produced c a s u = produced c a s t + produced c a t u.
Proof. intros H R. unfold produced. rewrite (during_split c s t u), map_app by auto. apply count_app. Qed.
Lemma produced_cut c a t s e : e <= t -> produced (cut c t) a s e = produced c a s e.
Proof. intro H. unfold produced. now rewrite during_cut. Qed.
Lemma during_from' d s e : from_ d e = [] -> during d s e = from_ d s.
Proof.
  intro F. unfold during, from_. apply filter_same. intros x I. destruct (ge_ e x) eqn:E.
  - exfalso. assert (J : In x (from_ d e)) by (apply filter_In; auto). now rewrite F in J.
  - unfold ge_ in *. lia.
Qed.
Lemma during_nil d s e s' : s <= s' -> from_ d s = [] -> during d s' e = [].
Proof.
  intros L F. apply filter_none, Forall_forall. intros x X. destruct (s' <=? b_time x) eqn:E; [|auto]. exfalso.
  assert (J : In x (from_ d s)) by (apply filter_In; split; auto; unfold ge_; lia). now rewrite F in J.
Qed.

Section P.
Context (g : group) (OK : group_ok g).
Lemma count_member a n : forall s m, count a (map sl_member (fst (plan_member g n s m))) = Z.of_nat n * (if a =? m then 1 else 0).
Proof. induction n as [|n IH]; intros s m; cbn [plan_member fst map]; [rewrite count_nil; lia|]. rewrite count_cons, IH. cbn [sl_member]. destruct (a =? m); lia. Qed.
Lemma count_members a ms : forall s, count a (map sl_member (fst (plan_members g ms s))) = g_per g * count a ms.
Proof.
  assert (0 <= g_per g) by (destruct OK; lia).
  induction ms as [|m ms IH]; intro s; cbn [plan_members fst]; [cbn; lia|]. rewrite map_app, count_app, count_member, IH, count_cons, Z2Nat.id by auto. ring.
Qed.
Lemma count_repeat a ms n : forall s, count a (map sl_member (plan_repeat g n ms s)) = Z.of_nat n * (g_per g * count a ms).
Proof. induction n as [|n IH]; intro s; cbn [plan_repeat]; [cbn; lia|]. rewrite map_app, count_app, count_members, IH. lia. Qed.
Lemma plan_count i ms a : count a (map sl_member (gen_plan g i ms)) = planned g ms a.
Proof. unfold gen_plan, planned. destruct (g_nodes g <? zlen ms); [reflexivity|]. rewrite count_repeat, Z2Nat.id by (destruct OK; lia). ring. Qed.
Lemma planned_bound ms a : 0 <= planned g ms a <= slots g.
Proof.
  pose proof (ok_pos g OK) as (P1 & _). unfold planned. destruct (g_nodes g <? zlen ms) eqn:E; [lia|]. pose proof (count_nonneg a ms). destruct OK as (A & B & C & D & _). unfold slots.
  assert (0 <= g_per g * g_repeat g) by nia. split; [nia|]. replace (g_nodes g * g_per g * g_repeat g) with (g_per g * g_repeat g * g_nodes g) by ring. nia.
Qed.

Context (elected : Z -> list Z).
Notation expected := (expected elected g).
Notation expected_from := (expected_from elected g).
Lemma count_le_end i : 0 <= i -> count_time g i <= round_start g (i + 1).
Proof.
  intro I. pose proof (ok_pos g OK) as (P1 & P2 & P3 & P4). pose proof sec_val. unfold count_time, round_start. assert (sec <= slot_len g) by (destruct OK; unfold slot_len; nia).
  destruct (i <? 2) eqn:Q; nia.
Qed.
Lemma members_cut c t i : chain_ok g c -> 0 <= i -> count_time g i <= t -> members elected g (cut c t) i = members elected g c i.
Proof.
  intros C I T. unfold members. f_equal. destruct c as [|x r]; [auto|]. cbn [cut filter]. rewrite filter_filter.
  rewrite (filter_ext (fun x0 => lt_ t x0 && (b_time x0 <? count_time g i)) (fun x0 => b_time x0 <? count_time g i)); [auto|]. intro b. unfold lt_. lia.
Qed.
Lemma expected_cut c a t i : chain_ok g c -> 0 <= i -> round_start g (i + 1) <= t -> expected (cut c t) a i = expected c a i.
Proof. intros C I T. unfold StatsSpec.expected. rewrite during_cut, members_cut; auto. pose proof (count_le_end i I). lia. Qed.
Lemma expected_from_cut c a t n : chain_ok g c -> forall i, 0 <= i -> round_start g (i + Z.of_nat n) <= t -> expected_from (cut c t) a i n = expected_from c a i n.
Proof.
  pose proof (ok_pos g OK) as (P1 & P2 & P3 & P4).
  intros C. induction n as [|n IH]; intros i I T; [auto|]. cbn [StatsSpec.expected_from]. rewrite expected_cut, IH; auto; try lia.
  - replace (i + 1 + Z.of_nat n) with (i + Z.of_nat (S n)) by lia. auto.
  - unfold round_start in *. nia.
Qed.
Lemma expected_from_app c a m n : forall i, expected_from c a i (m + n) = expected_from c a i m + expected_from c a (i + Z.of_nat m) n.
Proof. induction m as [|m IH]; intro i; cbn [StatsSpec.expected_from Nat.add]; [rewrite Z.add_0_r; lia|]. rewrite IH. replace (i + Z.of_nat (S m)) with (i + 1 + Z.of_nat m) by lia. lia. Qed.
Lemma expected_from_nil c a n : forall i, from_ c (round_start g i) = [] -> expected_from c a i n = 0.
Proof.
  pose proof (ok_pos g OK) as (P1 & P2 & P3 & P4).
  induction n as [|n IH]; intros i F; [auto|]. cbn [StatsSpec.expected_from]. unfold StatsSpec.expected. rewrite (during_nil c (round_start g i)) by (auto; lia). rewrite IH; [lia|].
  apply (from_mono c _ (round_start g i)); auto. unfold round_start. nia.
Qed.
Lemma expected_bound c a n : forall i, 0 <= expected_from c a i n <= Z.of_nat n * slots g.
Proof.
  pose proof (ok_pos g OK) as (P1 & _). induction n as [|n IH]; intro i; [cbn; lia|]. cbn [StatsSpec.expected_from]. specialize (IH (i + 1)).
  assert (0 <= expected c a i <= slots g) by (unfold StatsSpec.expected; pose proof (planned_bound (members elected g c i) a); destruct (during c _ _); lia). lia.
Qed.

(** ** Nobody produces more than planned *)
Lemma members_last c i h b : chain_ok g c -> last_before (times c) (count_time g i) h -> block_at c h = Some b -> members elected g c i = elected (b_hash b).
Proof.
  intros C LB B. apply last_before_len in LB; [|apply C]. rewrite LB in B. apply rev_head in B as (r & E); [|apply C]. unfold members. change (fun b : sblock => b_time b <? count_time g i) with (lt_ (count_time g i)).
  rewrite E, rev_app_distr. reflexivity.
Qed.
Lemma rising_nodup ts : rising ts -> NoDup ts.
Proof. induction ts as [|x ts IH]; intro R; [constructor|]. apply rising_cons in R as [R F]. constructor; [|auto]. intro I. rewrite Forall_forall in F. specialize (F x I). lia. Qed.
Lemma nodup_filter_map {A} (f : A -> Z) (p : A -> bool) l : NoDup (map f l) -> NoDup (map f (filter p l)).
Proof.
  induction l as [|x l IH]; intro N; [constructor|]. cbn in N. inversion N; subst. cbn [filter]. destruct (p x); [|auto]. cbn. constructor; [|auto].
  intro I. apply H1. apply in_map_iff in I as (y & Y & I). apply filter_In in I as [I _]. rewrite <- Y. now apply in_map.
Qed.
Lemma count_filter {A} (f : A -> Z) a l : count a (map f l) = zlen (filter (fun x => a =? f x) l).
Proof. induction l as [|x l IH]; [auto|]. cbn [map filter]. rewrite count_cons, IH. destruct (a =? f x); [rewrite zlen_cons|]; lia. Qed.
Lemma produced_le_planned c a i : grown elected g c -> in_range g i -> produced c a (round_start g i) (round_start g (i + 1)) <= planned g (members elected g c i) a.
Proof.
  intros GR I. pose proof (grown_ok g OK elected c GR) as [C SL]. pose proof (ok_pos g OK) as (P1 & P2 & P3 & P4).
  rewrite <- (plan_count i). unfold produced. rewrite !count_filter. set (bs := filter (fun x => a =? b_producer x) (during c (round_start g i) (round_start g (i + 1)))).
  set (ss := filter (fun x => a =? sl_member x) (gen_plan g i (members elected g c i))).
  assert (L : (length (map b_time bs) <= length (map sl_start ss))%nat).
  { apply NoDup_incl_length.
    - subst bs. apply nodup_filter_map. unfold during. apply nodup_filter_map. apply rising_nodup, rising_tl, C.
    - intros t T. apply in_map_iff in T as (b & <- & B). subst bs. apply filter_In in B as [B BA]. apply filter_In in B as [B BT].
      destruct (SL b B) as (k & K1 & KT & (k' & h & b' & E & LB & BB & LE & HO)). assert (k' = k) as -> by (rewrite KT in E; unfold slot_at in E; nia).
      assert (KI : k / slots g = i).
      { rewrite <- (slot_round g OK k), <- KT. symmetry. apply (Z.div_unique _ _ _ (b_time b - round_start g i)); unfold round_start in *; [|ring]. left. lia. }
      rewrite KI in LB. pose proof (members_last c i h b' C LB BB) as M. apply in_map_iff. exists (mk g (slot_at g k) (b_producer b)). split; [cbn; auto|]. subst ss. apply filter_In. split; [|cbn; lia].
      rewrite M. apply plan_in; auto. exists k, (b_producer b). auto. }
  rewrite !map_length in L. unfold zlen. lia.
Qed.
Lemma produced_le_expected c a n : grown elected g c -> forall i, 0 <= i -> (i + Z.of_nat n) * round_len g < 2 ^ 63 ->
  produced c a (round_start g i) (round_start g (i + Z.of_nat n)) <= expected_from c a i n.
Proof.
  intros GR. pose proof (ok_pos g OK) as (P1 & P2 & P3 & P4). pose proof (grown_ok g OK elected c GR) as [C _]. induction n as [|n IH]; intros i I B.
  - cbn. rewrite Z.add_0_r. unfold produced, during. rewrite filter_none; [cbn; lia|]. apply Forall_forall. intros; lia.
  - cbn [StatsSpec.expected_from]. rewrite (produced_split c a _ (round_start g (i + 1))); [|unfold round_start; nia|apply C].
    replace (i + Z.of_nat (S n)) with (i + 1 + Z.of_nat n) in * by lia. specialize (IH (i + 1) ltac:(lia) B).
    assert (IR : in_range g i) by (split; [lia|]; nia). pose proof (produced_le_planned c a i GR IR) as H. unfold StatsSpec.expected.
    unfold produced at 1. unfold produced in H. destruct (during c (round_start g i) (round_start g (i + 1))); [cbn; lia|lia].
Qed.
End P.
