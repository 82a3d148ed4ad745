From Verif Require Import Lib SchedModel SchedSpec.
Local Opaque sec.
Lemma sec_val : sec = 1000000000. Proof. reflexivity. Qed.
Lemma two64_63 : two64 = 2 * 2 ^ 63. Proof. reflexivity. Qed.
Lemma p63 : 0 < 2 ^ 63. Proof. reflexivity. Qed.
Local Opaque Z.pow two64.

Lemma wrap_i64_small x : - 2 ^ 63 <= x < 2 ^ 63 -> wrap_i64 x = x.
Proof. intro H. unfold wrap_i64. rewrite two64_63, Z.mod_small; lia. Qed.
Lemma wrap64_small x : 0 <= x < 2 ^ 63 -> wrap64 x = x.
Proof. intro H. unfold wrap64. rewrite two64_63, Z.mod_small; lia. Qed.

Section G.
Context (g : group) (OK : group_ok g).
Lemma ok_pos : 0 < slots g /\ 0 < slot_len g /\ 0 < round_len g /\ slot_len g <= round_len g.
Proof.
  destruct OK as (A & B & C & D & E). unfold round_len, slots, slot_len in *. pose proof sec_val as SV.
  assert (0 < g_nodes g * g_per g) by nia. assert (0 < g_nodes g * g_per g * g_repeat g) by nia. assert (0 < g_interval g * sec) by nia.
  repeat split; try nia.
Qed.
Lemma round_len_eq : round_len g = g_interval g * g_nodes g * g_per g * g_repeat g * sec.
Proof. unfold round_len, slots, slot_len. ring. Qed.
Lemma round_len_max : round_len g < 2 ^ 63.
Proof. rewrite round_len_eq. apply OK. Qed.
Lemma plan_interval_eq : plan_interval g = g_interval g * g_nodes g * g_per g * g_repeat g.
Proof.
  destruct OK as (A & B & C & D & E). pose proof sec_val as SV. unfold plan_interval.
  assert (0 < g_interval g * g_nodes g) by nia. assert (0 < g_interval g * g_nodes g * g_per g) by nia.
  assert (g_interval g * g_nodes g <= g_interval g * g_nodes g * g_per g) by nia.
  assert (g_interval g * g_nodes g * g_per g <= g_interval g * g_nodes g * g_per g * g_repeat g) by nia.
  assert (g_interval g * g_nodes g * g_per g * g_repeat g <= g_interval g * g_nodes g * g_per g * g_repeat g * sec) by nia.
  assert (g_interval g * g_nodes g * g_per g * g_repeat g < 2 ^ 63) by lia.
  rewrite (wrap64_small (g_interval g * g_nodes g)) by lia. rewrite (wrap64_small (_ * g_per g)) by lia. rewrite wrap64_small by lia. reflexivity.
Qed.
Lemma interval_eq : ti_interval (group_index g) = round_len g.
Proof.
  cbn [group_index ti_interval]. rewrite plan_interval_eq. pose proof round_len_max. pose proof ok_pos. pose proof sec_val as SV. rewrite round_len_eq in *.
  assert (g_interval g * g_nodes g * g_per g * g_repeat g <= g_interval g * g_nodes g * g_per g * g_repeat g * sec) by nia.
  rewrite (wrap_i64_small (g_interval g * g_nodes g * g_per g * g_repeat g)) by lia. rewrite wrap_i64_small; lia.
Qed.
Lemma index2time_eq i : in_range g i -> index2time (group_index g) i = (g_genesis g + i * round_len g, g_genesis g + (i + 1) * round_len g).
Proof.
  intros [I0 I1]. pose proof ok_pos as (P1 & P2 & P3 & P4). unfold index2time. rewrite interval_eq. cbn [group_index ti_genesis].
  assert (i + 1 <= (i + 1) * round_len g) by nia.
  rewrite (wrap64_small (i + 1)), (wrap_i64_small i), (wrap_i64_small (i + 1)) by lia. rewrite !wrap_i64_small by nia. f_equal; ring.
Qed.
Lemma time2index_eq t : g_genesis g <= t < g_genesis g + 2 ^ 63 -> time2index (group_index g) t = (t - g_genesis g) / round_len g.
Proof.
  intro T. pose proof ok_pos as (P1 & P2 & P3 & P4). pose proof sec_val as SV. pose proof round_len_max as RM. unfold time2index. rewrite interval_eq. cbn [group_index ti_genesis].
  unfold sat_i64. rewrite Z.min_r, Z.max_r by lia. rewrite !Z.quot_div_nonneg by lia.
  assert (RL : round_len g = sec * (g_interval g * slots g)) by (unfold round_len, slot_len; ring).
  assert (DV : round_len g / sec = g_interval g * slots g) by (rewrite RL, Z.mul_comm; apply Z.div_mul; lia).
  rewrite DV.
  assert (Q1 : 0 <= (t - g_genesis g) / sec) by (apply Z.div_pos; lia). assert (Q2 : (t - g_genesis g) / sec <= t - g_genesis g) by (apply Z.div_le_upper_bound; nia).
  assert (g_interval g * slots g < 2 ^ 63) by (destruct OK as (A & B & C & D & E); nia). assert (0 < g_interval g * slots g) by (destruct OK as (A & B & C & D & E); nia).
  rewrite !wrap64_small by lia. rewrite Z.div_div by lia. now rewrite RL.
Qed.

(** *** The plan of a round *)
Definition mk (s : Z) (m : Z) : slot := {| sl_start := s; sl_end := s + slot_len g; sl_member := m |}.
Lemma step_eq : wrap_i64 (g_interval g * sec) = slot_len g.
Proof. pose proof ok_pos. pose proof round_len_max. unfold slot_len in *. apply wrap_i64_small. lia. Qed.
Lemma member_in n : forall s m x, In x (fst (plan_member g n s m)) <-> exists j, 0 <= j < Z.of_nat n /\ x = mk (s + j * slot_len g) m.
Proof.
  induction n as [|n IH]; intros s m x; cbn [plan_member fst In].
  - split; [easy|]. intros (j & H & _). lia.
  - rewrite step_eq, IH. split.
    + intros [<-|(j & H & ->)]; [exists 0; split; [lia|]; unfold mk; f_equal; lia|]. exists (j + 1). split; [lia|]. f_equal. ring.
    + intros (j & H & ->). destruct (Z.eq_dec j 0) as [->|N]; [left; unfold mk; f_equal; lia|]. right. exists (j - 1). split; [lia|]. f_equal. ring.
Qed.
Lemma member_end n : forall s m, snd (plan_member g n s m) = s + Z.of_nat n * slot_len g.
Proof. induction n as [|n IH]; intros s m; cbn [plan_member snd]; [lia|]. rewrite IH, step_eq. lia. Qed.
Lemma members_in ms : forall s x, In x (fst (plan_members g ms s)) <->
  exists q j m, nth_error ms q = Some m /\ 0 <= j < g_per g /\ x = mk (s + (Z.of_nat q * g_per g + j) * slot_len g) m.
Proof.
  assert (PN : 0 <= g_per g) by (destruct OK; lia).
  induction ms as [|m0 ms IH]; intros s x; cbn [plan_members fst].
  - split; [easy|]. intros ([|q] & j & m & H & _); discriminate.
  - rewrite in_app_iff, member_in, IH, member_end, Z2Nat.id by auto. split.
    + intros [(j & H & ->)|(q & j & m & N & H & ->)].
      * exists 0%nat, j, m0. split; [reflexivity|]. split; [auto|]. f_equal; lia.
      * exists (S q), j, m. split; [exact N|]. split; [auto|]. f_equal. rewrite Nat2Z.inj_succ. ring.
    + intros ([|q] & j & m & N & H & ->); cbn in N.
      * injection N as <-. left. exists j. split; [auto|]. f_equal; lia.
      * right. exists q, j, m. split; [auto|]. split; [auto|]. f_equal. rewrite Nat2Z.inj_succ. ring.
Qed.
Lemma members_end ms : forall s, snd (plan_members g ms s) = s + zlen ms * g_per g * slot_len g.
Proof.
  assert (PN : 0 <= g_per g) by (destruct OK; lia).
  induction ms as [|m ms IH]; intro s; cbn [plan_members snd]; [change (zlen (@nil Z)) with 0; lia|]. rewrite IH, member_end, zlen_cons, Z2Nat.id by auto. ring.
Qed.
Lemma repeat_in ms n : zlen ms <= g_nodes g -> forall s x, In x (plan_repeat g n ms s) <->
  exists r q j m, 0 <= r < Z.of_nat n /\ nth_error ms q = Some m /\ 0 <= j < g_per g /\ x = mk (s + ((r * g_nodes g + Z.of_nat q) * g_per g + j) * slot_len g) m.
Proof.
  intro LE. pose proof ok_pos as (P1 & P2 & P3 & P4). pose proof round_len_max as RM. destruct OK as (A & B & C & D & E). pose proof (zlen_nonneg ms) as ZL.
  assert (NX : forall s, (if zlen ms <? g_nodes g then snd (plan_members g ms s) + wrap_i64 (wrap_i64 (wrap_i64 (g_interval g * g_per g) * (g_nodes g - zlen ms)) * sec)
                          else snd (plan_members g ms s)) = s + g_nodes g * g_per g * slot_len g).
  { intro s. rewrite members_end. destruct (zlen ms <? g_nodes g) eqn:L; [|assert (zlen ms = g_nodes g) as -> by lia; ring].
    pose proof sec_val as SV. rewrite round_len_eq in *.
    assert (0 < g_interval g * g_per g) by nia. assert (g_interval g * g_per g * (g_nodes g - zlen ms) <= g_interval g * g_nodes g * g_per g) by nia.
    assert (g_interval g * g_per g <= g_interval g * g_nodes g * g_per g) by nia.
    assert (g_interval g * g_nodes g * g_per g <= g_interval g * g_nodes g * g_per g * g_repeat g) by nia.
    assert (g_interval g * g_nodes g * g_per g * sec <= g_interval g * g_nodes g * g_per g * g_repeat g * sec) by nia.
    assert (g_interval g * g_nodes g * g_per g * g_repeat g <= g_interval g * g_nodes g * g_per g * g_repeat g * sec) by nia.
    assert (0 <= g_interval g * g_per g * (g_nodes g - zlen ms)) by nia.
    assert (g_interval g * g_per g * (g_nodes g - zlen ms) * sec <= g_interval g * g_nodes g * g_per g * sec) by nia.
    rewrite (wrap_i64_small (g_interval g * g_per g)) by lia. rewrite (wrap_i64_small (_ * (_ - _))) by lia. rewrite wrap_i64_small by nia.
    unfold slot_len. ring. }
  induction n as [|n IH]; intros s x; cbn [plan_repeat].
  - split; [easy|]. intros (r & q & j & m & H & _). lia.
  - cbv zeta. rewrite in_app_iff, NX, members_in, IH. split.
    + intros [(q & j & m & N & H & ->)|(r & q & j & m & R & N & H & ->)].
      * exists 0, q, j, m. split; [lia|]. split; [auto|]. split; [auto|]. f_equal; lia.
      * exists (r + 1), q, j, m. split; [lia|]. split; [auto|]. split; [auto|]. f_equal. ring.
    + intros (r & q & j & m & R & N & H & ->). destruct (Z.eq_dec r 0) as [->|NZ].
      * left. exists q, j, m. split; [auto|]. split; [auto|]. f_equal; lia.
      * right. exists (r - 1), q, j, m. split; [lia|]. split; [auto|]. split; [auto|]. f_equal. ring.
Qed.

Lemma seat_of r q j : 0 <= q < g_nodes g -> 0 <= j < g_per g -> seat g ((r * g_nodes g + q) * g_per g + j) = q.
Proof.
  intros Q J. unfold seat. assert (H : ((r * g_nodes g + q) * g_per g + j) / g_per g = r * g_nodes g + q) by (symmetry; apply (Z.div_unique _ _ _ j); lia).
  rewrite H. symmetry. apply (Z.mod_unique _ _ r); lia.
Qed.
(** The slots of a round are exactly the slot numbers of that round whose seat is filled. *)
Lemma plan_in i ms x : in_range g i -> zlen ms <= g_nodes g ->
  (In x (gen_plan g i ms) <-> exists k m, k / slots g = i /\ holder g ms k = Some m /\ x = mk (slot_at g k) m).
Proof.
  intros R LE. pose proof ok_pos as (P1 & P2 & P3 & P4). unfold gen_plan. replace (g_nodes g <? zlen ms) with false by lia.
  rewrite index2time_eq by auto. cbn [fst]. rewrite repeat_in by auto. destruct OK as (A & B & C & D & E). rewrite Z2Nat.id by lia.
  assert (P5 : 0 < g_per g * g_nodes g) by nia. split.
  - intros (r & q & j & m & H & N & J & ->). assert (Q : 0 <= Z.of_nat q < g_nodes g).
    { assert (nth_error ms q <> None) as NN by congruence. apply nth_error_Some in NN. unfold zlen in LE. lia. }
    exists ((i * g_repeat g + r) * g_nodes g * g_per g + Z.of_nat q * g_per g + j), m.
    replace ((i * g_repeat g + r) * g_nodes g * g_per g + Z.of_nat q * g_per g + j) with (((i * g_repeat g + r) * g_nodes g + Z.of_nat q) * g_per g + j) by ring.
    split; [|split].
    + unfold slots. symmetry. apply (Z.div_unique _ _ _ ((r * g_nodes g + Z.of_nat q) * g_per g + j)); [left|ring]. nia.
    + unfold holder. rewrite seat_of by auto. now rewrite Nat2Z.id.
    + f_equal. unfold slot_at, round_len, slots. ring.
  - intros (k & m & K & Hm & ->). set (k' := k mod slots g). assert (KE : k = slots g * i + k') by (unfold k'; rewrite <- K; apply Z.div_mod; lia).
    assert (KR : 0 <= k' < slots g) by (apply Z.mod_pos_bound; lia).
    pose (j := k' mod g_per g). pose (u := k' / g_per g). assert (UE : k' = g_per g * u + j) by (apply Z.div_mod; lia). assert (J : 0 <= j < g_per g) by (apply Z.mod_pos_bound; lia).
    pose (q := u mod g_nodes g). pose (r := u / g_nodes g). assert (QE : u = g_nodes g * r + q) by (apply Z.div_mod; lia). assert (Q : 0 <= q < g_nodes g) by (apply Z.mod_pos_bound; lia).
    assert (U0 : 0 <= u) by (apply Z.div_pos; lia). assert (R0 : 0 <= r) by (apply Z.div_pos; lia).
    assert (R1 : r < g_repeat g).
    { assert (u < g_nodes g * g_repeat g) by (apply (Z.mul_lt_mono_pos_l (g_per g)); [lia|]; unfold slots in KR; replace (g_per g * (g_nodes g * g_repeat g)) with (g_nodes g * g_per g * g_repeat g) by ring; lia).
      apply (Z.mul_lt_mono_pos_l (g_nodes g)); lia. }
    assert (KK : k = ((i * g_repeat g + r) * g_nodes g + q) * g_per g + j) by (rewrite KE, UE, QE; unfold slots; ring).
    exists r, (Z.to_nat q), j, m. rewrite Z2Nat.id by lia. split; [lia|]. split; [|split; [auto|]].
    + unfold holder in Hm. rewrite KK, seat_of in Hm by auto. exact Hm.
    + f_equal. rewrite KK. unfold slot_at, round_len, slots. ring.
Qed.
Lemma plan_has_iff p a t : plan_has p a t = true <-> exists x, In x p /\ sl_member x = a /\ sl_start x = t.
Proof.
  unfold plan_has. rewrite existsb_exists. split.
  - intros (x & H & E). exists x. split; [auto|]. lia.
  - intros (x & H & E1 & E2). exists x. split; [auto|]. lia.
Qed.
Lemma slot_round k : (slot_at g k - g_genesis g) / round_len g = k / slots g.
Proof.
  pose proof ok_pos as (P1 & P2 & P3 & P4). unfold slot_at, round_len. replace (g_genesis g + k * slot_len g - g_genesis g) with (k * slot_len g) by ring.
  apply Z.div_mul_cancel_r; lia.
Qed.
End G.

(** *** The block before a time *)
Lemma at_height_some ts h : 1 <= h <= zlen ts <-> exists x, at_height ts h = Some x.
Proof.
  unfold at_height, zlen. split.
  - intro H. replace (h <=? 0) with false by lia. destruct (nth_error ts (Z.to_nat (h - 1))) eqn:E; eauto. apply nth_error_None in E. lia.
  - intros (x & H). destruct (h <=? 0) eqn:E; [discriminate|]. assert (nth_error ts (Z.to_nat (h - 1)) <> None) as N by congruence. apply nth_error_Some in N. lia.
Qed.
Lemma rising_nth ts : rising ts -> forall i j x y, (i < j)%nat -> nth_error ts i = Some x -> nth_error ts j = Some y -> x < y.
Proof.
  induction ts as [|a ts IH]; intros R i j x y L X Y; [destruct i; discriminate|].
  destruct j as [|j]; [lia|]. destruct i as [|i]; cbn in X, Y.
  - injection X as <-. destruct ts as [|b ts]; [destruct j; discriminate|]. destruct R as [R1 R2]. destruct j as [|j]; cbn in Y; [injection Y as <-; auto|].
    assert (b < y) by (apply (IH R2 0%nat (S j) b y); auto; lia). lia.
  - destruct ts as [|b ts]; [destruct i; discriminate|]. destruct R as [R1 R2]. eapply (IH R2 i j); eauto. lia.
Qed.
Lemma rising_at ts h h' x y : rising ts -> h < h' -> at_height ts h = Some x -> at_height ts h' = Some y -> x < y.
Proof.
  unfold at_height. intros R L X Y. destruct (h <=? 0) eqn:E; [discriminate|]. destruct (h' <=? 0) eqn:E'; [discriminate|].
  eapply rising_nth; [eauto| |eauto|eauto]. lia.
Qed.
(** Whole-second, increasing times are at least a second apart per height. *)
Lemma rising_gap ts t h h' x y : rising ts -> whole_seconds ts t -> h <= h' -> at_height ts h = Some x -> at_height ts h' = Some y -> x + (h' - h) * sec <= y.
Proof.
  intros R W. pose proof sec_val as SV. remember (Z.to_nat (h' - h)) as n eqn:N. revert h' y N. induction n as [|n IH]; intros h' y N L X Y.
  - assert (h' = h) as -> by lia. rewrite X in Y. injection Y as <-. lia.
  - assert (exists z, at_height ts (h' - 1) = Some z) as (z & Z1).
    { apply at_height_some. assert (exists x, at_height ts h' = Some x) as H by eauto. apply at_height_some in H. assert (exists x, at_height ts h = Some x) as H' by eauto. apply at_height_some in H'. lia. }
    assert (x + (h' - 1 - h) * sec <= z) by (apply IH; auto; lia). assert (z < y) by (eapply (rising_at ts (h' - 1) h'); eauto; lia).
    unfold whole_seconds in W. rewrite Forall_forall in W.
    assert (I : forall k v, at_height ts k = Some v -> (t - v) mod sec = 0).
    { intros k v K. apply W. unfold at_height in K. destruct (k <=? 0); [discriminate|]. eapply nth_error_In; eauto. }
    pose proof (I _ _ Z1) as M1. pose proof (I _ _ Y) as M2. rewrite sec_val in *. lia.
Qed.
Lemma unix_whole ts t h x : whole_seconds ts t -> at_height ts h = Some x -> (unix t - unix x) * sec = t - x.
Proof.
  intros W X. unfold whole_seconds in W. rewrite Forall_forall in W. assert (M : (t - x) mod sec = 0).
  { apply W. unfold at_height in X. destruct (h <=? 0); [discriminate|]. eapply nth_error_In; eauto. }
  unfold unix. rewrite sec_val in *. lia.
Qed.

Lemma go_search_spec f n : forall fuel lo hi, 0 <= lo <= hi -> hi <= n -> Z.of_nat fuel >= hi - lo ->
  (forall i j, 0 <= i <= j -> j < n -> f i = true -> f j = true) ->
  (forall i, 0 <= i < lo -> f i = false) -> (forall i, hi <= i < n -> f i = true) ->
  let r := go_search fuel f lo hi in lo <= r <= hi /\ (forall i, 0 <= i < r -> f i = false) /\ (forall i, r <= i < n -> f i = true).
Proof.
  induction fuel as [|k IH]; intros lo hi L H F M B A; cbn [go_search].
  - assert (lo = hi) as -> by lia. cbv zeta. split; [lia|]. auto.
  - destruct (lo <? hi) eqn:E; [|assert (lo = hi) as -> by lia; cbv zeta; split; [lia|]; auto].
    cbv zeta. destruct (f ((lo + hi) / 2)) eqn:FM.
    + specialize (IH lo ((lo + hi) / 2)). cbv zeta in IH. destruct IH as (I1 & I2 & I3); try lia; auto.
      * intros i Hi. eapply M; [| |exact FM]; lia.
      * split; [lia|]. auto.
    + specialize (IH ((lo + hi) / 2 + 1) hi). cbv zeta in IH. destruct IH as (I1 & I2 & I3); try lia; auto.
      * intros i Hi. destruct (Z_lt_dec i lo); [apply B; lia|]. destruct (f i) eqn:FI; [|reflexivity]. assert (f ((lo + hi) / 2) = true) by (eapply M; [| |exact FI]; lia). congruence.
      * split; [lia|]. auto.
Qed.
Lemma binary_before_ok ts t lo hi x y : rising ts -> lo < hi -> at_height ts lo = Some x -> at_height ts hi = Some y -> x < t -> t <= y ->
  exists h, binary_before ts lo hi t = Found h /\ last_before ts t h.
Proof.
  intros R LH X Y XT TY. unfold binary_before. cbv zeta. set (f := fun i => match at_height ts (lo + i) with Some x => t <=? x | None => true end). set (n := hi - lo + 1).
  assert (LO : 1 <= lo <= zlen ts) by (apply at_height_some; eauto). assert (HI : 1 <= hi <= zlen ts) by (apply at_height_some; eauto).
  destruct (go_search_spec f n (Z.to_nat n) 0 n) as (G1 & G2 & G3); try lia.
  - intros i j IJ J FI. unfold f in *. destruct (at_height ts (lo + i)) as [u|] eqn:U; [|exfalso; assert (exists u, at_height ts (lo + i) = Some u) as (u & K) by (apply at_height_some; lia); congruence].
    destruct (at_height ts (lo + j)) as [v|] eqn:V; [|reflexivity]. destruct (Z.eq_dec i j) as [->|]; [congruence|]. assert (u < v) by (eapply (rising_at ts (lo + i) (lo + j)); eauto; lia). lia.
  - set (r := go_search (Z.to_nat n) f 0 n) in *.
    assert (F0 : f 0 = false) by (unfold f; rewrite Z.add_0_r, X; lia).
    assert (FN : f (hi - lo) = true) by (unfold f; replace (lo + (hi - lo)) with hi by lia; rewrite Y; lia).
    assert (R1 : 1 <= r) by (destruct (Z.eq_dec r 0) as [E|]; [assert (f 0 = true) by (apply G3; lia); congruence|lia]).
    assert (R2 : r <= hi - lo) by (destruct (Z_le_dec r (hi - lo)); [auto|assert (f (hi - lo) = false) by (apply G2; lia); congruence]).
    replace (n <=? r) with false by lia. exists (lo + r - 1). split; [reflexivity|].
    assert (exists z, at_height ts (lo + r - 1) = Some z) as (z & Z1) by (apply at_height_some; lia).
    assert (FR : f (r - 1) = false) by (apply G2; lia). unfold f in FR. replace (lo + (r - 1)) with (lo + r - 1) in FR by lia. rewrite Z1 in FR.
    exists z. split; [auto|]. split; [lia|]. intros h' y' H' Y'. destruct (Z_le_dec h' (lo + r - 1)); [auto|]. exfalso.
    assert (exists z', at_height ts (lo + r) = Some z') as (z' & Z2) by (apply at_height_some; lia).
    assert (FR' : f r = true) by (apply G3; lia). unfold f in FR'. rewrite Z2 in FR'.
    destruct (Z.eq_dec h' (lo + r)) as [->|]; [rewrite Z2 in H'; injection H' as ->; lia|].
    assert (z' < y') by (eapply (rising_at ts (lo + r) h'); eauto; lia). lia.
Qed.
(** Whatever the loop ends with brackets [t], for any increasing times. *)
Definition brk (ts : list Z) (t : Z) (hi lo : option Z) : Prop :=
  (forall h, hi = Some h -> exists y, at_height ts h = Some y /\ t <= y) /\ (forall l, lo = Some l -> exists x, at_height ts l = Some x /\ x < t).
Lemma bracket_ok ts t gz lz : rising ts -> at_height ts 1 = Some gz -> gz < t -> at_height ts (zlen ts) = Some lz -> t <= lz ->
  forall fuel est hi lo h l, brk ts t hi lo -> bracket fuel ts t est hi lo = Some (Some (h, l)) -> brk ts t (Some h) (Some l).
Proof.
  intros R G GT L TL. induction fuel as [|k IH]; intros est hi lo h l [BH BL] E.
  - destruct hi as [h0|], lo as [l0|]; cbn in E; try discriminate. injection E as <- <-. split; auto.
  - destruct hi as [h0|], lo as [l0|]; cbn [bracket] in E; try (injection E as <- <-; split; auto; fail);
    (destruct (at_height ts est) as [x|] eqn:X; [|discriminate]; cbv zeta in E; destruct (t <=? x) eqn:T;
     [match type of E with (if ?b then _ else _) = _ => destruct b end;
       [injection E as <- <-; split; intros ? [= <-]; eauto with zarith
       |apply IH in E; [exact E|]; split; [intros ? [= <-]; exists x; split; auto; lia|exact BL || discriminate]]
     |apply IH in E; [exact E|]; split; [|intros ? [= <-]; exists x; split; auto; lia];
      match goal with |- context [if ?b then _ else _] => destruct b end; [intros ? [= <-]; eauto|exact BH || discriminate]]).
Qed.
Lemma header_before_sound ts fuel t : ts <> [] -> rising ts ->
  match header_before fuel ts t with
  | Found h => last_before ts t h
  | Nobody => forall h x, at_height ts h = Some x -> t <= x
  | Failed => True
  | Searching => True
  end.
Proof.
  intros NE R. unfold header_before. pose proof (zlen_nonneg ts) as ZN. assert (1 <= zlen ts) by (unfold zlen in *; destruct ts; [congruence|cbn; lia]).
  destruct (at_height ts 1) as [gz|] eqn:G; [|trivial]. destruct (at_height ts (zlen ts)) as [lz|] eqn:L; [|trivial].
  assert (TOP : forall h x, at_height ts h = Some x -> 1 <= h <= zlen ts) by (intros h x H'; apply at_height_some; eauto).
  destruct (t <=? gz) eqn:TG.
  - intros h x HX. pose proof (TOP _ _ HX). destruct (Z.eq_dec h 1) as [->|]; [rewrite G in HX; injection HX as <-; lia|].
    assert (gz < x) by (eapply (rising_at ts 1 h); eauto; lia). lia.
  - destruct (lz <? t) eqn:LT.
    + exists lz. split; [auto|]. split; [lia|]. intros h' y H' _. apply (TOP _ _ H').
    + cbv zeta. destruct (bracket _ _ _ _ _ _) as [[[h l]|]|] eqn:B; auto.
      apply (bracket_ok ts t gz lz) in B; auto; try lia; [|split; discriminate]. destruct B as [B1 B2].
      destruct (B1 h eq_refl) as (y & Y & TY). destruct (B2 l eq_refl) as (x & X & XT).
      assert (LH : l < h). { destruct (Z_lt_dec l h); [auto|]. exfalso. destruct (Z.eq_dec l h) as [->|]; [rewrite X in Y; injection Y as ->; lia|]. assert (y < x) by (eapply (rising_at ts h l); eauto; lia). lia. }
      destruct (h =? l + 1) eqn:E.
      * exists x. split; [auto|]. split; [lia|]. intros h' y' H' T'. destruct (Z_le_dec h' l); [auto|]. exfalso.
        destruct (Z.eq_dec h' h) as [->|]; [rewrite Y in H'; injection H' as ->; lia|]. assert (y < y') by (eapply (rising_at ts h h'); eauto; lia). lia.
      * destruct (binary_before_ok ts t l h x y) as (r & Rr & LB); auto. now rewrite Rr.
Qed.

(** *** Termination on whole seconds *)
Section Term.
Context (ts : list Z) (t gz lz : Z) (R : rising ts) (W : whole_seconds ts t) (G : at_height ts 1 = Some gz) (GT : gz < t)
  (L : at_height ts (zlen ts) = Some lz) (TL : t <= lz).
Lemma est_some e : 1 <= e <= zlen ts -> exists x, at_height ts e = Some x.
Proof. intro H. now apply at_height_some. Qed.
(** Below [t], one step finds a block at or after [t], unless it passes the head. *)
Lemma low_step e x e' y : at_height ts e = Some x -> x < t -> e' = e + (unix t - unix x) -> at_height ts e' = Some y -> t <= y.
Proof.
  intros X XT E Y. pose proof (unix_whole _ _ _ _ W X) as U. pose proof sec_val as SV. assert (0 < unix t - unix x) by nia.
  assert (x + (e' - e) * sec <= y) by (eapply (rising_gap ts t e e'); eauto; lia). nia.
Qed.
Lemma high_step e x y : at_height ts e = Some x -> t <= x -> unix t - unix x < 0 -> at_height ts (e - (unix x - unix t)) = Some y -> y <= t.
Proof.
  intros X XT E Y. pose proof (unix_whole _ _ _ _ W X) as U. pose proof sec_val as SV.
  assert (y + (e - (e - (unix x - unix t))) * sec <= x) by (eapply (rising_gap ts t _ e); eauto; lia). nia.
Qed.
Definition ends (k : nat) (est : Z) (hi lo : option Z) : Prop := exists h l, bracket k ts t est hi lo = Some (Some (h, l)).
Lemma ends_both k est h l : ends k est (Some h) (Some l).
Proof. exists h, l. destruct k; reflexivity. Qed.
(** From a height whose block is before [t] with a block at or after [t] already known. *)
Lemma ends_low_hi k e x h : at_height ts e = Some x -> x < t -> ends (S k) e (Some h) None.
Proof.
  intros X XT. unfold ends. cbn [bracket]. rewrite X. replace (t <=? x) with false by lia. cbv zeta. destruct (_ <? _); apply ends_both.
Qed.
Lemma ends_eq_hi k e h : at_height ts e = Some t -> 1 <= e <= zlen ts -> ends (S (S k)) e (Some h) None.
Proof.
  intros X E. unfold ends. cbn [bracket]. rewrite X. replace (t <=? t) with true by lia. rewrite Z.sub_diag. cbn [Z.leb Z.compare].
  destruct (e <=? 1) eqn:E1; [eauto|]. destruct (est_some (e - 1)) as (y & Y); [lia|].
  assert (y < t) by (eapply (rising_at ts (e - 1) e); eauto; lia). rewrite Y. replace (t <=? y) with false by lia. cbv zeta.
  destruct (_ <? _); apply ends_both.
Qed.
Lemma ends_high k e x hi : at_height ts e = Some x -> 1 <= e <= zlen ts -> t <= x -> ends (S (S (S k))) e hi None.
Proof.
  intros X E XT.
  assert (ONE : ends (S (S (S k))) e None None \/ True) by auto. clear ONE.
  assert (exists h l, (let gap := let d := unix x - unix t in if d <=? 0 then 1 else d in
     if e <=? gap then Some (Some (e, 1)) else bracket (S (S k)) ts t (e - gap) (Some e) None) = Some (Some (h, l))) as (h & l & H).
  { cbv zeta. destruct (unix x - unix t <=? 0) eqn:D.
    - assert (x = t) as ->. { pose proof (unix_whole _ _ _ _ W X) as U. pose proof sec_val as SV. nia. }
      destruct (e <=? 1) eqn:E1; [eauto|]. destruct (est_some (e - 1)) as (y & Y); [lia|].
      assert (y < t) by (eapply (rising_at ts (e - 1) e); eauto; lia). apply (ends_low_hi (S k) (e - 1) y e); auto.
    - destruct (e <=? unix x - unix t) eqn:E1; [eauto|]. destruct (est_some (e - (unix x - unix t))) as (y & Y); [lia|].
      assert (y <= t) by (apply (high_step e x y); auto; lia). destruct (Z.eq_dec y t) as [->|].
      + apply (ends_eq_hi k (e - (unix x - unix t)) e); auto. lia.
      + apply (ends_low_hi (S k) (e - (unix x - unix t)) y e); auto. lia. }
  exists h, l. destruct hi; cbn [bracket]; rewrite X; replace (t <=? x) with true by lia; exact H.
Qed.
Lemma ends_high_lo k e x hi l : at_height ts e = Some x -> t <= x -> ends (S k) e hi (Some l).
Proof.
  intros X XT. destruct hi as [h|]; [apply ends_both|]. unfold ends. cbn [bracket]. rewrite X. replace (t <=? x) with true by lia. cbv zeta.
  match goal with |- exists h l, (if ?b then _ else _) = _ => destruct b end; [eauto|apply ends_both].
Qed.
Lemma ends_all k e hi : 1 <= e <= zlen ts -> ends (S (S (S (S k)))) e hi None.
Proof.
  intro E. destruct (est_some e E) as (x & X). destruct (t <=? x) eqn:T.
  - apply (ends_high (S k) e x); auto. lia.
  - unfold ends. destruct hi as [h|]; cbn [bracket]; rewrite X, T; cbv zeta; destruct (zlen ts <? e + (unix t - unix x)) eqn:Z.
    + eauto.
    + eauto.
    + eauto.
    + assert (U : (unix t - unix x) * sec = t - x) by (eapply unix_whole; eauto). pose proof sec_val as SV.
      destruct (est_some (e + (unix t - unix x))) as (y & Y); [nia|]. assert (t <= y) by (eapply (low_step e x); eauto; lia).
      apply (ends_high_lo (S (S k)) (e + (unix t - unix x)) y None e); auto.
Qed.
End Term.
Lemma header_before_whole ts t : ts <> [] -> rising ts -> whole_seconds ts t -> forall fuel, (4 <= fuel)%nat ->
  (exists h, header_before fuel ts t = Found h) \/ header_before fuel ts t = Nobody.
Proof.
  intros NE R W fuel F. assert (Z1 : 1 <= zlen ts) by (unfold zlen; destruct ts; [congruence|cbn; lia]).
  destruct (proj1 (at_height_some ts 1)) as (gz & G); [lia|]. destruct (proj1 (at_height_some ts (zlen ts))) as (lz & L); [lia|].
  unfold header_before. rewrite G, L. destruct (t <=? gz) eqn:TG; [auto|]. destruct (lz <? t) eqn:LT; [eauto|]. cbv zeta.
  destruct fuel as [|[|[|[|k]]]]; try lia.
  set (est := if unix lz - unix t <? zlen ts then zlen ts - (unix lz - unix t) else 1).
  assert (U : (unix t - unix lz) * sec = t - lz) by (eapply unix_whole; eauto). pose proof sec_val as SV.
  assert (E : 1 <= est <= zlen ts) by (unfold est; destruct (unix lz - unix t <? zlen ts) eqn:Q; nia).
  destruct (ends_all ts t R W k est None E) as (h & l & B). rewrite B.
  destruct (h =? l + 1); [eauto|]. pose proof B as B'. apply (bracket_ok ts t gz lz) in B'; auto; try lia; [|split; discriminate]. destruct B' as [B1 B2].
  destruct (B1 h eq_refl) as (y & Y & TY). destruct (B2 l eq_refl) as (x & X & XT).
  assert (LH : l < h). { destruct (Z_lt_dec l h); [auto|]. exfalso. destruct (Z.eq_dec l h) as [->|]; [rewrite X in Y; injection Y as ->; lia|]. assert (y < x) by (eapply (rising_at ts h l); eauto; lia). lia. }
  destruct (binary_before_ok ts t l h x y) as (r & Rr & LB); auto. rewrite Rr. eauto.
Qed.
