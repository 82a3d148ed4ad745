(** Proofs about the packed form of addresses and the distance of node ids. *)
From Verif Require Import Lib NetModel NetSpec NetProofs.
Import ListNotations.
Open Scope Z_scope.

(** ** Addresses *)
Lemma meta_facts n (dom port : bool) : 0 < n <= 63 ->
  let m := shl8 n 2 in let m := if dom then Z.lor m 2 else m in let m := if port then Z.lor m 1 else m in
  Z.shiftr m 2 = n /\ (0 <? Z.land m 1) = port /\ (0 <? Z.land m 2) = dom.
Proof.
  intros N. cbn zeta. assert (E : shl8 n 2 = Z.shiftl n 2).
  { unfold shl8, byte. rewrite Z.shiftl_mul_pow2 by lia. apply Z.mod_small. change (2 ^ 2) with 4. lia. }
  rewrite E. destruct dom, port; rewrite ?Z.shiftr_lor, ?Z.land_lor_distr_l, Z.shiftr_shiftl_l by lia;
    change (Z.shiftr 2 2) with 0; change (Z.shiftr 1 2) with 0; rewrite ?Z.lor_0_r; (split; [apply Z.shiftl_0_r|]);
    assert (A : Z.land (Z.shiftl n 2) 1 = 0)
      by (change 1 with (Z.ones 1); rewrite Z.land_ones by lia; rewrite Z.shiftl_mul_pow2 by lia; change (2 ^ 2) with 4; change (2 ^ 1) with 2; lia);
    assert (B : Z.land (Z.shiftl n 2) 2 = 0)
      by (apply Z.bits_inj'; intros i Hi; rewrite Z.land_spec, Z.bits_0; destruct (Z.lt_ge_cases i 2) as [L|L];
          [now rewrite Z.shiftl_spec_low by lia|change 2 with (2 ^ 1) at 2; rewrite Z.pow2_bits_false by lia; apply andb_false_r]);
    rewrite ?A, ?B; split; reflexivity.
Qed.
Lemma nth_end {A} (l : list A) x y d : nth (length (l ++ [x; y]) - 1) (l ++ [x; y]) d = y /\ nth (length (l ++ [x; y]) - 2) (l ++ [x; y]) d = x.
Proof.
  rewrite app_length. cbn [length]. split.
  - rewrite app_nth2 by lia. replace (length l + 2 - 1 - length l)%nat with 1%nat by lia. reflexivity.
  - rewrite app_nth2 by lia. replace (length l + 2 - 2 - length l)%nat with 0%nat by lia. reflexivity.
Qed.
Lemma port_bytes p : 0 <= p < 65536 -> Z.lor (byte p) (Z.shiftl (byte (Z.shiftr p 8)) 8) = p.
Proof.
  intro P. rewrite Z.lor_comm, lor_add by (try lia; apply byte_ok). unfold byte. rewrite Z.shiftr_div_pow2 by lia.
  change (2 ^ 8) with 256. lia.
Qed.
Lemma firstn_len {A} (l r : list A) : firstn (Z.to_nat (zlen l)) (l ++ r) = l.
Proof. unfold zlen. rewrite Nat2Z.id, firstn_app, Nat.sub_diag, firstn_all, firstn_O. apply app_nil_r. Qed.

Lemma round_trip e : proper e -> exists b, serialize e = Some b /\ zlen b <= 66 /\ deserialize b = Some e.
Proof.
  intros (B & P & T). destruct e as [h p t]. cbn [e_host e_port e_typ] in *.
  assert (N : 0 < zlen h <= 63) by (destruct T as [[_ T]|[[_ T]|[_ [T _]]]]; lia).
  unfold serialize. cbn [e_host e_port e_typ]. destruct (Z.eqb_spec (zlen h) 0); [lia|].
  unfold max_host. destruct (Z.ltb_spec 63 (zlen h)); [lia|].
  assert (D : (t =? Domain) || (16 <? zlen h) = (t =? Domain)).
  { destruct T as [[-> T]|[[-> T]|[-> _]]]; [rewrite T|rewrite T|]; reflexivity. }
  rewrite D. set (dom := t =? Domain) in *.
  assert (HH : (if dom then if list_eq_dec Z.eq_dec h loopback then (loopback_ip, IPv4) else (h, Domain) else if 4 <? zlen h then (h, IPv6) else (h, IPv4)) = (h, t)).
  { destruct T as [[-> T]|[[-> T]|[-> [_ T]]]]; unfold dom; cbn.
    - rewrite T. reflexivity.
    - rewrite T. reflexivity.
    - destruct (list_eq_dec Z.eq_dec h loopback); [contradiction|reflexivity]. }
  destruct (Z.eqb_spec p default_port) as [->|NP].
  - pose proof (meta_facts (zlen h) dom false N) as (M1 & M2 & M3).
    eexists; split; [reflexivity|]. rewrite zlen_cons. split; [lia|]. unfold deserialize. rewrite M1, M2, M3.
    destruct (Z.eqb_spec (zlen h) 0); [lia|]. rewrite zlen_cons. destruct (Z.ltb_spec (1 + zlen h) (zlen h + 1 + 0)); [lia|].
    replace (firstn (Z.to_nat (zlen h)) h) with h by (pose proof (firstn_len h []) as F; rewrite app_nil_r in F; congruence).
    rewrite HH. reflexivity.
  - pose proof (meta_facts (zlen h) dom true N) as (M1 & M2 & M3).
    eexists; split; [reflexivity|]. rewrite zlen_cons, zlen_app. change (zlen [byte (Z.shiftr p 8); byte p]) with 2. split; [lia|].
    unfold deserialize. rewrite M1, M2, M3. destruct (Z.eqb_spec (zlen h) 0); [lia|].
    rewrite zlen_cons, zlen_app. change (zlen [byte (Z.shiftr p 8); byte p]) with 2.
    destruct (Z.ltb_spec (1 + (zlen h + 2)) (zlen h + 1 + 2)); [lia|].
    rewrite firstn_len, HH. rewrite app_comm_cons.
    match goal with |- context [nth (length ?l - 1) ?l 0] => pose proof (nth_end (Z.lor (if dom then Z.lor (shl8 (zlen h) 2) 2 else shl8 (zlen h) 2) 1 :: h) (byte (Z.shiftr p 8)) (byte p) 0) as [N1 N2] end.
    rewrite N1, N2, port_bytes by assumption. reflexivity.
Qed.

(** ** Distances *)
Lemma common_app a b c d : length a = length b -> common (a ++ c) (b ++ d) = if list_eq_dec bool_dec a b then zlen a + common c d else common a b.
Proof.
  revert b. induction a as [|x a IH]; intros [|y b] L; cbn [length] in L; try discriminate; cbn [app common].
  - destruct (list_eq_dec bool_dec [] []); [rewrite zlen_nil; lia|contradiction].
  - injection L as L. rewrite (IH b L). destruct (eqb x y) eqn:E.
    + apply eqb_prop in E as ->. destruct (list_eq_dec bool_dec a b) as [N|N], (list_eq_dec bool_dec (y :: a) (y :: b)) as [Q|Q]; try congruence; rewrite ?zlen_cons; lia.
    + destruct (list_eq_dec bool_dec (x :: a) (y :: b)) as [Q|Q]; [|reflexivity]. injection Q as -> _. rewrite eqb_reflx in E. discriminate.
Qed.
Lemma bits8_inj x y : is_byte x -> is_byte y -> bits8 x = bits8 y -> x = y.
Proof.
  unfold is_byte. intros X Y E. apply Z.bits_inj'. intros i Hi. destruct (Z.lt_ge_cases i 8) as [L|L].
  - cbn in E. injection E as E0 E1 E2 E3 E4 E5 E6 E7.
    assert (i = 0 \/ i = 1 \/ i = 2 \/ i = 3 \/ i = 4 \/ i = 5 \/ i = 6 \/ i = 7) as J by lia.
    destruct J as [-> | [-> | [-> | [-> | [-> | [-> | [-> | ->]]]]]]]; assumption.
  - rewrite <- (Z.mod_small x (2 ^ 8)), <- (Z.mod_small y (2 ^ 8)) by (change (2 ^ 8) with 256; lia). now rewrite !Z.mod_pow2_bits_high by lia.
Qed.
Lemma common_xor x y : common (bits8 x) (bits8 y) = common (bits8 (Z.lxor x y)) (repeat false 8).
Proof.
  cbn [bits8 map seq repeat common]. rewrite !Z.lxor_spec.
  repeat (match goal with |- context [eqb (Z.testbit x ?i) (Z.testbit y ?i)] =>
    replace (eqb (xorb (Z.testbit x i) (Z.testbit y i)) false) with (eqb (Z.testbit x i) (Z.testbit y i)) by (destruct (Z.testbit x i), (Z.testbit y i); reflexivity);
    generalize (eqb (Z.testbit x i) (Z.testbit y i)); intro end).
  reflexivity.
Qed.
Lemma shift_out_all : forallb (fun n => let v := Z.of_nat n in shift_out 8 v =? common (bits8 v) (repeat false 8)) (seq 0 256) = true.
Proof. vm_compute. reflexivity. Qed.
Lemma shift_out_ok v : is_byte v -> shift_out 8 v = common (bits8 v) (repeat false 8).
Proof.
  intros [A B]. pose proof shift_out_all as F. rewrite forallb_forall in F. specialize (F (Z.to_nat v)).
  rewrite Z2Nat.id in F by lia. apply Z.eqb_eq, F, in_seq. lia.
Qed.
Lemma lxor_byte x y : is_byte x -> is_byte y -> is_byte (Z.lxor x y).
Proof.
  unfold is_byte. intros X Y. assert (N : 0 <= Z.lxor x y) by (apply Z.lxor_nonneg; lia). split; [assumption|].
  destruct (Z.eq_dec (Z.lxor x y) 0) as [->|Z0]; [lia|]. change 256 with (2 ^ 8). apply Z.log2_lt_pow2; [lia|].
  assert (K : forall z, 0 <= z < 256 -> Z.log2 z < 8).
  { intros z Hz. destruct (Z.eq_dec z 0) as [->|]; [reflexivity|]. apply Z.log2_lt_pow2; [lia|]. change (2 ^ 8) with 256. lia. }
  pose proof (Z.log2_lxor x y ltac:(lia) ltac:(lia)). pose proof (K x X). pose proof (K y Y). lia.
Qed.
Lemma common_bits_ok a : forall b, length a = length b -> bytes_ok a -> bytes_ok b -> common_bits a b = common (bits a) (bits b).
Proof.
  induction a as [|x a IH]; intros [|y b] L A B; cbn [length] in L; try discriminate; [reflexivity|].
  injection L as L. inversion A as [|? ? X A']; inversion B as [|? ? Y B']; subst. cbn [common_bits]. unfold bits. cbn [flat_map].
  fold (bits a) (bits b). rewrite common_app by reflexivity. destruct (Z.eqb_spec x y) as [->|N].
  - destruct (list_eq_dec bool_dec (bits8 y) (bits8 y)); [|contradiction]. rewrite (IH b) by assumption. reflexivity.
  - destruct (list_eq_dec bool_dec (bits8 x) (bits8 y)) as [E|E]; [exfalso; now apply N, bits8_inj|].
    rewrite common_xor. apply shift_out_ok. now apply lxor_byte.
Qed.

(** the byte in which the random id is made to differ *)
Lemma shl8_bits x k i : 0 <= k -> 0 <= i -> Z.testbit (shl8 x k) i = (i <? 8) && Z.testbit x (i - k).
Proof.
  intros K I. unfold shl8, byte. change 256 with (2 ^ 8). destruct (Z.ltb_spec i 8) as [L|L].
  - rewrite Z.mod_pow2_bits_low by lia. now rewrite Z.shiftl_spec by lia.
  - now rewrite Z.mod_pow2_bits_high by lia.
Qed.
Lemma high_bit x i : is_byte x -> 8 <= i -> Z.testbit x i = false.
Proof. unfold is_byte. intros X I. rewrite <- (Z.mod_small x (2 ^ 8)) by (change (2 ^ 8) with 256; lia). now rewrite Z.mod_pow2_bits_high by lia. Qed.
Lemma diff_bit a bit : is_byte a -> 0 <= bit < 8 ->
  (0 <? shl8 (Z.shiftr (shl8 a bit) 7) (7 - bit)) = Z.testbit a (7 - bit).
Proof.
  intros A B. set (v := shl8 (Z.shiftr (shl8 a bit) 7) (7 - bit)).
  assert (V : forall i, 0 <= i -> Z.testbit v i = (i =? 7 - bit) && Z.testbit a (7 - bit)).
  { intros i Hi. unfold v. rewrite shl8_bits by lia. destruct (Z.lt_ge_cases (i - (7 - bit)) 0) as [L|L].
    - rewrite Z.testbit_neg_r by lia. destruct (Z.eqb_spec i (7 - bit)); [lia|]. now rewrite andb_false_r.
    - rewrite Z.shiftr_spec by lia. rewrite shl8_bits by lia. destruct (Z.eqb_spec i (7 - bit)) as [->|N].
      + destruct (Z.ltb_spec (7 - bit) 8); [|lia]. destruct (Z.ltb_spec (7 - bit - (7 - bit) + 7) 8); [|lia].
        cbn [andb]. f_equal. lia.
      + destruct (Z.ltb_spec (i - (7 - bit) + 7) 8); [lia|]. now rewrite andb_false_r. }
  assert (NN : 0 <= v) by (apply Z.mod_pos_bound; lia).
  destruct (Z.testbit a (7 - bit)) eqn:T.
  - apply Z.ltb_lt. destruct (Z.eq_dec v 0) as [E|E]; [|lia]. specialize (V (7 - bit) ltac:(lia)). rewrite E, Z.bits_0, Z.eqb_refl in V. discriminate.
  - apply Z.ltb_ge. assert (v = 0); [|lia]. apply Z.bits_inj'. intros i Hi. now rewrite V, Z.bits_0, andb_false_r by lia.
Qed.
Lemma differ_bits a b bit i : is_byte a -> is_byte b -> 0 <= bit < 8 -> 0 <= i ->
  Z.testbit (differ_at a b bit) i =
    if i =? 7 - bit then negb (Z.testbit a i) else if 7 - bit <? i then Z.testbit a i else Z.testbit b i.
Proof.
  intros A B K I. unfold differ_at. rewrite diff_bit by assumption.
  assert (ONE : Z.testbit (Z.shiftl 1 (7 - bit)) i = (i =? 7 - bit)).
  { rewrite Z.shiftl_mul_pow2 by lia. rewrite Z.mul_1_l. destruct (Z.eqb_spec i (7 - bit)) as [->|N]; [now apply Z.pow2_bits_true; lia|apply Z.pow2_bits_false; lia]. }
  assert (B2 : Z.testbit (Z.lor (Z.shiftr (shl8 b bit) bit) (shl8 (Z.shiftr a (8 - bit)) (8 - bit))) i = if i <? 8 - bit then Z.testbit b i else Z.testbit a i).
  { rewrite Z.lor_spec, Z.shiftr_spec, !shl8_bits by lia. destruct (Z.ltb_spec i (8 - bit)) as [L|L].
    - destruct (Z.ltb_spec (i + bit) 8); [|lia]. replace (i + bit - bit) with i by lia. rewrite (Z.testbit_neg_r _ (i - (8 - bit))) by lia. rewrite andb_false_r. cbn [andb]. apply orb_false_r.
    - destruct (Z.ltb_spec (i + bit) 8); [lia|]. cbn [andb orb]. rewrite Z.shiftr_spec by lia. replace (i - (8 - bit) + (8 - bit)) with i by lia.
      destruct (Z.ltb_spec i 8); [reflexivity|]. now rewrite (high_bit a i) by (assumption || lia). }
  assert (MASK : Z.testbit (255 - Z.shiftl 1 (7 - bit)) i = (i <? 8) && negb (i =? 7 - bit)).
  { assert (bit = 0 \/ bit = 1 \/ bit = 2 \/ bit = 3 \/ bit = 4 \/ bit = 5 \/ bit = 6 \/ bit = 7) as J by lia.
    destruct (Z.ltb_spec i 8) as [L|L].
    - assert (i = 0 \/ i = 1 \/ i = 2 \/ i = 3 \/ i = 4 \/ i = 5 \/ i = 6 \/ i = 7) as J' by lia.
      destruct J as [-> | [-> | [-> | [-> | [-> | [-> | [-> | ->]]]]]]], J' as [-> | [-> | [-> | [-> | [-> | [-> | [-> | ->]]]]]]]; reflexivity.
    - cbn [andb]. apply high_bit; [|lia]. unfold is_byte. destruct J as [-> | [-> | [-> | [-> | [-> | [-> | [-> | ->]]]]]]]; cbn; lia. }
  destruct (Z.testbit a (7 - bit)) eqn:T.
  - rewrite Z.land_spec, B2, MASK. destruct (Z.eqb_spec i (7 - bit)) as [->|N].
    + rewrite T. now rewrite !andb_false_r.
    + rewrite andb_true_r. destruct (Z.ltb_spec i 8) as [L8|L8].
      * rewrite andb_true_r. destruct (Z.ltb_spec i (8 - bit)), (Z.ltb_spec (7 - bit) i); try reflexivity; lia.
      * rewrite andb_false_r. destruct (Z.ltb_spec (7 - bit) i); [|lia]. now rewrite (high_bit a i) by (assumption || lia).
  - rewrite Z.lor_spec, B2, ONE. destruct (Z.eqb_spec i (7 - bit)) as [->|N].
    + rewrite T. now rewrite orb_true_r.
    + rewrite orb_false_r. destruct (Z.ltb_spec i (8 - bit)), (Z.ltb_spec (7 - bit) i); try reflexivity; lia.
Qed.
Lemma differ_common a b bit : is_byte a -> is_byte b -> 0 <= bit < 8 -> common (bits8 a) (bits8 (differ_at a b bit)) = bit /\ a <> differ_at a b bit.
Proof.
  intros A B K. split.
  - cbn [bits8 map seq common]. rewrite !differ_bits by (assumption || (cbn; lia)).
    assert (bit = 0 \/ bit = 1 \/ bit = 2 \/ bit = 3 \/ bit = 4 \/ bit = 5 \/ bit = 6 \/ bit = 7) as J by lia.
    destruct J as [-> | [-> | [-> | [-> | [-> | [-> | [-> | ->]]]]]]]; cbn -[Z.testbit];
      rewrite ?eqb_reflx; repeat (match goal with |- context [eqb ?x (negb ?x)] => replace (eqb x (negb x)) with false by (destruct x; reflexivity) end); reflexivity.
  - intro E. pose proof (differ_bits a b bit (7 - bit) A B K ltac:(lia)) as D. rewrite <- E, Z.eqb_refl in D. destruct (Z.testbit a (7 - bit)); discriminate.
Qed.
Lemma differ_byte a b bit : is_byte a -> is_byte b -> 0 <= bit < 8 -> is_byte (differ_at a b bit).
Proof.
  intros A B K. set (v := differ_at a b bit). assert (E : v = v mod 2 ^ 8).
  { apply Z.bits_inj'. intros i Hi. destruct (Z.lt_ge_cases i 8) as [L|L]; [now rewrite Z.mod_pow2_bits_low by lia|].
    rewrite Z.mod_pow2_bits_high by lia. unfold v. rewrite differ_bits by assumption. destruct (Z.eqb_spec i (7 - bit)); [lia|].
    destruct (Z.ltb_spec (7 - bit) i); [|lia]. now apply high_bit. }
  rewrite E. apply Z.mod_pos_bound. lia.
Qed.
Lemma bits_app a b : bits (a ++ b) = bits a ++ bits b.
Proof. apply flat_map_app. Qed.
Lemma bits_length l : length (bits l) = (8 * length l)%nat.
Proof. induction l as [|x l IH]; [reflexivity|]. unfold bits. cbn [flat_map]. rewrite app_length. fold (bits l). rewrite IH. cbn. lia. Qed.
Lemma common_refl l : common l l = zlen l.
Proof. induction l as [|x l IH]; [reflexivity|]. cbn [common]. rewrite eqb_reflx, IH, zlen_cons. reflexivity. Qed.
Lemma common_range a : forall b, 0 <= common a b <= zlen a.
Proof.
  induction a as [|x a IH]; intros b; [cbn; lia|]. rewrite zlen_cons. pose proof (zlen_nonneg a).
  destruct b as [|y b]; cbn [common]; [lia|]. specialize (IH b). destruct (eqb x y); lia.
Qed.
Lemma common_sym a : forall b, common a b = common b a.
Proof. induction a as [|x a IH]; intros [|y b]; cbn [common]; try reflexivity. rewrite (IH b). destruct x, y; reflexivity. Qed.
Lemma common_full a : forall b, length a = length b -> common a b = zlen a -> a = b.
Proof.
  induction a as [|x a IH]; intros [|y b] L E; cbn [length] in L; try discriminate; [reflexivity|]. injection L as L.
  cbn [common] in E. rewrite zlen_cons in E. pose proof (zlen_nonneg a). destruct (eqb x y) eqn:Q; [|lia]. apply eqb_prop in Q as ->. f_equal. apply IH; [assumption|lia].
Qed.
Lemma common_ultra a : forall b c, Z.min (common a b) (common b c) <= common a c.
Proof.
  induction a as [|x a IH]; intros b c; [cbn [common]; lia|].
  destruct b as [|y b]; [pose proof (common_range (x :: a) c); destruct c; cbn [common] in *; lia|].
  destruct c as [|z c]; [pose proof (common_range (x :: a) (y :: b)); cbn [common] in *; lia|]. cbn [common].
  - specialize (IH b c). pose proof (common_range a c). pose proof (common_range a b). pose proof (common_range b c).
    destruct (eqb x y) eqn:E, (eqb y z) eqn:F; try (destruct (eqb x z); lia).
    apply eqb_prop in E as ->. rewrite F. lia.
Qed.
Lemma bits_inj a : forall b, length a = length b -> bytes_ok a -> bytes_ok b -> bits a = bits b -> a = b.
Proof.
  induction a as [|x a IH]; intros [|y b] L A B E; cbn [length] in L; try discriminate; [reflexivity|]. injection L as L.
  inversion A as [|? ? X A']; inversion B as [|? ? Y B']; subst. unfold bits in E. cbn [flat_map] in E.
  destruct (app_inj_length _ _ _ _ E eq_refl) as [E1 E2]. f_equal; [now apply bits8_inj|now apply IH].
Qed.

Lemma rand_ok rnd id d : node_id rnd -> node_id id -> 0 <= d ->
  node_id (rand_from_distance rnd id d) /\ far id (rand_from_distance rnd id d) = Z.min d 256.
Proof.
  intros (RL & RB) (IL & IB) D. unfold rand_from_distance.
  set (d' := if 256 <=? d then 256 else d). assert (D' : d' = Z.min d 256 /\ 0 <= d' <= 256) by (unfold d'; destruct (Z.leb_spec 256 d); lia).
  destruct D' as [<- R]. unfold common_n_bits. destruct (Z.eqb_spec (256 - d') 256) as [E|N].
  - split; [now split|]. unfold far. rewrite common_refl. unfold zlen. rewrite bits_length, IL. lia.
  - set (n := 256 - d') in *. set (k := Z.to_nat (n / 8)). assert (K : (k < 32)%nat) by (unfold k; lia).
    assert (IK : is_byte (nth k id 0)) by (apply Forall_nth; [assumption|lia]).
    assert (RK : is_byte (nth k rnd 0)) by (apply Forall_nth; [assumption|lia]).
    assert (M : 0 <= n mod 8 < 8) by (apply Z.mod_pos_bound; lia).
    set (x := differ_at (nth k id 0) (nth k rnd 0) (n mod 8)).
    assert (X : is_byte x) by now apply differ_byte.
    split.
    + split; [rewrite app_length, firstn_length; cbn [length]; rewrite skipn_length; lia|].
      apply Forall_app. split; [pose proof IB as Q; rewrite <- (firstn_skipn k id) in Q; now apply Forall_app in Q|].
      constructor; [assumption|]. pose proof RB as Q. rewrite <- (firstn_skipn (S k) rnd) in Q. now apply Forall_app in Q.
    + unfold far. rewrite bits_app.
      assert (S : id = firstn k id ++ nth k id 0 :: skipn (S k) id).
      { rewrite <- (firstn_skipn k id) at 1. f_equal. clear - IL K. revert id IL K. generalize 32%nat. induction k as [|k IH]; intros m [|y id] IL K; cbn in *; try lia; [reflexivity|].
        destruct m; [lia|]. apply (IH m); lia. }
      rewrite S at 1. rewrite bits_app. rewrite common_app by reflexivity.
      destruct (list_eq_dec bool_dec (bits (firstn k id)) (bits (firstn k id))); [|contradiction].
      unfold bits at 2 3. cbn [flat_map]. rewrite common_app by reflexivity.
      destruct (differ_common (nth k id 0) (nth k rnd 0) (n mod 8) IK RK M) as [C NE]. fold x in C, NE.
      destruct (list_eq_dec bool_dec (bits8 (nth k id 0)) (bits8 x)) as [E|E]; [exfalso; now apply NE, bits8_inj|].
      rewrite C. unfold zlen. rewrite bits_length, firstn_length. unfold k. lia.
Qed.
