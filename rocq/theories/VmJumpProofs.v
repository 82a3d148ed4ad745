From Verif Require Import Lib VmJumpModel VmJumpSpec.

Lemma nth_error_upd l : forall n v, (n < length l)%nat -> exists l', upd l n v = Some l' /\ length l' = length l
  /\ forall m, nth_error l' m = if Nat.eqb m n then Some v else nth_error l m.
Proof.
  induction l as [|x r IH]; intros n v H; [cbn in H; lia|].
  destruct n as [|n].
  - exists (v :: r). repeat split. intros [|m]; reflexivity.
  - cbn in H. destruct (IH n v ltac:(lia)) as (l' & E & L & N). exists (x :: l'). cbn. rewrite E. cbn.
    repeat split; [lia|]. intros [|m]; cbn; [reflexivity|apply N].
Qed.

Lemma zget_some l i : 0 <= i < zlen l -> exists b, zget l i = Some b /\ b = nth (Z.to_nat i) l 0.
Proof.
  intros H. unfold zget, zlen in *. destruct (Z.ltb_spec i 0); [lia|].
  destruct (nth_error l (Z.to_nat i)) eqn:E.
  - exists z. split; [reflexivity|]. symmetry. now apply nth_error_nth.
  - apply nth_error_None in E. lia.
Qed.

(** bit view of the bitmap *)
Definition bit (bits : list Z) (p : Z) : bool :=
  Z.testbit (nth (Z.to_nat (p / 8)) bits 0) (7 - p mod 8).

Lemma or_at_spec l i m : 0 <= i < zlen l -> exists l', or_at l i m = Some l' /\ length l' = length l /\
  forall j, 0 <= j -> nth (Z.to_nat j) l' 0 = if j =? i then Z.lor (nth (Z.to_nat i) l 0) m else nth (Z.to_nat j) l 0.
Proof.
  intros H. unfold or_at. destruct (zget_some l i H) as (b & E & Eb). rewrite E. cbn [obind].
  unfold zset. destruct (Z.ltb_spec i 0); [lia|].
  destruct (nth_error_upd l (Z.to_nat i) (Z.lor b m)) as (l' & U & L & N); [unfold zlen in H; lia|].
  exists l'. rewrite U. repeat split; [lia|]. intros j Hj.
  assert (nth_error l' (Z.to_nat j) = if j =? i then Some (Z.lor b m) else nth_error l (Z.to_nat j)) as Q.
  { rewrite N. destruct (Nat.eqb_spec (Z.to_nat j) (Z.to_nat i)); destruct (Z.eqb_spec j i); try lia; reflexivity. }
  destruct (Z.eqb_spec j i).
  - rewrite <- Eb. now apply nth_error_nth.
  - destruct (nth_error l (Z.to_nat j)) eqn:Q2.
    + rewrite (nth_error_nth _ _ _ Q). symmetry. now apply nth_error_nth.
    + rewrite !nth_overflow; [reflexivity| |]; apply nth_error_None; congruence.
Qed.

Definition all8 (f : Z -> Z -> bool) : bool :=
  forallb (fun i => forallb (f i) [0;1;2;3;4;5;6;7]) [0;1;2;3;4;5;6;7].
Lemma all8_spec f : all8 f = true -> forall i j, 0 <= i < 8 -> 0 <= j < 8 -> f i j = true.
Proof.
  intros H i j Hi Hj. unfold all8 in H. rewrite forallb_forall in H.
  assert (In i [0;1;2;3;4;5;6;7]) as I by (cbn; lia). apply H in I. rewrite forallb_forall in I.
  apply I. cbn; lia.
Qed.
Lemma mask1_bit i j : 0 <= i < 8 -> 0 <= j < 8 -> Z.testbit (Z.shiftr 128 i) (7 - j) = (i =? j).
Proof. intros. apply eqb_prop. revert i j H H0. apply all8_spec. now vm_compute. Qed.
Lemma mask8a_bit i j : 0 <= i < 8 -> 0 <= j < 8 -> Z.testbit (Z.shiftr 255 i) (7 - j) = (i <=? j).
Proof. intros. apply eqb_prop. revert i j H H0. apply all8_spec. now vm_compute. Qed.
Lemma mask8b_bit i j : 0 <= i < 8 -> 0 <= j < 8 -> Z.testbit (255 - Z.shiftr 255 i) (7 - j) = (j <? i).
Proof. intros. apply eqb_prop. revert i j H H0. apply all8_spec. now vm_compute. Qed.

Lemma bv_set_spec bits p : 0 <= p -> p / 8 < zlen bits -> exists b', bv_set bits p = Some b' /\ length b' = length bits /\
  forall q, 0 <= q -> bit b' q = bit bits q || (q =? p).
Proof.
  intros Hp Hl. unfold bv_set.
  destruct (or_at_spec bits (p / 8) (Z.shiftr 128 (p mod 8))) as (b' & E & L & N); [lia|].
  exists b'. repeat split; auto. intros q Hq. unfold bit. rewrite N by lia.
  destruct (Z.eqb_spec (q / 8) (p / 8)) as [e|ne].
  - rewrite Z.lor_spec, mask1_bit by lia. rewrite e. f_equal.
    destruct (Z.eqb_spec (p mod 8) (q mod 8)); destruct (Z.eqb_spec q p); try reflexivity; lia.
  - destruct (Z.eqb_spec q p); [subst; lia|]. now rewrite orb_false_r.
Qed.

Lemma bv_set8_spec bits p : 0 <= p -> p / 8 + 1 < zlen bits -> exists b', bv_set8 bits p = Some b' /\ length b' = length bits /\
  forall q, 0 <= q -> bit b' q = bit bits q || ((p <=? q) && (q <? p + 8)).
Proof.
  intros Hp Hl. unfold bv_set8.
  destruct (or_at_spec bits (p / 8) (Z.shiftr 255 (p mod 8))) as (b1 & E1 & L1 & N1); [lia|].
  rewrite E1. cbn [obind].
  destruct (or_at_spec b1 (p / 8 + 1) (255 - Z.shiftr 255 (p mod 8))) as (b2 & E2 & L2 & N2); [unfold zlen in *; lia|].
  exists b2. repeat split; [assumption|congruence|]. intros q Hq. unfold bit. rewrite N2 by lia.
  rewrite !N1 by lia.
  destruct (Z.eqb_spec (q / 8) (p / 8 + 1)) as [e|ne].
  - rewrite Z.lor_spec, mask8b_bit by lia.
    destruct (Z.eqb_spec (p / 8 + 1) (p / 8)); [lia|]. rewrite e. f_equal.
    destruct (Z.ltb_spec (q mod 8) (p mod 8)); destruct (Z.leb_spec p q); destruct (Z.ltb_spec q (p + 8)); try reflexivity; lia.
  - destruct (Z.eqb_spec (q / 8) (p / 8)) as [e'|ne'].
    + rewrite Z.lor_spec, mask8a_bit by lia. rewrite e'. f_equal.
      destruct (Z.leb_spec (p mod 8) (q mod 8)); destruct (Z.leb_spec p q); destruct (Z.ltb_spec q (p + 8)); try reflexivity; lia.
    + replace ((p <=? q) && (q <? p + 8)) with false; [now rewrite orb_false_r|].
      destruct (Z.leb_spec p q); destruct (Z.ltb_spec q (p + 8)); try reflexivity; lia.
Qed.

Lemma mark8_spec k : forall bits p, 0 <= p -> (k = O \/ (p + 8 * Z.of_nat k - 8) / 8 + 1 < zlen bits) ->
  exists b', mark8 k bits p = Some (b', p + 8 * Z.of_nat k) /\ length b' = length bits /\
  forall q, 0 <= q -> bit b' q = bit bits q || ((p <=? q) && (q <? p + 8 * Z.of_nat k)).
Proof.
  induction k as [|k IH]; intros bits p Hp Hl.
  - exists bits. cbn [mark8]. split; [do 2 f_equal; lia|]. split; [reflexivity|]. intros q Hq.
    replace ((p <=? q) && (q <? p + 8 * Z.of_nat 0)) with false; [now rewrite orb_false_r|].
    destruct (Z.leb_spec p q); destruct (Z.ltb_spec q (p + 8 * Z.of_nat 0)); try reflexivity; lia.
  - destruct Hl as [|Hl]; [discriminate|].
    destruct (bv_set8_spec bits p) as (b1 & E1 & L1 & B1); [lia|lia|].
    destruct (IH b1 (p + 8)) as (b2 & E2 & L2 & B2); [lia|right; unfold zlen in *; lia|].
    exists b2. cbn [mark8]. rewrite E1. cbn [obind]. rewrite E2.
    split; [do 2 f_equal; lia|]. split; [congruence|]. intros q Hq. rewrite B2, B1 by lia.
    rewrite <- orb_assoc. f_equal.
    destruct (Z.leb_spec p q); destruct (Z.ltb_spec q (p + 8)); destruct (Z.leb_spec (p+8) q);
    destruct (Z.ltb_spec q (p + 8 + 8 * Z.of_nat k)); destruct (Z.ltb_spec q (p + 8 * Z.of_nat (S k))); try reflexivity; lia.
Qed.

Lemma mark1_spec k : forall bits p, 0 <= p -> (p + Z.of_nat k - 1) / 8 < zlen bits ->
  exists b', mark1 k bits p = Some (b', p + Z.of_nat k) /\ length b' = length bits /\
  forall q, 0 <= q -> bit b' q = bit bits q || ((p <=? q) && (q <? p + Z.of_nat k)).
Proof.
  induction k as [|k IH]; intros bits p Hp Hl.
  - exists bits. cbn [mark1]. split; [do 2 f_equal; lia|]. split; [reflexivity|]. intros q Hq.
    replace ((p <=? q) && (q <? p + Z.of_nat 0)) with false; [now rewrite orb_false_r|].
    destruct (Z.leb_spec p q); destruct (Z.ltb_spec q (p + Z.of_nat 0)); try reflexivity; lia.
  - destruct (bv_set_spec bits p) as (b1 & E1 & L1 & B1); [lia|lia|].
    destruct (IH b1 (p + 1)) as (b2 & E2 & L2 & B2); [lia|unfold zlen in *; lia|].
    exists b2. cbn [mark1]. rewrite E1. cbn [obind]. rewrite E2.
    split; [do 2 f_equal; lia|]. split; [congruence|]. intros q Hq. rewrite B2, B1 by lia.
    rewrite <- orb_assoc. f_equal.
    destruct (Z.eqb_spec q p); destruct (Z.leb_spec p q); destruct (Z.leb_spec (p+1) q);
    destruct (Z.ltb_spec q (p + 1 + Z.of_nat k)); destruct (Z.ltb_spec q (p + Z.of_nat (S k))); try reflexivity; lia.
Qed.

(** [next code pc]: where decoding continues *)
Definition next (code : list Z) (pc : Z) : Z := pc + 1 + immediate_bytes (code_at code pc).

Lemma imm_range op : 0 <= immediate_bytes op <= 32.
Proof. unfold immediate_bytes. destruct (Z.leb_spec 0x60 op); destruct (Z.leb_spec op 0x7f); cbn; lia. Qed.

(** positions reached from [pc], in order *)
Inductive reach (code : list Z) : Z -> Z -> Prop :=
| reach_refl pc : reach code pc pc
| reach_step pc q : 0 <= pc < zlen code -> reach code (next code pc) q -> reach code pc q.

Lemma reach_le code p q : reach code p q -> p <= q.
Proof. induction 1; [lia|]. pose proof (imm_range (code_at code pc)). unfold next in *. lia. Qed.
Lemma reach_snoc code p q : reach code p q -> 0 <= q < zlen code -> reach code p (next code q).
Proof. induction 1; intros; [eapply reach_step; eauto; apply reach_refl|eapply reach_step; eauto]. Qed.
Lemma start_reach code q : instruction_start code q <-> reach code 0 q.
Proof.
  split.
  - induction 1; [apply reach_refl|]. now apply reach_snoc.
  - assert (forall p q, reach code p q -> instruction_start code p -> instruction_start code q) as A.
    { induction 1; auto. intros. apply IHreach. now constructor. }
    intros. eapply A; eauto. constructor.
Qed.

Lemma bitmap_loop_spec fuel : forall code bits pc, bytes_ok code ->
  0 <= pc -> zlen bits = zlen code / 8 + 1 + 4 -> zlen code - pc <= Z.of_nat fuel ->
  (forall q, pc <= q -> bit bits q = false) ->
  exists b', bitmap_loop fuel code bits pc = Some b' /\ length b' = length bits /\
  (forall q, 0 <= q < pc -> bit b' q = bit bits q) /\
  (forall q, pc <= q < zlen code -> (bit b' q = false <-> reach code pc q)).
Proof.
  induction fuel as [|fuel IH]; intros code bits pc Hb Hpc Hlen Hfuel Hclean.
  - exists bits. repeat split; auto; intros; lia.
  - cbn [bitmap_loop]. destruct (Z.ltb_spec pc (zlen code)) as [Hlt|Hge].
    2:{ exists bits. repeat split; auto; intros; lia. }
    destruct (zget_some code pc) as (op & Eop & Vop); [lia|]. rewrite Eop. cbn [obind].
    fold (code_at code pc) in Vop.
    unfold PUSH1, PUSH32.
    assert (forall P pc', pc < pc' -> pc' = next code pc -> (forall q, pc' <= q < zlen code -> (P q <-> reach code pc' q)) ->
        (P pc) -> (forall q, pc < q < pc' -> ~ P q) ->
        forall q, pc <= q < zlen code -> (P q <-> reach code pc q)) as Glue.
    { intros P pc' Hp' En HP Hpc0 Hmid q Hq. destruct (Z.lt_trichotomy q pc) as [|[->|Hg]]; [lia| |].
      - split; [intros; apply reach_refl|auto].
      - destruct (Z_lt_ge_dec q pc').
        + split; [intro C; destruct (Hmid q ltac:(lia) C)|]. intro R. inversion R; subst; [lia|].
          apply reach_le in H0. lia.
        + rewrite HP by lia. split.
          * intro R. eapply reach_step; [lia|]. now rewrite <- En.
          * intro R. inversion R; subst; [lia|assumption]. }
    destruct ((96 <=? op) && (op <=? 127)) eqn:Epush.
    + set (nb := op - 96 + 1). cbv zeta.
      assert (1 <= nb <= 32) as Hnb by (unfold nb; lia).
      assert (next code pc = pc + 1 + nb) as En.
      { unfold next, immediate_bytes. rewrite <- Vop. change 0x60 with 96. change 0x7f with 127. rewrite Epush. unfold nb. lia. }
      destruct (mark8_spec (Z.to_nat (nb / 8)) bits (pc + 1)) as (b1 & E1 & L1 & B1); [lia|lia|].
      rewrite E1. cbn [obind].
      destruct (mark1_spec (Z.to_nat (nb mod 8)) b1 (pc + 1 + 8 * Z.of_nat (Z.to_nat (nb / 8)))) as (b2 & E2 & L2 & B2); [lia|unfold zlen in *; lia|].
      rewrite E2. cbn [obind].
      set (pc2 := pc + 1 + 8 * Z.of_nat (Z.to_nat (nb / 8)) + Z.of_nat (Z.to_nat (nb mod 8))).
      assert (pc2 = pc + 1 + nb) as Epc2 by (unfold pc2; lia).
      assert (forall q, 0 <= q -> bit b2 q = bit bits q || ((pc + 1 <=? q) && (q <? pc2))) as B12.
      { intros q Hq. rewrite B2, B1 by lia. rewrite <- orb_assoc. f_equal. unfold pc2.
        repeat match goal with |- context [?a <=? ?b] => destruct (Z.leb_spec a b) | |- context [?a <? ?b] => destruct (Z.ltb_spec a b) end; try reflexivity; lia. }
      destruct (IH code b2 pc2) as (b3 & E3 & L3 & Lo & Hi); auto.
      * lia.
      * unfold zlen in *; lia.
      * lia.
      * intros q Hq. rewrite B12 by lia. rewrite Hclean by lia. cbn. destruct (Z.ltb_spec q pc2); [lia|]. now rewrite andb_false_r.
      * exists b3. split; [assumption|]. split; [congruence|]. split.
        -- intros q Hq. rewrite Lo, B12 by lia. destruct (Z.leb_spec (pc + 1) q); [lia|]. cbn. now rewrite orb_false_r.
        -- apply (Glue (fun q => bit b3 q = false) pc2); [lia|lia|assumption| |].
           ++ rewrite Lo, B12, Hclean by lia. destruct (Z.leb_spec (pc + 1) pc); [lia|]. reflexivity.
           ++ intros q Hq. rewrite Lo, B12 by lia. destruct (Z.leb_spec (pc + 1) q); [|lia]. destruct (Z.ltb_spec q pc2); [|lia].
              rewrite orb_true_r. discriminate.
    + assert (next code pc = pc + 1) as En.
      { unfold next, immediate_bytes. rewrite <- Vop. change 0x60 with 96. change 0x7f with 127. rewrite Epush. lia. }
      destruct (IH code bits (pc + 1)) as (b3 & E3 & L3 & Lo & Hi); auto; [lia|lia|intros; apply Hclean; lia|].
      exists b3. split; [assumption|]. split; [congruence|]. split; [intros; apply Lo; lia|].
      apply (Glue (fun q => bit b3 q = false) (pc + 1)); [lia|lia|assumption| |].
      * rewrite Lo by lia. apply Hclean; lia.
      * intros; lia.
Qed.

Lemma bit_repeat n q : bit (repeat 0 n) q = false.
Proof.
  unfold bit. replace (nth (Z.to_nat (q / 8)) (repeat 0 n) 0) with 0; [apply Z.bits_0|].
  destruct (Nat.lt_ge_cases (Z.to_nat (q / 8)) n).
  - symmetry. apply nth_repeat.
  - symmetry. apply nth_overflow. now rewrite repeat_length.
Qed.

Lemma code_bitmap_spec code : bytes_ok code -> exists m, code_bitmap code = Some m /\ zlen m = zlen code / 8 + 5 /\
  forall q, 0 <= q < zlen code -> (bit m q = false <-> instruction_start code q).
Proof.
  intros Hb. unfold code_bitmap. pose proof (zlen_nonneg code).
  assert (zlen (repeat 0 (Z.to_nat (zlen code / 8 + 1 + 4))) = zlen code / 8 + 1 + 4) as L0.
  { rewrite zlen_repeat. lia. }
  destruct (bitmap_loop_spec (length code) code (repeat 0 (Z.to_nat (zlen code / 8 + 1 + 4))) 0) as (m & E & L & _ & Hi); auto.
  - lia.
  - unfold zlen; lia.
  - intros; apply bit_repeat.
  - exists m. split; [assumption|]. split; [unfold zlen in *; lia|]. intros q Hq. rewrite start_reach. now apply Hi.
Qed.

Lemma code_segment_spec m q : 0 <= q -> q / 8 < zlen m -> code_segment m q = Some (negb (bit m q)).
Proof.
  intros Hq Hl. unfold code_segment, bit. destruct (zget_some m (q / 8)) as (b & E & Eb); [lia|].
  rewrite E. cbn [option_map]. f_equal. rewrite <- Eb.
  assert (0 <= q mod 8 < 8) as R by lia. revert R. generalize (q mod 8). intros i R.
  destruct (Z.testbit b (7 - i)) eqn:T; cbn [negb].
  - apply Z.eqb_neq. intro C. assert (Z.testbit (Z.land b (Z.shiftr 128 i)) (7 - i) = false) as F by (rewrite C; apply Z.bits_0).
    rewrite Z.land_spec, T, mask1_bit, Z.eqb_refl in F by lia. discriminate.
  - apply Z.eqb_eq. apply Z.bits_inj'. intros n Hn. rewrite Z.land_spec, Z.bits_0.
    destruct (Z_lt_ge_dec n 8).
    + replace n with (7 - (7 - n)) by lia. rewrite mask1_bit by lia.
      destruct (Z.eqb_spec i (7 - n)); [|now rewrite andb_false_r]. subst. now rewrite T.
    + replace (Z.testbit (Z.shiftr 128 i) n) with false; [now rewrite andb_false_r|].
      symmetry. rewrite Z.shiftr_spec by lia. apply Z.bits_above_log2; [lia|]. change (Z.log2 128) with 7. lia.
Qed.

Theorem jump_has_spec code dest : bytes_ok code -> zlen code < 2 ^ 62 -> 0 <= dest ->
  exists b, jump_has code dest = Some b /\ (b = true <-> valid_jumpdest code dest).
Proof.
  intros Hb Hsz Hd. unfold jump_has, two64. cbv zeta. pose proof (zlen_nonneg code).
  change (2 ^ 62) with 4611686018427387904 in *. change (2 ^ 64) with 18446744073709551616 in *.
  destruct (Z.leb_spec 4611686018427387904 dest).
  - exists false. split; [reflexivity|]. split; [discriminate|]. intros (R & _). lia.
  - rewrite Z.mod_small by lia. cbn [orb]. destruct (Z.leb_spec (zlen code) dest).
    + exists false. split; [reflexivity|]. split; [discriminate|]. intros (R & _). lia.
    + destruct (code_bitmap_spec code Hb) as (m & E & Lm & Hm). rewrite E. cbn [obind].
      destruct (zget_some code dest) as (op & Eop & Vop); [lia|]. rewrite Eop. cbn [obind].
      rewrite code_segment_spec by lia. cbn [obind]. eexists. split; [reflexivity|].
      unfold valid_jumpdest, JUMPDEST. fold (code_at code dest) in Vop. rewrite <- Vop.
      rewrite andb_true_iff, Z.eqb_eq, negb_true_iff, Hm by lia. change 0x5b with 91. intuition lia.
Qed.
