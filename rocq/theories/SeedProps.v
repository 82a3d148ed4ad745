(** Theorems about random seeds. *)
From Coq Require Import ZArith List Bool Lia.
From Verif Require Import Lib VmModel VmProofs WireModel SeedModel SeedSpec SeedProofs.
Import ListNotations.
Open Scope Z_scope.

(** ** Examples *)
Definition eg_h (n : Z) : list Z := repeat n 32.
(** A hash function without collisions (it only shows that hypotheses can be met). *)
Definition eg_H (l : list Z) : list Z := l.
Definition sec (n : Z) : Z := n * 1000000000.
(** Producer 7 commits to seed 5 at second 10 and reveals 5 at second 40, committing to 6. *)
Definition eg_c : list header :=
  [Hd (eg_h 1) (eg_h 0) (sec 1) 0 None 0;
   Hd (eg_h 2) (eg_h 1) (sec 10) 0 (Some (seed_hash eg_H 5 (eg_h 1) (sec 10))) 7;
   Hd (eg_h 3) (eg_h 2) (sec 20) 9 (Some (eg_h 77)) 8;
   Hd (eg_h 4) (eg_h 3) (sec 40) 5 (Some (seed_hash eg_H 6 (eg_h 3) (sec 40))) 7].
Lemma eg_linked : linked eg_c.
Proof.
  split.
  - intros [|[|[|[|[|i]]]]] x y; cbn; intros X Y; try discriminate; injection X as <-; injection Y as <-; reflexivity.
  - cbn. repeat constructor; cbn; intuition congruence.
Qed.
Lemma eg_seeds : seeds_ok eg_c.
Proof. repeat (apply Forall_cons || apply Forall_nil); unfold is_u64, hd_seed; rewrite <- Z.ltb_lt; vm_compute; intuition congruence. Qed.

(** ** The random seed of the chain *)
(** C54: the random seed at a block is the sum, modulo 2^64, of the newest seeds revealed by
    the last [n] distinct producers among that block and the 600 before it. *)
Theorem random_seed_exact : forall c x n i, linked c -> seeds_ok c -> nth_error c i = Some x ->
  random_seed c (hd_hash x) n = total (firstn (Z.to_nat n) (reveals (recent c (Z.of_nat i + 1)))) mod 2 ^ 64.
Proof.
  intros c x n i L S E. unfold random_seed. destruct L as [L N]. rewrite (height_of_at c i x N E).
  assert (i < length c)%nat by (apply nth_error_Some; congruence).
  rewrite random_at; [reflexivity|split; assumption|assumption|unfold zlen; lia].
Qed.
(** Each of these producers is counted once, with the newest seed it revealed. *)
Theorem reveals_distinct : forall l, NoDup (map hd_producer (reveals l)) /\
  forall x, In x (reveals l) <-> exists newer older, l = newer ++ x :: older /\ hd_seed x <> 0 /\
    forall y, In y newer -> hd_seed y <> 0 -> hd_producer y <> hd_producer x.
Proof.
  induction l as [|x l [N IH]]; [split; [constructor|]; intro x; split; [contradiction|intros ([|? ?] & ? & E & _); discriminate]|].
  cbn [reveals]. destruct (Z.eqb_spec (hd_seed x) 0) as [Z|Z].
  - split; [assumption|]. intro y. rewrite IH. split; intros (nw & old & E & S & F).
    + subst l. exists (x :: nw), old. split; [reflexivity|]. split; [assumption|]. intros z [<-|I]; [congruence|auto].
    + destruct nw as [|z nw]; cbn in E; injection E as -> ->; [congruence|]. exists nw, old. split; [reflexivity|]. split; [assumption|].
      intros w W. apply F. now right.
  - split.
    + cbn [map]. constructor.
      * rewrite in_map_iff. intros (y & E & Y). apply filter_In in Y as [_ Y]. apply negb_true_iff in Y. lia.
      * clear IH. induction (reveals l) as [|y r IH]; [constructor|]. cbn in *. apply NoDup_cons_iff in N as [N1 N2].
        destruct (negb (hd_producer y =? hd_producer x)); [|auto]. cbn. constructor; [|auto]. intro I. apply N1.
        apply in_map_iff in I as (z & E & I). apply filter_In in I as [I _]. apply in_map_iff. eauto.
    + intro y. cbn [In]. rewrite filter_In, IH. split.
      * intros [<-|[(nw & old & E & S & F) P]].
        -- exists [], l. repeat split; auto.
        -- subst l. exists (x :: nw), old. split; [reflexivity|]. split; [assumption|]. apply negb_true_iff in P.
           intros z [<-|I] Sz; [lia|auto].
      * intros ([|z nw] & old & E & S & F); cbn in E; injection E as -> ->; [auto|]. right. split.
        -- exists nw, old. split; [reflexivity|]. split; [assumption|]. intros w W. apply F. now right.
        -- apply negb_true_iff. specialize (F z (or_introl eq_refl) Z). lia.
Qed.
(** It does not change when the chain grows, so every node that has the block agrees on it. *)
Theorem random_seed_stable : forall c more x n, linked (c ++ more) -> seeds_ok (c ++ more) -> In x c ->
  random_seed (c ++ more) (hd_hash x) n = random_seed c (hd_hash x) n.
Proof.
  intros c more x n L S I. apply In_nth_error in I as [i E].
  assert (B : (i < length c)%nat) by (apply nth_error_Some; congruence).
  assert (Lc : linked c).
  { destruct L as [L N]. split.
    - intros j a b A C. apply (L j); rewrite nth_error_app1; auto; apply nth_error_Some; congruence.
    - rewrite map_app in N. clear -N. induction (map hd_hash c) as [|a l IH]; [constructor|]. cbn in N. apply NoDup_cons_iff in N as [N1 N2].
      constructor; [|auto]. rewrite in_app_iff in N1. tauto. }
  assert (Sc : seeds_ok c) by (unfold seeds_ok in *; apply Forall_app in S; tauto).
  rewrite (random_seed_exact (c ++ more) x n i), (random_seed_exact c x n i); auto; [|rewrite nth_error_app1; auto].
  do 4 f_equal. unfold recent. rewrite firstn_app. replace (Z.to_nat (Z.of_nat i + 1) - length c)%nat with 0%nat by lia.
  cbn [firstn]. now rewrite app_nil_r.
Qed.
(** An unknown block gives zero. *)
Theorem random_seed_unknown : forall c hash n, ~ In hash (map hd_hash c) -> random_seed c hash n = 0.
Proof. intros c hash n N. unfold random_seed. rewrite height_of_none by assumption. reflexivity. Qed.
Example random_seed_eg : random_seed eg_c (eg_h 4) 25 = 14 /\ random_seed eg_c (eg_h 4) 1 = 5 /\ random_seed eg_c (eg_h 3) 25 = 9.
Proof. repeat split; vm_compute; reflexivity. Qed.

(** ** The seed of a contract call *)
(** C54 fails here: the seed a contract sees is made of the first eight bytes of the hash of
    the request alone.  The random seed is put in the last eight bytes of 32, then the first
    eight are read.  So the sender of a request knows and chooses the "random" number. *)
Theorem contract_seed_is_request_hash : forall c limit from, zlen from = 32 -> bytes_ok from ->
  is_u64 (random_seed c limit 25) -> get_seed c limit from = be_val (firstn 8 from).
Proof.
  intros c limit from L B S. unfold get_seed. set (s := random_seed c limit 25) in *.
  assert (P : left_pad 32 (big_bytes s) = repeat 0 24 ++ be_bytes 8 s).
  { assert (V : forall m, (m <= 8)%nat -> 0 <= s < 256 ^ Z.of_nat m -> repeat 0 (32 - m) ++ be_bytes m s = repeat 0 24 ++ be_bytes 8 s).
    { intros m M R. replace (32 - m)%nat with (24 + (8 - m))%nat by lia. rewrite repeat_app, <- app_assoc. f_equal.
      assert (E : be_val (repeat 0 (8 - m) ++ be_bytes m s) = s).
      { rewrite be_val_app, be_val_bytes by assumption. assert (Z0 : forall k, be_val (repeat 0 k) = 0).
        { induction k as [|k IH]; [reflexivity|]. cbn [repeat]. rewrite be_val_cons, IH. lia. } rewrite Z0. lia. }
      apply be_val_inj_len.
      - unfold bytes_ok. apply Forall_app. split; [|apply be_bytes_ok]. apply Forall_forall. intros x X. apply repeat_spec in X. subst. unfold is_byte. lia.
      - apply be_bytes_ok.
      - rewrite app_length, repeat_length, !be_bytes_length. lia.
      - rewrite E. symmetry. apply be_val_bytes. unfold is_u64, two64 in S. change (Z.of_nat 8) with 8. lia. }
    unfold big_bytes. set (m := Z.to_nat ((bit_len s + 7) / 8)).
    assert (BL : 0 <= bit_len s <= 64 /\ s < 2 ^ bit_len s).
    { unfold bit_len, is_u64, two64 in *. destruct (Z.eqb_spec s 0) as [->|N0]; [cbn; lia|]. pose proof (Z.log2_nonneg s).
      pose proof (Z.log2_spec s ltac:(lia)). assert (Z.log2 s < 64) by (apply Z.log2_lt_pow2; lia). replace (Z.log2 s + 1) with (Z.succ (Z.log2 s)) by lia. lia. }
    assert (M : (m <= 8)%nat) by (unfold m; lia).
    unfold left_pad. unfold zlen at 1. rewrite be_bytes_length. destruct (Z.leb_spec 32 (Z.of_nat m)); [lia|].
    unfold zeros, zlen. rewrite be_bytes_length. rewrite <- (V m M).
    - do 2 f_equal. lia.
    - split; [unfold is_u64 in S; lia|]. eapply Z.lt_le_trans; [apply BL|]. change 256 with (2 ^ 8). rewrite <- Z.pow_mul_r by lia.
      apply Z.pow_le_mono_r; [lia|]. unfold m. lia. }
  rewrite P. destruct from as [|a0 [|a1 [|a2 [|a3 [|a4 [|a5 [|a6 [|a7 from]]]]]]]]; try (unfold zlen in L; cbn in L; lia).
  unfold bytes_to_u64. replace (zlen (xor_bytes _ _) <? 8) with false.
  - f_equal.
  - symmetry. apply Z.ltb_ge. unfold zlen, xor_bytes in *. rewrite map_length, combine_length, app_length, repeat_length, be_bytes_length. lia.
Qed.
Theorem contract_seed_depends_on_reveals_refuted : forall c c' limit limit' from, zlen from = 32 -> bytes_ok from ->
  linked c -> seeds_ok c -> linked c' -> seeds_ok c' -> get_seed c limit from = get_seed c' limit' from.
Proof.
  assert (U : forall c limit, linked c -> seeds_ok c -> is_u64 (random_seed c limit 25)).
  { intros c limit L S. destruct (in_dec (list_eq_dec Z.eq_dec) limit (map hd_hash c)) as [I|I].
    - apply in_map_iff in I as (x & <- & I). apply In_nth_error in I as [i E]. rewrite (random_seed_exact c x 25 i L S E).
      unfold is_u64, two64. apply Z.mod_pos_bound. lia.
    - rewrite random_seed_unknown by assumption. unfold is_u64, two64. lia. }
  intros. rewrite !contract_seed_is_request_hash; auto.
Qed.
Example contract_seed_eg : zlen (eg_h 3) = 32 /\ bytes_ok (eg_h 3) /\ get_seed eg_c (eg_h 4) (eg_h 3) = 217020518514230019.
Proof.
  split; [reflexivity|]. split; [|vm_compute; reflexivity]. apply Forall_forall. intros x X. apply repeat_spec in X. subst. unfold is_byte. lia.
Qed.

(** ** The block a contract call waits for *)
Lemma skipn_nth {A} (l : list A) n x : nth_error l n = Some x -> skipn n l = x :: skipn (S n) l.
Proof. revert n. induction l as [|y l IH]; intros [|n] E; try discriminate; cbn in *; [now injection E as ->|auto]. Qed.
Lemma up_cons f t : f <= t -> up f t = f :: up (f + 1) t.
Proof.
  intro L. unfold up. replace (Z.to_nat (t - f + 1)) with (S (Z.to_nat (t - (f + 1) + 1))) by lia.
  cbn [seq map]. f_equal; [lia|]. rewrite <- seq_shift, map_map. apply map_ext. intro i. lia.
Qed.
Lemma up_nil f t : t < f -> up f t = [].
Proof. intro L. unfold up. replace (Z.to_nat (t - f + 1)) with 0%nat by lia. reflexivity. Qed.
Lemma reveal_count_empty c f h : h < f -> 1 <= f -> reveal_count c f h = 0.
Proof. intros L F. unfold reveal_count. rewrite skipn_all2; [reflexivity|]. rewrite firstn_length. lia. Qed.
Lemma reveal_count_snoc c f h x : 1 <= f <= h -> header_at c h = Some x ->
  reveal_count c f h = reveal_count c f (h - 1) + (if hd_seed x =? 0 then 0 else 1).
Proof.
  intros L E. unfold header_at in E. destruct (Z.ltb_spec h 1); [lia|]. unfold reveal_count.
  replace (Z.to_nat h) with (S (Z.to_nat (h - 1))) by lia. rewrite (firstn_snoc c _ x E), skipn_snoc.
  - rewrite filter_app, zlen_app. cbn [filter]. destruct (hd_seed x =? 0); cbn; lia.
  - rewrite firstn_length. assert (nth_error c (Z.to_nat (h - 1)) <> None) as N by congruence. apply nth_error_Some in N. lia.
Qed.
Lemma reveal_count_mono c f h h' : 1 <= f -> h <= h' <= zlen c -> reveal_count c f h <= reveal_count c f h'.
Proof.
  intros F L. replace h' with (h + Z.of_nat (Z.to_nat (h' - h))) by lia. assert (B : h + Z.of_nat (Z.to_nat (h' - h)) <= zlen c) by lia.
  revert B. induction (Z.to_nat (h' - h)) as [|k IH]; intro B; [rewrite Z.add_0_r; lia|].
  specialize (IH ltac:(lia)). destruct (Z.le_gt_cases f (h + Z.of_nat (S k))) as [G|G].
  - destruct (header_at c (h + Z.of_nat (S k))) as [x|] eqn:E.
    + rewrite (reveal_count_snoc c f (h + Z.of_nat (S k)) x ltac:(lia) E). replace (h + Z.of_nat (S k) - 1) with (h + Z.of_nat k) by lia. destruct (hd_seed x =? 0); lia.
    + exfalso. unfold header_at in E. destruct (Z.ltb_spec (h + Z.of_nat (S k)) 1); [lia|]. apply nth_error_None in E. unfold zlen in B. lia.
  - rewrite (reveal_count_empty c f h), (reveal_count_empty c f (h + Z.of_nat (S k))) by lia. lia.
Qed.
Lemma confirm_spec c f times : seeds_ok c -> 1 <= f -> 1 <= times <= 255 -> forall k g, k = Z.to_nat (zlen c - g + 1) -> f <= g ->
  reveal_count c f (g - 1) < times ->
  match confirm_loop c times (up g (zlen c)) (reveal_count c f (g - 1)) with
  | Some h => g <= h <= zlen c /\ reveal_count c f h = times /\ reveal_count c f (h - 1) = times - 1
  | None => forall h, h <= zlen c -> reveal_count c f h < times
  end.
Proof.
  intros S F T. induction k as [|k IH]; intros g K G R.
  - rewrite up_nil by lia. cbn. intros h L. pose proof (reveal_count_mono c f h (zlen c) F ltac:(lia)).
    destruct (Z.le_gt_cases h (g - 1)) as [|]; [|lia]. destruct (Z.le_gt_cases (zlen c) (g - 1)); [|lia].
    assert (reveal_count c f (g - 1) = reveal_count c f (zlen c)); [|lia].
    unfold reveal_count. rewrite !firstn_all2 by (unfold zlen in *; lia). reflexivity.
  - rewrite up_cons by lia. cbn [confirm_loop]. destruct (header_at c g) as [x|] eqn:E.
    2:{ exfalso. unfold header_at in E. destruct (Z.ltb_spec g 1); [lia|]. apply nth_error_None in E. unfold zlen in K. lia. }
    pose proof (reveal_count_snoc c f g x ltac:(lia) E) as C.
    assert (SX : 0 <= hd_seed x).
    { unfold header_at in E. destruct (g <? 1); [discriminate|]. apply nth_error_In in E. unfold seeds_ok in S. rewrite Forall_forall in S. specialize (S x E). unfold is_u64 in S. lia. }
    assert (P0 : 0 <= reveal_count c f (g - 1)) by (unfold reveal_count; apply zlen_nonneg).
    replace (if 0 <? hd_seed x then (reveal_count c f (g - 1) + 1) mod 256 else reveal_count c f (g - 1)) with (reveal_count c f (g + 1 - 1)).
    2:{ replace (g + 1 - 1) with g by lia. rewrite C. destruct (Z.ltb_spec 0 (hd_seed x)), (Z.eqb_spec (hd_seed x) 0); try lia. }
    destruct (Z.eqb_spec (reveal_count c f (g + 1 - 1)) times) as [Q|Q]; replace (g + 1 - 1) with g in Q by lia.
    + split; [lia|]. split; [assumption|]. destruct (hd_seed x =? 0); lia.
    + specialize (IH (g + 1) ltac:(lia) ltac:(lia)). assert (R' : reveal_count c f (g + 1 - 1) < times).
      { replace (g + 1 - 1) with g by lia. destruct (hd_seed x =? 0); lia. }
      specialize (IH R'). destruct (confirm_loop _ _ _ _) as [h|]; [|exact IH]. destruct IH as (A & B & D). repeat split; lia.
Qed.
(** C54: a contract that waits for [times] seeds is bound to the first block by which so many
    have been revealed since the request was confirmed, and waits while there are fewer. *)
Theorem seed_confirmed_exact : forall c times f h, seeds_ok c -> 1 <= f -> 1 <= times <= 255 ->
  seed_confirmed c times (Some f) = inr (Some h) <->
  f <= h <= zlen c /\ reveal_count c f h = times /\ reveal_count c f (h - 1) = times - 1.
Proof.
  intros c times f h S F T. unfold seed_confirmed. destruct (Z.eqb_spec times 0); [lia|].
  pose proof (confirm_spec c f times S F T _ f eq_refl ltac:(lia)) as C.
  rewrite (reveal_count_empty c f (f - 1)) in C by lia. specialize (C ltac:(lia)).
  destruct (confirm_loop c times (up f (zlen c)) 0) as [g|].
  - destruct C as (A & B & D). split.
    + intro E. injection E as <-. auto.
    + intros (A' & B' & D'). do 2 f_equal. destruct (Z.lt_trichotomy g h) as [L|[L|L]]; [|assumption|].
      * pose proof (reveal_count_mono c f g (h - 1) F ltac:(lia)). lia.
      * pose proof (reveal_count_mono c f h (g - 1) F ltac:(lia)). lia.
  - split; [discriminate|]. intros (A' & B' & _). specialize (C h ltac:(lia)). lia.
Qed.
Lemma reveal_count_grow c more f h : h <= zlen c -> reveal_count (c ++ more) f h = reveal_count c f h.
Proof.
  intro L. unfold reveal_count. rewrite firstn_app. replace (Z.to_nat h - length c)%nat with 0%nat by (unfold zlen in L; lia).
  cbn [firstn]. now rewrite app_nil_r.
Qed.
(** Once decided, the block a call is bound to never changes as the chain grows. *)
Theorem limit_block_stable : forall c more send_times seed_times first h, seeds_ok (c ++ more) ->
  0 <= send_times <= 255 -> 0 <= seed_times <= 255 -> (forall f, first = Some f -> 1 <= f) ->
  limit_height c send_times seed_times first = inr h -> limit_height (c ++ more) send_times seed_times first = inr h.
Proof.
  intros c more st dt first h S ST DT F.
  assert (A : forall r, send_confirmed c st first = inr r -> send_confirmed (c ++ more) st first = inr r).
  { intros r. unfold send_confirmed. destruct (st =? 0); [auto|]. destruct first as [f|]; [|discriminate].
    unfold header_at. destruct (f + st - 1 <? 1); [discriminate|]. destruct (nth_error c (Z.to_nat (f + st - 1 - 1))) eqn:E; [|discriminate].
    rewrite nth_error_app1 by (apply nth_error_Some; congruence). now rewrite E. }
  assert (B : forall r, seed_confirmed c dt first = inr r -> seed_confirmed (c ++ more) dt first = inr r).
  { intros r E. destruct (Z.eqb_spec dt 0) as [->|N]; [exact E|]. destruct first as [f|].
    2:{ unfold seed_confirmed in E. destruct (Z.eqb_spec dt 0); [lia|discriminate]. }
    destruct r as [g|].
    2:{ unfold seed_confirmed in E. destruct (Z.eqb_spec dt 0); [lia|]. destruct (confirm_loop c dt (up f (zlen c)) 0); discriminate. }
    pose proof (F f eq_refl). assert (Sc : seeds_ok c) by (unfold seeds_ok in *; apply Forall_app in S; tauto).
    apply seed_confirmed_exact in E as (E1 & E2 & E3); [|assumption|lia|lia]. apply seed_confirmed_exact; [assumption|lia|lia|].
    rewrite !reveal_count_grow by lia. rewrite zlen_app. pose proof (zlen_nonneg more). repeat split; lia. }
  unfold limit_height. destruct (send_confirmed c st first) as [|a]; [discriminate|]. rewrite (A a eq_refl).
  destruct (seed_confirmed c dt first) as [|b]; [discriminate|]. rewrite (B b eq_refl). auto.
Qed.
(** A call with both requirements is bound to the later of the two blocks. *)
Theorem limit_block_later : forall c st dt f x y, send_confirmed c st (Some f) = inr (Some x) -> seed_confirmed c dt (Some f) = inr (Some y) ->
  limit_height c st dt (Some f) = inr (Some (Z.max x y)).
Proof.
  intros c st dt f x y X Y. unfold limit_height. rewrite X, Y. destruct (Z.ltb_spec x y); do 2 f_equal; lia.
Qed.
Example seed_confirmed_eg : seed_confirmed eg_c 1 (Some 2) = inr (Some 3) /\ seed_confirmed eg_c 2 (Some 2) = inr (Some 4) /\
  seed_confirmed eg_c 3 (Some 2) = inl tt /\ limit_height eg_c 1 2 (Some 2) = inr (Some 4).
Proof. repeat split; vm_compute; reflexivity. Qed.

(** ** Revealing a commitment *)
(** C25: the check exists, and accepts a revealed seed exactly when it opens the newest open
    commitment of the producer ... *)
Theorem seed_check_exact : forall H election c b plans period, election (hd_time b) = Some (plans, period) ->
  verify_producer_and_seed H election c b = Some true <->
  (In (hd_producer b, hd_time b) plans /\ (hd_seed b = 0 \/ matches_commitment H c b period)).
Proof.
  intros H election c b plans period E. unfold verify_producer_and_seed. rewrite E.
  assert (V : verify_slot (hd_time b) (hd_producer b) plans = true <-> In (hd_producer b, hd_time b) plans).
  { unfold verify_slot. rewrite existsb_exists. split.
    - intros ([p t] & I & Q). cbn in Q. apply andb_true_iff in Q as [Q1 Q2]. apply Z.eqb_eq in Q1, Q2. now subst.
    - intro I. exists (hd_producer b, hd_time b). split; [assumption|]. cbn. now rewrite !Z.eqb_refl. }
  destruct (verify_slot (hd_time b) (hd_producer b) plans); cbn [negb].
  2:{ split; [discriminate|]. intros [I _]. apply V in I. discriminate. }
  assert (I : In (hd_producer b, hd_time b) plans) by now apply V.
  destruct (Z.eqb_spec (hd_seed b) 0) as [Z|Z]; [split; auto|].
  destruct (last_unpublished H c (hd_producer b) period) as [x|] eqn:L.
  - pose proof (proj1 (last_unpublished_spec H c (hd_producer b) period x) L) as NO.
    pose proof NO as (nw & old & _ & (_ & _ & k & K & _) & _). rewrite K.
    destruct (zlist_eqb (seed_hash H (hd_seed b) (hd_prev x) (hd_time x)) k) eqn:Q.
    + split; [|auto]. intros _. split; [assumption|]. right. exists x, k. apply zlist_eqb_eq in Q. auto.
    + split; [discriminate|]. intros [_ [C|(x' & k' & NO' & K' & Q')]]; [contradiction|].
      apply (last_unpublished_spec H c (hd_producer b) period x') in NO'. assert (x' = x) by congruence. subst x'.
      apply zlist_eqb_neq in Q. congruence.
  - split; [discriminate|]. intros [_ [C|(x' & k' & NO' & _)]]; [contradiction|].
    apply (last_unpublished_spec H c (hd_producer b) period x') in NO'. congruence.
Qed.
(** ... but its verdict is dropped: no seed whatever changes the outcome of verification, so a
    block revealing a seed that opens nothing is accepted. *)
Theorem revealed_seed_ignored : forall H election genesis acc c height content b s,
  verify_referred H election genesis acc c height content b =
  verify_referred H election genesis acc c height content (with_seed b s).
Proof.
  intros. unfold verify_referred, verify_self, verify_snapshot_producer, verifier_last_seed_block, with_seed. cbn [hd_hash hd_prev hd_time hd_producer hd_seed].
  rewrite !andb_false_r. reflexivity.
Qed.
Theorem revealed_seed_must_match_refuted : exists H election genesis acc c height content b plans period x k,
  linked c /\ (forall l l', H l = H l' -> l = l') /\
  election (hd_time b) = Some (plans, period) /\ newest_open H c (hd_producer b) period x /\ hd_commit x = Some k /\
  hd_seed b <> 0 /\ ~ matches_commitment H c b period /\
  verify_referred H election genesis acc c height content b = VSuccess.
Proof.
  exists eg_H, (fun t => Some ([(7, t)], sec 50)), (eg_h 1), (fun _ _ => None), eg_c, 5, [].
  exists (Hd (eg_h 5) (eg_h 4) (sec 60) 1234 None 7), [(7, sec 60)], (sec 50).
  exists (Hd (eg_h 4) (eg_h 3) (sec 40) 5 (Some (seed_hash eg_H 6 (eg_h 3) (sec 40))) 7), (seed_hash eg_H 6 (eg_h 3) (sec 40)).
  split; [exact eg_linked|]. split; [auto|]. split; [reflexivity|].
  assert (NO : newest_open eg_H eg_c 7 (sec 50) (Hd (eg_h 4) (eg_h 3) (sec 40) 5 (Some (seed_hash eg_H 6 (eg_h 3) (sec 40))) 7)).
  { apply last_unpublished_spec. vm_compute. reflexivity. }
  split; [exact NO|]. split; [reflexivity|]. split; [discriminate|]. split; [|vm_compute; reflexivity].
  intros (x & k & NO' & K & Q). apply last_unpublished_spec in NO, NO'. cbn [hd_producer] in NO'.
  assert (X : x = Hd (eg_h 4) (eg_h 3) (sec 40) 5 (Some (seed_hash eg_H 6 (eg_h 3) (sec 40))) 7) by congruence. subst x.
  cbn [hd_commit] in K. injection K as <-. revert Q. vm_compute. discriminate.
Qed.
(** An honest producer reveals only what it committed to: the block it builds would pass the
    check if the stored seeds open their commitments. *)
Theorem honest_reveal_passes : forall H election c producer time period seed cached hash plans,
  election time = Some (plans, period) -> In (producer, time) plans ->
  (forall x k, In x c -> hd_commit x = Some k -> hd_producer x = producer ->
     cached (Some k) = 0 \/ seed_hash H (cached (Some k)) (hd_prev x) (hd_time x) = k) ->
  let '(commit, s) := produce_seed H c producer time period seed cached in
  verify_producer_and_seed H election c (Hd hash (hd_hash (last c (Hd [] [] 0 0 None 0))) time s commit producer) = Some true.
Proof.
  intros H election c producer time period seed cached hash plans E I C.
  destruct (produce_seed H c producer time period seed cached) as [commit s] eqn:P.
  apply (seed_check_exact H election c _ plans period); [assumption|]. cbn [hd_producer hd_time hd_seed]. split; [assumption|].
  unfold produce_seed in P. destruct (last_unpublished H c producer period) as [x|] eqn:L.
  - apply last_unpublished_spec in L. pose proof L as (nw & old & R & (PX & TX & k & K & _) & _).
    destruct (Z.ltb_spec (hd_time x) period); [|lia]. rewrite K in P. injection P as <- <-.
    assert (IX : In x c).
    { assert (IR : In x (recent c (zlen c))) by (rewrite R; apply in_or_app; cbn; auto). unfold recent in IR. apply in_rev in IR.
      assert (J : In x (firstn (Z.to_nat (zlen c)) c)).
      { rewrite <- (firstn_skipn (Z.to_nat (zlen c - 601)) (firstn (Z.to_nat (zlen c)) c)). apply in_or_app. now right. }
      rewrite <- (firstn_skipn (Z.to_nat (zlen c)) c). apply in_or_app. now left. }
    destruct (C x k IX K PX) as [Z|Q]; [left; exact Z|]. right. exists x, k. cbn [hd_producer hd_seed]. auto.
  - injection P as <- <-. now left.
Qed.
Example honest_reveal_eg :
  produce_seed eg_H eg_c 7 (sec 60) (sec 50) 8 (fun _ => 6) = (Some (seed_hash eg_H 8 (eg_h 4) (sec 60)), 6) /\
  verify_producer_and_seed eg_H (fun t => Some ([(7, t)], sec 50)) eg_c
    (Hd (eg_h 5) (eg_h 4) (sec 60) 6 (Some (seed_hash eg_H 8 (eg_h 4) (sec 60))) 7) = Some true /\
  verify_producer_and_seed eg_H (fun t => Some ([(7, t)], sec 50)) eg_c
    (Hd (eg_h 5) (eg_h 4) (sec 60) 1234 None 7) = None.
Proof. repeat split; vm_compute; reflexivity. Qed.

(** * Acceptance of a snapshot block *)
(** The chain's newest block. *)
Definition newest (c : list header) (x : header) : Prop := exists old, c = old ++ [x].
Lemma verify_accounts_ok acc l : forall p, verify_accounts acc l p = VSuccess <-> p = false /\ forall a h k, In (a, (h, k)) l -> acc a h = Some k.
Proof.
  induction l as [|[a [h k]] r IH]; intro p; cbn [verify_accounts].
  - destruct p; (split; [intro X; try discriminate|]).
    + intros [X _]. discriminate.
    + split; [reflexivity|]. intros ? ? ? [].
    + reflexivity.
  - destruct (acc a h) as [k'|] eqn:E.
    + destruct (zlist_eqb k' k) eqn:Q.
      * apply zlist_eqb_eq in Q. subst k'. rewrite IH. split; intros [X Y]; (split; [exact X|]); intros a' h' k' I; [destruct I as [I|I]; [injection I as <- <- <-; exact E|now apply Y]|apply Y; now right].
      * split; [discriminate|]. intros [_ Y]. pose proof (Y a h k ltac:(now left)) as Z. apply zlist_eqb_neq in Q. congruence.
    + rewrite IH. split; intros [X Y]; [discriminate|]. pose proof (Y a h k ltac:(now left)) as Z. congruence.
Qed.
Lemma verify_accounts_conflict acc l a h k k' : In (a, (h, k)) l -> acc a h = Some k' -> k' <> k -> forall p, verify_accounts acc l p = VFail.
Proof.
  intros I E N. induction l as [|[a1 [h1 k1]] r IH]; [destruct I|]. intro p. cbn [verify_accounts]. destruct I as [I|I].
  - injection I as -> -> ->. rewrite E. destruct (zlist_eqb k' k) eqn:Q; [apply zlist_eqb_eq in Q; contradiction|reflexivity].
  - destruct (acc a1 h1) as [k2|]; [|now apply IH]. destruct (zlist_eqb k2 k1); [now apply IH|reflexivity].
Qed.
(** A snapshot block after the first is accepted exactly when it names the newest block as the
    one before it, comes next in height and later in time, confirms only account blocks that
    are there, and its producer holds the slot of its time. *)
Theorem snapshot_accepted_exactly : forall H election genesis acc c x height content b, newest c x -> height <> 1 ->
  verify_referred H election genesis acc c height content b = VSuccess <->
  height = zlen c + 1 /\ hd_prev b = hd_hash x /\ hd_time x < hd_time b /\
  (forall a h k, In (a, (h, k)) content -> acc a h = Some k) /\
  exists plans start, election (hd_time b) = Some (plans, start) /\ In (hd_producer b, hd_time b) plans.
Proof.
  intros H election genesis acc c x height content b [old ->] N. unfold verify_referred, verify_self, verifier_last_seed_block. rewrite last_last, !andb_false_r.
  destruct (Z.eqb_spec height 1) as [X|_]; [contradiction|]. cbn [andb].
  destruct (Z.eqb_spec (zlen (old ++ [x])) (height - 1)) as [L|L]; cbn [negb]; [|split; [discriminate|intros (E & _); lia]].
  destruct (zlist_eqb (hd_hash x) (hd_prev b)) eqn:P; cbn [negb]; [apply zlist_eqb_eq in P|apply zlist_eqb_neq in P; split; [discriminate|intros (_ & E & _); congruence]].
  destruct (Z.ltb_spec (hd_time x) (hd_time b)) as [T|T]; cbn [negb]; [|split; [discriminate|intros (_ & _ & E & _); lia]].
  destruct (verify_accounts acc content false) eqn:A.
  - split; [discriminate|]. intros (_ & _ & _ & E & _). pose proof (proj2 (verify_accounts_ok acc content false) (conj eq_refl E)). congruence.
  - split; [discriminate|]. intros (_ & _ & _ & E & _). pose proof (proj2 (verify_accounts_ok acc content false) (conj eq_refl E)). congruence.
  - apply verify_accounts_ok in A. destruct A as [_ A]. unfold verify_snapshot_producer. cbn zeta. destruct (election (hd_time b)) as [[plans start]|].
    + destruct (verify_slot (hd_time b) (hd_producer b) plans) eqn:V.
      * split; [|reflexivity]. intros _. apply existsb_exists in V. destruct V as ([q w] & I & V). cbn [fst snd] in V. apply andb_true_iff in V. destruct V as [V1 V2]. apply Z.eqb_eq in V1, V2. subst.
        split; [lia|]. split; [congruence|]. split; [assumption|]. split; [assumption|]. now exists plans, start.
      * split; [discriminate|]. intros (_ & _ & _ & _ & plans' & start' & E & I). injection E as <- <-. exfalso.
        assert (W : verify_slot (hd_time b) (hd_producer b) plans = true) by (apply existsb_exists; eexists; split; [exact I|]; cbn [fst snd]; now rewrite !Z.eqb_refl). congruence.
    + split; [discriminate|]. intros (_ & _ & _ & _ & plans' & start' & E & _). discriminate.
Qed.
(** The first block is accepted only as the genesis block; and a block that confirms another
    block than the one known at some account height is never accepted nor left waiting, once
    its predecessor is the newest block. *)
Theorem first_snapshot_is_genesis : forall H election genesis acc c content b,
  verify_referred H election genesis acc c 1 content b = VSuccess -> hd_hash b = genesis.
Proof.
  intros H election genesis acc c content b. unfold verify_referred, verify_self. cbn [Z.eqb Pos.eqb andb].
  destruct (zlist_eqb (hd_hash b) genesis) eqn:Q; [intros _; now apply zlist_eqb_eq|]. cbn [negb]. discriminate.
Qed.
Theorem conflicting_snapshot_fails : forall H election genesis acc c x height content b a h k k', newest c x -> height <> 1 ->
  height = zlen c + 1 -> hd_prev b = hd_hash x -> In (a, (h, k)) content -> acc a h = Some k' -> k' <> k ->
  verify_referred H election genesis acc c height content b = VFail.
Proof.
  intros H election genesis acc c x height content b a h k k' [old ->] N1 E P I A N. unfold verify_referred, verify_self, verifier_last_seed_block. rewrite last_last, !andb_false_r.
  destruct (Z.eqb_spec height 1) as [X|_]; [contradiction|]. cbn [andb]. destruct (Z.eqb_spec (zlen (old ++ [x])) (height - 1)) as [L|L]; [|lia]. cbn [negb].
  rewrite P, zlist_eqb_refl. cbn [negb]. rewrite (verify_accounts_conflict acc content a h k k' I A N). now destruct (negb (hd_time x <? hd_time b)).
Qed.
Example snapshot_accepted_eg :
  newest eg_c (Hd (eg_h 4) (eg_h 3) (sec 40) 5 (Some (seed_hash eg_H 6 (eg_h 3) (sec 40))) 7) /\
  verify_referred eg_H (fun t => Some ([(7, t)], sec 50)) (eg_h 1) (fun a h => if (a =? 3) && (h =? 2) then Some (eg_h 9) else None) eg_c 5 [(3, (2, eg_h 9))]
    (Hd (eg_h 5) (eg_h 4) (sec 60) 0 None 7) = VSuccess /\
  verify_referred eg_H (fun t => Some ([(7, t)], sec 50)) (eg_h 1) (fun a h => if (a =? 3) && (h =? 2) then Some (eg_h 9) else None) eg_c 5 [(3, (2, eg_h 8))]
    (Hd (eg_h 5) (eg_h 4) (sec 60) 0 None 7) = VFail /\
  verify_referred eg_H (fun t => Some ([(7, t)], sec 50)) (eg_h 1) (fun _ _ => None) eg_c 5 [(3, (2, eg_h 8))]
    (Hd (eg_h 5) (eg_h 4) (sec 60) 0 None 7) = VPending.
Proof. split; [eexists (firstn 3 eg_c); vm_compute; reflexivity|]. repeat split; vm_compute; reflexivity. Qed.

Print Assumptions snapshot_accepted_exactly.
Print Assumptions first_snapshot_is_genesis.
Print Assumptions conflicting_snapshot_fails.

Print Assumptions random_seed_exact.
Print Assumptions reveals_distinct.
Print Assumptions random_seed_stable.
Print Assumptions random_seed_unknown.
Print Assumptions contract_seed_is_request_hash.
Print Assumptions contract_seed_depends_on_reveals_refuted.
Print Assumptions seed_confirmed_exact.
Print Assumptions limit_block_stable.
Print Assumptions limit_block_later.
Print Assumptions seed_check_exact.
Print Assumptions revealed_seed_ignored.
Print Assumptions revealed_seed_must_match_refuted.
Print Assumptions honest_reveal_passes.
