From Coq Require Import String ZArith List Bool Lia.
From Verif Require Import Lib WireModel TextModel SchedModel AbiModel AbiSpec WireProofs AbiProofs.
Import ListNotations.
Open Scope Z_scope.
Local Opaque two256 word.

Definition lim : Z := 2 ^ 62.
Lemma lim63 : lim < 2 ^ 63. Proof. reflexivity. Qed.
Lemma lim256 : lim < two256. Proof. reflexivity. Qed.
Local Opaque lim.

Lemma kind_refl k : kind_eqb k k = true.
Proof. destruct k; cbn; rewrite ?Z.eqb_refl, ?Bool.eqb_reflx; reflexivity. Qed.
Lemma value_kind b v : value_of b v -> kind_eqb (base_kind b) (kind_of v) = true.
Proof.
  destruct b; cbn [value_of base_kind].
  - intros [_ [[N [z [-> _]]]|[N [z [-> _]]]]]; cbn [kind_of]; [rewrite native_kind by exact N|rewrite not_native_kind by exact N]; apply kind_refl.
  - intros [_ [[N [z [-> _]]]|[N [z [-> _]]]]]; cbn [kind_of]; [rewrite native_kind by exact N|rewrite not_native_kind by exact N]; apply kind_refl.
  - intros [x ->]. reflexivity.
  - intros [s [-> _]]. reflexivity.
  - intros [s [-> _]]. reflexivity.
  - intros [s [-> _]]. reflexivity.
  - intros [s [-> _]]. reflexivity.
  - intros [_ [s [-> _]]]. reflexivity.
  - intros [s [-> _]]. reflexivity.
Qed.
Lemma pack_base_element b v : value_of b v -> pack_base b v = pack_element b v.
Proof.
  intros V. unfold pack_base. rewrite (value_kind b v V). rewrite andb_false_r.
  destruct b; try reflexivity. destruct V as [P [s [-> [B L]]]]. cbn [go_len].
  rewrite L, Z.eqb_refl. reflexivity.
Qed.

Lemma at_word data p z : at_ data p (word z) -> sub data p 32 = word z.
Proof. intros A. apply (at_sub data p (word z) 32 A). apply word_len. Qed.
Lemma at_short data p x : at_ data p x -> zlen x = 32 -> (zlen data <? p + 32) = false.
Proof. intros A L. apply at_range in A. apply Z.ltb_ge. lia. Qed.

Lemma num_static k z data p v : at_ data p (word z) ->
  read_integer k (word z) = v -> Ok (read_integer k (sub data p 32)) = Ok v.
Proof. intros A R. rewrite (at_word _ _ _ A), R. reflexivity. Qed.

(** Values of fixed size: one word each. *)
Lemma static_ok b v : value_of b v -> plain_base b -> not_negative v -> dynamic b = false ->
  exists w, pack_base b v = Ok w /\ zlen w = 32 /\
    forall data spare p, at_ data p w -> to_go_base p b data spare = Ok v.
Proof.
  intros V PB NN D. rewrite (pack_base_element b v V).
  destruct b as [n|n| | | | | |n| ]; cbn [value_of dynamic] in V, D; try discriminate.
  - destruct V as [NB [[N [z [-> B]]]|[N [z [-> B]]]]]; exists (word z); (split; [reflexivity|]); (split; [apply word_len|]);
      intros data spare p A; unfold to_go_base; rewrite (at_short _ _ _ A (word_len z)); apply num_static with z; try exact A;
      cbn [base_kind].
    + rewrite native_kind by exact N. rewrite (read_num true n _ N (word_ok z) (word_len z)), word_val.
      rewrite signed_back by assumption. reflexivity.
    + rewrite not_native_kind by exact N. cbn [read_integer not_negative] in *. rewrite word_small; [reflexivity|].
      pose proof (pow_word (n - 1) ltac:(lia)). lia.
  - destruct V as [NB [[N [z [-> B]]]|[N [z [-> B]]]]]; exists (word z); (split; [reflexivity|]); (split; [apply word_len|]);
      intros data spare p A; unfold to_go_base; rewrite (at_short _ _ _ A (word_len z)); apply num_static with z; try exact A;
      cbn [base_kind].
    + rewrite native_kind by exact N. rewrite (read_num false n _ N (word_ok z) (word_len z)), word_val.
      rewrite unsigned_back by (assumption || lia). reflexivity.
    + rewrite not_native_kind by exact N. cbn [read_integer]. rewrite word_small; [reflexivity|].
      pose proof (pow_word n ltac:(lia)). lia.
  - destruct V as [x ->]. exists (word (if x then 1 else 0)). split; [reflexivity|]. split; [apply word_len|].
    intros data spare p A. unfold to_go_base. rewrite (at_short _ _ _ A (word_len _)), (at_word _ _ _ A).
    destruct x; vm_compute; reflexivity.
  - destruct V as [s [-> [B L]]]. cbn [pack_element byte_content bind]. eexists. split; [reflexivity|].
    assert (LP : zlen (left_pad 32 s) = 32) by (apply left_pad_len; lia). split; [exact LP|].
    intros data spare p A. unfold to_go_base. rewrite (at_short _ _ _ A LP), (at_sub _ _ _ 32 A LP).
    destruct (left_pad_tail 32 s ltac:(lia)) as [z [E LZ]]. rewrite E. f_equal. f_equal.
    apply at_sub; [|exact L]. exists z, []. rewrite app_nil_r. split; [reflexivity|lia].
  - destruct V as [s [-> [B L]]]. cbn [pack_element byte_content bind]. eexists. split; [reflexivity|].
    assert (LP : zlen (left_pad 32 s) = 32) by (apply left_pad_len; lia). split; [exact LP|].
    intros data spare p A. unfold to_go_base. rewrite (at_short _ _ _ A LP), (at_sub _ _ _ 32 A LP).
    destruct (left_pad_tail 32 s ltac:(lia)) as [z [E LZ]]. rewrite E. f_equal. f_equal.
    apply at_sub; [|exact L]. exists z, []. rewrite app_nil_r. split; [reflexivity|lia].
  - destruct V as [s [-> [B L]]]. cbn [pack_element byte_content bind]. eexists. split; [reflexivity|].
    assert (LP : zlen (left_pad 32 s) = 32) by (apply left_pad_len; lia). split; [exact LP|].
    intros data spare p A. unfold to_go_base. rewrite (at_short _ _ _ A LP), (at_sub _ _ _ 32 A LP).
    destruct (left_pad_tail 32 s ltac:(lia)) as [z [E LZ]]. rewrite E. f_equal. f_equal.
    apply at_sub; [|exact L]. exists z, []. rewrite app_nil_r. split; [reflexivity|lia].
  - destruct V as [N0 [s [-> [B L]]]]. cbn [plain_base] in PB. cbn [pack_element byte_content bind]. eexists. split; [reflexivity|].
    destruct (right_pad_head 32 s) as [z [E LP]]. rewrite Z.max_l in LP by lia. split; [exact LP|].
    intros data spare p A. unfold to_go_base. rewrite (at_short _ _ _ A LP).
    rewrite E in A. apply at_app in A. destruct A as [A _]. apply (at_more _ spare) in A.
    destruct (Z.ltb_spec (zlen (data ++ spare)) (p + n)) as [X|X]; [apply at_range in A; lia|].
    f_equal. f_equal. apply at_sub; assumption.
Qed.

(** Reading an offset and the length it points at. *)
Lemma prefix_ok data p o n rest : at_ data p (word o) -> at_ data o (word n ++ rest) ->
  zlen data < lim -> 0 <= n <= zlen rest -> length_prefix p data = Ok (o + 32, n).
Proof.
  intros A B L N. pose proof lim63. pose proof lim256.
  pose proof (at_range _ _ _ B) as R. rewrite zlen_app, word_len in R.
  unfold length_prefix. rewrite (at_word _ _ _ A), (word_small o) by lia.
  destruct (Z.ltb_spec (zlen data) (o + 32)); [lia|]. destruct (Z.leb_spec (2 ^ 63) (o + 32)); [lia|].
  replace (o + 32 - 32) with o by lia. apply at_app in B. destruct B as [B _].
  rewrite (at_word _ _ _ B), (word_small n) by lia.
  destruct (Z.leb_spec (2 ^ 63) (o + 32 + n)); [lia|]. destruct (Z.ltb_spec (zlen data) (o + 32 + n)); [lia|]. reflexivity.
Qed.

(** Strings and byte strings. *)
Lemma dynamic_ok b v : value_of b v -> dynamic b = true ->
  exists x, pack_base b v = Ok x /\
    forall data spare p o, at_ data p (word o) -> at_ data o x -> zlen data < lim -> to_go_base p b data spare = Ok v.
Proof.
  intros V D. rewrite (pack_base_element b v V). destruct b; try discriminate.
  - destruct V as [s [-> B]]. cbn [pack_element]. eexists. split; [reflexivity|].
    intros data spare p o A X L. unfold to_go_base. rewrite (at_short _ _ _ A (word_len o)).
    unfold pack_bytes_slice in X. destruct (right_pad_head ((zlen s + 31) / 32 * 32) s) as [z [E LP]]. rewrite E in X, LP.
    rewrite (prefix_ok data p o (zlen s) _ A X L) by (pose proof (zlen_nonneg s); lia). cbn [bind].
    apply at_app in X. destruct X as [_ X]. rewrite word_len in X. apply at_app in X. destruct X as [X _].
    rewrite (at_sub _ _ _ _ X eq_refl). reflexivity.
  - destruct V as [s [-> B]]. cbn [pack_element byte_content bind]. eexists. split; [reflexivity|].
    intros data spare p o A X L. unfold to_go_base. rewrite (at_short _ _ _ A (word_len o)).
    unfold pack_bytes_slice in X. destruct (right_pad_head ((zlen s + 31) / 32 * 32) s) as [z [E LP]]. rewrite E in X, LP.
    rewrite (prefix_ok data p o (zlen s) _ A X L) by (pose proof (zlen_nonneg s); lia). cbn [bind].
    apply at_app in X. destruct X as [_ X]. rewrite word_len in X. apply at_app in X. destruct X as [X _].
    rewrite (at_sub _ _ _ _ X eq_refl). reflexivity.
Qed.

(** Lists of values of fixed size. *)
Lemma items_ok b l : Forall (value_of b) l -> plain_base b -> Forall not_negative l -> dynamic b = false ->
  exists x, pack_items b l = Ok x /\ zlen x = 32 * zlen l /\
    forall data spare p, at_ data p x -> each p b data spare (length l) = Ok l.
Proof.
  intros V PB NN D. induction l as [|v l IH].
  - exists []. split; [reflexivity|]. split; [reflexivity|]. intros. reflexivity.
  - inversion V as [|? ? V1 V2]; subst. inversion NN as [|? ? N1 N2]; subst.
    destruct (IH V2 N2) as [x [E [L R]]]. destruct (static_ok b v V1 PB N1 D) as [w [E1 [L1 R1]]].
    exists (w ++ x). split; [cbn [pack_items]; rewrite E1; cbn [bind]; rewrite E; reflexivity|].
    split; [rewrite zlen_app, zlen_cons; lia|]. intros data spare p A.
    apply at_app in A. destruct A as [A B]. rewrite L1 in B.
    cbn [length each]. rewrite (R1 data spare p A). cbn [bind]. rewrite (R data spare _ B). reflexivity.
Qed.
Lemma bad_elem_same k : bad_elem k k = false.
Proof. unfold bad_elem. rewrite !kind_refl. destruct k; reflexivity. Qed.
Lemma u8_kind b v : value_of b v -> base_kind b = KU8 -> b = TUint 8.
Proof.
  intros V K. destruct b as [n|n| | | | | |n| ]; cbn [base_kind] in K; try discriminate.
  - unfold int_kind, KU8 in K. destruct ((n =? 8) || (n =? 16) || (n =? 32) || (n =? 64)); discriminate.
  - unfold int_kind, KU8 in K. destruct ((n =? 8) || (n =? 16) || (n =? 32) || (n =? 64)); [|discriminate].
    injection K as ->. reflexivity.
Qed.
Lemma kind_eqb_eq a b : kind_eqb a b = true -> a = b.
Proof.
  destruct a, b; cbn; try discriminate; try reflexivity. intros H. apply andb_prop in H. destruct H as [A B].
  apply Bool.eqb_prop in A. apply Z.eqb_eq in B. congruence.
Qed.
Lemma mk_other mkb mko b l : b <> TUint 8 -> (l = [] -> base_kind b <> KU8) -> Forall (value_of b) l ->
  (if kind_eqb (base_kind b) KU8 then mkb (map num_of l) else mko l) = mko l :> val.
Proof.
  intros N E V. destruct (kind_eqb (base_kind b) KU8) eqn:K; [|reflexivity]. apply kind_eqb_eq in K.
  destruct l as [|v l]; [exfalso; apply (E eq_refl K)|]. inversion V; subst. exfalso. apply N. eapply u8_kind; eassumption.
Qed.
Lemma map_num s : map num_of (map (VNum false 8) s) = s.
Proof. induction s as [|x s IH]; [reflexivity|]. cbn. rewrite IH. reflexivity. Qed.
Lemma kind_u8 b : base_kind b = KU8 -> b = TUint 8.
Proof.
  destruct b as [n|n| | | | | |n| ]; cbn [base_kind]; try discriminate.
  - unfold int_kind, KU8. destruct ((n =? 8) || (n =? 16) || (n =? 32) || (n =? 64)); discriminate.
  - unfold int_kind, KU8. destruct ((n =? 8) || (n =? 16) || (n =? 32) || (n =? 64)); [|discriminate].
    intros K. injection K as ->. reflexivity.
Qed.
(** A list value: its items, and how it is rebuilt from them. *)
Lemma slice_items b l v : list_value VBytes (VSlice (base_kind b)) b l v ->
  items v = Some (base_kind b, l) /\ mk_slice (base_kind b) l = v.
Proof.
  intros [V [[-> [s [-> ->]]]|[N ->]]].
  - split; [reflexivity|]. unfold mk_slice. cbn. rewrite map_num. reflexivity.
  - split; [reflexivity|]. unfold mk_slice. destruct (kind_eqb (base_kind b) KU8) eqn:K; [|reflexivity].
    apply kind_eqb_eq, kind_u8 in K. contradiction.
Qed.
Lemma array_items b l v : list_value VByteArr (VArray (base_kind b)) b l v ->
  items v = Some (base_kind b, l) /\ mk_array (base_kind b) l = v.
Proof.
  intros [V [[-> [s [-> ->]]]|[N ->]]].
  - split; [reflexivity|]. unfold mk_array. cbn. rewrite map_num. reflexivity.
  - split; [reflexivity|]. unfold mk_array. destruct (kind_eqb (base_kind b) KU8) eqn:K; [|reflexivity].
    apply kind_eqb_eq, kind_u8 in K. contradiction.
Qed.
Lemma list_nn bytes other b l v : list_value bytes other b l v ->
  (forall s, plain_value (bytes s) <-> True) -> (forall l, plain_value (other l) = Forall not_negative l) ->
  plain_value v -> Forall not_negative l.
Proof.
  intros [V [[-> [s [-> ->]]]|[N ->]]] HB HO P.
  - apply Forall_forall. intros x X. apply in_map_iff in X. destruct X as [z [<- _]]. exact I.
  - rewrite HO in P. exact P.
Qed.
Lemma not_dynamic b : b <> TString -> b <> TBytes -> dynamic b = false.
Proof. destruct b; try reflexivity; congruence. Qed.
Lemma wrap_lim x : 0 <= x < lim -> wrap_i64 x = x.
Proof.
  intros B. pose proof lim63. unfold wrap_i64. rewrite Z.mod_small; [lia|]. change two64 with (2 ^ 63 + 2 ^ 63). lia.
Qed.
Lemma for_each_ok mk b l v x data spare p :
  (forall data spare p, at_ data p x -> each p b data spare (length l) = Ok l) ->
  zlen x = 32 * zlen l -> at_ data p x -> zlen data < lim -> zlen l < 2 ^ 47 -> mk (base_kind b) l = v ->
  for_each mk b data spare p (zlen l) = Ok v.
Proof.
  intros E L A S M R. unfold for_each. pose proof (at_range _ _ _ A) as Q. pose proof (zlen_nonneg l).
  rewrite wrap_lim by lia. destruct (Z.ltb_spec (zlen data) (p + 32 * zlen l)); [lia|].
  destruct (Z.leb_spec (2 ^ 47) (zlen l)); [lia|].
  replace (Z.to_nat (zlen l)) with (length l) by (unfold zlen; lia). rewrite (E data spare p A). cbn [bind]. rewrite R. reflexivity.
Qed.

(** One argument. *)
Definition cap47 : Z := 2 ^ 47.
Lemma argument_ok t v : good t v -> exists x, pack t v = Ok x /\
  (needs_length t = false -> zlen x = head_size t) /\
  forall data spare p, zlen data < 32 * cap47 ->
    (if needs_length t then exists o, at_ data p (word o) /\ at_ data o x else at_ data p x) ->
    to_go p t data spare = Ok v.
Proof.
  assert (C : 32 * cap47 < lim) by reflexivity.
  intros [T [P N]]. destruct t as [b|b|n b]; cbn [typed plain_type] in T, P.
  - destruct (dynamic b) eqn:D.
    + destruct (dynamic_ok b v T D) as [x [E R]]. exists x. split; [exact E|]. cbn [needs_length]. rewrite D.
      split; [discriminate|]. intros data spare p L [o [A B]]. cbn [to_go]. apply (R data spare p o A B). lia.
    + assert (N' : not_negative v) by (destruct v; try exact N; exact I).
      destruct (static_ok b v T P N' D) as [x [E [L R]]]. exists x. split; [exact E|]. cbn [needs_length]. rewrite D.
      split; [intros _; exact L|]. intros data spare p _ A. cbn [to_go]. apply R. exact A.
  - destruct P as [PB [NS NB]]. destruct T as [l T]. destruct (slice_items b l v T) as [I M].
    pose proof (list_nn _ _ _ _ _ T ltac:(intros s; cbn; tauto) ltac:(intros; reflexivity) N) as NN.
    destruct (items_ok b l (proj1 T) PB NN (not_dynamic b NS NB)) as [x [E [L R]]].
    assert (PX : right_pad ((zlen l + 31) / 32 * 32) x = x).
    { unfold right_pad. pose proof (zlen_nonneg l). destruct (Z.leb_spec ((zlen l + 31) / 32 * 32) (zlen x)) as [H1|H1]; [reflexivity|].
      pose proof (Z.div_le_upper_bound (zlen l + 31) 32 (zlen l + 0) ltac:(lia)). destruct (Z.eq_dec (zlen l) 0) as [Z0|Z0].
      - rewrite Z0 in *. change ((0 + 31) / 32 * 32) with 0 in H1. lia.
      - specialize (H0 ltac:(lia)). lia. }
    exists (word (zlen l) ++ x). split.
    { cbn [pack]. rewrite I, bad_elem_same, E. cbn [bind]. unfold pack_bytes_slice. rewrite PX. reflexivity. }
    split; [discriminate|]. intros data spare p LD [o [A B]]. cbn [to_go].
    rewrite (at_short _ _ _ A (word_len o)).
    pose proof (at_range _ _ _ B) as Q. rewrite zlen_app, word_len in Q. pose proof (zlen_nonneg l).
    rewrite (prefix_ok data p o (zlen l) x A B) by lia. cbn [bind].
    apply at_app in B. destruct B as [_ B]. rewrite word_len in B.
    apply (for_each_ok mk_slice b l v x data spare (o + 32) R L B); [lia| |exact M]. unfold cap47 in *. lia.
  - destruct P as [PB [NS NB]]. destruct T as [N0 [l [LN T]]]. destruct (array_items b l v T) as [I M].
    pose proof (list_nn _ _ _ _ _ T ltac:(intros s; cbn; tauto) ltac:(intros; reflexivity) N) as NN.
    destruct (items_ok b l (proj1 T) PB NN (not_dynamic b NS NB)) as [x [E [L R]]].
    exists x. split.
    { cbn [pack]. rewrite I, LN, Z.eqb_refl, bad_elem_same. exact E. }
    split; [intros _; cbn [head_size]; lia|]. intros data spare p LD A. cbn [needs_length] in A. cbn [to_go].
    pose proof (at_range _ _ _ A) as Q. destruct (Z.ltb_spec (zlen data) (p + 32)); [lia|]. rewrite <- LN.
    apply (for_each_ok mk_array b l v x data spare p R L A); [lia| |exact M]. unfold cap47 in *. lia.
Qed.

(** * All arguments *)
Lemma loop_ok ts vs : Forall2 good ts vs -> forall off h t, exists H T,
  pack_loop off ts vs h t = Ok (h ++ H ++ t ++ T) /\ zlen H = heads ts /\
  forall data spare p, zlen data < 32 * cap47 -> at_ data p H -> at_ data (off + zlen t) T ->
    unpack_from p ts data spare = Ok vs.
Proof.
  induction 1 as [|ty v ts vs G F IH]; intros off h t.
  - exists [], []. split; [cbn [pack_loop app]; rewrite app_nil_r; reflexivity|]. split; [reflexivity|]. reflexivity.
  - destruct (argument_ok ty v G) as [x [E [L R]]]. cbn [pack_loop]. rewrite E. cbn [bind].
    destruct (needs_length ty) eqn:D.
    + destruct (IH off (h ++ word (off + zlen t)) (t ++ x)) as [H [T [E1 [L1 R1]]]].
      exists (word (off + zlen t) ++ H), (x ++ T). split; [rewrite E1, <- !app_assoc; reflexivity|].
      assert (HS : head_size ty = 32) by (destruct ty; [reflexivity|reflexivity|discriminate]).
      split; [rewrite zlen_app, word_len; cbn [heads]; lia|].
      intros data spare p LD A B. apply at_app in A. destruct A as [A A']. apply at_app in B. destruct B as [B B'].
      cbn [unpack_from]. rewrite (R data spare p LD) by eauto. cbn [bind]. rewrite word_len in A'. rewrite HS.
      rewrite (R1 data spare (p + 32) LD A') by (rewrite zlen_app, Z.add_assoc; exact B'). reflexivity.
    + destruct (IH off (h ++ x) t) as [H [T [E1 [L1 R1]]]].
      exists (x ++ H), T. split; [rewrite E1, <- !app_assoc; reflexivity|].
      split; [rewrite zlen_app, (L eq_refl); cbn [heads]; lia|].
      intros data spare p LD A B. apply at_app in A. destruct A as [A A']. rewrite (L eq_refl) in A'.
      cbn [unpack_from]. rewrite (R data spare p LD A). cbn [bind]. rewrite (R1 data spare _ LD A' B). reflexivity.
Qed.
Lemma forall2_len {A B} (P : A -> B -> Prop) l m : Forall2 P l m -> zlen l = zlen m.
Proof. unfold zlen. induction 1; cbn [length]; lia. Qed.
Lemma round_trip ts vs : Forall2 good ts vs -> exists d, pack_args ts vs = Ok d /\
  forall tail spare, zlen (d ++ tail) < 32 * cap47 -> unpack_args ts (d ++ tail) spare = Ok vs.
Proof.
  intros F. destruct (loop_ok ts vs F (heads ts) [] []) as [H [T [E [L R]]]].
  exists (H ++ T). split.
  - unfold pack_args. rewrite (forall2_len _ _ _ F), Z.eqb_refl. exact E.
  - intros tail spare LD. unfold unpack_args. apply R; [exact LD| |].
    + exists [], (T ++ tail). split; [rewrite <- app_assoc; reflexivity|reflexivity].
    + exists H, tail. split; [rewrite <- app_assoc; reflexivity|]. rewrite zlen_nil. lia.
Qed.
