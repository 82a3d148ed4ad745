From Coq Require Import String ZArith List Bool Lia.
From Verif Require Import Lib WireModel TextModel SchedModel AbiModel AbiSpec WireProofs AbiProofs AbiProofs2.
Import ListNotations.
Open Scope Z_scope.
Local Opaque two256 word.

Definition sz : Z := 2 ^ 52.
Lemma sz_cap : sz = 32 * cap47. Proof. reflexivity. Qed.
Lemma bind_ok {A B} (r : res A) (f : A -> res B) b : bind r f = Ok b -> exists a, r = Ok a /\ f a = Ok b.
Proof. destruct r; cbn; try discriminate. eauto. Qed.
Lemma bind_crash {A B} (r : res A) (f : A -> res B) : bind r f = Crash -> r = Crash \/ exists a, r = Ok a /\ f a = Crash.
Proof. destruct r; cbn; try discriminate; eauto. Qed.

Lemma prefix_range p data o n : bytes_ok data -> length_prefix p data = Ok (o, n) ->
  32 <= o /\ 0 <= n /\ o + n <= zlen data.
Proof.
  intros B. unfold length_prefix. cbv zeta.
  pose proof (be_val_range _ (sub_ok data p 32 B)) as R1.
  set (off := be_val (sub data p 32) + 32) in *.
  pose proof (be_val_range _ (sub_ok data (off - 32) 32 B)) as R2.
  set (len := be_val (sub data (off - 32) 32)) in *.
  destruct (Z.ltb_spec (zlen data) off); [discriminate|]. destruct (2 ^ 63 <=? off); [discriminate|].
  destruct (2 ^ 63 <=? off + len); [discriminate|]. destruct (Z.ltb_spec (zlen data) (off + len)); [discriminate|].
  intros H1. injection H1 as <- <-. lia.
Qed.
Lemma prefix_no_crash p data : length_prefix p data <> Crash.
Proof.
  unfold length_prefix. cbv zeta. destruct (zlen data <? _); [discriminate|]. destruct (2 ^ 63 <=? _); [discriminate|].
  destruct (2 ^ 63 <=? _); [discriminate|]. destruct (zlen data <? _); discriminate.
Qed.
Lemma read_bool_no_crash w : read_bool w <> Crash.
Proof.
  unfold read_bool. destruct (negb _); [discriminate|]. generalize (nth 31 w 0). intros n. destruct n as [|q|q]; [discriminate| |discriminate].
  destruct q; discriminate.
Qed.
Lemma base_no_crash p b data spare : plain_base b -> 0 <= p -> to_go_base p b data spare <> Crash.
Proof.
  intros P N. unfold to_go_base. destruct (Z.ltb_spec (zlen data) (p + 32)) as [H|H]; [discriminate|]. cbv zeta.
  destruct b; cbn [plain_base] in P; try discriminate.
  - apply read_bool_no_crash.
  - intros C. apply bind_crash in C. destruct C as [C|[[o n] [_ C]]]; [exact (prefix_no_crash _ _ C)|discriminate].
  - destruct (Z.ltb_spec (zlen (data ++ spare)) (p + size)) as [X|X]; [|discriminate].
    exfalso. rewrite zlen_app in X. pose proof (zlen_nonneg spare). lia.
  - intros C. apply bind_crash in C. destruct C as [C|[[o n] [_ C]]]; [exact (prefix_no_crash _ _ C)|discriminate].
Qed.
Lemma each_no_crash b data spare : plain_base b -> forall n p, 0 <= p -> each p b data spare n <> Crash.
Proof.
  intros P n. induction n as [|n IH]; intros p N; cbn [each]; [discriminate|].
  intros C. apply bind_crash in C. destruct C as [C|[v [_ C]]]; [exact (base_no_crash _ _ _ _ P N C)|].
  apply bind_crash in C. destruct C as [C|[r [_ C]]]; [|discriminate]. apply IH in C; [contradiction|lia].
Qed.
Lemma wrap_id x : - 2 ^ 63 <= x < 2 ^ 63 -> wrap_i64 x = x.
Proof. intros B. unfold wrap_i64. rewrite Z.mod_small; [lia|]. change two64 with (2 ^ 63 + 2 ^ 63). lia. Qed.
Lemma for_each_no_crash mk b data spare p n : plain_base b -> 0 <= p -> 0 <= n < 2 ^ 57 -> p + 0 <= zlen data -> zlen data < sz ->
  for_each mk b data spare p n <> Crash.
Proof.
  intros P N B R L. unfold for_each. assert (sz < 2 ^ 62) by reflexivity.
  rewrite wrap_id by lia. destruct (Z.ltb_spec (zlen data) (p + 32 * n)) as [H1|H1]; [discriminate|].
  destruct (Z.leb_spec (2 ^ 47) n) as [H2|H2]; [exfalso; rewrite sz_cap in L; unfold cap47 in L; lia|].
  intros C. apply bind_crash in C. destruct C as [C|[l [_ C]]]; [|discriminate]. exact (each_no_crash b data spare P _ _ N C).
Qed.
Lemma to_go_no_crash p t data spare : small_type t -> 0 <= p -> bytes_ok data -> zlen data < sz -> to_go p t data spare <> Crash.
Proof.
  intros S N B L. destruct t as [b|b|n b]; cbn [small_type to_go] in *.
  - apply base_no_crash; assumption.
  - destruct (zlen data <? p + 32); [discriminate|]. intros C. apply bind_crash in C.
    destruct C as [C|[[o n] [E C]]]; [exact (prefix_no_crash _ _ C)|].
    pose proof (prefix_range p data o n B E) as R. assert (sz < 2 ^ 57) by reflexivity.
    exact (for_each_no_crash mk_slice b data spare o n S ltac:(lia) ltac:(lia) ltac:(lia) L C).
  - destruct S as [P R]. destruct (Z.ltb_spec (zlen data) (p + 32)) as [H|H]; [discriminate|].
    apply for_each_no_crash; try assumption; lia.
Qed.
Lemma head_size_pos t : small_type t -> 0 <= head_size t.
Proof. destruct t; cbn [head_size small_type]; lia. Qed.
Lemma unpack_no_crash data spare : bytes_ok data -> zlen data < sz -> forall ts p, Forall small_type ts -> 0 <= p ->
  unpack_from p ts data spare <> Crash.
Proof.
  intros B L ts. induction ts as [|t ts IH]; intros p F N; cbn [unpack_from]; [discriminate|].
  inversion F as [|? ? F1 F2]; subst. intros C. apply bind_crash in C.
  destruct C as [C|[v [_ C]]]; [exact (to_go_no_crash p t data spare F1 N B L C)|].
  apply bind_crash in C. destruct C as [C|[r [_ C]]]; [|discriminate].
  apply IH in C; [contradiction|exact F2|]. pose proof (head_size_pos t F1). lia.
Qed.

(** * The bytes after the slice do not matter *)
Lemma base_spare p b data s1 s2 : plain_base b -> 0 <= p -> to_go_base p b data s1 = to_go_base p b data s2.
Proof.
  intros P N. unfold to_go_base. destruct (Z.ltb_spec (zlen data) (p + 32)) as [H|H]; [reflexivity|]. cbv zeta.
  destruct b; try reflexivity. cbn [plain_base] in P.
  rewrite !zlen_app. pose proof (zlen_nonneg s1). pose proof (zlen_nonneg s2).
  destruct (Z.ltb_spec (zlen data + zlen s1) (p + size)); [lia|]. destruct (Z.ltb_spec (zlen data + zlen s2) (p + size)); [lia|].
  f_equal. f_equal. unfold sub. destruct (Z.leb_spec size 0) as [X|X].
  - replace (Z.to_nat size) with 0%nat by lia. reflexivity.
  - rewrite !skipn_app. rewrite !firstn_app.
    replace (Z.to_nat size - length (skipn (Z.to_nat p) data))%nat with 0%nat by (rewrite skipn_length; unfold zlen in *; lia).
    reflexivity.
Qed.
Lemma each_spare b data s1 s2 : plain_base b -> forall n p, 0 <= p -> each p b data s1 n = each p b data s2 n.
Proof.
  intros P n. induction n as [|n IH]; intros p N; cbn [each]; [reflexivity|].
  rewrite (base_spare p b data s1 s2 P N), (IH (p + 32)) by lia. reflexivity.
Qed.
Lemma to_go_spare p t data s1 s2 : small_type t -> 0 <= p -> bytes_ok data -> to_go p t data s1 = to_go p t data s2.
Proof.
  intros S N B. destruct t as [b|b|n b]; cbn [small_type to_go] in *.
  - apply base_spare; assumption.
  - destruct (zlen data <? p + 32); [reflexivity|].
    destruct (length_prefix p data) as [[o n]| |] eqn:E; cbn [bind]; try reflexivity. unfold for_each.
    rewrite (each_spare b data s1 s2 S (Z.to_nat n) o) by (apply (prefix_range p data o n B) in E; lia). reflexivity.
  - destruct (zlen data <? p + 32); [reflexivity|]. unfold for_each.
    rewrite (each_spare b data s1 s2 (proj1 S) (Z.to_nat n) p N). reflexivity.
Qed.
Lemma unpack_spare data s1 s2 : bytes_ok data -> forall ts p, Forall small_type ts -> 0 <= p ->
  unpack_from p ts data s1 = unpack_from p ts data s2.
Proof.
  intros B ts. induction ts as [|t ts IH]; intros p F N; cbn [unpack_from]; [reflexivity|].
  inversion F as [|? ? F1 F2]; subst. rewrite (to_go_spare p t data s1 s2 F1 N B), (IH (p + head_size t)); [reflexivity|exact F2|].
  pose proof (head_size_pos t F1). lia.
Qed.

(** * What unpacking returns is a value of the type *)
Lemma read_typed (s : bool) n w : native n -> bytes_ok w -> zlen w = 32 ->
  value_of (if s then TInt n else TUint n) (read_integer (KNum s n) w).
Proof.
  intros N B L. rewrite (read_num s n w N B L). destruct (native_bits n N) as [R [_ [_ E]]].
  assert (P : 0 < 2 ^ n) by (apply Z.pow_pos_nonneg; lia).
  pose proof (Z.mod_pos_bound (be_val w) (2 ^ n) P) as Q. destruct s; cbn [value_of].
  - split; [lia|]. left. split; [exact N|]. eexists. split; [reflexivity|]. unfold signed_of.
    destruct (Z.ltb_spec (be_val w mod 2 ^ n) (2 ^ (n - 1))); lia.
  - split; [lia|]. left. split; [exact N|]. eexists. split; [reflexivity|exact Q].
Qed.
Lemma base_typed p b data spare v : exact_base b -> bytes_ok data -> bytes_ok spare -> 0 <= p ->
  to_go_base p b data spare = Ok v -> value_of b v.
Proof.
  intros X B BS N. unfold to_go_base. destruct (Z.ltb_spec (zlen data) (p + 32)) as [H|H]; [discriminate|]. cbv zeta.
  assert (BW : bytes_ok (sub data p 32)) by (apply sub_ok; exact B).
  assert (LW : zlen (sub data p 32) = 32) by (apply sub_len; lia).
  destruct b as [n|n| | | | | |n| ]; cbn [exact_base] in X.
  - intros E. injection E as <-. cbn [base_kind]. rewrite native_kind by exact X. exact (read_typed true n _ X BW LW).
  - intros E. injection E as <-. cbn [base_kind]. destruct X as [X| ->].
    + rewrite native_kind by exact X. exact (read_typed false n _ X BW LW).
    + cbn [value_of]. split; [lia|]. right. split; [unfold native; lia|]. exists (be_val (sub data p 32)). split; [reflexivity|].
      pose proof (be_val_range _ BW) as Q. rewrite LW in Q. exact Q.
  - unfold read_bool. destruct (negb _); [discriminate|]. generalize (nth 31 (sub data p 32) 0). intros z E. cbn [value_of].
    destruct z as [|q|q]; [injection E as <-; eauto| |discriminate]. destruct q; [discriminate|discriminate|injection E as <-; eauto].
  - intros E. apply bind_ok in E. destruct E as [[o n] [E F]]. injection F as <-. cbn [value_of]. eexists. split; [reflexivity|]. apply sub_ok, B.
  - intros E. injection E as <-. cbn [value_of]. eexists. split; [reflexivity|]. split; [apply sub_ok, BW|apply sub_len; lia].
  - intros E. injection E as <-. cbn [value_of]. eexists. split; [reflexivity|]. split; [apply sub_ok, BW|apply sub_len; lia].
  - intros E. injection E as <-. cbn [value_of]. eexists. split; [reflexivity|]. split; [apply sub_ok, BW|apply sub_len; lia].
  - destruct (Z.ltb_spec (zlen (data ++ spare)) (p + n)); [discriminate|]. intros E. injection E as <-. cbn [value_of]. split; [lia|].
    eexists. split; [reflexivity|]. split; [apply sub_ok, Forall_app; split; assumption|apply sub_len; lia].
  - intros E. apply bind_ok in E. destruct E as [[o n] [E F]]. injection F as <-. cbn [value_of]. eexists. split; [reflexivity|]. apply sub_ok, B.
Qed.
Lemma each_typed b data spare : exact_base b -> bytes_ok data -> bytes_ok spare -> forall n p l, 0 <= p ->
  each p b data spare n = Ok l -> Forall (value_of b) l /\ length l = n.
Proof.
  intros X B BS n. induction n as [|n IH]; intros p l N E; cbn [each] in E.
  - injection E as <-. auto.
  - apply bind_ok in E. destruct E as [v [E F]]. apply bind_ok in F. destruct F as [r [F G]]. injection G as <-.
    apply IH in F; [|lia]. destruct F as [F1 F2]. split; [constructor; [exact (base_typed _ _ _ _ _ X B BS N E)|exact F1]|cbn; lia].
Qed.
Lemma u8_items l : Forall (value_of (TUint 8)) l -> l = map (VNum false 8) (map num_of l).
Proof.
  induction 1 as [|v l V F IH]; [reflexivity|]. cbn [map]. rewrite <- IH. f_equal.
  destruct V as [_ [[_ [z [-> _]]]|[X _]]]; [reflexivity|]. exfalso. apply X. left. reflexivity.
Qed.
Lemma base_eq_dec8 b : b = TUint 8 \/ b <> TUint 8.
Proof. destruct b; try (right; discriminate). destruct (Z.eq_dec size 8) as [->|E]; [left; reflexivity|right; congruence]. Qed.
Lemma mk_slice_typed b l : Forall (value_of b) l -> list_value VBytes (VSlice (base_kind b)) b l (mk_slice (base_kind b) l).
Proof.
  intros F. split; [exact F|]. destruct (base_eq_dec8 b) as [->|N].
  - left. split; [reflexivity|]. exists (map num_of l). split; [reflexivity|apply u8_items, F].
  - right. split; [exact N|]. unfold mk_slice. destruct (kind_eqb (base_kind b) KU8) eqn:K; [|reflexivity].
    apply kind_eqb_eq, kind_u8 in K. contradiction.
Qed.
Lemma mk_array_typed b l : Forall (value_of b) l -> list_value VByteArr (VArray (base_kind b)) b l (mk_array (base_kind b) l).
Proof.
  intros F. split; [exact F|]. destruct (base_eq_dec8 b) as [->|N].
  - left. split; [reflexivity|]. exists (map num_of l). split; [reflexivity|apply u8_items, F].
  - right. split; [exact N|]. unfold mk_array. destruct (kind_eqb (base_kind b) KU8) eqn:K; [|reflexivity].
    apply kind_eqb_eq, kind_u8 in K. contradiction.
Qed.
Lemma exact_plain b : exact_base b -> plain_base b.
Proof. destruct b; cbn; try tauto; lia. Qed.
Lemma exact_small t : exact_type t -> small_type t.
Proof. destruct t; cbn; [apply exact_plain|apply exact_plain|]. intros [X Y]. split; [apply exact_plain, X|exact Y]. Qed.
Lemma to_go_typed p t data spare v : exact_type t -> bytes_ok data -> bytes_ok spare -> 0 <= p ->
  to_go p t data spare = Ok v -> typed t v.
Proof.
  intros X B BS N E. destruct t as [b|b|n b]; cbn [exact_type to_go typed] in *.
  - exact (base_typed p b data spare v X B BS N E).
  - destruct (zlen data <? p + 32); [discriminate|]. apply bind_ok in E. destruct E as [[o n] [E F]].
    pose proof (prefix_range p data o n B E). unfold for_each in F. destruct (zlen data <? wrap_i64 _); [discriminate|].
    destruct (2 ^ 47 <=? n); [discriminate|]. apply bind_ok in F. destruct F as [l [F G]]. injection G as <-.
    exists l. apply mk_slice_typed. exact (proj1 (each_typed b data spare X B BS _ o l ltac:(lia) F)).
  - destruct X as [X R]. destruct (zlen data <? p + 32); [discriminate|]. unfold for_each in E.
    destruct (zlen data <? wrap_i64 _); [discriminate|]. destruct (2 ^ 47 <=? n); [discriminate|].
    apply bind_ok in E. destruct E as [l [F G]]. injection G as <-. split; [lia|]. exists l.
    destruct (each_typed b data spare X B BS _ p l N F) as [V L]. split; [unfold zlen; lia|]. apply mk_array_typed, V.
Qed.
Lemma unpack_typed data spare : bytes_ok data -> bytes_ok spare -> forall ts p vs, Forall exact_type ts -> 0 <= p ->
  unpack_from p ts data spare = Ok vs -> Forall2 typed ts vs.
Proof.
  intros B BS ts. induction ts as [|t ts IH]; intros p vs F N E; cbn [unpack_from] in E.
  - injection E as <-. constructor.
  - inversion F as [|? ? F1 F2]; subst. apply bind_ok in E. destruct E as [v [E G]]. apply bind_ok in G. destruct G as [r [G K]].
    injection K as <-. constructor; [exact (to_go_typed p t data spare v F1 B BS N E)|]. apply (IH (p + head_size t)); [exact F2| |exact G].
    pose proof (head_size_pos t (exact_small t F1)). lia.
Qed.
Lemma slice_bounded p b data spare v : bytes_ok data -> zlen data < sz -> to_go p (Slice b) data spare = Ok v ->
  exists n, go_len v = Some n /\ 32 * n <= zlen data.
Proof.
  intros B L E. cbn [to_go] in E. destruct (zlen data <? p + 32); [discriminate|]. apply bind_ok in E. destruct E as [[o n] [E F]].
  pose proof (prefix_range p data o n B E). assert (sz < 2 ^ 57) by reflexivity.
  unfold for_each in F. rewrite wrap_id in F by lia. destruct (Z.ltb_spec (zlen data) (o + 32 * n)); [discriminate|].
  destruct (2 ^ 47 <=? n); [discriminate|]. apply bind_ok in F. destruct F as [l [F G]]. injection G as <-.
  assert (LL : zlen l = n).
  { clear -F H. assert (Q : forall m q k, each q b data spare m = Ok k -> length k = m).
    { induction m as [|m IH]; intros q k E; cbn [each] in E; [injection E as <-; reflexivity|].
      apply bind_ok in E. destruct E as [x [_ E]]. apply bind_ok in E. destruct E as [r [E F']]. injection F' as <-. cbn. f_equal. eauto. }
    apply Q in F. unfold zlen. lia. }
  exists n. split; [|lia]. unfold mk_slice. destruct (kind_eqb _ _); cbn [go_len]; [unfold zlen in *; rewrite map_length|]; rewrite LL; reflexivity.
Qed.
