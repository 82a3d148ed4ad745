From Coq Require Import String ZArith List Bool Lia.
From Verif Require Import Lib WireModel TextModel SchedModel AbiModel AbiSpec WireProofs.
Import ListNotations.
Open Scope Z_scope.

(** * Words *)
Lemma word_len z : zlen (word z) = 32.
Proof. unfold word, zlen. rewrite be_bytes_length. reflexivity. Qed.
Lemma word_ok z : bytes_ok (word z).
Proof. apply be_bytes_ok. Qed.
Lemma word_val z : be_val (word z) = z mod two256.
Proof.
  unfold word. apply be_val_bytes. change (256 ^ Z.of_nat 32) with two256.
  apply Z.mod_pos_bound. reflexivity.
Qed.
Lemma word_small z : 0 <= z < two256 -> be_val (word z) = z.
Proof. intros B. rewrite word_val. apply Z.mod_small. exact B. Qed.

(** * Occurrences of a byte string at a place *)
Definition at_ (data : list Z) (p : Z) (x : list Z) : Prop :=
  exists a b, data = a ++ x ++ b /\ zlen a = p.
Lemma at_range data p x : at_ data p x -> 0 <= p /\ p + zlen x <= zlen data.
Proof.
  intros [a [b [-> L]]]. rewrite !zlen_app. pose proof (zlen_nonneg a). pose proof (zlen_nonneg b). lia.
Qed.
Lemma at_app data p x y : at_ data p (x ++ y) -> at_ data p x /\ at_ data (p + zlen x) y.
Proof.
  intros [a [b [E L]]]. split.
  - exists a, (y ++ b). split; [rewrite E, <- !app_assoc; reflexivity|exact L].
  - exists (a ++ x), b. split; [rewrite E, <- !app_assoc; reflexivity|rewrite zlen_app; lia].
Qed.
Lemma at_sub data p x n : at_ data p x -> zlen x = n -> sub data p n = x.
Proof.
  intros [a [b [-> L]]] E. unfold sub.
  replace (Z.to_nat p) with (length a) by (unfold zlen in L; lia).
  replace (Z.to_nat n) with (length x) by (unfold zlen in E; lia).
  rewrite skipn_app, skipn_all, Nat.sub_diag. cbn [app skipn].
  rewrite firstn_app, firstn_all, Nat.sub_diag. cbn [firstn]. apply app_nil_r.
Qed.
Lemma at_self a x b : at_ (a ++ x ++ b) (zlen a) x.
Proof. exists a, b. auto. Qed.
Lemma at_more data spare p x : at_ data p x -> at_ (data ++ spare) p x.
Proof. intros [a [b [-> L]]]. exists a, (b ++ spare). split; [rewrite <- !app_assoc; reflexivity|exact L]. Qed.

Lemma sub_len l i n : 0 <= i -> 0 <= n -> i + n <= zlen l -> zlen (sub l i n) = n.
Proof. intros A B C. unfold sub, zlen in *. rewrite firstn_length, skipn_length. lia. Qed.
Lemma sub_ok l i n : bytes_ok l -> bytes_ok (sub l i n).
Proof.
  intros B. apply Forall_forall. intros x X. unfold sub in X.
  assert (In x l).
  { rewrite <- (firstn_skipn (Z.to_nat i) l). apply in_or_app. right.
    rewrite <- (firstn_skipn (Z.to_nat n) (skipn (Z.to_nat i) l)). apply in_or_app. left. exact X. }
  revert x H X. intros x H _. exact (proj1 (Forall_forall _ _) B x H).
Qed.

(** * Numbers *)
Lemma low_bytes l k : bytes_ok l -> zlen l = 32 -> 0 <= k <= 32 ->
  be_val (sub l (32 - k) k) = be_val l mod 256 ^ k.
Proof.
  intros B L K. unfold sub.
  rewrite (firstn_all2 (n := Z.to_nat k)) by (rewrite skipn_length; unfold zlen in L; lia).
  assert (R : be_val l = be_val (firstn (Z.to_nat (32 - k)) l) * 256 ^ k + be_val (skipn (Z.to_nat (32 - k)) l)).
  { rewrite <- (firstn_skipn (Z.to_nat (32 - k)) l) at 1. rewrite be_val_app. f_equal. f_equal. f_equal.
    unfold zlen in *. rewrite skipn_length. lia. }
  assert (S' : bytes_ok (skipn (Z.to_nat (32 - k)) l)).
  { apply Forall_forall. intros x X. apply (proj1 (Forall_forall _ _) B).
    rewrite <- (firstn_skipn (Z.to_nat (32 - k)) l). apply in_or_app. right. exact X. }
  pose proof (be_val_range _ S') as Q.
  replace (zlen (skipn (Z.to_nat (32 - k)) l)) with k in Q by (unfold zlen in *; rewrite skipn_length; lia).
  apply Z.mod_unique with (be_val (firstn (Z.to_nat (32 - k)) l)); [left; exact Q|]. rewrite R. ring.
Qed.
Lemma pow_div n : 0 <= n <= 256 -> (2 ^ n | two256).
Proof.
  intros B. exists (2 ^ (256 - n)). unfold two256. rewrite <- Z.pow_add_r by lia. f_equal. lia.
Qed.
Lemma native_kind s n : native n -> int_kind s n = KNum s n.
Proof. intros [->|[->|[->| ->]]]; reflexivity. Qed.
Lemma not_native_kind s n : ~ native n -> int_kind s n = KPtr.
Proof.
  intros N. unfold int_kind, native in *.
  destruct (Z.eqb_spec n 8); [tauto|]. destruct (Z.eqb_spec n 16); [tauto|].
  destruct (Z.eqb_spec n 32); [tauto|]. destruct (Z.eqb_spec n 64); [tauto|]. reflexivity.
Qed.
Lemma native_dec n : native n \/ ~ native n.
Proof. unfold native. lia. Qed.
Lemma native_bits n : native n -> 0 < n <= 256 /\ 256 ^ (n / 8) = 2 ^ n /\ 0 <= n / 8 <= 32 /\ 2 ^ n = 2 * 2 ^ (n - 1).
Proof. intros [->|[->|[->| ->]]]; cbn; lia. Qed.
Lemma read_num s n w : native n -> bytes_ok w -> zlen w = 32 ->
  read_integer (KNum s n) w = VNum s n (if s then signed_of n (be_val w mod 2 ^ n) else be_val w mod 2 ^ n).
Proof.
  intros N B L. destruct (native_bits n N) as [_ [E [K _]]].
  cbn [read_integer]. rewrite low_bytes by assumption. rewrite E. reflexivity.
Qed.
Lemma signed_back n z : native n -> - 2 ^ (n - 1) <= z < 2 ^ (n - 1) ->
  signed_of n ((z mod two256) mod 2 ^ n) = z.
Proof.
  intros N B. destruct (native_bits n N) as [R [_ [_ E]]].
  assert (P : 0 < 2 ^ n) by (apply Z.pow_pos_nonneg; lia).
  rewrite <- Znumtheory.Zmod_div_mod; [|exact P|reflexivity|apply pow_div; lia].
  unfold signed_of. destruct (Z.leb_spec 0 z) as [Z0|Z0].
  - rewrite Z.mod_small by lia. destruct (Z.ltb_spec z (2 ^ (n - 1))); lia.
  - replace (z mod 2 ^ n) with (z + 2 ^ n).
    + destruct (Z.ltb_spec (z + 2 ^ n) (2 ^ (n - 1))); lia.
    + apply Z.mod_unique with (-1); [left; lia|lia].
Qed.
Lemma unsigned_back n z : 0 <= n <= 256 -> 0 <= z < 2 ^ n -> (z mod two256) mod 2 ^ n = z.
Proof.
  intros N B. rewrite <- Znumtheory.Zmod_div_mod; [|apply Z.pow_pos_nonneg; lia|reflexivity|apply pow_div; lia].
  apply Z.mod_small. exact B.
Qed.
Lemma pow_word n : 0 <= n <= 256 -> 2 ^ n <= two256.
Proof. intros B. unfold two256. apply Z.pow_le_mono_r; lia. Qed.

(** * Padding *)
Lemma left_pad_tail n l : zlen l <= n -> exists z, left_pad n l = z ++ l /\ zlen z = n - zlen l.
Proof.
  intros L. unfold left_pad. destruct (Z.leb_spec n (zlen l)) as [H|H].
  - exists []. split; [reflexivity|rewrite zlen_nil; lia].
  - exists (zeros (n - zlen l)). split; [reflexivity|apply zeros_len; lia].
Qed.
Lemma right_pad_head n l : exists z, right_pad n l = l ++ z /\ zlen (right_pad n l) = Z.max n (zlen l).
Proof.
  unfold right_pad. destruct (Z.leb_spec n (zlen l)) as [H|H].
  - exists []. split; [rewrite app_nil_r; reflexivity|lia].
  - exists (zeros (n - zlen l)). split; [reflexivity|]. rewrite zlen_app, zeros_len by lia. lia.
Qed.
Lemma left_pad_len n l : zlen l <= n -> zlen (left_pad n l) = n.
Proof. intros L. destruct (left_pad_tail n l L) as [z [-> E]]. rewrite zlen_app. lia. Qed.
