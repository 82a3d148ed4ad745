(** Proofs about the framing of messages. *)
From Verif Require Import Lib NetModel NetSpec.
Import ListNotations.
Open Scope Z_scope.

(** ** Reading in pieces *)
Definition rel (x y : option (list Z * conn)) : Prop :=
  match x, y with
  | Some (b, c), Some (b', c') => b = b' /\ concat c = concat c'
  | None, None => True
  | _, _ => False
  end.
Lemma read_full_spec c : forall n,
  match read_full n c with
  | Some (b, c') => concat c = b ++ concat c' /\ length b = n
  | None => (length (concat c) < n)%nat
  end.
Proof.
  induction c as [|p r IH]; intros [|n]; cbn [read_full concat]; try (split; [reflexivity|reflexivity]); [cbn; lia|].
  destruct (Nat.leb_spec (S n) (length p)) as [L|L].
  - cbn [concat]. rewrite app_assoc, firstn_skipn. split; [reflexivity|]. rewrite firstn_length. lia.
  - specialize (IH (S n - length p)%nat). destruct (read_full (S n - length p) r) as [[b c']|].
    + destruct IH as [E L']. rewrite E, <- app_assoc. split; [reflexivity|]. rewrite app_length. lia.
    + rewrite app_length. lia.
Qed.
Lemma app_inj_length {A} (a b c d : list A) : a ++ b = c ++ d -> length a = length c -> a = c /\ b = d.
Proof.
  revert c. induction a as [|x a IH]; intros [|y c] E L; cbn in *; try discriminate; [now split|].
  injection E as -> E. injection L as L. destruct (IH c E L) as [-> ->]. now split.
Qed.
Lemma read_full_rel n c c' : concat c = concat c' -> rel (read_full n c) (read_full n c').
Proof.
  intro E. pose proof (read_full_spec c n) as P. pose proof (read_full_spec c' n) as Q.
  destruct (read_full n c) as [[b d]|], (read_full n c') as [[b' d']|]; cbn.
  - destruct P as [P L], Q as [Q L']. rewrite E, Q in P. destruct (app_inj_length _ _ _ _ P) as [-> ->]; [congruence|now split].
  - destruct P as [P L]. rewrite E in P. rewrite P, app_length in Q. lia.
  - destruct Q as [Q L]. rewrite <- E in Q. rewrite Q, app_length in P. lia.
  - exact Logic.I.
Qed.
Lemma read_full_app a r c : concat c = a ++ r -> exists c', read_full (length a) c = Some (a, c') /\ concat c' = r.
Proof.
  intro E. pose proof (read_full_spec c (length a)) as P. destruct (read_full (length a) c) as [[b d]|].
  - destruct P as [P L]. rewrite E in P. destruct (app_inj_length _ _ _ _ P) as [<- Q]; [congruence|]. exists d. now split.
  - rewrite E, app_length in P. lia.
Qed.

(** ** Numbers *)
Lemma lor_add a b k : 0 <= k -> 0 <= b < 2 ^ k -> Z.lor (Z.shiftl a k) b = a * 2 ^ k + b.
Proof.
  intros K B. rewrite Z.shiftl_mul_pow2 by lia.
  assert (L : Z.land (a * 2 ^ k) b = 0).
  { apply Z.bits_inj'. intros i Hi. rewrite Z.land_spec, Z.bits_0. destruct (Z.lt_ge_cases i k) as [L|L].
    - now rewrite Z.mul_pow2_bits_low by lia.
    - rewrite <- (Z.mod_small b (2 ^ k)) by lia. rewrite Z.mod_pow2_bits_high by lia. apply andb_false_r. }
  rewrite <- Z.lxor_lor by assumption. rewrite <- Z.add_nocarry_lxor by assumption. reflexivity.
Qed.
Lemma varint_be l : bytes_ok l -> varint l = be_val l.
Proof.
  induction l as [|b r IH]; intro H; [reflexivity|]. inversion H as [|? ? B R]; subst. cbn [varint]. rewrite IH by assumption.
  pose proof (be_val_range r R) as Q. pose proof (zlen_nonneg r).
  assert (E : 256 ^ zlen r = 2 ^ (8 * zlen r)) by (rewrite Z.pow_mul_r by lia; reflexivity).
  rewrite lor_add by (try lia; rewrite <- E; exact Q). rewrite be_val_cons. rewrite E. reflexivity.
Qed.
Lemma byte_ok x : is_byte (byte x).
Proof. unfold is_byte, byte. apply Z.mod_pos_bound. lia. Qed.
Lemma low_bytes_ok m n : bytes_ok (low_bytes m n).
Proof. induction m; cbn [low_bytes]; constructor; [apply byte_ok|assumption]. Qed.
Lemma low_bytes_length m n : length (low_bytes m n) = m.
Proof. induction m; cbn [low_bytes length]; congruence. Qed.
Lemma low_bytes_val m n : 0 <= n -> be_val (low_bytes m n) = n mod 256 ^ Z.of_nat m.
Proof.
  intro N. induction m as [|m IH]; cbn [low_bytes]; [symmetry; apply Z.mod_1_r|].
  rewrite be_val_cons, IH. unfold zlen. rewrite low_bytes_length.
  replace (Z.of_nat (S m)) with (Z.of_nat m + 1) by lia. rewrite Z.pow_add_r by lia. change (256 ^ 1) with 256.
  rewrite Z.rem_mul_r by lia. unfold byte. rewrite Z.shiftr_div_pow2 by lia.
  rewrite Z.pow_mul_r by lia. change (2 ^ 8) with 256. ring.
Qed.
Lemma count_bytes_spec f m n : 0 <= n -> 0 <= m -> n < 256 ^ (m + Z.of_nat f) ->
  m <= count_bytes f m n <= m + Z.of_nat f /\ n < 256 ^ count_bytes f m n /\ forall k, n < 256 ^ k -> 0 <= k -> m <= k -> count_bytes f m n <= k.
Proof.
  intros N. revert m. induction f as [|f IH]; intros m M B; cbn [count_bytes].
  - rewrite Z.add_0_r in B. split; [lia|]. split; [assumption|lia].
  - rewrite Z.shiftr_div_pow2 by lia. rewrite (Z.mul_comm m 8), Z.pow_mul_r by lia. change (2 ^ 8) with 256.
    assert (P : 0 < 256 ^ m) by (apply Z.pow_pos_nonneg; lia).
    destruct (Z.ltb_spec 0 (n / 256 ^ m)) as [L|L].
    + destruct (IH (m + 1)) as [A [C D]]; [lia|replace (m + 1 + Z.of_nat f) with (m + Z.of_nat (S f)) by lia; assumption|].
      split; [lia|]. split; [assumption|]. intros k K K0 K1. apply D; try assumption.
      assert (~ k = m); [|lia]. intros ->. rewrite Z.div_small in L; lia.
    + assert (n < 256 ^ m). { apply Z.nle_gt. intro G. assert (1 <= n / 256 ^ m) by (apply Z.div_le_lower_bound; lia). lia. }
      split; [lia|]. split; [assumption|lia].
Qed.

(** the length: below 2^24 it takes at most three bytes *)
Lemma put_varint_ok room n : 3 <= room -> 0 <= n < 2 ^ 24 ->
  exists l, put_varint room n = Some l /\ zlen l <= 3 /\ varint l = n.
Proof.
  intros R N. unfold put_varint. destruct (Z.eqb_spec n 0) as [->|Z0]; [exists []; split; [reflexivity|split; [cbn; lia|reflexivity]]|].
  destruct (count_bytes_spec 8 1 n) as [A [C D]]; [lia|lia|apply Z.lt_le_trans with (2 ^ 24); [lia|vm_compute; discriminate]|].
  specialize (D 3 (proj2 N) ltac:(lia) ltac:(lia)). set (m := count_bytes 8 1 n) in *.
  destruct (Z.ltb_spec room m) as [L|L]; [lia|]. eexists; split; [reflexivity|].
  unfold zlen. rewrite low_bytes_length. split; [lia|]. rewrite varint_be by apply low_bytes_ok. rewrite low_bytes_val by lia.
  rewrite Z2Nat.id by lia. apply Z.mod_small. lia.
Qed.
Lemma put_id_ok id : 0 <= id < 2 ^ 32 -> (zlen (put_id id) = 0 \/ zlen (put_id id) = 1 \/ zlen (put_id id) = 2 \/ zlen (put_id id) = 4) /\ varint (put_id id) = id.
Proof.
  intro R. unfold put_id.
  destruct (Z.eqb_spec id 0) as [->|Z0]; [split; [left; reflexivity|reflexivity]|].
  destruct (Z.ltb_spec 65535 id) as [L|L]; [|destruct (Z.ltb_spec 255 id) as [L'|L']].
  - split; [right; right; right; reflexivity|]. rewrite varint_be by (repeat (constructor; [apply byte_ok|]); constructor).
    unfold be_val. cbn [fold_left]. unfold byte. rewrite !Z.shiftr_div_pow2 by lia. change (2 ^ 24) with 16777216. change (2 ^ 16) with 65536. change (2 ^ 8) with 256.
    change (2 ^ 32) with 4294967296 in R. lia.
  - split; [right; right; left; reflexivity|]. rewrite varint_be by (repeat (constructor; [apply byte_ok|]); constructor).
    unfold be_val. cbn [fold_left]. unfold byte. rewrite !Z.shiftr_div_pow2 by lia. change (2 ^ 8) with 256. lia.
  - split; [right; left; reflexivity|]. rewrite varint_be by (repeat (constructor; [apply byte_ok|]); constructor).
    unfold be_val. cbn [fold_left]. unfold byte. lia.
Qed.
Lemma meta_ok i l z : (i = 0 \/ i = 1 \/ i = 2 \/ i = 4) -> 0 <= l <= 3 -> retrieve_meta (store_meta i l z) = (i, l, z).
Proof.
  intros I L. assert (l = 0 \/ l = 1 \/ l = 2 \/ l = 3) as J by lia.
  destruct I as [-> | [-> | [-> | ->]]], J as [-> | [-> | [-> | ->]]], z; reflexivity.
Qed.
Lemma meta_range meta : is_byte meta -> let '(i, l, _) := retrieve_meta meta in 0 <= i <= 4 /\ 0 <= l <= 3.
Proof.
  intros [A B]. unfold retrieve_meta, bits_to_id_length, shl8, byte. rewrite !Z.shiftr_div_pow2, !Z.shiftl_mul_pow2 by lia.
  change (2 ^ 6) with 64. change (2 ^ 2) with 4. destruct (Z.eqb_spec (meta / 64) 3); lia.
Qed.

Section Codec.
Variable enc : list Z -> list Z.
Variable dec : list Z -> option (list Z).
(** what is known of the compression: it can be undone, and it notes the length *)
Hypothesis dec_enc : forall p, zlen p < 2 ^ 24 -> dec (enc p) = Some p.
Hypothesis enc_len : forall p, zlen p < 2 ^ 24 -> decoded_len (enc p) = Some (zlen p).

Lemma read_write min m c rest : sendable m ->
  exists w, write_msg enc min m = Some w /\
  (concat c = w ++ rest -> exists c', snd (read_msg dec c) = Some (m, c') /\ concat c' = rest).
Proof.
  intros (C & I & P). destruct (put_id_ok (m_id m) I) as [IL IV]. unfold write_msg.
  set (small := (min <? zlen (m_payload m)) && (zlen (enc (m_payload m)) <? zlen (m_payload m))).
  set (payload := if small then enc (m_payload m) else m_payload m).
  assert (PL : 0 <= zlen payload < 2 ^ 24).
  { split; [apply zlen_nonneg|]. unfold payload. destruct small eqn:S; [|assumption].
    unfold small in S. apply andb_true_iff in S as [_ S]. apply Z.ltb_lt in S. lia. }
  destruct (put_varint_ok (9 - (2 + zlen (put_id (m_id m)))) (zlen payload) ltac:(lia) PL) as (l & -> & L3 & LV).
  eexists; split; [reflexivity|]. intro E. unfold read_msg.
  destruct (read_full_app [store_meta (zlen (put_id (m_id m))) (zlen l) small; m_code m] (put_id (m_id m) ++ l ++ payload ++ rest) c) as (c1 & R1 & E1).
  { rewrite E. cbn. now rewrite <- !app_assoc. }
  cbn [length] in R1. rewrite R1. rewrite meta_ok by (try assumption; pose proof (zlen_nonneg l); lia).
  unfold zlen at 1. rewrite Nat2Z.id.
  destruct (read_full_app _ _ _ E1) as (c2 & R2 & E2). rewrite R2.
  unfold zlen at 1. rewrite Nat2Z.id. destruct (read_full_app _ _ _ E2) as (c3 & R3 & E3). rewrite R3, LV.
  destruct (Z.ltb_spec (2 ^ 24 - 1) (zlen payload)) as [Q|Q]; [lia|].
  unfold zlen at 1. rewrite Nat2Z.id. destruct (read_full_app _ _ _ E3) as (c4 & R4 & E4). rewrite R4.
  cbn [snd fst]. assert (U : snd (unpack dec small payload) = Some (m_payload m)).
  { unfold unpack, payload. destruct small; [|reflexivity]. rewrite enc_len by assumption. now apply dec_enc. }
  rewrite U, IV. exists c4. split; [destruct m; reflexivity|assumption].
Qed.

Lemma read_write_all min l : Forall sendable l ->
  exists w, write_all enc min l = Some w /\
  forall c rest, concat c = w ++ rest -> exists c', read_all dec (length l) c = (l, c') /\ concat c' = rest.
Proof.
  induction 1 as [|m l M L IH]; cbn [write_all length read_all].
  - exists []. split; [reflexivity|]. intros c rest E. now exists c.
  - destruct IH as (w & -> & IH).
    destruct (read_write min m [] [] M) as (v & V & _). rewrite V. exists (v ++ w). split; [reflexivity|]. intros c rest E.
    destruct (read_write min m c (w ++ rest) M) as (v' & V' & R). rewrite V in V'. injection V' as <-.
    destruct R as (c1 & R1 & E1); [now rewrite E, app_assoc|]. rewrite R1. destruct (IH c1 rest E1) as (c2 & R2 & E2).
    rewrite R2. cbn [fst snd]. now exists c2.
Qed.

(** ** What is read depends on the bytes only *)
Lemma read_rel c c' : concat c = concat c' ->
  fst (read_msg dec c) = fst (read_msg dec c') /\
  match snd (read_msg dec c), snd (read_msg dec c') with
  | Some (m, d), Some (m', d') => m = m' /\ concat d = concat d'
  | None, None => True
  | _, _ => False
  end.
Proof.
  intro E. unfold read_msg. pose proof (read_full_rel 2 _ _ E) as R.
  destruct (read_full 2 c) as [[b1 c1]|], (read_full 2 c') as [[b1' c1']|]; cbn in R; try tauto. destruct R as [<- E1].
  destruct b1 as [|meta [|code [|? ?]]]; try (cbn; tauto).
  destruct (retrieve_meta meta) as [[i l] z].
  pose proof (read_full_rel (Z.to_nat i) _ _ E1) as R.
  destruct (read_full (Z.to_nat i) c1) as [[b2 c2]|], (read_full (Z.to_nat i) c1') as [[b2' c2']|]; cbn in R; try tauto. destruct R as [<- E2].
  pose proof (read_full_rel (Z.to_nat l) _ _ E2) as R.
  destruct (read_full (Z.to_nat l) c2) as [[b3 c3]|], (read_full (Z.to_nat l) c2') as [[b3' c3']|]; cbn in R; try tauto. destruct R as [<- E3].
  destruct (2 ^ 24 - 1 <? varint b3); [cbn; tauto|].
  pose proof (read_full_rel (Z.to_nat (varint b3)) _ _ E3) as R.
  destruct (read_full (Z.to_nat (varint b3)) c3) as [[b4 c4]|], (read_full (Z.to_nat (varint b3)) c3') as [[b4' c4']|]; cbn in R; try tauto. destruct R as [<- E4].
  cbn [fst snd]. split; [reflexivity|]. destruct (snd (unpack dec z b4)); [now split|exact Logic.I].
Qed.

(** what a read takes from the stream *)
Lemma read_takes c m c' : snd (read_msg dec c) = Some (m, c') -> exists w, concat c = w ++ concat c' /\
  (2 <= length w)%nat /\ forall d, concat d = w -> exists d', snd (read_msg dec d) = Some (m, d') /\ concat d' = [].
Proof.
  unfold read_msg. intro R. pose proof (read_full_spec c 2) as S1.
  destruct (read_full 2 c) as [[b1 c1]|] eqn:F1; [|discriminate]. destruct S1 as [S1 L1].
  destruct b1 as [|meta [|code [|? ?]]]; try discriminate.
  destruct (retrieve_meta meta) as [[i l] z] eqn:ME.
  pose proof (read_full_spec c1 (Z.to_nat i)) as S2. destruct (read_full (Z.to_nat i) c1) as [[b2 c2]|]; [|discriminate]. destruct S2 as [S2 L2].
  pose proof (read_full_spec c2 (Z.to_nat l)) as S3. destruct (read_full (Z.to_nat l) c2) as [[b3 c3]|]; [|discriminate]. destruct S3 as [S3 L3].
  destruct (2 ^ 24 - 1 <? varint b3) eqn:T; [discriminate|].
  pose proof (read_full_spec c3 (Z.to_nat (varint b3))) as S4. destruct (read_full (Z.to_nat (varint b3)) c3) as [[b4 c4]|]; [|discriminate]. destruct S4 as [S4 L4].
  cbn [snd] in R. destruct (snd (unpack dec z b4)) as [q|] eqn:U; [|discriminate]. injection R as <- <-.
  exists ([meta; code] ++ b2 ++ b3 ++ b4). split; [rewrite S1, S2, S3, S4; now rewrite <- !app_assoc|]. split; [cbn; lia|].
  intros d D. destruct (read_full_app [meta; code] (b2 ++ b3 ++ b4) d D) as (d1 & Q1 & D1). cbn [length] in Q1. rewrite Q1, ME.
  destruct (read_full_app b2 (b3 ++ b4) d1 D1) as (d2 & Q2 & D2). rewrite L2 in Q2. rewrite Q2.
  destruct (read_full_app b3 b4 d2 D2) as (d3 & Q3 & D3). rewrite L3 in Q3. rewrite Q3, T.
  rewrite <- (app_nil_r b4) in D3. destruct (read_full_app b4 [] d3 D3) as (d4 & Q4 & D4). rewrite L4 in Q4. rewrite Q4.
  cbn [snd]. rewrite U. now exists d4.
Qed.

(** a longer stream reads the same message *)
Lemma read_more a c m c' b d : snd (read_msg dec c) = Some (m, c') -> concat c = a -> concat d = a ++ b ->
  exists d', snd (read_msg dec d) = Some (m, d') /\ concat d' = concat c' ++ b.
Proof.
  unfold read_msg. intros R A D. pose proof (read_full_spec c 2) as S1.
  destruct (read_full 2 c) as [[b1 c1]|] eqn:F1; [|discriminate]. destruct S1 as [S1 L1].
  destruct b1 as [|meta [|code [|? ?]]]; try discriminate.
  destruct (retrieve_meta meta) as [[i l] z] eqn:ME.
  pose proof (read_full_spec c1 (Z.to_nat i)) as S2. destruct (read_full (Z.to_nat i) c1) as [[b2 c2]|]; [|discriminate]. destruct S2 as [S2 L2].
  pose proof (read_full_spec c2 (Z.to_nat l)) as S3. destruct (read_full (Z.to_nat l) c2) as [[b3 c3]|]; [|discriminate]. destruct S3 as [S3 L3].
  destruct (2 ^ 24 - 1 <? varint b3) eqn:T; [discriminate|].
  pose proof (read_full_spec c3 (Z.to_nat (varint b3))) as S4. destruct (read_full (Z.to_nat (varint b3)) c3) as [[b4 c4]|]; [|discriminate]. destruct S4 as [S4 L4].
  cbn [snd] in R. destruct (snd (unpack dec z b4)) as [q|] eqn:U; [|discriminate]. injection R as <- <-.
  rewrite <- A, S1, S2, S3, S4, <- !app_assoc in D.
  destruct (read_full_app [meta; code] _ d D) as (d1 & Q1 & D1). cbn [length] in Q1. rewrite Q1, ME.
  destruct (read_full_app b2 _ d1 D1) as (d2 & Q2 & D2). rewrite L2 in Q2. rewrite Q2.
  destruct (read_full_app b3 _ d2 D2) as (d3 & Q3 & D3). rewrite L3 in Q3. rewrite Q3, T.
  destruct (read_full_app b4 _ d3 D3) as (d4 & Q4 & D4). rewrite L4 in Q4. rewrite Q4.
  cbn [snd]. rewrite U. now exists d4.
Qed.
End Codec.
