(** Theorems about the text forms of addresses, token ids, group ids and hashes. *)
From Coq Require Import ZArith List Bool Lia.
From Verif Require Import Lib TextModel TextSpec TextProofs.
Import ListNotations.
Open Scope Z_scope.

(** The properties of the hash function used: the digest has the requested size.  Here is
    one that has it. *)
Definition eg_H (n : Z) (d : list Z) : list Z := repeat (fold_right Z.add 7 d mod 256) (Z.to_nat n).
Lemma eg_H_ok : hash_ok eg_H.
Proof.
  intros n d N. unfold eg_H. split.
  - unfold zlen. rewrite repeat_length. lia.
  - apply Forall_forall. intros x X. apply repeat_spec in X. subst x. unfold is_byte. lia.
Qed.
Definition eg_core : list Z := [1; 2; 3; 4; 5; 6; 7; 8; 9; 10; 200; 201; 202; 203; 204; 205; 206; 207; 208; 255].
Lemma eg_core_ok : is_bytes 20 eg_core.
Proof. split; [reflexivity|]. unfold eg_core. repeat (apply Forall_cons || apply Forall_nil); unfold is_byte; lia. Qed.

Lemma addr_spelled H a : hash_ok H -> user_address a \/ contract_address a ->
  exists s, addr_hex H a = Some s /\ spell_address H a s.
Proof.
  intros HO [[core [[L B] ->]]|[core [[L B] ->]]]; rewrite addr_hex_core by assumption;
    destruct (HO 5 core ltac:(lia)) as [HL HB]; cbn [Z.eqb Pos.eqb]; (eexists; split; [reflexivity|]);
    exists core; (split; [split; assumption|]).
  - left. split; [reflexivity|]. rewrite !hex_encode_spells by assumption. reflexivity.
  - right. split; [reflexivity|]. rewrite !hex_encode_spells by (try assumption; apply ldi_ok; assumption). reflexivity.
Qed.

(** C28: every user or contract address is written in exactly one way, as the prefix, its
    bytes and its checksum, and reading that text gives the address back. *)
Theorem address_text_round_trip : forall H a, hash_ok H -> user_address a \/ contract_address a ->
  exists s, addr_hex H a = Some s /\ spell_address H a s /\ addr_parse H s = Some a.
Proof.
  intros H a HO K. destruct (addr_spelled H a HO K) as [s [E S]]. exists s. do 2 (split; [assumption|]).
  apply (addr_roundtrip H HO); assumption.
Qed.
(** What is accepted is, up to the case of its digits, the text of the address it is read
    as; that address is a user or contract address. *)
Theorem accepted_address_text : forall H s a, hash_ok H -> addr_parse H s = Some a ->
  (user_address a \/ contract_address a) /\ spell_address H a (lower s).
Proof.
  intros H s a HO E. apply addr_parse_inv in E.
  destruct E as [sc [sk [core [check [-> [DC [DK [LC [LK [BC [BK K]]]]]]]]]]].
  apply hex_decode_inv in DC. apply hex_decode_inv in DK. destruct DC as [_ [_ DC]], DK as [_ [_ DK]].
  rewrite !lower_app, DC, DK, !hex_encode_spells by assumption. change (lower addr_prefix) with [118; 105; 116; 101; 95].
  destruct K as [[-> ->]|[-> ->]]; (split; [|exists core; (split; [split; assumption|])]).
  - left. exists core. split; [split|]; auto.
  - left. split; reflexivity.
  - right. exists core. split; [split|]; auto.
  - right. split; reflexivity.
Qed.
(** Two texts that are read as the same address differ only in the case of digits, and two
    texts that are read as different addresses differ beyond that. *)
Theorem address_text_means_one_address : forall H s t a b, hash_ok H ->
  addr_parse H s = Some a -> addr_parse H t = Some b -> (lower s = lower t <-> a = b).
Proof.
  intros H s t a b HO S T.
  pose proof (accepted_address_text H s a HO S) as [KA [ca [[LA BA] SA]]].
  pose proof (accepted_address_text H t b HO T) as [KB [cb [[LB BB] SB]]].
  assert (LenH : forall c, is_bytes 5 (H 5 c)) by (intros c; apply HO; lia).
  split.
  - intros E. pose proof (LenH ca) as [HLa HBa]. pose proof (LenH cb) as [HLb HBb].
    assert (X : forall x y : list Z, bytes_ok x -> bytes_ok y -> spells ca ++ spells x = spells cb ++ spells y -> ca = cb /\ x = y).
    { intros x y X Y Q. rewrite <- !hex_encode_spells in Q by assumption.
      apply app_len_inj in Q; [|rewrite !hex_encode_len; lia]. destruct Q as [Q1 Q2].
      apply hex_encode_inj in Q1; [|assumption|assumption]. apply hex_encode_inj in Q2; [|assumption|assumption]. auto. }
    assert (LO : forall x, bytes_ok x -> bytes_ok (map (fun b => 255 - b) x)) by (intros x; apply ldi_ok).
    destruct SA as [[-> SA]|[-> SA]], SB as [[-> SB]|[-> SB]]; rewrite SA, SB in E; apply app_inv_head in E;
      apply X in E; auto; destruct E as [-> E]; try reflexivity; exfalso.
    + apply (ldi_neq (H 5 cb)); [intros C; rewrite C in HLb; discriminate|]. symmetry. exact E.
    + apply (ldi_neq (H 5 cb)); [intros C; rewrite C in HLb; discriminate|]. exact E.
  - intros <-. destruct SA as [[EA SA]|[EA SA]], SB as [[EB SB]|[EB SB]]; rewrite SA, SB; rewrite EA in EB;
      apply app_inj_tail in EB; destruct EB as [-> EK]; try discriminate; reflexivity.
Qed.
(** A mistyped checksum: of the texts with the same first 45 characters, the only two that
    are accepted (up to case) have every one of the ten checksum digits different, so a
    change to one to nine of them is always noticed. *)
Definition check_digits (s : list Z) : list Z := skipn 45 (lower s).
Lemma hex_ldi_differ : forall l i, bytes_ok l -> (i < length (hex_encode l))%nat ->
  nth i (hex_encode l) 0 <> nth i (hex_encode (ldi l)) 0.
Proof.
  intros l i B. revert i. unfold hex_encode. induction B as [|b l B L IH]; intros i I; [cbn in I; lia|].
  unfold ldi in *. cbn [flat_map map app] in *. unfold is_byte in B.
  assert (D : forall n, 0 <= n < 16 -> hexdig n <> hexdig (15 - n)).
  { intros n N. unfold hexdig. destruct (Z.ltb_spec n 10), (Z.ltb_spec (15 - n) 10); lia. }
  destruct i as [|[|i]]; cbn [nth].
  - replace ((255 - b) / 16) with (15 - b / 16) by lia. apply D. lia.
  - replace ((255 - b) mod 16) with (15 - b mod 16) by lia. apply D. lia.
  - apply IH. cbn [length] in I. lia.
Qed.
Theorem address_checksum_typos_rejected : forall H s t a b i, hash_ok H ->
  addr_parse H s = Some a -> addr_parse H t = Some b ->
  firstn 45 (lower s) = firstn 45 (lower t) -> a <> b -> (i < 10)%nat ->
  nth i (check_digits s) 0 <> nth i (check_digits t) 0.
Proof.
  intros H s t a b i HO S T E N I.
  pose proof (accepted_address_text H s a HO S) as [KA [ca [[LA BA] SA]]].
  pose proof (accepted_address_text H t b HO T) as [KB [cb [[LB BB] SB]]].
  assert (F : forall c x, zlen c = 20 -> bytes_ok c ->
    firstn 45 ([118; 105; 116; 101; 95] ++ spells c ++ x) = [118; 105; 116; 101; 95] ++ spells c /\
    skipn 45 ([118; 105; 116; 101; 95] ++ spells c ++ x) = x).
  { intros c x L B. rewrite app_assoc. pose proof (hex_encode_len c) as Q. rewrite hex_encode_spells in Q by assumption.
    assert (length ([118; 105; 116; 101; 95] ++ spells c) = 45%nat) as K by (rewrite app_length; unfold zlen in *; cbn [length]; lia).
    rewrite <- K, firstn_app, skipn_app, Nat.sub_diag, firstn_all, skipn_all. cbn [firstn skipn]. rewrite app_nil_r. auto. }
  unfold check_digits. destruct (HO 5 ca ltac:(lia)) as [HL HB].
  pose proof (hex_encode_len (H 5 ca)) as HE.
  assert (HI : (i < length (hex_encode (H 5%Z ca)))%nat) by (unfold zlen in *; lia).
  destruct SA as [[EA SA]|[EA SA]], SB as [[EB SB]|[EB SB]]; rewrite SA, SB in E |- *;
    rewrite !(proj1 (F _ _ LA BA)), !(proj1 (F _ _ LB BB)) in E; apply app_inv_head in E;
    rewrite <- !hex_encode_spells in E by assumption; apply hex_encode_inj in E; try assumption; subst cb;
    rewrite !(proj2 (F _ _ LA BA)); try congruence.
  - rewrite <- !hex_encode_spells by (try assumption; apply (ldi_ok _ HB)). apply hex_ldi_differ; assumption.
  - rewrite <- !hex_encode_spells by (try assumption; apply (ldi_ok _ HB)). apply not_eq_sym. apply hex_ldi_differ; assumption.
Qed.

(** Token ids. *)
Theorem token_text_round_trip : forall H t, hash_ok H -> is_bytes 10 t ->
  spell_token H t (tti_hex H t) /\ tti_parse H (tti_hex H t) = Some t.
Proof.
  intros H t HO B. split; [|apply tti_roundtrip; assumption]. split; [assumption|]. destruct B as [L B].
  destruct (HO 2 t ltac:(lia)) as [_ HB]. unfold tti_hex. rewrite !hex_encode_spells by assumption. reflexivity.
Qed.
Theorem accepted_token_text : forall H s t, hash_ok H -> tti_parse H s = Some t -> spell_token H t (lower s).
Proof.
  intros H s t HO E. apply tti_parse_inv in E. destruct E as [sc [sk [-> [DC [DK [L B]]]]]].
  split; [split; assumption|]. destruct (HO 2 t ltac:(lia)) as [_ HB].
  apply hex_decode_inv in DC. apply hex_decode_inv in DK. destruct DC as [_ [_ DC]], DK as [_ [_ DK]].
  rewrite !lower_app, DC, DK, !hex_encode_spells by assumption. reflexivity.
Qed.
(** A token id's text cannot be mistyped in its checksum at all: the digits are
    determined. *)
Theorem token_checksum_typos_rejected : forall H s t a b, hash_ok H ->
  tti_parse H s = Some a -> tti_parse H t = Some b ->
  firstn 24 (lower s) = firstn 24 (lower t) -> lower s = lower t /\ a = b.
Proof.
  intros H s t a b HO S T E.
  destruct (accepted_token_text H s a HO S) as [[LA BA] SA]. destruct (accepted_token_text H t b HO T) as [[LB BB] SB].
  assert (F : forall c x, zlen c = 10 -> bytes_ok c ->
    firstn 24 ([116; 116; 105; 95] ++ spells c ++ x) = [116; 116; 105; 95] ++ spells c).
  { intros c x L B. rewrite app_assoc. pose proof (hex_encode_len c) as Q. rewrite hex_encode_spells in Q by assumption.
    assert (length ([116; 116; 105; 95] ++ spells c) = 24%nat) as K by (rewrite app_length; unfold zlen in *; cbn [length]; lia).
    rewrite <- K, firstn_app, Nat.sub_diag, firstn_all. cbn [firstn]. apply app_nil_r. }
  rewrite SA, SB in E. rewrite !F in E by assumption. apply app_inv_head in E.
  rewrite <- !hex_encode_spells in E by assumption. apply hex_encode_inj in E; try assumption. subst b.
  split; [congruence|reflexivity].
Qed.

(** Hashes (32 bytes) and group ids (10 bytes) have no prefix and no checksum. *)
Theorem raw_text_round_trip : forall n l, is_bytes n l ->
  raw_hex l = spells l /\ raw_parse n (raw_hex l) = Some l.
Proof.
  intros n l [L B]. unfold raw_hex, raw_parse. rewrite hex_encode_len, L, Z.eqb_refl.
  split; [apply hex_encode_spells|apply hex_decode_encode]; assumption.
Qed.
Theorem accepted_raw_text : forall n s l, raw_parse n s = Some l -> is_bytes n l /\ lower s = spells l.
Proof.
  intros n s l. unfold raw_parse. destruct (Z.eqb_spec (zlen s) (2 * n)) as [L|]; [|discriminate].
  intros E. apply hex_decode_inv in E. destruct E as [B [L' E]]. rewrite E.
  split; [split; [lia|assumption]|apply hex_encode_spells; assumption].
Qed.

(** Values survive being written to JSON and read back. *)
Theorem json_round_trip : forall H,  hash_ok H ->
  (forall a, user_address a \/ contract_address a ->
     exists s, addr_hex H a = Some s /\ addr_unmarshal H (json_text s) = Some a) /\
  (forall t, is_bytes 10 t -> tti_unmarshal H (json_text (tti_hex H t)) = Some t) /\
  (forall n l, is_bytes n l -> raw_unmarshal n (json_text (raw_hex l)) = Some l).
Proof.
  intros H HO. split; [|split].
  - intros a K. destruct (address_text_round_trip H a HO K) as [s [E [[core [[L B] S]] P]]]. exists s. split; [assumption|].
    unfold addr_unmarshal. rewrite is_string_json, trim_json; [assumption|].
    destruct (HO 5 core ltac:(lia)) as [_ HB].
    assert (PQ : Forall (fun c => c <> quote) [118; 105; 116; 101; 95])
      by (repeat (apply Forall_cons || apply Forall_nil); unfold quote; lia).
    destruct S as [[_ ->]|[_ ->]]; rewrite <- !hex_encode_spells by (try assumption; apply (ldi_ok _ HB));
      (apply Forall_app; split; [assumption|]; apply Forall_app; split; apply hex_noquote; try assumption; apply (ldi_ok _ HB)).
  - intros t B. unfold tti_unmarshal. rewrite is_string_json, trim_quotes_json. apply tti_roundtrip; assumption.
  - intros n l B. unfold raw_unmarshal. rewrite is_string_json, trim_quotes_json. apply (raw_text_round_trip n l B).
Qed.
(** The text form itself, which is what encoding/json passes when an address or a token id
    is the key of a map, is refused by UnmarshalText for every value: it wants quotes. *)
Theorem map_key_round_trip_refuted : forall H, hash_ok H ->
  (forall a s, user_address a \/ contract_address a -> addr_hex H a = Some s -> addr_unmarshal H s = None) /\
  (forall t, tti_unmarshal H (tti_hex H t) = None).
Proof.
  intros H HO. split.
  - intros a s K E. destruct (address_text_round_trip H a HO K) as [s' [E' [[core [_ S]] _]]].
    assert (s = s') as -> by congruence. unfold addr_unmarshal, is_string.
    destruct S as [[_ ->]|[_ ->]]; cbn [app nth]; rewrite andb_comm, andb_assoc; cbn [Z.eqb Pos.eqb quote];
      rewrite !andb_false_r; reflexivity.
  - intros t. unfold tti_unmarshal, is_string, tti_hex. cbn [app nth tti_prefix]. rewrite andb_comm, andb_assoc.
    cbn [Z.eqb Pos.eqb quote]. rewrite !andb_false_r. reflexivity.
Qed.

(** Concrete instances. *)
Example eg_address : exists s t, addr_hex eg_H (eg_core ++ [0]) = Some s /\ addr_hex eg_H (eg_core ++ [1]) = Some t /\
  s <> t /\ firstn 45 (lower s) = firstn 45 (lower t) /\ addr_parse eg_H s = Some (eg_core ++ [0]) /\
  addr_parse eg_H (map (fun c => if 97 <=? c then if c <=? 102 then c - 32 else c else c) (skipn 5 s)) = None /\
  addr_parse eg_H (firstn 5 s ++ map (fun c => if 97 <=? c then if c <=? 102 then c - 32 else c else c) (skipn 5 s)) = Some (eg_core ++ [0]) /\
  addr_parse eg_H (firstn 54 s ++ [48 + 5]) = None.
Proof.
  eexists. eexists. split; [vm_compute; reflexivity|]. split; [vm_compute; reflexivity|].
  split; [vm_compute; discriminate|]. repeat split; vm_compute; reflexivity.
Qed.
Example eg_address_kinds : user_address (eg_core ++ [0]) /\ contract_address (eg_core ++ [1]).
Proof. split; exists eg_core; (split; [apply eg_core_ok|reflexivity]). Qed.
Example eg_token : tti_parse eg_H (tti_hex eg_H [86; 73; 84; 69; 32; 84; 79; 75; 69; 78]) = Some [86; 73; 84; 69; 32; 84; 79; 75; 69; 78].
Proof. vm_compute. reflexivity. Qed.
Example eg_raw : raw_parse 3 (raw_hex [0; 171; 255]) = Some [0; 171; 255] /\ raw_parse 3 [48; 48; 65; 98; 70; 102] = Some [0; 171; 255] /\
  raw_parse 3 [48; 48; 65; 98; 70; 103] = None.
Proof. repeat split; vm_compute; reflexivity. Qed.

Print Assumptions address_text_round_trip.
Print Assumptions accepted_address_text.
Print Assumptions address_text_means_one_address.
Print Assumptions address_checksum_typos_rejected.
Print Assumptions token_text_round_trip.
Print Assumptions accepted_token_text.
Print Assumptions token_checksum_typos_rejected.
Print Assumptions raw_text_round_trip.
Print Assumptions accepted_raw_text.
Print Assumptions json_round_trip.
Print Assumptions map_key_round_trip_refuted.
