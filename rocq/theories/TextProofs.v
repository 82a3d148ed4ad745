From Coq Require Import ZArith List Bool Lia.
From Verif Require Import Lib TextModel TextSpec.
Import ListNotations.
Open Scope Z_scope.

(** * Digits *)
Lemma hexdig_spec n : 0 <= n < 16 -> hexdig n = nth (Z.to_nat n) digits 0.
Proof.
  intros B. assert (n = 0 \/ n = 1 \/ n = 2 \/ n = 3 \/ n = 4 \/ n = 5 \/ n = 6 \/ n = 7 \/ n = 8 \/ n = 9 \/ n = 10
    \/ n = 11 \/ n = 12 \/ n = 13 \/ n = 14 \/ n = 15) as C by lia.
  repeat (destruct C as [-> |C]; [reflexivity|]). subst. reflexivity.
Qed.
Lemma nibble_hexdig n : 0 <= n < 16 -> nibble (hexdig n) = Some n.
Proof.
  intros B. unfold hexdig, nibble. destruct (Z.ltb_spec n 10).
  - destruct (Z.leb_spec 48 (48 + n)), (Z.leb_spec (48 + n) 57); cbn [andb]; try lia. f_equal; lia.
  - destruct (Z.leb_spec 48 (87 + n)), (Z.leb_spec (87 + n) 57); cbn [andb]; try lia;
    destruct (Z.leb_spec 97 (87 + n)), (Z.leb_spec (87 + n) 102); cbn [andb]; try lia; f_equal; lia.
Qed.
Definition low (c : Z) : Z := if (65 <=? c) && (c <=? 90) then c + 32 else c.
Lemma nibble_inv c n : nibble c = Some n -> 0 <= n < 16 /\ low c = hexdig n.
Proof.
  unfold nibble, low, hexdig.
  destruct (Z.leb_spec 48 c), (Z.leb_spec c 57); cbn [andb];
  destruct (Z.leb_spec 97 c), (Z.leb_spec c 102); cbn [andb];
  destruct (Z.leb_spec 65 c), (Z.leb_spec c 70), (Z.leb_spec c 90); cbn [andb]; intros E; try discriminate; try lia;
  injection E as <-; (split; [lia|]); match goal with |- context [?x <? 10] => destruct (Z.ltb_spec x 10) end; lia.
Qed.
Lemma hex_encode_spells l : bytes_ok l -> hex_encode l = spells l.
Proof.
  unfold hex_encode, spells. induction 1 as [|b l B L IH]; [reflexivity|]. unfold is_byte in B.
  cbn [flat_map map concat]. rewrite IH. unfold spell. rewrite !hexdig_spec by lia. reflexivity.
Qed.
Lemma hex_encode_len l : zlen (hex_encode l) = 2 * zlen l.
Proof. unfold hex_encode, zlen. induction l; cbn [flat_map length app]; [reflexivity|]. cbn [length] in *. lia. Qed.
Lemma list_ind2 {A} (P : list A -> Prop) : P [] -> (forall a, P [a]) ->
  (forall a b l, P l -> P (a :: b :: l)) -> forall l, P l.
Proof.
  intros P0 P1 P2. assert (S : forall l, P l /\ forall a, P (a :: l)).
  { induction l as [|a l [IH1 IH2]]; [auto|]. split; [apply IH2|]. intros b. apply P2; assumption. }
  intros l. apply S.
Qed.
Lemma hex_decode_encode l : bytes_ok l -> hex_decode (hex_encode l) = Some l.
Proof.
  unfold hex_encode. induction 1 as [|b l B L IH]; [reflexivity|]. unfold is_byte in B.
  cbn [flat_map app hex_decode]. rewrite !nibble_hexdig by lia. rewrite IH. f_equal. f_equal. lia.
Qed.
Lemma hex_decode_inv : forall s l, hex_decode s = Some l ->
  bytes_ok l /\ zlen s = 2 * zlen l /\ lower s = hex_encode l.
Proof.
  induction s as [| |a b s IH] using list_ind2; intros l E; cbn [hex_decode] in E.
  - injection E as <-. repeat split; [constructor].
  - discriminate.
  - destruct (nibble a) as [x|] eqn:A; [|discriminate]. destruct (nibble b) as [y|] eqn:B; [|discriminate].
    destruct (hex_decode s) as [t|] eqn:D; [|discriminate].
    assert (l = 16 * x + y :: t) as -> by congruence. clear E.
    apply nibble_inv in A. apply nibble_inv in B. destruct A as [A1 A2], B as [B1 B2].
    destruct (IH t eq_refl) as [I1 [I2 I3]]. split; [|split].
    + constructor; [unfold is_byte; lia|assumption].
    + rewrite !zlen_cons. lia.
    + cbn [lower map]. fold (lower s). change (map _ s) with (lower s). rewrite I3.
      fold (low a). fold (low b). rewrite A2, B2. unfold hex_encode. cbn [flat_map app].
      replace ((16 * x + y) / 16) with x by lia. replace ((16 * x + y) mod 16) with y by lia. reflexivity.
Qed.

(** * Slices *)
Lemma slice_at {A} (a b c : list A) i j : zlen a = i -> zlen b = j - i ->
  firstn (Z.to_nat (j - i)) (skipn (Z.to_nat i) (a ++ b ++ c)) = b.
Proof.
  unfold zlen. intros <- L. rewrite Nat2Z.id, skipn_app, skipn_all, Nat.sub_diag. cbn [app skipn].
  rewrite <- L, Nat2Z.id, firstn_app, Nat.sub_diag, firstn_all. cbn [firstn]. apply app_nil_r.
Qed.
Lemma slice_end {A} (a b : list A) i j : zlen a = i -> zlen b = j - i ->
  firstn (Z.to_nat (j - i)) (skipn (Z.to_nat i) (a ++ b)) = b.
Proof. intros P Q. rewrite <- (app_nil_r b) at 1. apply slice_at; assumption. Qed.
Lemma has_prefix_app p s : has_prefix p (p ++ s) = true.
Proof.
  unfold has_prefix. rewrite firstn_app, Nat.sub_diag, firstn_all. cbn [firstn]. rewrite app_nil_r. apply zlist_eqb_refl.
Qed.
(** A string of the right length with the prefix falls into three parts. *)
Lemma split3 p s n m : has_prefix p s = true -> zlen s = zlen p + n + m -> 0 <= n -> 0 <= m ->
  exists a b, s = p ++ a ++ b /\ zlen a = n /\ zlen b = m.
Proof.
  unfold has_prefix. intros P L N M. apply zlist_eqb_eq in P.
  exists (firstn (Z.to_nat n) (skipn (length p) s)), (skipn (Z.to_nat n) (skipn (length p) s)).
  rewrite firstn_skipn. split; [rewrite <- P at 1; symmetry; apply firstn_skipn|].
  unfold zlen in *. rewrite firstn_length, !skipn_length. lia.
Qed.

(** * Complements *)
Lemma ldi_ldi l : ldi (ldi l) = l.
Proof. unfold ldi. rewrite map_map. rewrite <- (map_id l) at 2. apply map_ext. intros; lia. Qed.
Lemma ldi_ok l : bytes_ok l -> bytes_ok (ldi l).
Proof.
  unfold ldi. induction 1 as [|b l B L IH]; cbn [map]; [constructor|].
  constructor; [unfold is_byte in *; lia|assumption].
Qed.
Lemma ldi_len l : zlen (ldi l) = zlen l.
Proof. unfold ldi, zlen. rewrite map_length. reflexivity. Qed.
Lemma ldi_neq l : l <> [] -> ldi l <> l.
Proof. destruct l as [|b l]; [congruence|]. intros _ E. apply (f_equal (hd 0)) in E.
  unfold ldi in E. cbn [map hd] in E. lia. Qed.

(** * Injectivity of the spelling *)
Lemma hex_encode_inj a b : bytes_ok a -> bytes_ok b -> hex_encode a = hex_encode b -> a = b.
Proof. intros A B E. apply (f_equal hex_decode) in E. rewrite !hex_decode_encode in E by assumption. congruence. Qed.
Lemma lower_app a b : lower (a ++ b) = lower a ++ lower b.
Proof. apply map_app. Qed.
Lemma lower_len s : zlen (lower s) = zlen s.
Proof. unfold lower, zlen. rewrite map_length. reflexivity. Qed.
Lemma app_len_inj {A} (a b c d : list A) : zlen a = zlen c -> a ++ b = c ++ d -> a = c /\ b = d.
Proof.
  revert c. induction a as [|x a IH]; intros [|y c] L E; unfold zlen in *; cbn in *; try lia; [auto|].
  injection E as -> E. destruct (IH c ltac:(lia) E) as [-> ->]. auto.
Qed.

(** * Quotes *)
Lemma is_string_json s : is_string (json_text s) = true.
Proof.
  unfold is_string, json_text. rewrite zlen_cons, zlen_app, zlen_cons, zlen_nil.
  destruct (Z.leb_spec 2 (1 + (zlen s + (1 + 0)))); [|unfold zlen in *; lia]. cbn [nth andb].
  rewrite Z.eqb_refl. cbn [andb]. change (quote :: s ++ [quote]) with ((quote :: s) ++ [quote]). rewrite last_last. reflexivity.
Qed.
Lemma trim_quotes_json s : trim_quotes (json_text s) = s.
Proof.
  unfold trim_quotes. rewrite is_string_json. unfold slice, json_text.
  change (quote :: s ++ [quote]) with ([quote] ++ s ++ [quote]) at 2. apply slice_at; [reflexivity|].
  rewrite zlen_cons, zlen_app, zlen_cons, zlen_nil. lia.
Qed.
Lemma trim_left_id s : Forall (fun c => c <> quote) s -> trim_left s = s.
Proof. destruct 1 as [|c s C S]; [reflexivity|]. cbn. destruct (Z.eqb_spec c quote); [contradiction|reflexivity]. Qed.
Lemma trim_json s : Forall (fun c => c <> quote) s -> trim (json_text s) = s.
Proof.
  intros F. unfold trim, json_text. cbn [trim_left]. rewrite Z.eqb_refl.
  assert (trim_left (s ++ [quote]) = match s with [] => [] | _ => s ++ [quote] end) as ->.
  { destruct F as [|c s C S]; [reflexivity|]. cbn. destruct (Z.eqb_spec c quote); [contradiction|reflexivity]. }
  destruct s as [|c s]; [reflexivity|]. rewrite rev_app_distr. cbn [rev app trim_left]. rewrite Z.eqb_refl.
  change (rev s ++ [c]) with (rev (c :: s)). rewrite trim_left_id by (apply Forall_rev; assumption). apply rev_involutive.
Qed.
Lemma hexdig_noquote n : hexdig n <> quote \/ n < 0.
Proof. unfold hexdig, quote. destruct (Z.ltb_spec n 10); lia. Qed.
Lemma hex_noquote l : bytes_ok l -> Forall (fun c => c <> quote) (hex_encode l).
Proof.
  unfold hex_encode. induction 1 as [|b l B L IH]; [constructor|]. unfold is_byte in B.
  cbn [flat_map app]. pose proof (hexdig_noquote (b / 16)). pose proof (hexdig_noquote (b mod 16)).
  constructor; [destruct H; [assumption|lia]|]. constructor; [destruct H0; [assumption|lia]|assumption].
Qed.

(** * Addresses *)
Lemma some_inj {A} (x y : A) : Some x = Some y -> x = y.
Proof. congruence. Qed.

Section H.
Context (H : Z -> list Z -> list Z) (HO : hash_ok H).

Lemma addr_hex_core core kind : zlen core = 20 -> addr_hex H (core ++ [kind]) =
  if kind =? 0 then Some (addr_prefix ++ hex_encode core ++ hex_encode (H 5 core))
  else if kind =? 1 then Some (addr_prefix ++ hex_encode core ++ hex_encode (ldi (H 5 core)))
  else None.
Proof.
  intros L. unfold addr_hex. unfold zlen in L.
  replace (firstn 20 (core ++ [kind])) with core.
  2:{ replace 20%nat with (length core) by lia. rewrite firstn_app, Nat.sub_diag, firstn_all. cbn. symmetry. apply app_nil_r. }
  replace (nth 20 (core ++ [kind]) 0) with kind; [reflexivity|].
  rewrite app_nth2 by lia. replace (20 - length core)%nat with 0%nat by lia. reflexivity.
Qed.
Lemma parse_parts core check : zlen core = 40 -> zlen check = 10 ->
  addr_parse H (addr_prefix ++ core ++ check) =
  match hex_decode core, hex_decode check with
  | Some c, Some k => if zlist_eqb (H 5 c) k then Some (c ++ [0])
                      else if zlist_eqb (H 5 c) (ldi k) then Some (c ++ [1]) else None
  | _, _ => None
  end.
Proof.
  intros A B. unfold addr_parse.
  replace (zlen (addr_prefix ++ core ++ check)) with 55 by (rewrite !zlen_app; unfold zlen in *; cbn [length addr_prefix]; lia).
  rewrite has_prefix_app. cbn [Z.eqb negb orb Pos.eqb]. unfold slice.
  rewrite (slice_at addr_prefix core check 5 45) by (unfold zlen in *; cbn [length addr_prefix]; lia).
  rewrite app_assoc. rewrite (slice_end (addr_prefix ++ core) check 45 55) by (rewrite ?zlen_app; unfold zlen in *; cbn [length addr_prefix]; lia).
  reflexivity.
Qed.
Lemma addr_roundtrip a s : addr_hex H a = Some s -> (user_address a \/ contract_address a) -> addr_parse H s = Some a.
Proof.
  intros E K.
  assert (exists core kind, is_bytes 20 core /\ a = core ++ [kind] /\ (kind = 0 \/ kind = 1)) as [core [kind [[L B] [-> K']]]].
  { destruct K as [[core [C ->]]|[core [C ->]]]; exists core; [exists 0|exists 1]; auto. }
  rewrite addr_hex_core in E by assumption. destruct (HO 5 core ltac:(lia)) as [HL HB].
  destruct K' as [-> | ->]; cbn [Z.eqb Pos.eqb] in E; apply some_inj in E; subst s.
  - rewrite parse_parts by (rewrite hex_encode_len; lia). rewrite !hex_decode_encode by assumption.
    rewrite zlist_eqb_refl. reflexivity.
  - rewrite parse_parts by (rewrite hex_encode_len, ?ldi_len; lia).
    rewrite !hex_decode_encode by (try assumption; apply ldi_ok; assumption). rewrite ldi_ldi, zlist_eqb_refl.
    destruct (zlist_eqb (H 5 core) (ldi (H 5 core))) eqn:E; [|reflexivity].
    apply zlist_eqb_eq in E. destruct (ldi_neq (H 5 core)); [|congruence].
    intros C. rewrite C in HL. discriminate.
Qed.
Lemma addr_parse_inv s a : addr_parse H s = Some a ->
  exists sc sk core check, s = addr_prefix ++ sc ++ sk /\ hex_decode sc = Some core /\ hex_decode sk = Some check /\
    zlen core = 20 /\ zlen check = 5 /\ bytes_ok core /\ bytes_ok check /\
    ((a = core ++ [0] /\ check = H 5 core) \/ (a = core ++ [1] /\ check = ldi (H 5 core))).
Proof.
  intros E. pose proof E as E0. unfold addr_parse in E.
  destruct (Z.eqb_spec (zlen s) 55) as [L|]; [|discriminate]. destruct (has_prefix addr_prefix s) eqn:P; [|discriminate]. clear E.
  destruct (split3 addr_prefix s 40 10 P ltac:(rewrite L; reflexivity) ltac:(lia) ltac:(lia)) as [sc [sk [-> [LC LK]]]].
  rewrite parse_parts in E0 by assumption.
  destruct (hex_decode sc) as [core|] eqn:DC; [|discriminate]. destruct (hex_decode sk) as [check|] eqn:DK; [|discriminate].
  exists sc, sk, core, check. pose proof (hex_decode_inv _ _ DC) as [C1 [C2 C3]]. pose proof (hex_decode_inv _ _ DK) as [K1 [K2 K3]].
  do 3 (split; [assumption || reflexivity|]). do 2 (split; [lia|]). do 2 (split; [assumption|]).
  destruct (zlist_eqb (H 5 core) check) eqn:Q.
  - left. apply zlist_eqb_eq in Q. split; congruence.
  - destruct (zlist_eqb (H 5 core) (ldi check)) eqn:Q2; [|discriminate]. right.
    apply zlist_eqb_eq in Q2. split; [congruence|]. rewrite Q2, ldi_ldi. reflexivity.
Qed.
Lemma tti_parts t check : zlen t = 20 -> zlen check = 4 ->
  tti_parse H (tti_prefix ++ t ++ check) =
  match hex_decode t, hex_decode check with
  | Some c, Some k => if zlist_eqb (H 2 c) k then Some c else None
  | _, _ => None
  end.
Proof.
  intros A B. unfold tti_parse.
  replace (zlen (tti_prefix ++ t ++ check)) with 28 by (rewrite !zlen_app; unfold zlen in *; cbn [length tti_prefix]; lia).
  rewrite has_prefix_app. cbn [Z.eqb negb orb Pos.eqb]. unfold slice.
  rewrite (slice_at tti_prefix t check 4 24) by (unfold zlen in *; cbn [length tti_prefix]; lia).
  rewrite app_assoc. rewrite (slice_end (tti_prefix ++ t) check 24 28) by (rewrite ?zlen_app; unfold zlen in *; cbn [length tti_prefix]; lia).
  reflexivity.
Qed.
Lemma tti_roundtrip t : is_bytes 10 t -> tti_parse H (tti_hex H t) = Some t.
Proof.
  intros [L B]. unfold tti_hex. destruct (HO 2 t ltac:(lia)) as [HL HB].
  rewrite tti_parts by (rewrite hex_encode_len; lia). rewrite !hex_decode_encode, zlist_eqb_refl by assumption. reflexivity.
Qed.
Lemma tti_parse_inv s t : tti_parse H s = Some t ->
  exists sc sk, s = tti_prefix ++ sc ++ sk /\ hex_decode sc = Some t /\ hex_decode sk = Some (H 2 t) /\ is_bytes 10 t.
Proof.
  intros E. pose proof E as E0. unfold tti_parse in E.
  destruct (Z.eqb_spec (zlen s) 28) as [L|]; [|discriminate]. destruct (has_prefix tti_prefix s) eqn:P; [|discriminate]. clear E.
  destruct (split3 tti_prefix s 20 4 P ltac:(rewrite L; reflexivity) ltac:(lia) ltac:(lia)) as [sc [sk [-> [LC LK]]]].
  rewrite tti_parts in E0 by assumption.
  destruct (hex_decode sc) as [core|] eqn:DC; [|discriminate]. destruct (hex_decode sk) as [check|] eqn:DK; [|discriminate].
  destruct (zlist_eqb (H 2 core) check) eqn:Q; [|discriminate]. injection E0 as <-. apply zlist_eqb_eq in Q. subst check.
  pose proof (hex_decode_inv _ _ DC) as [C1 [C2 C3]].
  exists sc, sk. do 3 (split; [assumption || reflexivity|]). split; [lia|assumption].
Qed.
End H.
