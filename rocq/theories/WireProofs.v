From Coq Require Import ZArith List Bool Lia.
From Verif Require Import Lib WireModel WireSpec.
From Verif Require VmModel VmProofs.
Import ListNotations.
Open Scope Z_scope.

Lemma some_inj' {A} (x y : A) : Some x = Some y -> x = y.
Proof. congruence. Qed.

(** * Numbers *)
Lemma read_varint_app n : forall v r, 0 <= v < 2 * 128 ^ Z.of_nat n ->
  read_varint n (varint n v ++ r) = Some (v, r).
Proof.
  induction n as [|n IH]; intros v r B.
  - change (2 * 128 ^ Z.of_nat 0) with 2 in B. cbn [varint app read_varint].
    destruct (Z.ltb_spec v 2); [reflexivity|lia].
  - rewrite Nat2Z.inj_succ, Z.pow_succ_r in B by lia. cbn [varint].
    destruct (Z.ltb_spec v 128) as [L|L].
    + cbn [app read_varint]. destruct (Z.ltb_spec v 128); [reflexivity|lia].
    + cbn [app read_varint]. destruct (Z.ltb_spec (v mod 128 + 128) 128); [lia|].
      rewrite IH.
      * f_equal. f_equal. lia.
      * set (p := 128 ^ Z.of_nat n) in *. clearbody p. split; [lia|]. apply Z.div_lt_upper_bound; lia.
Qed.
Lemma read_uvarint_app v r : 0 <= v < 2 ^ 64 -> read_uvarint (uvarint v ++ r) = Some (v, r).
Proof. intros B. apply read_varint_app. change (2 * 128 ^ Z.of_nat 9) with (2 ^ 64). exact B. Qed.
Lemma varint_len n v : (1 <= length (varint n v))%nat.
Proof. destruct n; cbn [varint]; [cbn; lia|]. destruct (v <? 128); cbn [length]; lia. Qed.
Lemma uvarint_len v : (1 <= length (uvarint v))%nat.
Proof. apply varint_len. Qed.

(** * Fields *)
Definition enc1 (f : Z * payload) : list Z :=
  match f with
  | (k, PVar v) => uvarint (k * 8) ++ uvarint v
  | (k, PBytes l) => put_msg k l
  | (_, POther) => []
  end.
Definition enc (fs : fields) : list Z := concat (map enc1 fs).
Definition field_ok (f : Z * payload) : Prop :=
  1 <= fst f <= 2 ^ 29 - 1 /\ match snd f with PVar v => 0 <= v < 2 ^ 64 | PBytes l => zlen l < 2 ^ 64 | POther => False end.

Lemma take_app l r : take_bytes (zlen l) (l ++ r) = Some (l, r).
Proof.
  unfold take_bytes. rewrite zlen_app. pose proof (zlen_nonneg r). destruct (Z.ltb_spec (zlen l + zlen r) (zlen l)); [lia|].
  unfold zlen. rewrite Nat2Z.id. rewrite firstn_app, skipn_app, Nat.sub_diag, firstn_all, skipn_all.
  cbn [firstn skipn app]. rewrite app_nil_r. reflexivity.
Qed.
Lemma enc1_len f : field_ok f -> (1 <= length (enc1 f))%nat.
Proof.
  destruct f as [k [v|l|]]; intros [_ O]; cbn [enc1 snd] in *; [|unfold put_msg|contradiction]; rewrite app_length.
  - pose proof (uvarint_len (k * 8)). lia.
  - pose proof (uvarint_len (k * 8 + 2)). lia.
Qed.
Lemma read_fields_cons f fuel r : field_ok f ->
  read_fields (S fuel) (enc1 f ++ r) = match read_fields fuel r with Some fs => Some (f :: fs) | None => None end.
Proof.
  intros O. pose proof (enc1_len f O) as L.
  destruct (enc1 f ++ r) as [|x y] eqn:E; [apply app_eq_nil in E; destruct E as [E _]; rewrite E in L; cbn in L; lia|].
  cbn [read_fields]. rewrite <- E. clear E x y.
  destruct f as [k [v|l|]]; destruct O as [K O]; cbn [enc1 fst snd] in *; [| |contradiction].
  - rewrite <- app_assoc, read_uvarint_app by lia.
    replace (k * 8 / 8) with k by lia. replace ((k * 8) mod 8) with 0 by lia.
    destruct (Z.ltb_spec k 1); [lia|]. destruct (Z.ltb_spec (2 ^ 29 - 1) k); [lia|]. cbn [orb].
    change (0 =? 3) with false. cbn match. unfold read_scalar. change (0 =? 0) with true. cbn match.
    rewrite read_uvarint_app by assumption. reflexivity.
  - unfold put_msg. rewrite <- !app_assoc, read_uvarint_app by lia.
    replace ((k * 8 + 2) / 8) with k by lia. replace ((k * 8 + 2) mod 8) with 2 by lia.
    destruct (Z.ltb_spec k 1); [lia|]. destruct (Z.ltb_spec (2 ^ 29 - 1) k); [lia|]. cbn [orb].
    change (2 =? 3) with false. cbn match. unfold read_scalar. change (2 =? 0) with false.
    change (2 =? 1) with false. change (2 =? 5) with false. change (2 =? 2) with true. cbn match.
    rewrite read_uvarint_app by (pose proof (zlen_nonneg l); lia). rewrite take_app. reflexivity.
Qed.
Lemma read_fields_enc fs : forall fuel, Forall field_ok fs -> (length fs <= fuel)%nat -> read_fields fuel (enc fs) = Some fs.
Proof.
  induction fs as [|f fs IH]; intros fuel O L; [destruct fuel; reflexivity|].
  inversion O as [|? ? O1 O2]; subst. destruct fuel as [|fuel]; [cbn in L; lia|].
  unfold enc. cbn [map concat]. rewrite read_fields_cons by assumption. fold (enc fs).
  rewrite IH; [reflexivity|assumption|cbn in L; lia].
Qed.
Lemma enc_len fs : Forall field_ok fs -> (length fs <= length (enc fs))%nat.
Proof.
  induction 1 as [|f fs O _ IH]; [cbn; lia|]. unfold enc in *. cbn [map concat length]. rewrite app_length.
  pose proof (enc1_len f O). lia.
Qed.
Lemma parse_enc fs : Forall field_ok fs -> parse (enc fs) = Some fs.
Proof. intros O. apply read_fields_enc; [assumption|]. apply enc_len; assumption. Qed.
Lemma enc_app a b : enc (a ++ b) = enc a ++ enc b.
Proof. unfold enc. rewrite map_app, concat_app. reflexivity. Qed.

(** The fields a writer puts. *)
Definition fvar (k v : Z) : fields := if v =? 0 then [] else [(k, PVar v)].
Definition fbytes (k : Z) (l : list Z) : fields := match l with [] => [] | _ => [(k, PBytes l)] end.
Definition fmsgs (k : Z) (ls : list (list Z)) : fields := map (fun l => (k, PBytes l)) ls.
Lemma put_var_enc k v : put_var k v = enc (fvar k v).
Proof. unfold put_var, fvar. destruct (v =? 0); [reflexivity|]. unfold enc. cbn. rewrite app_nil_r. reflexivity. Qed.
Lemma put_bytes_enc k l : put_bytes k l = enc (fbytes k l).
Proof. destruct l; [reflexivity|]. unfold put_bytes, fbytes, enc. cbn [map concat enc1]. rewrite app_nil_r. reflexivity. Qed.
Lemma put_msgs_enc k ls : concat (map (put_msg k) ls) = enc (fmsgs k ls).
Proof. unfold enc, fmsgs. rewrite map_map. reflexivity. Qed.

Lemma fvar_ok k v : 1 <= k <= 2 ^ 29 - 1 -> 0 <= v < 2 ^ 64 -> Forall field_ok (fvar k v).
Proof. intros K V. unfold fvar. destruct (v =? 0); repeat (apply Forall_cons || apply Forall_nil); split; assumption. Qed.
Lemma fbytes_ok k l : 1 <= k <= 2 ^ 29 - 1 -> zlen l < 2 ^ 64 -> Forall field_ok (fbytes k l).
Proof. intros K V. unfold fbytes. destruct l; [constructor|]. constructor; [split; assumption|constructor]. Qed.
Lemma fmsgs_ok k ls : 1 <= k <= 2 ^ 29 - 1 -> Forall (fun l => zlen l < 2 ^ 64) ls -> Forall field_ok (fmsgs k ls).
Proof. intros K. unfold fmsgs. induction 1; cbn [map]; constructor; [split; assumption|assumption]. Qed.

Lemma get_var_app n fs : forall d gs, get_var n d (fs ++ gs) = get_var n (get_var n d fs) gs.
Proof. induction fs as [|[k [v|l|]] fs IH]; intros d gs; cbn [app get_var]; [reflexivity|apply IH|apply IH|apply IH]. Qed.
Lemma get_bytes_app n fs : forall d gs, get_bytes n d (fs ++ gs) = get_bytes n (get_bytes n d fs) gs.
Proof. induction fs as [|[k [v|l|]] fs IH]; intros d gs; cbn [app get_bytes]; [reflexivity|apply IH|apply IH|apply IH]. Qed.
Lemma get_all_app n fs gs : get_all n (fs ++ gs) = get_all n fs ++ get_all n gs.
Proof.
  induction fs as [|[k [v|l|]] fs IH]; cbn [app get_all]; [reflexivity|apply IH| |apply IH].
  destruct (k =? n); [cbn [app]; f_equal|]; apply IH.
Qed.
Lemma get_var_fvar n d k v : get_var n d (fvar k v) = if k =? n then (if v =? 0 then d else v) else d.
Proof. unfold fvar. destruct (v =? 0); [destruct (k =? n); reflexivity|]. cbn. destruct (k =? n); reflexivity. Qed.
Lemma get_var_fbytes n d k v : get_var n d (fbytes k v) = d.
Proof. destruct v; reflexivity. Qed.
Lemma get_var_fmsgs n d k v : get_var n d (fmsgs k v) = d.
Proof. revert d. induction v; intros d; cbn; [reflexivity|apply IHv]. Qed.
Lemma get_bytes_fvar n d k v : get_bytes n d (fvar k v) = d.
Proof. unfold fvar. destruct (v =? 0); reflexivity. Qed.
Lemma get_bytes_fbytes n d k v : get_bytes n d (fbytes k v) = if k =? n then (match v with [] => d | _ => v end) else d.
Proof. destruct v; cbn; destruct (k =? n); reflexivity. Qed.
Lemma get_bytes_fmsgs n d k v : (k =? n) = false -> get_bytes n d (fmsgs k v) = d.
Proof. intros E. revert d. induction v; intros d; cbn; [reflexivity|]. rewrite E. apply IHv. Qed.
Lemma get_all_fvar n k v : get_all n (fvar k v) = [].
Proof. unfold fvar. destruct (v =? 0); reflexivity. Qed.
Lemma get_all_fbytes n k v : (k =? n) = false -> get_all n (fbytes k v) = [].
Proof. intros E. destruct v; cbn; [reflexivity|]. rewrite E. reflexivity. Qed.
Lemma get_all_fmsgs n v : get_all n (fmsgs n v) = v.
Proof. induction v; cbn; [reflexivity|]. rewrite Z.eqb_refl. f_equal. assumption. Qed.

Ltac eqb_closed := repeat match goal with |- context [(?a =? ?b)] => first [change (a =? b) with true | change (a =? b) with false] end; cbn match.
Ltac getters := rewrite ?get_var_app, ?get_bytes_app, ?get_var_fvar, ?get_var_fbytes, ?get_var_fmsgs, ?get_bytes_fvar, ?get_bytes_fbytes,
  ?get_bytes_fmsgs by reflexivity; eqb_closed.

(** A value that is left out when zero comes back. *)
Lemma zero_or v : (if v =? 0 then 0 else v) = v.
Proof. destruct (Z.eqb_spec v 0); congruence. Qed.
Lemma nil_or {A} (v : list A) : match v with [] => [] | _ => v end = v.
Proof. destruct v; reflexivity. Qed.

(** * Byte strings *)
Lemma exact_sized n l : zlen l = n -> exact n l = Some l.
Proof. intros <-. unfold exact. rewrite Z.eqb_refl. reflexivity. Qed.
Lemma is_zero_zeros n l : zlen l = n -> is_zero l -> l = zeros n.
Proof.
  intros <- Z. unfold zeros, zlen. rewrite Nat2Z.id. induction Z as [|b l -> _ IH]; cbn; [reflexivity|]. f_equal. exact IH.
Qed.
Lemma zeros_len n : 0 <= n -> zlen (zeros n) = n.
Proof. intros B. unfold zeros. rewrite zlen_repeat. lia. Qed.
Lemma zeros_is_zero n : is_zero (zeros n).
Proof. apply Forall_forall. intros x X. apply repeat_spec in X. assumption. Qed.
Lemma zeros_bytes n : bytes_ok (zeros n).
Proof. apply Forall_forall. intros x X. apply repeat_spec in X. subst x. unfold is_byte. lia. Qed.
Lemma big_val x : 0 <= x -> be_val (big x) = x.
Proof. intros B. unfold big. rewrite VmProofs.big_bytes_val by lia. lia. Qed.
Lemma big_ok x : bytes_ok (big x).
Proof. apply VmProofs.big_bytes_ok. Qed.
Lemma big_nonnil x : 0 < x -> exists b r, big x = b :: r.
Proof.
  intros B. destruct (big x) as [|b r] eqn:E; [|eauto].
  assert (be_val (big x) = 0) by (rewrite E; reflexivity). rewrite big_val in H by lia. lia.
Qed.
