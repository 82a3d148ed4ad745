From Coq Require Import ZArith List Bool Lia.
From Verif Require Import Lib WireModel WireSpec WireProofs.
Import ListNotations.
Open Scope Z_scope.

(** * Induction over nested blocks *)
Lemma block_ind' (P : block -> Prop) :
  (forall h l, Forall P l -> P (Blk h l)) -> forall b, P b.
Proof.
  intros S. fix F 1. intros [h l]. apply S. induction l as [|b l IH]; constructor; [apply F|exact IH].
Qed.
Lemma block_ok_unfold h l : block_ok (Blk h l) <-> head_ok h /\ Forall block_ok l.
Proof.
  cbn [block_ok]. split; intros [A B]; (split; [exact A|]).
  - induction l as [|b l IH]; [constructor|]. destruct B as [B1 B2]. constructor; auto.
  - induction B; [exact I|]. split; assumption.
Qed.
Lemma serialize_unfold h l : serialize (Blk h l) =
  match marshal_head h, all_some (map serialize l) with
  | Some x, Some ys => Some (x ++ concat (map (put_msg 18) ys) ++ marshal_tail h)
  | _, _ => None
  end.
Proof.
  cbn [serialize]. destruct (marshal_head h) as [x|]; [|reflexivity].
  match goal with |- match ?F l with _ => _ end = _ => assert (E : F l = match all_some (map serialize l) with Some ys => Some (concat (map (put_msg 18) ys)) | None => None end) end.
  { induction l as [|b l IH]; [reflexivity|]. cbn [map]. cbn [all_some]. destruct (serialize b) as [s|]; [|reflexivity].
    rewrite IH. destruct (all_some (map serialize l)); reflexivity. }
  rewrite E. destruct (all_some (map serialize l)); reflexivity.
Qed.
Definition de_all (l : list pb) : list block * bool :=
  (fix all (l : list pb) : list block * bool :=
     match l with
     | [] => ([], true)
     | s :: r => let '(b, ok) := de_proto s in
                 if ok then let '(bs, ok') := all r in (b :: bs, ok') else ([], false)
     end) l.
Lemma de_all_ok ps : forall bs, Forall2 (fun p b => de_proto p = (b, true)) ps bs -> de_all ps = (bs, true).
Proof.
  induction ps as [|p ps IH]; intros bs F; inversion F as [|? b ? bs' E F']; subst; [reflexivity|].
  unfold de_all. rewrite E. fold (de_all ps). rewrite (IH bs' F'). reflexivity.
Qed.

(** * What a head writes *)
Definition head_fields (h : head) (amount token : list Z) : fields :=
  fvar 1 (b_type h) ++ fbytes 2 (b_hash h) ++ fvar 3 (b_height h)
  ++ fbytes 4 (if 1 <? b_height h then b_prev h else [])
  ++ fbytes 5 (b_addr h) ++ fbytes 6 (b_key h)
  ++ fbytes 7 (if is_send (b_type h) then b_to h else [])
  ++ fbytes 8 amount ++ fbytes 9 token
  ++ fbytes 10 (if is_send (b_type h) then [] else b_from h)
  ++ fbytes 11 (b_data h) ++ fvar 12 (b_quota h) ++ fbytes 13 (obig (b_fee h))
  ++ fbytes 15 (obytes (b_log h)) ++ fbytes 16 (obig (b_diff h)) ++ fbytes 17 (b_nonce h).
Definition tail_fields (h : head) : fields := fbytes 19 (b_sig h) ++ fvar 20 (b_used h).
Lemma tail_enc h : marshal_tail h = enc (tail_fields h).
Proof. unfold marshal_tail, tail_fields. rewrite put_bytes_enc, put_var_enc, enc_app. reflexivity. Qed.
Definition amount_of (h : head) : list Z := if has_token (b_type h) then obig (b_amount h) else [].
Definition token_of (h : head) : list Z := if has_token (b_type h) then b_token h else [].
Lemma is_send_spec t : is_send t = true <-> sends t.
Proof. unfold is_send, sends, SendCreate, SendCall, SendReward, SendRefund. rewrite !orb_true_iff, !Z.eqb_eq. tauto. Qed.
Lemma has_token_spec t : has_token t = true <-> sends t \/ t = 7.
Proof. unfold has_token, GenesisReceive. rewrite orb_true_iff, is_send_spec, Z.eqb_eq. tauto. Qed.
Lemma head_enc h x : marshal_head h = Some x -> x = enc (head_fields h (amount_of h) (token_of h)).
Proof.
  unfold marshal_head, amount_of, token_of, head_fields. destruct (has_token (b_type h)).
  - destruct (b_amount h) as [a|]; [|discriminate]. intros E. apply some_inj' in E. subst x.
    rewrite !put_var_enc, !put_bytes_enc, <- !enc_app. reflexivity.
  - intros E. apply some_inj' in E. subst x. rewrite !put_var_enc, !put_bytes_enc, <- !enc_app. reflexivity.
Qed.
(** A field is not longer than the message. *)
Lemma in_enc_len fs k l : In (k, PBytes l) fs -> zlen l <= zlen (enc fs).
Proof.
  intros I. apply in_split in I. destruct I as [a [b ->]]. rewrite enc_app. unfold enc at 2. cbn [map concat enc1].
  unfold put_msg. rewrite !zlen_app. pose proof (zlen_nonneg (enc a)). fold (enc b). pose proof (zlen_nonneg (enc b)).
  pose proof (zlen_nonneg (uvarint (k * 8 + 2))). pose proof (zlen_nonneg (uvarint (zlen l))). lia.
Qed.
Lemma fields_ok_from_len fs :
  Forall (fun f => 1 <= fst f <= 2 ^ 29 - 1 /\ match snd f with PVar v => 0 <= v < 2 ^ 64 | PBytes _ => True | POther => False end) fs ->
  zlen (enc fs) < 2 ^ 64 -> Forall field_ok fs.
Proof.
  intros F L. apply Forall_forall. intros [k p] I. pose proof (proj1 (Forall_forall _ _) F (k, p) I) as [K P].
  split; [exact K|]. destruct p as [v|l|]; [exact P| |exact P]. cbn [snd]. pose proof (in_enc_len fs k l I). lia.
Qed.
Definition shape_ok (f : Z * payload) : Prop :=
  1 <= fst f <= 2 ^ 29 - 1 /\ match snd f with PVar v => 0 <= v < 2 ^ 64 | PBytes _ => True | POther => False end.
Lemma fvar_shape k v : 1 <= k <= 2 ^ 29 - 1 -> 0 <= v < 2 ^ 64 -> Forall shape_ok (fvar k v).
Proof. intros K V. unfold fvar. destruct (v =? 0); repeat (apply Forall_cons || apply Forall_nil); split; assumption. Qed.
Lemma fbytes_shape k l : 1 <= k <= 2 ^ 29 - 1 -> Forall shape_ok (fbytes k l).
Proof. intros K. unfold fbytes. destruct l; [constructor|]. constructor; [split; [assumption|exact I]|constructor]. Qed.
Lemma fmsgs_shape k ls : 1 <= k <= 2 ^ 29 - 1 -> Forall shape_ok (fmsgs k ls).
Proof. intros K. unfold fmsgs. induction ls; cbn [map]; constructor; [split; [assumption|exact I]|assumption]. Qed.
Ltac shapes := repeat (apply Forall_app; split); first [apply fvar_shape; [lia|assumption] | apply fbytes_shape; lia | apply fmsgs_shape; lia].

Definition all_fields (h : head) (xs : list (list Z)) : fields :=
  head_fields h (amount_of h) (token_of h) ++ fmsgs 18 xs ++ tail_fields h.
Lemma all_shape h xs : head_ok h -> Forall shape_ok (all_fields h xs).
Proof.
  intros [T _ _ HH _ _ _ _ _ _ _ _ _ _ _ Q U _ _ _ _ _]. unfold all_fields, head_fields, tail_fields.
  assert (0 <= b_type h < 2 ^ 64) by lia. shapes.
Qed.
Lemma get_all_fields h xs : get_all 18 (all_fields h xs) = xs.
Proof.
  unfold all_fields, head_fields, tail_fields. rewrite !get_all_app, !get_all_fvar, !get_all_fbytes, get_all_fmsgs by reflexivity.
  cbn [app]. apply app_nil_r.
Qed.

(** Reading a field back. *)
Lemma var_hit n d v r : get_var n d (fvar n v ++ r) = get_var n (if v =? 0 then d else v) r.
Proof. rewrite get_var_app, get_var_fvar, Z.eqb_refl. reflexivity. Qed.
Lemma var_skip n d k v r : (k =? n) = false -> get_var n d (fvar k v ++ r) = get_var n d r.
Proof. intros E. rewrite get_var_app, get_var_fvar, E. reflexivity. Qed.
Lemma var_bytes n d k v r : get_var n d (fbytes k v ++ r) = get_var n d r.
Proof. rewrite get_var_app, get_var_fbytes. reflexivity. Qed.
Lemma var_msgs n d k v r : get_var n d (fmsgs k v ++ r) = get_var n d r.
Proof. rewrite get_var_app, get_var_fmsgs. reflexivity. Qed.
Lemma bytes_hit n v r : get_bytes n [] (fbytes n v ++ r) = get_bytes n v r.
Proof. rewrite get_bytes_app, get_bytes_fbytes, Z.eqb_refl. destruct v; reflexivity. Qed.
Lemma bytes_skip n d k v r : (k =? n) = false -> get_bytes n d (fbytes k v ++ r) = get_bytes n d r.
Proof. intros E. rewrite get_bytes_app, get_bytes_fbytes, E. reflexivity. Qed.
Lemma bytes_var n d k v r : get_bytes n d (fvar k v ++ r) = get_bytes n d r.
Proof. rewrite get_bytes_app, get_bytes_fvar. reflexivity. Qed.
Lemma bytes_msgs n d k v r : (k =? n) = false -> get_bytes n d (fmsgs k v ++ r) = get_bytes n d r.
Proof. intros E. rewrite get_bytes_app, get_bytes_fmsgs by assumption. reflexivity. Qed.
Ltac reading :=
  repeat first [rewrite var_hit, zero_or | rewrite var_bytes | rewrite var_msgs | rewrite var_skip by reflexivity];
  repeat first [rewrite bytes_hit | rewrite bytes_var | rewrite bytes_skip by reflexivity | rewrite bytes_msgs by reflexivity];
  reflexivity.
Lemma fields_end h xs : all_fields h xs =
  fvar 1 (b_type h) ++ fbytes 2 (b_hash h) ++ fvar 3 (b_height h)
  ++ fbytes 4 (if 1 <? b_height h then b_prev h else [])
  ++ fbytes 5 (b_addr h) ++ fbytes 6 (b_key h)
  ++ fbytes 7 (if is_send (b_type h) then b_to h else [])
  ++ fbytes 8 (amount_of h) ++ fbytes 9 (token_of h)
  ++ fbytes 10 (if is_send (b_type h) then [] else b_from h)
  ++ fbytes 11 (b_data h) ++ fvar 12 (b_quota h) ++ fbytes 13 (obig (b_fee h))
  ++ fbytes 15 (obytes (b_log h)) ++ fbytes 16 (obig (b_diff h)) ++ fbytes 17 (b_nonce h)
  ++ fmsgs 18 xs ++ fbytes 19 (b_sig h) ++ fvar 20 (b_used h) ++ [].
Proof. unfold all_fields, head_fields, tail_fields. rewrite app_nil_r, <- !app_assoc. reflexivity. Qed.
Lemma read_vars h xs : get_var 1 0 (all_fields h xs) = b_type h /\ get_var 3 0 (all_fields h xs) = b_height h /\
  get_var 12 0 (all_fields h xs) = b_quota h /\ get_var 20 0 (all_fields h xs) = b_used h.
Proof. rewrite fields_end. repeat split; reading. Qed.
Lemma read_bytes h xs :
  get_bytes 2 [] (all_fields h xs) = b_hash h /\
  get_bytes 4 [] (all_fields h xs) = (if 1 <? b_height h then b_prev h else []) /\
  get_bytes 5 [] (all_fields h xs) = b_addr h /\
  get_bytes 6 [] (all_fields h xs) = b_key h /\
  get_bytes 7 [] (all_fields h xs) = (if is_send (b_type h) then b_to h else []) /\
  get_bytes 8 [] (all_fields h xs) = amount_of h /\
  get_bytes 9 [] (all_fields h xs) = token_of h /\
  get_bytes 10 [] (all_fields h xs) = (if is_send (b_type h) then [] else b_from h) /\
  get_bytes 11 [] (all_fields h xs) = b_data h /\
  get_bytes 13 [] (all_fields h xs) = obig (b_fee h) /\
  get_bytes 15 [] (all_fields h xs) = obytes (b_log h) /\
  get_bytes 16 [] (all_fields h xs) = obig (b_diff h) /\
  get_bytes 17 [] (all_fields h xs) = b_nonce h /\
  get_bytes 19 [] (all_fields h xs) = b_sig h.
Proof. rewrite fields_end. repeat match goal with |- _ /\ _ => split end; reading. Qed.

Lemma de_head h xs ps bs : head_ok h -> de_all ps = (bs, true) -> de_proto (Pb (all_fields h xs) ps) = (Blk h bs, true).
Proof.
  intros [T [LH BH] [LP BP] HH F1 [LA BA] BK [LT BT] TZ [LF BF] FZ [LK BK'] AM NA BD Q U [f [FE FP]] LG DF BN BS] DA.
  cbn [de_proto]. fold (de_all ps). rewrite DA.
  destruct (read_vars h xs) as (V1 & V3 & V12 & V20).
  destruct (read_bytes h xs) as (B2 & B4 & B5 & B6 & B7 & B8 & B9 & B10 & B11 & B13 & B15 & B16 & B17 & B19).
  rewrite V1, V3, V12, V20, B2, B4, B5, B6, B7, B8, B9, B10, B11, B13, B15, B16, B17, B19.
  clear V1 V3 V12 V20 B2 B4 B5 B6 B7 B8 B9 B10 B11 B13 B15 B16 B17 B19.
  rewrite (Z.mod_small (b_type h)) by assumption.
  rewrite (exact_sized 32 (b_hash h)) by assumption. rewrite (exact_sized 21 (b_addr h)) by assumption. cbn [or_zero].
  assert (P : (if 1 <? b_height h then or_zero 32 (exact 32 (if 1 <? b_height h then b_prev h else [])) else zeros 32) = b_prev h).
  { destruct (Z.ltb_spec 1 (b_height h)) as [G|G]; [rewrite exact_sized by assumption; reflexivity|].
    symmetry. apply is_zero_zeros; [assumption|]. apply F1. lia. }
  rewrite P. clear P.
  assert (TF : (if is_send (b_type h)
     then match exact 21 (if is_send (b_type h) then b_to h else []) with Some a => Some (a, zeros 32) | None => None end
     else match exact 32 (if is_send (b_type h) then [] else b_from h) with Some f => Some (zeros 21, f) | None => None end) = Some (b_to h, b_from h)).
  { destruct (is_send (b_type h)) eqn:S.
    - rewrite exact_sized by assumption. apply is_send_spec in S. rewrite (is_zero_zeros 32 (b_from h)); auto.
    - rewrite exact_sized by assumption. rewrite (is_zero_zeros 21 (b_to h)); auto. apply TZ. intros C. apply is_send_spec in C. congruence. }
  rewrite TF. clear TF.
  assert (TA : (if has_token (b_type h)
     then match exact 10 (token_of h) with Some tk => Some (tk, Some (be_val (amount_of h))) | None => None end
     else Some (zeros 10, None)) = Some (b_token h, b_amount h)).
  { unfold token_of, amount_of. destruct (has_token (b_type h)) eqn:S.
    - rewrite exact_sized by assumption. apply has_token_spec in S. destruct (AM S) as [a [-> A]]. cbn [obig]. rewrite big_val by assumption. reflexivity.
    - destruct NA as [-> TK]; [intros C; apply has_token_spec in C; congruence|]. rewrite (is_zero_zeros 10 (b_token h)); auto. }
  rewrite TA. clear TA.
  assert (G : match obytes (b_log h) with [] => Some None | l => match exact 32 l with Some x => Some (Some x) | None => None end end = Some (b_log h)).
  { destruct (b_log h) as [x|]; [|reflexivity]. destruct (LG x eq_refl) as [LX _]. cbn [obytes].
    destruct x as [|c x]; [discriminate LX|]. rewrite exact_sized by assumption. reflexivity. }
  assert (D : match obig (b_diff h) with [] => None | l => Some (be_val l) end = b_diff h).
  { destruct (b_diff h) as [d|]; [|reflexivity]. pose proof (DF d eq_refl) as DP. cbn [obig].
    destruct (big_nonnil d DP) as [c [r E]]. rewrite E, <- E, big_val by lia. reflexivity. }
  rewrite G, D. cbn [fst snd]. rewrite FE. cbn [obig]. rewrite big_val by assumption. rewrite <- FE. destruct h. reflexivity.
Qed.

(** * The round trip *)
Lemma unmarshal_block b : block_ok b -> forall l fuel, serialize b = Some l -> zlen l < 2 ^ 64 -> (length l < fuel)%nat ->
  exists p, unmarshal fuel l = Some p /\ de_proto p = (b, true).
Proof.
  induction b as [h bs IH] using block_ind'. intros O l fuel S L F. apply block_ok_unfold in O. destruct O as [OH OB].
  rewrite serialize_unfold in S. destruct (marshal_head h) as [x|] eqn:M; [|discriminate].
  destruct (all_some (map serialize bs)) as [ys|] eqn:A; [|discriminate]. apply some_inj' in S.
  assert (E : l = enc (all_fields h ys)).
  { rewrite <- S. unfold all_fields. rewrite !enc_app, <- put_msgs_enc, <- tail_enc. rewrite (head_enc h x M). reflexivity. }
  clear S M x. subst l.
  assert (FO : Forall field_ok (all_fields h ys)) by (apply fields_ok_from_len; [apply all_shape; assumption|assumption]).
  destruct fuel as [|fuel]; [lia|]. cbn [unmarshal]. rewrite parse_enc by assumption. rewrite get_all_fields.
  assert (Q : exists ps, all_some (map (unmarshal fuel) ys) = Some ps /\ Forall2 (fun p b => de_proto p = (b, true)) ps bs).
  { assert (LY : Forall (fun y => zlen y < 2 ^ 64 /\ (length y < fuel)%nat) ys).
    { apply Forall_forall. intros y Y.
      assert (In (18, PBytes y) (all_fields h ys)).
      { unfold all_fields. apply in_or_app. right. apply in_or_app. left. unfold fmsgs. apply in_map_iff. exists y. auto. }
      pose proof (in_enc_len _ _ _ H) as LE. split; [lia|].
      pose proof H as H2. apply in_split in H2. destruct H2 as [u [v EQ]]. rewrite EQ in F. rewrite enc_app in F.
      unfold enc in F at 2. cbn [map concat enc1] in F. unfold put_msg in F. rewrite !app_length in F.
      pose proof (uvarint_len (18 * 8 + 2)). lia. }
    clear FO L F OH. revert bs ys A IH OB LY.
    induction bs as [|b bs IHb]; intros ys A IH OB LY.
    - cbn in A. apply some_inj' in A. subst ys. exists []. split; [reflexivity|constructor].
    - cbn [map all_some] in A. destruct (serialize b) as [s|] eqn:SB; [|discriminate].
      destruct (all_some (map serialize bs)) as [ys'|] eqn:A'; [|discriminate]. apply some_inj' in A. subst ys.
      inversion IH as [|? ? IH1 IH2]; subst. inversion OB as [|? ? OB1 OB2]; subst. inversion LY as [|? ? [LY1 LY2] LY3]; subst.
      destruct (IH1 OB1 s fuel SB LY1 LY2) as [p [P1 P2]]. destruct (IHb ys' eq_refl IH2 OB2 LY3) as [ps [Q1 Q2]].
      exists (p :: ps). cbn [map all_some]. rewrite P1, Q1. split; [reflexivity|]. constructor; assumption. }
  destruct Q as [ps [Q1 Q2]]. rewrite Q1. exists (Pb (all_fields h ys) ps). split; [reflexivity|].
  apply de_head; [assumption|]. apply de_all_ok. exact Q2.
Qed.
Lemma serialize_total b : block_ok b -> exists l, serialize b = Some l.
Proof.
  induction b as [h bs IH] using block_ind'. intros O. apply block_ok_unfold in O. destruct O as [OH OB].
  rewrite serialize_unfold.
  assert (exists x, marshal_head h = Some x) as [x ->].
  { unfold marshal_head. destruct (has_token (b_type h)) eqn:S; [|eexists; reflexivity].
    apply has_token_spec in S. destruct (ok_amount h OH S) as [a [-> _]]. eexists. reflexivity. }
  assert (exists ys, all_some (map serialize bs) = Some ys) as [ys ->]; [|eexists; reflexivity].
  clear OH. induction bs as [|b bs IHb]; [exists []; reflexivity|].
  inversion IH as [|? ? IH1 IH2]; subst. inversion OB as [|? ? OB1 OB2]; subst.
  destruct (IH1 OB1) as [s S]. destruct (IHb IH2 OB2) as [ys Y]. exists (s :: ys). cbn [map all_some]. rewrite S, Y. reflexivity.
Qed.
