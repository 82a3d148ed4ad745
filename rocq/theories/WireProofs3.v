From Coq Require Import ZArith List Bool Lia.
From Verif Require Import Lib WireModel WireSpec WireProofs WireProofs2.
Import ListNotations.
Open Scope Z_scope.

(** * What a reader can return *)
Lemma bytes_firstn n (l : list Z) : bytes_ok l -> bytes_ok (firstn n l).
Proof. intros F. rewrite <- (firstn_skipn n l) in F. apply Forall_app in F. tauto. Qed.
Lemma bytes_skipn n (l : list Z) : bytes_ok l -> bytes_ok (skipn n l).
Proof. intros F. rewrite <- (firstn_skipn n l) in F. apply Forall_app in F. tauto. Qed.
Lemma read_varint_ok n : forall l v r, bytes_ok l -> read_varint n l = Some (v, r) -> 0 <= v < 2 * 128 ^ Z.of_nat n /\ bytes_ok r.
Proof.
  induction n as [|n IH]; intros l v r B E; destruct l as [|b l]; [discriminate| |discriminate|]; cbn [read_varint] in E; inversion B as [|? ? B1 B2]; subst; unfold is_byte in B1.
  - destruct (Z.ltb_spec b 2); [|discriminate]. apply some_inj' in E. assert (b = v /\ l = r) as [-> ->] by (split; congruence).
    split; [|assumption]. change (128 ^ Z.of_nat 0) with 1. lia.
  - rewrite Nat2Z.inj_succ, Z.pow_succ_r by lia. pose proof (Z.pow_pos_nonneg 128 (Z.of_nat n)).
    destruct (Z.ltb_spec b 128).
    + apply some_inj' in E. assert (b = v /\ l = r) as [-> ->] by (split; congruence). split; [lia|assumption].
    + destruct (read_varint n l) as [[v' r']|] eqn:R; [|discriminate]. apply some_inj' in E.
      assert (b - 128 + 128 * v' = v /\ r' = r) as [V ->] by (split; congruence). destruct (IH l v' r B2 R). split; [lia|assumption].
Qed.
Lemma read_uvarint_ok l v r : bytes_ok l -> read_uvarint l = Some (v, r) -> 0 <= v < 2 ^ 64 /\ bytes_ok r.
Proof. intros B E. apply read_varint_ok in E; [|assumption]. change (2 * 128 ^ Z.of_nat 9) with (2 ^ 64) in E. exact E. Qed.
Lemma take_ok n l a r : bytes_ok l -> take_bytes n l = Some (a, r) -> bytes_ok a /\ bytes_ok r.
Proof.
  unfold take_bytes. intros B E. destruct (zlen l <? n); [discriminate|]. apply some_inj' in E.
  assert (firstn (Z.to_nat n) l = a /\ skipn (Z.to_nat n) l = r) as [<- <-] by (split; congruence).
  split; [apply bytes_firstn|apply bytes_skipn]; assumption.
Qed.
Definition got_ok (p : payload) : Prop := match p with PVar v => 0 <= v < 2 ^ 64 | PBytes l => bytes_ok l | POther => True end.
Lemma read_scalar_ok t l p r : bytes_ok l -> read_scalar t l = Some (p, r) -> got_ok p /\ bytes_ok r.
Proof.
  unfold read_scalar. intros B E. destruct (t =? 0).
  { destruct (read_uvarint l) as [[v r']|] eqn:R; [|discriminate]. apply read_uvarint_ok in R; [|assumption].
    apply some_inj' in E. assert (PVar v = p /\ r' = r) as [<- <-] by (split; congruence). exact R. }
  destruct (t =? 1).
  { destruct (take_bytes 8 l) as [[v r']|] eqn:R; [|discriminate]. apply take_ok in R; [|assumption].
    apply some_inj' in E. assert (POther = p /\ r' = r) as [<- <-] by (split; congruence). split; [exact I|tauto]. }
  destruct (t =? 5).
  { destruct (take_bytes 4 l) as [[v r']|] eqn:R; [|discriminate]. apply take_ok in R; [|assumption].
    apply some_inj' in E. assert (POther = p /\ r' = r) as [<- <-] by (split; congruence). split; [exact I|tauto]. }
  destruct (t =? 2); [|discriminate].
  destruct (read_uvarint l) as [[n r1]|] eqn:R; [|discriminate]. apply read_uvarint_ok in R; [|assumption]. destruct R as [_ R].
  destruct (take_bytes n r1) as [[v r']|] eqn:T; [|discriminate]. apply take_ok in T; [|assumption].
  apply some_inj' in E. assert (PBytes v = p /\ r' = r) as [<- <-] by (split; congruence). exact T.
Qed.
Lemma skip_groups_ok fuel : forall st l r, bytes_ok l -> skip_groups fuel st l = Some r -> bytes_ok r.
Proof.
  induction fuel as [|fuel IH]; intros st l r B E; destruct st as [|g st]; cbn [skip_groups] in E;
    [apply some_inj' in E; subst; assumption|discriminate|apply some_inj' in E; subst; assumption|].
  destruct (read_uvarint l) as [[tag r1]|] eqn:R; [|discriminate]. apply read_uvarint_ok in R; [|assumption]. destruct R as [_ R].
  destruct ((tag / 8 <? 1) || (2 ^ 31 - 1 <? tag / 8)); [discriminate|].
  destruct (tag mod 8 =? 4); [destruct (tag / 8 =? g); [|discriminate]; eapply IH; eassumption|].
  destruct (tag mod 8 =? 3); [eapply IH; eassumption|].
  destruct (read_scalar (tag mod 8) r1) as [[p r2]|] eqn:S; [|discriminate]. apply read_scalar_ok in S; [|assumption].
  eapply IH; [apply S|eassumption].
Qed.
Lemma read_fields_ok fuel : forall l fs, bytes_ok l -> read_fields fuel l = Some fs -> Forall (fun f => got_ok (snd f)) fs.
Proof.
  induction fuel as [|fuel IH]; intros l fs B E; destruct l as [|b l]; cbn [read_fields] in E;
    [apply some_inj' in E; subst; constructor|discriminate|apply some_inj' in E; subst; constructor|].
  destruct (read_uvarint (b :: l)) as [[tag r1]|] eqn:R; [|discriminate]. apply read_uvarint_ok in R; [|assumption]. destruct R as [_ R].
  destruct ((tag / 8 <? 1) || (2 ^ 29 - 1 <? tag / 8)); [discriminate|].
  destruct (tag mod 8 =? 3).
  - destruct (skip_groups (length r1) [tag / 8] r1) as [r2|] eqn:S; [|discriminate]. apply skip_groups_ok in S; [|assumption].
    destruct (read_fields fuel r2) as [fs'|] eqn:F; [|discriminate]. apply some_inj' in E. subst fs.
    constructor; [exact I|]. eapply IH; eassumption.
  - destruct (read_scalar (tag mod 8) r1) as [[p r2]|] eqn:S; [|discriminate]. apply read_scalar_ok in S; [|assumption]. destruct S as [P S].
    destruct (read_fields fuel r2) as [fs'|] eqn:F; [|discriminate]. apply some_inj' in E. subst fs.
    constructor; [exact P|]. eapply IH; eassumption.
Qed.
Lemma parse_ok l fs : bytes_ok l -> parse l = Some fs -> Forall (fun f => got_ok (snd f)) fs.
Proof. apply read_fields_ok. Qed.
Lemma get_var_ok n fs : Forall (fun f => got_ok (snd f)) fs -> forall d, 0 <= d < 2 ^ 64 -> 0 <= get_var n d fs < 2 ^ 64.
Proof.
  induction 1 as [|[k p] fs G _ IH]; intros d D; [exact D|]. destruct p as [v|v|]; cbn [get_var]; apply IH; [|assumption|assumption].
  destruct (k =? n); [exact G|assumption].
Qed.
Lemma get_bytes_ok n fs : Forall (fun f => got_ok (snd f)) fs -> forall d, bytes_ok d -> bytes_ok (get_bytes n d fs).
Proof.
  induction 1 as [|[k p] fs G _ IH]; intros d D; [exact D|]. destruct p as [v|v|]; cbn [get_bytes]; apply IH; [assumption| |assumption].
  destruct (k =? n); [exact G|assumption].
Qed.
Lemma get_all_ok n fs : Forall (fun f => got_ok (snd f)) fs -> Forall bytes_ok (get_all n fs).
Proof.
  induction 1 as [|[k p] fs G _ IH]; [constructor|]. destruct p as [v|v|]; cbn [get_all]; [assumption| |assumption].
  destruct (k =? n); [constructor; [exact G|assumption]|assumption].
Qed.
Lemma exact_some n l x : exact n l = Some x -> x = l /\ zlen l = n.
Proof. unfold exact. destruct (Z.eqb_spec (zlen l) n); intros E; [|discriminate]. apply some_inj' in E. auto. Qed.
Lemma be_val_nonneg l : bytes_ok l -> 0 <= be_val l.
Proof. intros B. pose proof (be_val_range l B). lia. Qed.

(** * A block that was read without an error is well formed *)
Fixpoint pb_ok (p : pb) : Prop :=
  let '(Pb fs subs) := p in
  Forall (fun f => got_ok (snd f)) fs /\ (fix all (l : list pb) : Prop := match l with [] => True | s :: r => pb_ok s /\ all r end) subs.
Lemma pb_ok_unfold fs subs : pb_ok (Pb fs subs) <-> Forall (fun f => got_ok (snd f)) fs /\ Forall pb_ok subs.
Proof.
  cbn [pb_ok]. split; intros [A B]; (split; [exact A|]).
  - induction subs as [|b l IH]; [constructor|]. destruct B as [B1 B2]. constructor; auto.
  - induction B; [exact I|]. split; assumption.
Qed.
Lemma unmarshal_ok fuel : forall l p, bytes_ok l -> unmarshal fuel l = Some p -> pb_ok p.
Proof.
  induction fuel as [|fuel IH]; intros l p B E; [discriminate|]. cbn [unmarshal] in E.
  destruct (parse l) as [fs|] eqn:P; [|discriminate]. apply parse_ok in P; [|assumption].
  destruct (all_some (map (unmarshal fuel) (get_all 18 fs))) as [subs|] eqn:A; [|discriminate]. apply some_inj' in E. subst p.
  apply pb_ok_unfold. split; [assumption|]. pose proof (get_all_ok 18 fs P) as G. revert subs A.
  induction (get_all 18 fs) as [|y ys IHy]; intros subs A; cbn [map all_some] in A; [apply some_inj' in A; subst; constructor|].
  inversion G as [|? ? G1 G2]; subst. destruct (unmarshal fuel y) as [q|] eqn:U; [|discriminate].
  destruct (all_some (map (unmarshal fuel) ys)) as [qs|] eqn:Q; [|discriminate]. apply some_inj' in A. subst subs.
  constructor; [eapply IH; eassumption|]. apply IHy; [assumption|reflexivity].
Qed.
Lemma pb_ind' (P : pb -> Prop) : (forall fs l, Forall P l -> P (Pb fs l)) -> forall b, P b.
Proof. intros S. fix F 1. intros [h l]. apply S. induction l as [|b l IH]; constructor; [apply F|exact IH]. Qed.
Lemma de_all_spec ps : forall bs, de_all ps = (bs, true) -> Forall2 (fun p b => de_proto p = (b, true)) ps bs.
Proof.
  induction ps as [|p ps IH]; intros bs E; unfold de_all in E.
  - assert (bs = []) by congruence. subst. constructor.
  - destruct (de_proto p) as [b ok] eqn:D. destruct ok; [|congruence]. fold (de_all ps) in E. destruct (de_all ps) as [bs' ok] eqn:A.
    assert (ok = true) by congruence. assert (bs = b :: bs') by congruence. subst. constructor; [assumption|]. apply IH. reflexivity.
Qed.
Lemma normal_unfold h l : normal (Blk h l) = Blk (normal_head h) (map normal l).
Proof. reflexivity. Qed.
Lemma sized_zeros n : 0 <= n -> sized n (zeros n).
Proof. intros N. split; [apply zeros_len; assumption|apply zeros_bytes]. Qed.

Lemma accepted_head fs subs b : Forall (fun f => got_ok (snd f)) fs -> de_proto (Pb fs subs) = (b, true) ->
  head_ok (normal_head (b_head b)) /\ de_all subs = (b_sends b, true).
Proof.
  intros G E. cbn [de_proto] in E. fold (de_all subs) in E.
  assert (BV : forall n, 0 <= get_var n 0 fs < 2 ^ 64) by (intros n; apply get_var_ok; [assumption|lia]).
  assert (BB : forall n, bytes_ok (get_bytes n [] fs)) by (intros n; apply get_bytes_ok; [assumption|constructor]).
  assert (OZ : sized 32 (or_zero 32 (exact 32 (get_bytes 2 [] fs)))).
  { destruct (exact 32 (get_bytes 2 [] fs)) as [x|] eqn:X; [|apply sized_zeros; lia]. apply exact_some in X. destruct X as [-> X]. cbn [or_zero]. split; auto. }
  assert (OP : sized 32 (if 1 <? get_var 3 0 fs then or_zero 32 (exact 32 (get_bytes 4 [] fs)) else zeros 32)).
  { destruct (1 <? get_var 3 0 fs); [|apply sized_zeros; lia].
    destruct (exact 32 (get_bytes 4 [] fs)) as [x|] eqn:X; [|apply sized_zeros; lia]. apply exact_some in X. destruct X as [-> X]. cbn [or_zero]. split; auto. }
  assert (OF : get_var 3 0 fs <= 1 -> is_zero (if 1 <? get_var 3 0 fs then or_zero 32 (exact 32 (get_bytes 4 [] fs)) else zeros 32)).
  { intros L. destruct (Z.ltb_spec 1 (get_var 3 0 fs)); [lia|]. apply zeros_is_zero. }
  set (prev := if 1 <? get_var 3 0 fs then _ else _) in *. set (hash := or_zero 32 (exact 32 (get_bytes 2 [] fs))) in *.
  set (t := get_var 1 0 fs mod 256) in *. assert (T : 0 <= t < 256) by (apply Z.mod_pos_bound; lia). clearbody prev hash t.
  destruct (exact 21 (get_bytes 5 [] fs)) as [addr|] eqn:A; [|congruence]. apply exact_some in A. destruct A as [-> A].
  assert (exists to from, (if is_send t then match exact 21 (get_bytes 7 [] fs) with Some a => Some (a, zeros 32) | None => None end
           else match exact 32 (get_bytes 10 [] fs) with Some f => Some (zeros 21, f) | None => None end) = Some (to, from) /\
           sized 21 to /\ sized 32 from /\ (~ sends t -> is_zero to) /\ (sends t -> is_zero from)) as (to & from & TF & S1 & S2 & S3 & S4).
  { destruct (is_send t) eqn:S.
    - destruct (exact 21 (get_bytes 7 [] fs)) as [x|] eqn:X; [|congruence]. apply exact_some in X. destruct X as [-> X].
      do 2 eexists. split; [reflexivity|]. apply is_send_spec in S.
      split; [split; auto|]. split; [apply sized_zeros; lia|]. split; [tauto|]. intros _. apply zeros_is_zero.
    - destruct (exact 32 (get_bytes 10 [] fs)) as [x|] eqn:X; [|congruence]. apply exact_some in X. destruct X as [-> X].
      do 2 eexists. split; [reflexivity|]. split; [apply sized_zeros; lia|]. split; [split; auto|].
      split; [intros _; apply zeros_is_zero|]. intros C. apply is_send_spec in C. congruence. }
  rewrite TF in E. clear TF.
  assert (exists token amount, (if has_token t then match exact 10 (get_bytes 9 [] fs) with
               | Some tk => Some (tk, Some (be_val (get_bytes 8 [] fs))) | None => None end else Some (zeros 10, None)) = Some (token, amount) /\
           sized 10 token /\ (sends t \/ t = 7 -> exists a, amount = Some a /\ 0 <= a) /\ (~ (sends t \/ t = 7) -> amount = None /\ is_zero token))
    as (token & amount & TA & S5 & S6 & S7).
  { destruct (has_token t) eqn:S.
    - destruct (exact 10 (get_bytes 9 [] fs)) as [x|] eqn:X; [|congruence]. apply exact_some in X. destruct X as [-> X].
      do 2 eexists. split; [reflexivity|]. apply has_token_spec in S. split; [split; auto|]. split; [|tauto].
      intros _. eexists. split; [reflexivity|]. apply be_val_nonneg, BB.
    - do 2 eexists. split; [reflexivity|]. split; [apply sized_zeros; lia|]. split.
      + intros C. apply has_token_spec in C. congruence.
      + intros _. split; [reflexivity|apply zeros_is_zero]. }
  rewrite TA in E. clear TA.
  assert (exists log, match get_bytes 15 [] fs with [] => Some None | l => match exact 32 l with Some x => Some (Some x) | None => None end end = Some log /\
     (forall x, log = Some x -> sized 32 x)) as (log & LG & S8).
  { pose proof (BB 15) as B15. destruct (get_bytes 15 [] fs) as [|c r]; [exists None; split; [reflexivity|discriminate]|].
    destruct (exact 32 (c :: r)) as [x|] eqn:X; [|congruence]. apply exact_some in X. destruct X as [-> X].
    eexists. split; [reflexivity|]. intros x Q. apply some_inj' in Q. subst x. split; auto. }
  rewrite LG in E. clear LG.
  destruct (de_all subs) as [bs ok] eqn:DA. assert (ok = true) by congruence. subst ok.
  assert (EB : b = Blk (mkH t hash prev (get_var 3 0 fs) (get_bytes 5 [] fs) (get_bytes 6 [] fs) to amount token from (get_bytes 11 [] fs)
     (get_var 12 0 fs) (get_var 20 0 fs) (Some (be_val (get_bytes 13 [] fs))) log
     match get_bytes 16 [] fs with [] => None | l => Some (be_val l) end (get_bytes 17 [] fs) (get_bytes 19 [] fs)) bs) by (symmetry; exact (f_equal fst E)).
  clear E. subst b. cbn [b_head b_sends]. split; [|reflexivity].
  constructor; cbn [normal_head b_type b_hash b_prev b_height b_addr b_key b_to b_amount b_token b_from b_data b_quota b_used b_fee b_log b_diff b_nonce b_sig]; auto.
  - split; auto.
  - eexists. split; [reflexivity|]. apply be_val_nonneg, BB.
  - intros d D. pose proof (BB 16) as B16. destruct (get_bytes 16 [] fs) as [|c r]; [discriminate|].
    pose proof (be_val_nonneg _ B16). destruct (Z.eqb_spec (be_val (c :: r)) 0); [discriminate|]. apply some_inj' in D. lia.
Qed.
Lemma accepted_ok p : pb_ok p -> forall b, de_proto p = (b, true) -> block_ok (normal b).
Proof.
  induction p as [fs subs IH] using pb_ind'. intros O b E. apply pb_ok_unfold in O. destruct O as [O1 O2].
  destruct (accepted_head fs subs b O1 E) as [A1 A2]. destruct b as [h bs]. cbn [b_head b_sends] in *.
  rewrite normal_unfold. apply block_ok_unfold. split; [assumption|]. clear A1 E O1. apply de_all_spec in A2.
  induction A2 as [|p b ps bs E A2 IHA]; [constructor|]. inversion IH; subst. inversion O2; subst. cbn [map]. constructor; auto.
Qed.
