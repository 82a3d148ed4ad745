(** Proofs for DexProps: order ids, funds and the invariant over histories. *)
From Coq Require Import ZArith List Bool Lia Sorted.
From Verif Require Import Lib DexFloat DexFloatProofs DexModel DexSpec DexProofs DexProofs2 DexProofs3.
Import ListNotations.
Open Scope Z_scope.

(** * Order ids *)

Lemma div_mix a b k : 0 < k -> 0 <= b < k -> (a * k + b) / k = a.
Proof. intros K B. rewrite Z.div_add_l by lia. rewrite Z.div_small; lia. Qed.
Lemma mod_mix a b k : 0 < k -> 0 <= b < k -> (a * k + b) mod k = b.
Proof. intros K B. rewrite Z.add_comm, Z_mod_plus_full. apply Z.mod_small; lia. Qed.

Lemma price_key_range s p : 0 <= p < 2 ^ 80 -> 0 <= price_key s p < 2 ^ 80.
Proof. intro H. unfold price_key, price_max. destruct s; lia. Qed.
Lemma price_key_inv s p : price_key s (price_key s p) = p.
Proof. unfold price_key. destruct s; lia. Qed.

(** The parts of an id with the powers of two written out. *)
Lemma id_time_pow id : id_time id = id / 2 ^ 24 mod 2 ^ 40.
Proof. unfold id_time. rewrite Z.shiftr_div_pow2 by lia. reflexivity. Qed.
Lemma id_side_pow id : id_side id = (id / 2 ^ 144 mod 2 ^ 8 =? 1).
Proof. unfold id_side. rewrite Z.shiftr_div_pow2 by lia. reflexivity. Qed.
Lemma id_price_pow id : id_price id = price_key (id_side id) (id / 2 ^ 64 mod 2 ^ 80).
Proof. unfold id_price. rewrite Z.shiftr_div_pow2 by lia. reflexivity. Qed.
Lemma id_market_pow id : id_market id = id / 2 ^ 152 mod 2 ^ 24.
Proof. unfold id_market. rewrite Z.shiftr_div_pow2 by lia. reflexivity. Qed.

Local Opaque id_time id_side id_price id_market.

Section Compose.
Variables (mk : Z) (s : bool) (p t n : Z).
Hypotheses (Hmk : 0 <= mk < 2 ^ 24) (Hp : 0 <= p < 2 ^ 80) (Ht : 0 <= t < 2 ^ 40) (Hn : 0 <= n < 2 ^ 24).

Let A := mk * 2 ^ 8 + (if s then 1 else 0).
Lemma compose_flat : compose_id mk s p t n = ((A * 2 ^ 80 + price_key s p) * 2 ^ 40 + t) * 2 ^ 24 + n.
Proof.
  unfold compose_id, A. rewrite (Z.mod_small mk), (Z.mod_small t), (Z.mod_small n) by assumption. reflexivity.
Qed.
Lemma compose_low24 : compose_id mk s p t n / 2 ^ 24 = (A * 2 ^ 80 + price_key s p) * 2 ^ 40 + t.
Proof. rewrite compose_flat. apply div_mix; [reflexivity|assumption]. Qed.
Lemma compose_low64 : compose_id mk s p t n / 2 ^ 64 = A * 2 ^ 80 + price_key s p.
Proof.
  change (2 ^ 64) with (2 ^ 24 * 2 ^ 40). rewrite <- Z.div_div by lia. rewrite compose_low24.
  apply div_mix; [reflexivity|assumption].
Qed.
Lemma compose_low144 : compose_id mk s p t n / 2 ^ 144 = A.
Proof.
  change (2 ^ 144) with (2 ^ 64 * 2 ^ 80). rewrite <- Z.div_div by lia. rewrite compose_low64.
  apply div_mix; [reflexivity|]. apply price_key_range. exact Hp.
Qed.
Lemma compose_time : id_time (compose_id mk s p t n) = t.
Proof. rewrite id_time_pow. rewrite compose_low24. apply mod_mix; [reflexivity|assumption]. Qed.
Lemma compose_side : id_side (compose_id mk s p t n) = s.
Proof.
  rewrite id_side_pow. rewrite compose_low144. unfold A. rewrite mod_mix; [|reflexivity|destruct s; lia]. now destruct s.
Qed.
Lemma compose_price : id_price (compose_id mk s p t n) = p.
Proof.
  rewrite id_price_pow. rewrite compose_side, compose_low64, mod_mix; [apply price_key_inv|reflexivity|].
  apply price_key_range, Hp.
Qed.
Lemma compose_market : id_market (compose_id mk s p t n) = mk.
Proof.
  rewrite id_market_pow. change (2 ^ 152) with (2 ^ 144 * 2 ^ 8). rewrite <- Z.div_div by lia.
  rewrite compose_low144. unfold A. rewrite div_mix; [|reflexivity|destruct s; lia]. apply Z.mod_small, Hmk.
Qed.
Lemma compose_key : compose_id mk s p t n mod 2 ^ 64 = t * 2 ^ 24 + n.
Proof.
  rewrite compose_flat.
  replace (((A * 2 ^ 80 + price_key s p) * 2 ^ 40 + t) * 2 ^ 24 + n)
    with ((A * 2 ^ 80 + price_key s p) * 2 ^ 64 + (t * 2 ^ 24 + n)) by (change (2 ^ 64) with (2 ^ 40 * 2 ^ 24); ring).
  apply mod_mix; [reflexivity|]. lia.
Qed.
Lemma compose_range : 0 <= compose_id mk s p t n < 2 ^ 176.
Proof.
  rewrite compose_flat. pose proof (price_key_range s p Hp). unfold A. destruct s; lia.
Qed.
Lemma compose_byte : compose_id mk s p t n / 2 ^ 144 mod 2 ^ 8 <= 1.
Proof. rewrite compose_low144. unfold A. rewrite mod_mix; [|reflexivity|destruct s; lia]. destruct s; lia. Qed.
End Compose.

Definition wf_id (id : Z) : Prop := 0 <= id < 2 ^ 176 /\ id / 2 ^ 144 mod 2 ^ 8 <= 1.

(** * Funds *)

Lemma keyeq_spec a b : keyeq a b = true <-> a = b.
Proof.
  unfold keyeq. destruct a, b. cbn [fst snd]. rewrite andb_true_iff, !Z.eqb_eq. split; [intros [-> ->]; reflexivity|].
  intro H. injection H as -> ->. auto.
Qed.
Lemma keyeq_false a b : a <> b -> keyeq a b = false.
Proof. intro H. destruct (keyeq a b) eqn:E; [|reflexivity]. apply keyeq_spec in E. contradiction. Qed.
Lemma acct_pset k k' v l : acct k (pset k' v l) = if keyeq k k' then v else acct k l.
Proof.
  unfold acct. induction l as [|[k2 v2] r IH]; cbn [pset pget].
  - destruct (keyeq k k'); reflexivity.
  - destruct (keyeq k' k2) eqn:E; cbn [pget].
    + apply keyeq_spec in E. subst k2. destruct (keyeq k k') eqn:E2; reflexivity.
    + destruct (keyeq k k2) eqn:E2.
      * apply keyeq_spec in E2. subst k2. rewrite keyeq_false; [reflexivity|]. intros ->. 
        assert (keyeq k' k' = true) by (now apply keyeq_spec). congruence.
      * exact IH.
Qed.
Lemma owned_pset t k v l : owned t (pset k v l)
  = owned t l + (if snd k =? t then (fst v + snd v) - (fst (acct k l) + snd (acct k l)) else 0).
Proof.
  unfold owned, acct. induction l as [|[k2 v2] r IH]; cbn [pset pget].
  - cbn [total fold_right fst snd]. destruct (snd k =? t); lia.
  - destruct (keyeq k k2) eqn:E.
    + apply keyeq_spec in E. subst k2. rewrite !total_cons. cbn [fst snd]. destruct (snd k =? t); lia.
    + rewrite !total_cons, IH. cbn [fst snd]. lia.
Qed.
Definition nnv (e : (Z * Z) * (Z * Z)) : Prop := 0 <= fst (snd e) /\ 0 <= snd (snd e).
Lemma pset_nn k v l : Forall nnv l -> 0 <= fst v -> 0 <= snd v -> Forall nnv (pset k v l).
Proof.
  intros H A B. induction H as [|[k2 v2] r X R IH]; cbn [pset].
  - constructor; [split; assumption|constructor].
  - destruct (keyeq k k2); constructor; auto. split; assumption.
Qed.
Lemma acct_nn k l : Forall nnv l -> 0 <= fst (acct k l) /\ 0 <= snd (acct k l).
Proof.
  unfold acct. induction 1 as [|[k2 v2] r X R IH]; cbn [pget]; [cbn; lia|].
  destruct (keyeq k k2); [exact X|exact IH].
Qed.
Lemma tget_tadd t t' v l : tget t (tadd t' v l) = tget t l + (if t =? t' then v else 0).
Proof.
  induction l as [|[t2 v2] r IH]; cbn [tadd tget].
  - destruct (t =? t'); lia.
  - destruct (Z.eqb_spec t' t2) as [->|E]; cbn [tget].
    + destruct (t =? t2); lia.
    + rewrite IH. destruct (Z.eqb_spec t t2); [|lia]. destruct (Z.eqb_spec t t'); lia.
Qed.

Definition weight (m : market) (a t : Z) (a' : Z) (b : bool) : Z :=
  if (a' =? a) && ((if b then m_trade m else m_quote m) =? t) then 1 else 0.
Definition tweight (m : market) (t : Z) (b : bool) : Z :=
  if (if b then m_trade m else m_quote m) =? t then 1 else 0.
Lemma takes_weight m a t l : total (settle_takes m a t) l = takes (weight m a t) l.
Proof.
  apply total_ext. intros s _. unfold settle_takes, weight, s_token. destruct (_ && _); lia.
Qed.

Lemma settle_one e v s : e_fee e = true -> snn s -> s_rel s + s_red s <= snd v ->
  settle_account e v s = Some (fst v + s_rel s + s_inc s, snd v - (s_rel s + s_red s)).
Proof.
  intros E (S1 & S2 & S3) L. destruct v as [av lk]. cbn [fst snd] in *. unfold settle_account, safe_sub, subabs.
  destruct (Z.eqb_spec (s_red s) 0) as [R0|R0].
  - destruct (Z.eqb_spec (s_rel s) 0) as [R1|R1]; [f_equal; f_equal; lia|].
    destruct (Z.ltb_spec lk (s_rel s)); [lia|]. cbn [andb]. f_equal. f_equal; lia.
  - destruct (Z.ltb_spec lk (s_red s)); [lia|]. cbn [andb].
    destruct (Z.eqb_spec (s_rel s) 0) as [R1|R1]; [f_equal; f_equal; lia|].
    destruct (Z.ltb_spec (Z.abs (lk - s_red s)) (s_rel s)); [lia|]. cbn [andb]. f_equal. f_equal; lia.
Qed.

Lemma settle_all_spec e m : e_fee e = true -> forall l acc, Forall snn l -> Forall nnv acc ->
  (forall a t, takes (weight m a t) l <= snd (acct (a, t) acc)) ->
  exists acc', settle_all e m l acc = Some acc' /\ Forall nnv acc'
  /\ (forall a t, snd (acct (a, t) acc') = snd (acct (a, t) acc) - takes (weight m a t) l)
  /\ (forall t, owned t acc' = owned t acc + net (tweight m t) l).
Proof.
  intro E. induction l as [|s r IH]; intros acc S N H; cbn [settle_all].
  { exists acc. split; [reflexivity|]. split; [exact N|]. split; intros; cbn; lia. }
  inversion S as [|? ? S1 S2]; subst.
  assert (TN : forall a t, 0 <= takes (weight m a t) r).
  { intros a t. apply total_nonneg. intros x X. pose proof (proj1 (Forall_forall _ _) S2 x X) as (Y1 & Y2 & Y3).
    unfold weight. destruct (_ && _); lia. }
  set (k := (s_addr s, s_token m s)).
  assert (L : s_rel s + s_red s <= snd (acct k acc)).
  { specialize (H (s_addr s) (s_token m s)). specialize (TN (s_addr s) (s_token m s)).
    unfold takes in *. rewrite total_cons in H.
    assert (X : weight m (s_addr s) (s_token m s) (s_addr s) (s_trade s) = 1).
    { unfold weight, s_token. now rewrite !Z.eqb_refl. }
    rewrite X in H. unfold k. lia. }
  rewrite (settle_one e _ s E S1 L). set (v := (_, _)).
  assert (KW : forall a t, (if keyeq (a, t) k then 1 else 0) = weight m a t (s_addr s) (s_trade s)).
  { intros a t. unfold keyeq, k, weight, s_token. cbn [fst snd]. rewrite (Z.eqb_sym a), (Z.eqb_sym t). reflexivity. }
  destruct (acct_nn k acc N) as [N1 N2]. destruct S1 as (P1 & P2 & P3).
  destruct (IH (pset k v acc)) as (acc' & A1 & A2 & A3 & A4); auto.
  { apply pset_nn; [exact N| |]; unfold v; cbn [fst snd]; lia. }
  { intros a t. rewrite acct_pset. specialize (H a t). unfold takes in H. rewrite total_cons in H. fold (takes (weight m a t) r) in H.
    specialize (KW a t). destruct (keyeq (a, t) k) eqn:Q.
    - apply keyeq_spec in Q. rewrite <- KW in H. rewrite Q in H. unfold v. cbn [snd]. lia.
    - rewrite <- KW in H. lia. }
  exists acc'. split; [exact A1|]. split; [exact A2|]. split.
  - intros a t. rewrite A3, acct_pset. unfold takes at 2. rewrite total_cons. fold (takes (weight m a t) r).
    specialize (KW a t). rewrite <- KW. destruct (keyeq (a, t) k) eqn:Q; [|lia].
    apply keyeq_spec in Q. rewrite Q. unfold v. cbn [snd]. lia.
  - intro t. rewrite A4, owned_pset. unfold net at 2. rewrite total_cons. fold (net (tweight m t) r).
    unfold tweight at 2. unfold k at 1. cbn [snd]. unfold s_token at 1. unfold v. cbn [fst snd].
    destruct (_ =? t); lia.
Qed.

(** * Orders being placed *)

Lemma adjusted_ok r : 0 < r <= 400 -> 0 <= adjusted_rate r <= 1000.
Proof.
  intro R.
  assert (H : forallb (fun n => let a := adjusted_rate (Z.of_nat n) in (0 <=? a) && (a <=? 1000)) (seq 0 401) = true)
    by (vm_compute; reflexivity).
  rewrite forallb_forall in H. specialize (H (Z.to_nat r)). cbv zeta in H. rewrite Z2Nat.id in H by lia.
  specialize (H ltac:(apply in_seq; lia)). lia.
Qed.

Definition place_ok (p : place) : Prop :=
  0 <= pl_market p < 2 ^ 24 /\ 0 <= pl_price p < 2 ^ 80
  /\ 0 <= pl_topr p <= MaxOperatorFeeRate /\ 0 <= pl_mopr p <= MaxOperatorFeeRate.

Lemma order_for_spec e m st p av o need : place_ok p -> 0 < pl_qty p -> 0 <= av ->
  0 <= d_time st < 2 ^ 40 -> 0 <= next_serial st < 2 ^ 24 ->
  order_for e m st p av = Some (o, need) ->
  fresh o /\ held o = need /\ 0 <= need <= av /\ o_addr o = pl_addr p /\ o_side o = pl_side p
  /\ o_market o = pl_market p /\ o_id o mod 2 ^ 64 = d_time st * 2 ^ 24 + next_serial st
  /\ wf_id (o_id o) /\ o_type o = pl_type p /\ o_qty o = pl_qty p /\ o_price o = pl_price p.
Proof.
  intros (M & P & T1 & T2) Q AV DT NS. unfold order_for.
  destruct (fee_rates (pl_stable p) (pl_vip p) (pl_invited p) (pl_topr p) (pl_mopr p)) as [[[tb tof] mb] mo] eqn:FR.
  assert (R : 0 <= tb <= 200 /\ 0 <= tof <= 200 /\ 0 <= mb <= 200 /\ 0 <= mo <= 200).
  { unfold fee_rates, BaseFeeRate, VipReduceFeeRate, MaxOperatorFeeRate in *.
    destruct (pl_stable p); [injection FR as <- <- <- <-; lia|].
    cbv zeta in FR.
    destruct (pl_invited p), (pl_vip p =? 2), (pl_vip p =? 1); injection FR as <- <- <- <-; lia. }
  set (id := compose_id _ _ _ _ _). set (rate := max_rate tb tof mb mo).
  assert (R2 : 0 <= rate <= 400) by (unfold rate, max_rate; destruct (_ <? _); lia).
  assert (KEY : forall amt lock thr ndd,
    (if pl_side p then ndd = pl_qty p else 0 <= amt /\ 0 <= lock /\ ndd = amt + lock) ->
    ndd <= av ->
    Some (mkO id (pl_addr p) (pl_agent p) (pl_type p) (pl_qty p) amt lock thr tb tof mb mo Pending 0 0 0 0 0, ndd) = Some (o, need) ->
    fresh o /\ held o = need /\ 0 <= need <= av /\ o_addr o = pl_addr p /\ o_side o = pl_side p
    /\ o_market o = pl_market p /\ o_id o mod 2 ^ 64 = d_time st * 2 ^ 24 + next_serial st
    /\ wf_id (o_id o) /\ o_type o = pl_type p /\ o_qty o = pl_qty p /\ o_price o = pl_price p).
  { intros amt lock thr ndd S L H. injection H as <- <-.
    assert (SD : id_side id = pl_side p) by (apply compose_side; assumption).
    assert (MD : id_market id = pl_market p) by (apply compose_market; assumption).
    assert (PD : id_price id = pl_price p) by (apply compose_price; assumption).
    assert (KD : id mod 2 ^ 64 = d_time st * 2 ^ 24 + next_serial st) by (apply compose_key; assumption).
    assert (WD : wf_id id) by (split; [apply compose_range; assumption|apply compose_byte; assumption]).
    clearbody id. unfold fresh, within, rates_ok, held, o_side, o_market, o_price. cbn [o_id o_addr o_qty o_amt o_lock o_tb o_to o_mb o_mo o_status o_reason o_exq o_exa o_exb o_exo o_type].
    destruct WD as [WD1 WD2]. rewrite SD. destruct (pl_side p); repeat split; try assumption; try lia; discriminate. }
  destruct (pl_type p =? Market).
  - destruct (pl_side p).
    + destruct (Z.ltb_spec av (pl_qty p)); [discriminate|]. apply KEY; [reflexivity|lia].
    + destruct (av <? pl_min p); [discriminate|].
      assert (F : 0 <= (if 0 <? rate then fee_for av (adjusted_rate rate) else 0) <= av).
      { destruct (Z.ltb_spec 0 rate); [|lia]. pose proof (fee_half av _ AV (adjusted_ok rate ltac:(lia))). lia. }
      apply KEY; [|lia]. rewrite subabs_eq by lia. lia.
  - set (amt := raw_amount _ _ _). assert (A : 0 <= amt) by apply raw_amount_nonneg.
    pose proof (fee_nonneg amt rate A) as F.
    destruct (_ <? pl_min p); [discriminate|].
    destruct (Z.ltb_spec av (if pl_side p then pl_qty p else amt + (if pl_side p then 0 else fee_for amt rate))) as [L|L]; [discriminate|].
    apply KEY; [|exact L]. destruct (pl_side p); [reflexivity|]. lia.
Qed.

(** * The invariant *)

Lemma drop_nth_in {A} n (l : list A) x : In x (drop_nth n l) -> In x l.
Proof.
  revert n. induction l as [|y r IH]; intros [|n] H; cbn in *; auto. destruct H as [->|H]; auto. right. eapply IH, H.
Qed.
Lemma drop_nth_total {A} (f : A -> Z) n l x : nth_error l n = Some x -> total f l = f x + total f (drop_nth n l).
Proof.
  revert n. induction l as [|y r IH]; intros [|n] H; cbn [nth_error drop_nth] in *; try discriminate.
  - injection H as ->. reflexivity.
  - rewrite !total_cons, (IH n H). lia.
Qed.
Lemma drop_nth_nodup {A B} (f : A -> B) n l x : NoDup (map f l) -> nth_error l n = Some x ->
  NoDup (map f (drop_nth n l)) /\ ~ In (f x) (map f (drop_nth n l)).
Proof.
  revert n. induction l as [|y r IH]; intros [|n] ND H; cbn [nth_error drop_nth map] in *; try discriminate;
    inversion ND; subst.
  - injection H as ->. auto.
  - destruct (IH n H3 H) as [X Y]. split.
    + constructor; [|exact X]. intro I. apply H2. apply in_map_iff in I as (z & Z1 & Z2). rewrite <- Z1.
      apply in_map. eapply drop_nth_in, Z2.
    + intros [K|K]; [|exact (Y K)]. apply H2. rewrite K. apply in_map. eapply nth_error_In, H.
Qed.

Section Inv.
Context (mkt : Z -> option market).

Definition msg_ok (g : msg) : Prop :=
  Forall snn (g_set g) /\ Forall fnn (g_fees g)
  /\ forall v, net v (g_set g) + v false * fee_sum (g_fees g) = 0.
Definition known (o : order) : Prop := (exists m, mkt (o_market o) = Some m) /\ wf_id (o_id o).
Definition keyle (st : dex) (o : order) : Prop := o_id o mod 2 ^ 64 <= d_stime st * 2 ^ 24 + d_serial st.

Record inv (st : dex) : Prop := {
  i_sorted : bsorted (d_book st);
  i_good : Forall good (d_book st);
  i_fresh : Forall fresh (d_orders st);
  i_nodup : NoDup (map o_id (d_orders st));
  i_apart : forall o, In o (d_orders st) -> bget (o_id o) (d_book st) = None;
  i_key : forall o, In o (d_book st) \/ In o (d_orders st) -> keyle st o /\ known o;
  i_time : 0 <= d_stime st <= d_time st /\ -1 <= d_serial st < 2 ^ 24;
  i_msgs : Forall msg_ok (d_msgs st);
  i_funds : funds_ok st;
  i_backed : backed mkt st;
  i_solvent : solvent st;
  i_fees : forall t, 0 <= tget t (d_div st) /\ 0 <= tget t (d_oper st)
}.

Lemma inv0 : inv dex0.
Proof.
  constructor; cbn; try constructor; try (intros; lia); try (intros ? []); try contradiction; try tauto; try lia.
Qed.

Lemma held_for_agrees a t mk0 m : mkt mk0 = Some m -> agrees mk0 (held_for mkt a t) (weight m a t).
Proof.
  intros H o E. unfold held_for, own, weight, lock_token. rewrite E, H. destruct (_ && _); lia.
Qed.
Lemma held_for_nn a t o : within o -> 0 <= held_for mkt a t o.
Proof.
  intro W. destruct (refund_of_held o W) as [_ H]. unfold held_for. destruct (mkt _); [|lia]. destruct (_ && _); lia.
Qed.
Lemma msg_takes_nn a t g : msg_ok g -> 0 <= msg_takes a t g.
Proof.
  intros (S & _). apply total_nonneg. intros x X. pose proof (proj1 (Forall_forall _ _) S x X) as (Y1 & Y2 & Y3).
  unfold settle_takes. destruct (_ && _); lia.
Qed.
Lemma send_takes m l f gs a t : total (msg_takes a t) (send m l f gs) = total (msg_takes a t) gs + takes (weight m a t) l.
Proof.
  assert (H : total (msg_takes a t) (gs ++ [mkG m l f]) = total (msg_takes a t) gs + takes (weight m a t) l).
  { rewrite total_app, total_cons. cbn [total fold_right]. unfold msg_takes at 2. cbn [g_m g_set].
    rewrite takes_weight. lia. }
  destruct l, f; cbn [send]; try exact H. cbn. lia.
Qed.
Lemma send_ok m l f gs : Forall msg_ok gs -> msg_ok (mkG m l f) -> Forall msg_ok (send m l f gs).
Proof.
  intros H K. unfold send. destruct l, f; try exact H; apply Forall_app; (split; [exact H|]); constructor; auto.
Qed.

(** The environment and the requests of a history. *)
Definition sane (x : dexenv * op) : Prop :=
  e_fee (fst x) = true /\
  match snd x with
  | OPlace p => place_ok p
  | OExpire ids => NoDup ids
  | _ => True
  end.
Definition calm1 (st : dex) : Prop := d_time st < 2 ^ 40 /\ d_serial st + 1 < 2 ^ 24.

Lemma inv_acc st acc bal : inv st -> Forall nnv acc ->
  (forall a t, snd (acct (a, t) acc) = snd (acct (a, t) (d_acc st))) ->
  (forall t, tget t bal - owned t acc = tget t (d_bal st) - owned t (d_acc st)) ->
  inv (with_acc st acc bal).
Proof.
  intros I N A B. destruct I. constructor; cbn [with_acc d_bal d_acc d_div d_oper d_time d_stime d_serial d_book d_orders d_msgs]; auto.
  - intros a t. cbn [with_acc d_bal d_acc d_div d_oper d_time d_stime d_serial d_book d_orders d_msgs]. rewrite A. apply i_backed0.
  - intro t. cbn [with_acc d_bal d_acc d_div d_oper d_time d_stime d_serial d_book d_orders d_msgs]. specialize (i_solvent0 t). specialize (B t). lia.
Qed.

Lemma pget_acct k l v : pget k l = Some v -> acct k l = v.
Proof. unfold acct. now intros ->. Qed.

Lemma step_deposit st a t amt : inv st -> inv (deposit st a t amt).
Proof.
  intro I. unfold deposit. destruct (Z.leb_spec amt 0); [exact I|].
  destruct (acct (a, t) (d_acc st)) as [av lk] eqn:E.
  pose proof (acct_nn (a, t) _ (i_funds st I)) as [N1 N2]. rewrite E in N1, N2. cbn [fst snd] in *.
  apply inv_acc; [exact I|apply pset_nn; [apply I| |]; cbn; lia| |].
  - intros a' t'. rewrite acct_pset. destruct (keyeq (a', t') (a, t)) eqn:K; [|reflexivity].
    apply keyeq_spec in K. injection K as -> ->. rewrite E. reflexivity.
  - intro t'. rewrite owned_pset, tget_tadd, E. cbn [fst snd]. rewrite (Z.eqb_sym t'). destruct (t =? t'); lia.
Qed.
Lemma step_withdraw st a t amt : inv st -> inv (withdraw st a t amt).
Proof.
  intro I. unfold withdraw. destruct (Z.leb_spec amt 0); [exact I|].
  destruct (pget (a, t) (d_acc st)) as [[av lk]|] eqn:E; [|exact I]. apply pget_acct in E.
  destruct (Z.ltb_spec av amt); [exact I|].
  pose proof (acct_nn (a, t) _ (i_funds st I)) as [N1 N2]. rewrite E in N1, N2. cbn [fst snd] in *.
  apply inv_acc; [exact I|apply pset_nn; [apply I| |]; cbn; lia| |].
  - intros a' t'. rewrite acct_pset. destruct (keyeq (a', t') (a, t)) eqn:K; [|reflexivity].
    apply keyeq_spec in K. injection K as -> ->. rewrite E. reflexivity.
  - intro t'. rewrite owned_pset, tget_tadd, E. cbn [fst snd]. rewrite (Z.eqb_sym t'). destruct (t =? t'); lia.
Qed.
Lemma step_time st t : inv st -> inv (set_time st t).
Proof.
  intro I. unfold set_time. destruct (Z.ltb_spec (d_time st) t); [|exact I]. destruct I. constructor; cbn [with_acc d_bal d_acc d_div d_oper d_time d_stime d_serial d_book d_orders d_msgs]; auto. lia.
Qed.

Lemma step_place e m st p : inv st -> calm1 st -> place_ok p -> mkt (pl_market p) = Some m ->
  inv (place_order e m st p).
Proof.
  intros I [CT CS] PO MK. unfold place_order.
  destruct (_ || _) eqn:C; [exact I|]. apply orb_false_elim in C as [C _].
  do 4 (apply orb_false_elim in C as [C _]). apply Z.leb_gt in C.
  set (tok := if pl_side p then m_trade m else m_quote m).
  destruct (pget (pl_addr p, tok) (d_acc st)) as [[av lk]|] eqn:E; [|exact I]. apply pget_acct in E.
  destruct (order_for e m st p av) as [[o need]|] eqn:OF; [|exact I].
  pose proof (acct_nn (pl_addr p, tok) _ (i_funds st I)) as [N1 N2]. rewrite E in N1, N2. cbn [fst snd] in *.
  destruct (i_time st I) as [T1 T2].
  assert (NS : 0 <= next_serial st < 2 ^ 24 /\ d_stime st * 2 ^ 24 + d_serial st < d_time st * 2 ^ 24 + next_serial st).
  { unfold next_serial. destruct (Z.eqb_spec (d_serial st) (-1)); cbn [orb]; [lia|].
    destruct (Z.eqb_spec (d_time st) (d_stime st)); cbn [negb]; lia. }
  destruct NS as [NS KEY].
  destruct (order_for_spec e m st p av o need PO C N1 ltac:(lia) NS OF)
    as (F & H & L & AD & SD & MD & KD & WD & _).
  assert (NEW : forall x, In x (d_book st) \/ In x (d_orders st) -> o_id x <> o_id o).
  { intros x X Q. destruct (i_key st I x X) as [K _]. unfold keyle in K. rewrite Q, KD in K. lia. }
  destruct I. constructor; cbn [d_bal d_acc d_div d_oper d_time d_stime d_serial d_book d_orders d_msgs]; auto.
  - apply Forall_app. split; [assumption|constructor; [exact F|constructor]].
  - rewrite map_app. cbn [map]. assert (X : ~ In (o_id o) (map o_id (d_orders st))).
    { intro X. apply in_map_iff in X as (y & Y1 & Y2). exact (NEW y (or_intror Y2) Y1). }
    clear -i_nodup0 X. induction (map o_id (d_orders st)) as [|z l IH]; cbn; [repeat constructor; intros []|].
    inversion i_nodup0; subst. constructor; [|apply IH; [assumption|intro; apply X; now right]].
    intro Y. apply in_app_or in Y as [Y|[Y|[]]]; [contradiction|]. apply X. now left.
  - intros x X. apply in_app_or in X as [X|[<-|[]]]; [now apply i_apart0|].
    destruct (bget (o_id o) (d_book st)) as [y|] eqn:B; [|reflexivity].
    apply bget_some in B as [B1 B2]. destruct (NEW y (or_introl B1) B2).
  - assert (OLD : forall x, In x (d_book st) \/ In x (d_orders st) -> keyle
      (mkD (d_bal st) (pset (pl_addr p, tok) (av - need, lk + need) (d_acc st)) (d_div st) (d_oper st)
            (d_time st) (d_time st) (next_serial st)
            (d_book st) (d_ttime st) (d_orders st ++ [o]) (d_msgs st)) x /\ known x).
    { intros x X. destruct (i_key0 x X) as [K1 K2]. split; [|exact K2]. unfold keyle in *. cbn. lia. }
    intros x [X|X]; [apply OLD; now left|]. apply in_app_or in X as [X|[<-|[]]]; [apply OLD; now right|].
    split; [unfold keyle; cbn; lia|]. split; [|exact WD]. exists m. rewrite MD. exact MK.
  - lia.
  - apply pset_nn; cbn; [exact i_funds0|lia|lia].
  - intros a t. cbn [d_bal d_acc d_div d_oper d_time d_stime d_serial d_book d_orders d_msgs].
    rewrite acct_pset, total_app, total_cons. cbn [total fold_right]. specialize (i_backed0 a t).
    assert (X : held_for mkt a t o = if keyeq (a, t) (pl_addr p, tok) then need else 0).
    { unfold held_for, lock_token. rewrite MD, MK, AD, SD, H. unfold keyeq. cbn [fst snd].
      rewrite (Z.eqb_sym a), (Z.eqb_sym t). reflexivity. }
    rewrite X. destruct (keyeq (a, t) (pl_addr p, tok)) eqn:K.
    + apply keyeq_spec in K. rewrite K, E in i_backed0. cbn [snd] in *. lia.
    + lia.
  - intro t. cbn [d_bal d_acc d_div d_oper d_time d_stime d_serial d_book d_orders d_msgs].
    specialize (i_solvent0 t). rewrite owned_pset, E. cbn [fst snd]. destruct (tok =? t); lia.
Qed.

(** Replacing book, orders and messages. *)
Lemma inv_book st b tt os m l f mk0 : inv st -> bsorted b -> Forall good b ->
  Forall fresh os -> NoDup (map o_id os) -> (forall o, In o os -> bget (o_id o) b = None) ->
  (forall x, In x b \/ In x os -> exists p, (In p (d_book st) \/ In p (d_orders st)) /\ stat p x) ->
  mkt mk0 = Some m -> msg_ok (mkG m l f) ->
  (forall F w, agrees mk0 F w -> total F b + total F os + takes w l = total F (d_book st) + total F (d_orders st)) ->
  inv (mkD (d_bal st) (d_acc st) (d_div st) (d_oper st) (d_time st) (d_stime st) (d_serial st)
          b tt os (send m l f (d_msgs st))).
Proof.
  intros I S G F N A K MK MO T. destruct I. constructor; cbn [with_acc d_bal d_acc d_div d_oper d_time d_stime d_serial d_book d_orders d_msgs]; auto.
  - intros x X. destruct (K x X) as (p & P1 & P2). destruct (i_key0 p P1) as [Q1 Q2]. split.
    + unfold keyle in *. cbn. destruct P2 as (-> & _). exact Q1.
    + unfold known in *. rewrite (stat_market _ _ P2). destruct P2 as (-> & _). exact Q2.
  - apply send_ok; assumption.
  - intros a t. cbn [with_acc d_bal d_acc d_div d_oper d_time d_stime d_serial d_book d_orders d_msgs]. rewrite send_takes, (i_backed0 a t).
    specialize (T _ _ (held_for_agrees a t mk0 m MK)). lia.
Qed.

Lemma step_match e st n h : inv st -> e_fee e = true -> inv (recv_order mkt e st n h).
Proof.
  intros I E. unfold recv_order. destruct (nth_error (d_orders st) n) as [tk|] eqn:NT; [|exact I].
  destruct (mkt (o_market tk)) as [m|] eqn:MK; [|exact I].
  pose proof (nth_error_In _ _ NT) as IN.
  pose proof (proj1 (Forall_forall _ _) (i_fresh st I) tk IN) as FR.
  pose proof (do_match_spec e (d_ttime st) m tk (d_book st) E FR (i_sorted st I) (i_good st I) (i_apart st I tk IN)) as D.
  destruct (do_match e (d_ttime st) m tk (d_book st)) as [[[[tk2 b] l] f] T].
  destruct D as (D1 & D2 & D3 & D4 & D5 & D6 & D7 & D8 & D9 & D10).
  destruct (drop_nth_nodup o_id n (d_orders st) tk (i_nodup st I) NT) as [ND NI].
  apply inv_book with (mk0 := o_market tk); auto.
  - apply Forall_forall. intros x X. apply (proj1 (Forall_forall _ _) (i_fresh st I)). eapply drop_nth_in, X.
  - intros o O. destruct (bget (o_id o) b) as [y|] eqn:B; [|reflexivity]. exfalso.
    apply bget_some in B as [B1 B2]. destruct (D5 y B1) as [S|(p & P & S)].
    + apply NI. destruct S as (S & _). rewrite <- S, B2. now apply in_map.
    + pose proof (i_apart st I o (drop_nth_in _ _ _ O)) as K. destruct S as (S & _).
      apply (bget_none _ _ K p P). congruence.
  - intros x [X|X].
    + destruct (D5 x X) as [S|(p & P & S)]; [exists tk|exists p]; auto.
    + exists x. split; [right; eapply drop_nth_in, X|apply stat_refl].
  - split; [exact D8|]. split; [exact D9|exact D7].
  - intros F w A. specialize (D6 F w A). pose proof (drop_nth_total F n _ _ NT). lia.
Qed.

Lemma fee_sum_nil v l : net v l = 0 -> net v l + v false * fee_sum [] = 0.
Proof. intro H. cbn. lia. Qed.

Lemma step_cancel st id a : inv st -> inv (cancel mkt st id a).
Proof.
  intro I. unfold cancel. destruct (mkt (id_market id)) as [m|] eqn:MK; [|exact I].
  destruct (bget id (d_book st)) as [o|] eqn:B; [|exact I].
  destruct (_ && _); [exact I|]. destruct (_ && _); [exact I|].
  set (o1 := set_status o Cancelled _).
  destruct (bget_some _ _ _ B) as [B1 B2].
  destruct (proj1 (Forall_forall _ _) (i_good st I) o B1) as (W & _).
  assert (W1 : within o1) by (now apply set_status_within).
  destruct (refund_spec o1 [] W1 eq_refl) as (R1 & R2 & R3).
  apply inv_book with (mk0 := id_market id); auto.
  - apply bdel_sorted, I.
  - apply Forall_forall. intros x X. apply filter_In in X as [X _]. apply (proj1 (Forall_forall _ _) (i_good st I) x X).
  - apply I.
  - apply I.
  - intros x X. destruct (bget (o_id x) (bdel id (d_book st))) as [y|] eqn:Y; [|reflexivity].
    apply bget_some in Y as [Y1 Y2]. apply filter_In in Y1 as [Y1 _].
    destruct (bget_none _ _ (i_apart st I x X) y Y1 Y2).
  - intros x X. exists x. split; [|apply stat_refl]. destruct X as [X|X]; [|now right].
    apply filter_In in X as [X _]. now left.
  - split; [apply R3; constructor|]. split; [constructor|]. intro v. apply fee_sum_nil. rewrite R2. reflexivity.
  - intros F w A. rewrite (bdel_total F id o _ (i_sorted st I) B), R1.
    assert (MO : o_market o = id_market id) by (unfold o_market; now rewrite B2).
    rewrite (A o MO). change (own w o1) with (own w o). cbn [takes total fold_right]. lia.
Qed.

Definition expiring (e : dexenv) (st : dex) (ids : list Z) : list order :=
  flat_map (fun id => match bget id (d_book st) with
                      | Some o => if timed_out e (d_ttime st) o then [o] else []
                      | None => [] end) ids.
Lemma expiring_spec e st ids : expired_of e st ids = map expire (expiring e st ids).
Proof.
  unfold expired_of, expiring. induction ids as [|i r IH]; [reflexivity|]. cbn [flat_map].
  rewrite map_app, <- IH. destruct (bget i (d_book st)); [|reflexivity]. destruct (timed_out _ _ _); reflexivity.
Qed.
Lemma expiring_in e st ids o : In o (expiring e st ids) -> In (o_id o) ids /\ bget (o_id o) (d_book st) = Some o.
Proof.
  unfold expiring. intro H. apply in_flat_map in H as (id & H1 & H2).
  destruct (bget id (d_book st)) as [x|] eqn:B; [|destruct H2].
  destruct (timed_out _ _ _); [|destruct H2]. destruct H2 as [->|[]].
  destruct (bget_some _ _ _ B) as [_ Q]. rewrite Q. auto.
Qed.
Lemma expiring_nodup e st ids : NoDup ids -> NoDup (map o_id (expiring e st ids)).
Proof.
  induction 1 as [|i r NI ND IH]; [constructor|]. unfold expiring. cbn [flat_map]. fold (expiring e st r).
  destruct (bget i (d_book st)) as [x|] eqn:B; [|exact IH].
  destruct (timed_out _ _ _); [|exact IH]. cbn [app map]. constructor; [|exact IH].
  intro K. apply in_map_iff in K as (y & Y1 & Y2). apply expiring_in in Y2 as [Y2 _].
  destruct (bget_some _ _ _ B) as [_ Q]. congruence.
Qed.

Lemma step_expire e st ids : inv st -> NoDup ids -> inv (clean_expired mkt e st ids).
Proof.
  intros I ND. unfold clean_expired. destruct ids as [|id r]; [exact I|].
  destruct (_ || _) eqn:C; [exact I|]. apply orb_false_elim in C as [_ C]. apply negb_false_iff in C.
  destruct (mkt (id_market id)) as [m|] eqn:MK; [|exact I].
  rewrite expiring_spec. set (P := expiring e st (id :: r)).
  assert (IP : forall p, In p P -> In (o_id p) (id :: r) /\ bget (o_id p) (d_book st) = Some p) by (intros p; apply expiring_in).
  assert (IB : forall p, In p P -> In p (d_book st)) by (intros p X; apply IP in X as [_ X]; now apply bget_some in X).
  pose proof (expiring_nodup e st _ ND) as NP. fold P in NP. clearbody P.
  assert (F2 : Forall2 (fun p q => stat p q /\ within q /\ (closed q = false -> open q)) P (map expire P)).
  { assert (GP : forall p, In p P -> within p) by (intros p X; apply (proj1 (Forall_forall _ _) (i_good st I)); auto).
    clear -GP. induction P as [|p P IH]; cbn [map]; constructor.
    - destruct (expire_spec p) as (A & B & _ & D). split; [exact A|]. split; [apply D, GP; now left|]. congruence.
    - apply IH. intros; apply GP; now right. }
  assert (PM : Forall (fun p => o_market p = id_market id) P).
  { apply Forall_forall. intros p X. destruct (IP p X) as [Y _]. rewrite forallb_forall in C. specialize (C _ Y).
    apply Z.eqb_eq in C. exact C. }
  pose proof (handle_makers_spec (id_market id) P (map expire P) F2 PM NP (d_book st) [] (i_sorted st I)) as HM.
  destruct (handle_makers (map expire P) (d_book st) []) as [b l].
  destruct HM as (H1 & H2 & H3 & H4 & H5 & H6).
  { apply Forall_forall. intros p X. apply IP, X. }
  assert (SRC : forall x, In x b -> exists p, In p (d_book st) /\ stat p x).
  { intros x X. destruct (H2 x X) as [Y|(p & Y1 & Y2 & _)]; [exists x; split; [exact Y|apply stat_refl]|exists p; auto]. }
  apply inv_book with (mk0 := id_market id); auto.
  - apply Forall_forall. intros x X. destruct (H2 x X) as [Y|(p & Y1 & Y2 & Y3 & Y4)].
    + apply (proj1 (Forall_forall _ _) (i_good st I) x Y).
    + destruct (proj1 (Forall_forall _ _) (i_good st I) p (IB p Y1)) as (_ & Q1 & _ & Q2).
      split; [exact Y3|]. split; [eapply stat_rates; [exact Y2|exact Q1]|]. split; [exact Y4|].
      unfold rests in *. rewrite (stat_type _ _ Y2). exact Q2.
  - apply I.
  - apply I.
  - intros o O. destruct (bget (o_id o) b) as [y|] eqn:Y; [|reflexivity]. exfalso.
    apply bget_some in Y as [Y1 Y2]. destruct (SRC y Y1) as (p & P1 & P2). destruct P2 as (P2 & _).
    apply (bget_none _ _ (i_apart st I o O) p P1). congruence.
  - intros x [X|X].
    + destruct (SRC x X) as (p & P1 & P2). exists p. auto.
    + exists x. split; [now right|apply stat_refl].
  - split; [apply H5; constructor|]. split; [constructor|]. intro v. apply fee_sum_nil. rewrite H4. reflexivity.
  - intros F w A. specialize (H3 F w A).
    assert (X : total F (map expire P) = total F P).
    { clear -A PM. induction PM as [|p P E PM IH]; [reflexivity|]. cbn [map]. rewrite !total_cons, IH.
      destruct (expire_spec p) as (S & _ & H & _). rewrite (A (expire p)) by (rewrite (stat_market _ _ S); exact E).
      rewrite (A p E), (stat_own w _ _ S), H. reflexivity. }
    rewrite X in H3. cbn in H3. lia.
Qed.

Lemma fees_split f : base_fees f + oper_fees f = fee_sum f.
Proof.
  unfold base_fees, oper_fees, fee_sum, total. induction f as [|x r IH]; cbn [fold_right]; lia.
Qed.

Lemma fees_nn f : Forall fnn f -> 0 <= base_fees f /\ 0 <= oper_fees f.
Proof.
  induction 1 as [|x r [A B] R IH]; cbn; [lia|]. fold (base_fees r). fold (oper_fees r). lia.
Qed.

Lemma settle_works e st n g : inv st -> e_fee e = true -> nth_error (d_msgs st) n = Some g ->
  exists acc', settle_all e (g_m g) (g_set g) (d_acc st) = Some acc' /\ Forall nnv acc'
  /\ (forall a t, snd (acct (a, t) acc') = snd (acct (a, t) (d_acc st)) - takes (weight (g_m g) a t) (g_set g))
  /\ (forall t, owned t acc' = owned t (d_acc st) + net (tweight (g_m g) t) (g_set g)).
Proof.
  intros I E NG. pose proof (proj1 (Forall_forall _ _) (i_msgs st I) g (nth_error_In _ _ NG)) as G.
  apply settle_all_spec; [exact E|apply G|apply I|].
  intros a t. rewrite (i_backed st I a t), (drop_nth_total (msg_takes a t) n _ _ NG).
  unfold msg_takes at 1. rewrite takes_weight.
  assert (A : 0 <= total (held_for mkt a t) (d_book st)).
  { apply total_nonneg. intros x X. apply held_for_nn. apply (proj1 (Forall_forall _ _) (i_good st I) x X). }
  assert (B : 0 <= total (held_for mkt a t) (d_orders st)).
  { apply total_nonneg. intros x X. apply held_for_nn. apply (proj1 (Forall_forall _ _) (i_fresh st I) x X). }
  assert (C : 0 <= total (msg_takes a t) (drop_nth n (d_msgs st))).
  { apply total_nonneg. intros x X. apply msg_takes_nn. apply (proj1 (Forall_forall _ _) (i_msgs st I) x). eapply drop_nth_in, X. }
  lia.
Qed.

Lemma step_settle e st n : inv st -> e_fee e = true -> inv (recv_settle e st n).
Proof.
  intros I E. unfold recv_settle. destruct (nth_error (d_msgs st) n) as [g|] eqn:NG; [|exact I].
  destruct (settle_works e st n g I E NG) as (acc & A1 & A2 & A3 & A4). rewrite A1.
  pose proof (proj1 (Forall_forall _ _) (i_msgs st I) g (nth_error_In _ _ NG)) as (_ & FN & NET).
  destruct I. constructor; cbn [d_bal d_acc d_div d_oper d_time d_stime d_serial d_book d_orders d_msgs]; auto.
  - apply Forall_forall. intros x X. apply (proj1 (Forall_forall _ _) i_msgs0). eapply drop_nth_in, X.
  - intros a t. cbn [d_bal d_acc d_div d_oper d_time d_stime d_serial d_book d_orders d_msgs].
    rewrite A3, (i_backed0 a t), (drop_nth_total (msg_takes a t) n _ _ NG). unfold msg_takes at 1. rewrite takes_weight. lia.
  - intro t. cbn [d_bal d_acc d_div d_oper d_time d_stime d_serial d_book d_orders d_msgs].
    rewrite !tget_tadd, A4. specialize (i_solvent0 t). specialize (NET (tweight (g_m g) t)). rewrite <- fees_split in NET.
    unfold tweight at 2 in NET. rewrite (Z.eqb_sym t). destruct (m_quote (g_m g) =? t); lia.
  - intro t. rewrite !tget_tadd. destruct (i_fees0 t). destruct (fees_nn (g_fees g) FN). destruct (t =? _); lia.
Qed.

Fixpoint calm (st : dex) (l : list (dexenv * op)) : Prop :=
  match l with
  | [] => True
  | x :: r => calm1 st /\ calm (dstep mkt st x) r
  end.

Lemma step_inv st x : inv st -> calm1 st -> sane x -> inv (dstep mkt st x).
Proof.
  intros I C [E S]. destruct x as [e o]. cbn [fst snd] in *. destruct o; cbn [dstep].
  - now apply step_deposit.
  - now apply step_withdraw.
  - now apply step_time.
  - destruct (mkt (pl_market p)) as [m|] eqn:MK; [|exact I]. now apply step_place.
  - now apply step_match.
  - now apply step_cancel.
  - now apply step_expire.
  - now apply step_settle.
Qed.

Theorem run_inv l : forall st, inv st -> calm st l -> Forall sane l -> inv (drun mkt st l).
Proof.
  induction l as [|x r IH]; intros st I C S; [exact I|]. cbn [calm] in C. destruct C as [C1 C2].
  inversion S; subst. unfold drun. cbn [fold_left]. apply IH; auto. now apply step_inv.
Qed.
End Inv.
