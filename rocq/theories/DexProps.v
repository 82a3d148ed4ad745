(** The exchange: properties C19, C20, C52, C53. *)
From Coq Require Import ZArith List Bool Lia Sorted.
From Verif Require Import Lib DexFloat DexFloatProofs DexModel DexSpec DexProofs DexProofs2 DexProofs3 DexProofs4 DexProofs5 DexProofs6.
Import ListNotations.
Open Scope Z_scope.

(** States reachable by requests that the contracts accept ([sane]: the fee upgrade is
    active, market ids have three bytes, prices ten, operator rates are at most 0.2 %, and
    a request to clear expired orders names no order twice), while the clock fits five
    bytes and fewer than 2^24 orders are placed in one second of the exchange ([calm]). *)
Definition reachable (mkt : Z -> option market) (st : dex) : Prop :=
  exists l, calm mkt dex0 l /\ Forall sane l /\ st = drun mkt dex0 l.
Lemma reachable_inv mkt st : reachable mkt st -> inv mkt st.
Proof. intros (l & C & S & ->). apply run_inv; auto. apply inv0. Qed.

(** * C19: funds are conserved *)

Lemma net_flow b l : net (fun x => if Bool.eqb x b then 1 else 0) l = gained b l - spent b l.
Proof.
  unfold net, gained, spent. induction l as [|s r IH]; [reflexivity|]. rewrite !total_cons, IH.
  destruct (Bool.eqb (s_trade s) b); lia.
Qed.

(** A match moves the trade token only between accounts, and what buyers spend of the
    quote token is what sellers gain plus the fees; no amount is negative. *)
Theorem match_conserves : forall mkt st n tk m e now,
  reachable mkt st -> nth_error (d_orders st) n = Some tk -> e_fee e = true ->
  let '(_, _, l, f, _) := do_match e now m tk (d_book st) in
  gained true l = spent true l
  /\ spent false l = gained false l + fee_sum f
  /\ Forall (fun s => 0 <= s_inc s /\ 0 <= s_rel s /\ 0 <= s_red s) l
  /\ Forall (fun x => 0 <= snd (fst x) /\ 0 <= snd x) f.
Proof.
  intros mkt st n tk m e now R NT E. pose proof (reachable_inv _ _ R) as I.
  pose proof (nth_error_In _ _ NT) as IN.
  pose proof (do_match_spec e now m tk (d_book st) E (proj1 (Forall_forall _ _) (i_fresh mkt st I) tk IN)
                (i_sorted mkt st I) (i_good mkt st I) (i_apart mkt st I tk IN)) as D.
  destruct (do_match e now m tk (d_book st)) as [[[[tk2 b] l] f] T].
  destruct D as (_ & _ & _ & _ & _ & _ & D7 & D8 & D9 & _).
  pose proof (D7 (fun x => if Bool.eqb x true then 1 else 0)) as X1. pose proof (D7 (fun x => if Bool.eqb x false then 1 else 0)) as X2.
  rewrite net_flow in X1, X2. cbn [Bool.eqb] in X1, X2.
  split; [lia|]. split; [lia|]. split; [exact D8|exact D9].
Qed.
(** In every reachable state what an account has locked in a token is exactly what its
    open orders, its orders on the way and the settlements on the way account for. *)
Theorem locked_is_backed : forall mkt st, reachable mkt st -> backed mkt st.
Proof. intros mkt st R. exact (i_backed mkt st (reachable_inv _ _ R)). Qed.
(** And the balance of the contract is what the users own plus the fees; nobody's funds
    are negative, and everybody's funds are covered by the balance. *)
Theorem exchange_solvent : forall mkt st, reachable mkt st ->
  solvent st /\ funds_ok st
  /\ forall a t, 0 <= fst (acct (a, t) (d_acc st)) + snd (acct (a, t) (d_acc st)) <= tget t (d_bal st).
Proof.
  intros mkt st R. pose proof (reachable_inv _ _ R) as I.
  split; [exact (i_solvent mkt st I)|]. split; [exact (i_funds mkt st I)|].
  intros a t. destruct (acct_nn (a, t) _ (i_funds mkt st I)) as [A B]. split; [lia|].
  rewrite (i_solvent mkt st I t). destruct (i_fees mkt st I t) as [F G].
  assert (O : forall acc, Forall nnv acc -> fst (acct (a, t) acc) + snd (acct (a, t) acc) <= owned t acc).
  { unfold acct, owned. induction 1 as [|[k v] r [X Y] H IH]; [cbn; lia|]. rewrite total_cons. cbn [pget fst snd] in *.
    destruct (keyeq (a, t) k) eqn:K.
    - apply keyeq_spec in K. subst k. cbn [snd]. rewrite Z.eqb_refl.
      assert (0 <= total (fun e => if snd (fst e) =? t then fst (snd e) + snd (snd e) else 0) r); [|lia].
      apply total_nonneg. intros x J. destruct (proj1 (Forall_forall _ _) H x J). destruct (_ =? t); lia.
    - destruct (snd k =? t); lia. }
  specialize (O _ (i_funds mkt st I)). lia.
Qed.
(** A settlement on the way is always carried out, and it takes exactly what it names
    from the locked funds: the truncating subtraction never truncates. *)
Theorem settlement_is_covered : forall mkt st n g e,
  reachable mkt st -> nth_error (d_msgs st) n = Some g -> e_fee e = true ->
  (forall a t, msg_takes a t g <= snd (acct (a, t) (d_acc st)))
  /\ exists acc', settle_all e (g_m g) (g_set g) (d_acc st) = Some acc'
     /\ forall a t, snd (acct (a, t) acc') = snd (acct (a, t) (d_acc st)) - msg_takes a t g.
Proof.
  intros mkt st n g e R NG E. pose proof (reachable_inv _ _ R) as I.
  destruct (settle_works mkt e st n g I E NG) as (acc & A1 & A2 & A3 & A4).
  assert (EQ : forall a t, snd (acct (a, t) acc) = snd (acct (a, t) (d_acc st)) - msg_takes a t g).
  { intros a t. rewrite A3. unfold msg_takes. rewrite takes_weight. reflexivity. }
  split; [|exists acc; split; [exact A1|exact EQ]].
  intros a t. destruct (acct_nn (a, t) acc A2) as [_ N]. rewrite EQ in N. lia.
Qed.
(** * C20: orders stay within their limits *)
(** No order, resting or just matched, is filled beyond its quantity, and no buy order
    spends more than the amount and the fee reserve locked for it; market,
    fill-or-kill and immediate-or-cancel orders never rest. *)
Theorem orders_stay_within : forall mkt st, reachable mkt st ->
  Forall (fun o => within o /\ open o /\ rests o) (d_book st)
  /\ forall n tk m e now, nth_error (d_orders st) n = Some tk -> e_fee e = true ->
     let '(tk2, b2, _, _, _) := do_match e now m tk (d_book st) in
     within tk2 /\ o_qty tk2 = o_qty tk /\ o_amt tk2 = o_amt tk /\ o_lock tk2 = o_lock tk
     /\ Forall (fun o => within o /\ open o /\ rests o) b2.
Proof.
  intros mkt st R. pose proof (reachable_inv _ _ R) as I. split.
  - eapply Forall_impl; [|exact (i_good mkt st I)]. intros o (A & _ & B & C). auto.
  - intros n tk m e now NT E. pose proof (nth_error_In _ _ NT) as IN.
    pose proof (do_match_spec e now m tk (d_book st) E (proj1 (Forall_forall _ _) (i_fresh mkt st I) tk IN)
                (i_sorted mkt st I) (i_good mkt st I) (i_apart mkt st I tk IN)) as D.
    destruct (do_match e now m tk (d_book st)) as [[[[tk2 b] l] f] T].
    destruct D as ((_ & _ & _ & _ & S5 & S6 & S7 & _) & D2 & _ & D4 & _).
    repeat (split; [assumption|]). eapply Forall_impl; [|exact D4]. intros o (A & _ & B & C). auto.
Qed.
(** Every trade is at the price of the resting order, which is not worse than the limit
    of an incoming order that has one; the buyer pays at most the price of what is
    bought, rounded, hence at most that at the own limit. *)
Theorem trades_at_limit_or_better : forall mkt st n tk m e now,
  reachable mkt st -> nth_error (d_orders st) n = Some tk -> e_fee e = true ->
  let '(_, _, _, _, T) := do_match e now m tk (d_book st) in
  Forall (fun t =>
    exists p, In p (d_book st) /\ t_maker t = o_id p /\ t_taker t = o_id tk
    /\ o_market p = o_market tk /\ o_side p = negb (o_side tk)
    /\ t_price t = o_price p
    /\ (o_type tk <> Market -> if o_side tk then o_price tk <= t_price t else t_price t <= o_price tk)
    /\ 0 <= t_qty t /\ 0 <= t_amt t <= raw_amount (t_qty t) (t_price t) (m_diff m)
    /\ (o_type tk <> Market -> o_side tk = false -> 0 <= t_price t -> price_dec (t_price t) < 10 ^ 12 ->
        t_amt t <= raw_amount (t_qty t) (o_price tk) (m_diff m))) T.
Proof.
  intros mkt st n tk m e now R NT E. pose proof (reachable_inv _ _ R) as I.
  pose proof (nth_error_In _ _ NT) as IN.
  pose proof (do_match_spec e now m tk (d_book st) E (proj1 (Forall_forall _ _) (i_fresh mkt st I) tk IN)
                (i_sorted mkt st I) (i_good mkt st I) (i_apart mkt st I tk IN)) as D.
  destruct (do_match e now m tk (d_book st)) as [[[[tk2 b] l] f] T].
  destruct D as (_ & _ & _ & _ & _ & _ & _ & _ & _ & D).
  eapply Forall_impl; [|exact D]. intros t ((Q & A & _) & S & TK & TA & AM & p & P1 & P2 & P3 & P4 & P5).
  apply filter_In in P1 as [P0 P1]. apply andb_prop in P1 as [P1 P6].
  apply Z.eqb_eq in P1. apply eqb_prop in P6.
  assert (LIM : o_type tk <> Market -> if o_side tk then o_price tk <= t_price t else t_price t <= o_price tk).
  { intro TM. unfold match_price in P5. rewrite P4. destruct (Z.eqb_spec (o_type tk) Market); [contradiction|]. cbn [orb] in P5.
    destruct (Z.eqb_spec (o_price tk) (o_price p)); destruct (o_side tk); lia. }
  exists p. repeat (split; [assumption|]). split; [lia|].
  intros TM SD P7 P8. specialize (LIM TM). rewrite SD in LIM.
  eapply Z.le_trans; [exact AM|]. apply raw_amount_mono; [lia|]. apply price_units_mono; [lia|exact P8].
Qed.
(** The amount of a trade is price times quantity, in units of the quote token, to within
    one unit (amounts up to 2^100). *)
Theorem amount_is_price_times_quantity : forall q p d, 0 <= q -> 0 <= p ->
  let x := price_units p * q * 10 ^ Z.max (- d) 0 in
  let y := 10 ^ 12 * 10 ^ Z.max d 0 in
  x <= 2 ^ 100 * y -> x - y <= raw_amount q p d * y <= x + y.
Proof. exact raw_amount_close. Qed.
(** What the seller is paid is that amount, or everything the buyer has left. *)
Theorem seller_price_partial : forall e m tk mk, e_fee e = true ->
  within tk -> within mk -> rates_ok tk -> rates_ok mk -> o_side mk = negb (o_side tk) ->
  let '(_, _, t) := calc_tx e m tk mk in
  let buyer := if o_side tk then mk else tk in
  t_amt t = raw_amount (t_qty t) (o_price mk) (m_diff m) \/ t_amt t = o_amt buyer - o_exa buyer.
Proof.
  intros e m tk mk E W V R Q S. pose proof (calc_spec e m tk mk E W V R Q S) as C.
  destruct (calc_tx e m tk mk) as [[tk' mk'] t].
  destruct C as (_ & _ & _ & _ & _ & _ & _ & _ & _ & _ & _ & _ & _ & _ & _ & P & _ & D & _). cbv zeta.
  rewrite P in D. destruct D as [D|[[D1 D2]|[D1 D2]]]; [auto| |].
  - rewrite D1. auto.
  - rewrite D1 in S. destruct (o_side tk); [auto|discriminate].
Qed.
(** A post-only order never takes: no trade happens. *)
Theorem post_only_never_takes : forall e now m tk b, o_type tk = PostOnly ->
  let '(_, _, _, f, T) := do_match e now m tk b in f = [] /\ T = [].
Proof.
  intros e now m tk b PO. unfold do_match. destruct (makers_of _ _ b) as [|mk0 mr].
  - destruct (taker_res tk b []) as [[tk1 b1] l1]. auto.
  - pose proof (take_postonly e now m (mk0 :: mr) tk [] [] PO) as T.
    destruct (take e now m tk (mk0 :: mr) [] []) as [[tk1 mods] txs]. destruct T as (-> & _).
    destruct (taker_res tk1 b []) as [[tk2 b1] l1]. destruct (undone tk2); [auto|].
    destruct (handle_makers mods b1 l1). auto.
Qed.
(** A fill-or-kill order is filled, or nothing happens except that all it locked is
    released -- provided it needs fewer than a hundred trades. *)
Theorem fill_or_kill_partial : forall mkt st n tk m e now,
  reachable mkt st -> nth_error (d_orders st) n = Some tk -> e_fee e = true -> o_type tk = FillOrKill ->
  let '(tk2, b2, l, f, T) := do_match e now m tk (d_book st) in
  zlen T < 100 ->
  (o_status tk2 = FullyExecuted
   /\ (o_exq tk2 = o_qty tk2 \/ flt1 (raw_amount_f (o_qty tk2 - o_exq tk2) (o_price tk2) (m_diff m)) = true))
  \/ (o_status tk2 = Cancelled /\ o_exq tk2 = 0 /\ b2 = d_book st /\ f = [] /\ T = []
      /\ l = (if 0 <? held tk then [mkS (o_addr tk) (o_side tk) 0 (held tk) 0] else [])).
Proof.
  intros mkt st n tk m e now R NT E FK. pose proof (reachable_inv _ _ R) as I.
  apply fok_spec; auto; [|apply I].
  exact (proj1 (Forall_forall _ _) (i_fresh mkt st I) tk (nth_error_In _ _ NT)).
Qed.
(** * C52: price-time priority *)
Lemma better_id p r : wf_id (o_id p) -> wf_id (o_id r) -> o_market p = o_market r -> o_side p = o_side r ->
  better p r -> o_id p < o_id r.
Proof.
  intros W V M S B. destruct (Z.lt_trichotomy (o_id p) (o_id r)) as [L|[L|L]]; [exact L| |].
  - exfalso. unfold better, o_price, o_time, o_side in B. rewrite L in B. destruct (id_side (o_id r)); lia.
  - exfalso. pose proof (id_priority (o_id r) (o_id p) V W (eq_sym M) (eq_sym S) L) as Q.
    unfold better, o_price, o_time, o_side in *. rewrite S in *. destruct (id_side (o_id r)); lia.
Qed.
Lemma Forall2_impl' {A B} (P Q : A -> B -> Prop) l1 l2 : (forall a b, P a b -> Q a b) -> Forall2 P l1 l2 -> Forall2 Q l1 l2.
Proof. intros H F. induction F; constructor; auto. Qed.
Lemma nth_split_lt P x y : StronglySorted blt P -> In x P -> In y P -> o_id x < o_id y ->
  forall M, Forall2 (fun p q => o_id q = o_id p) P M -> Forall (fun o => closed o = true) (removelast M) ->
  exists q, In q M /\ o_id q = o_id x /\ closed q = true.
Proof.
  intros S. induction S as [|p P S IH F]; intros X Y L M F2 C; [destruct X|].
  inversion F2 as [|? q ? M' E F2']; subst.
  assert (NE : M' <> []).
  { intro Z0. subst M'. inversion F2'; subst. destruct X as [->|[]], Y as [->|[]]. lia. }
  destruct M' as [|z M']; [contradiction|]. rewrite removelast_cons in C. inversion C; subst.
  destruct X as [->|X].
  - exists q. split; [now left|]. auto.
  - destruct Y as [->|Y].
    + pose proof (proj1 (Forall_forall _ _) F x X) as Q. unfold blt in Q. lia.
    + destruct (IH X Y L (z :: M') F2' H2) as (w & A & B). exists w. split; [now right|exact B].
Qed.
(** Whenever an incoming order trades with a resting order, every order with priority
    over that one (better price, or same price and earlier) is out of the book
    afterwards: filled, or expired before upgrade 11.  (Not claimed for market buy
    orders, which are bounded by an amount and may skip what they cannot pay.) *)
Theorem price_time_priority_partial : forall mkt st n tk m e now,
  reachable mkt st -> nth_error (d_orders st) n = Some tk -> e_fee e = true ->
  (o_type tk = Market -> o_side tk = true) ->
  let '(_, b2, _, _, T) := do_match e now m tk (d_book st) in
  forall t p r, In t T -> In r (d_book st) -> t_maker t = o_id r ->
    In p (d_book st) -> o_market p = o_market r -> o_side p = o_side r -> better p r ->
    bget (o_id p) b2 = None.
Proof.
  intros mkt st n tk m e now R NT E TM. pose proof (reachable_inv _ _ R) as I.
  pose proof (nth_error_In _ _ NT) as IN.
  pose proof (proj1 (Forall_forall _ _) (i_fresh mkt st I) tk IN) as F. pose proof F as (W & RT & ST & RS & _).
  assert (OT : open tk) by (left; exact ST). assert (UN : undone tk = false) by (unfold undone; rewrite RS; reflexivity).
  destruct (makers_good tk (d_book st) (i_good mkt st I)) as [MG MM].
  unfold do_match. destruct (makers_of (o_market tk) (negb (o_side tk)) (d_book st)) as [|mk0 mr] eqn:MK.
  { destruct (taker_res tk (d_book st) []) as [[tk1 b1] l1]. intros t p r []. }
  assert (SM : StronglySorted blt (mk0 :: mr)) by (rewrite <- MK; apply filter_sorted, I).
  assert (IM : forall x, In x (mk0 :: mr) <-> In x (d_book st) /\ o_market x = o_market tk /\ o_side x = negb (o_side tk)).
  { rewrite <- MK. intro x. unfold makers_of. rewrite filter_In, andb_true_iff, Z.eqb_eq, eqb_true_iff. tauto. }
  pose proof (take_order e now m E (mk0 :: mr) tk [] [] MG W RT OT) as TO.
  pose proof (take_status e now m E (mk0 :: mr) tk [] [] MG W RT OT) as TT.
  destruct (take e now m tk (mk0 :: mr) [] []) as [[tk1 mods] txs].
  destruct TO as (P & RR & M & T & H1 & H2 & H3 & H4 & H5 & H6 & H7).
  { eapply Forall_impl; [|exact MG]. intros o ((_ & _ & _ & X & _) & _). exact X. }
  { exact TM. }
  cbn [app] in *. subst mods txs.
  destruct (taker_res tk1 (d_book st) []) as [[tk2 b1] l1].
  destruct (undone tk2); [intros t p r []|].
  assert (SP : StronglySorted blt P) by (rewrite H1 in SM; eapply sorted_app_l, SM).
  pose proof (handle_closed P M H7 (sorted_nodup _ SP) b1 l1) as HC.
  destruct (handle_makers M b1 l1) as [b2 l2]. cbn [fst] in HC.
  intros t p r HT HR TR HP MP SD BT.
  assert (RP : In r P).
  { assert (X : In (o_id r) (map o_id (filter (fun p => negb (timed_out e now p)) P))).
    { rewrite <- H4, <- TR. now apply in_map. }
    apply in_map_iff in X as (y & Y1 & Y2). apply filter_In in Y2 as [Y2 _].
    assert (YB : In y (d_book st)) by (apply IM; rewrite H1; apply in_or_app; now left).
    pose proof (bget_in _ _ (i_sorted mkt st I) YB) as G1. pose proof (bget_in _ _ (i_sorted mkt st I) HR) as G2.
    rewrite Y1, G2 in G1. injection G1 as ->. exact Y2. }
  assert (LT : o_id p < o_id r).
  { apply better_id; auto; apply (i_key mkt st I); auto. }
  assert (PP : In p P).
  { assert (RM : In r (mk0 :: mr)) by (rewrite H1; apply in_or_app; now left).
    assert (PM : In p (mk0 :: mr)) by (apply IM; apply IM in RM; destruct RM as (_ & Q1 & Q2); split; [exact HP|split; congruence]).
    rewrite H1 in PM. apply in_app_or in PM as [PM|PM]; [exact PM|]. exfalso.
    rewrite H1 in SM. clear -SM RP PM LT. induction P as [|x P IH]; [destruct RP|]. cbn [app] in SM. inversion SM; subst.
    destruct RP as [->|RP]; [|apply IH; assumption].
    pose proof (proj1 (Forall_forall _ _) H2 p ltac:(apply in_or_app; now right)) as Q. unfold blt in Q. lia. }
  destruct (nth_split_lt P p r SP PP RP LT M) as (q & Q1 & Q2 & Q3); auto.
  { eapply Forall2_impl'; [|exact H7]. intros a b ((X & _) & _). exact X. }
  rewrite <- Q2. apply HC; assumption.
Qed.

(** * C53: cancelling *)

(** Cancelling by the owner or the agent takes the order, and only it, out of the book
    and releases exactly what it still held, to the owner; nothing else changes. *)
Theorem cancel_returns_held : forall mkt st o op,
  reachable mkt st -> In o (d_book st) -> op = o_addr o \/ op = o_agent o ->
  exists m, mkt (o_market o) = Some m
  /\ d_book (cancel mkt st (o_id o) op) = filter (fun x => negb (o_id x =? o_id o)) (d_book st)
  /\ d_msgs (cancel mkt st (o_id o) op)
     = d_msgs st ++ (if 0 <? held o then [mkG m [mkS (o_addr o) (o_side o) 0 (held o) 0] []] else [])
  /\ d_acc (cancel mkt st (o_id o) op) = d_acc st
  /\ d_orders (cancel mkt st (o_id o) op) = d_orders st.
Proof.
  intros mkt st o op R IN OP. pose proof (reachable_inv _ _ R) as I.
  destruct (i_key mkt st I o (or_introl IN)) as [_ [[m MK] _]]. exists m. split; [exact MK|].
  destruct (proj1 (Forall_forall _ _) (i_good mkt st I) o IN) as (W & _ & OO & _).
  unfold cancel. unfold o_market in MK. rewrite MK, (bget_in _ _ (i_sorted mkt st I) IN).
  assert (A : negb (op =? o_addr o) && negb (op =? o_agent o) = false).
  { destruct OP as [-> | ->]; rewrite Z.eqb_refl; [reflexivity|]. apply andb_false_r. }
  rewrite A.
  assert (B : negb (o_status o =? Pending) && negb (o_status o =? PartialExecuted) = false).
  { destruct OO as [-> | ->]; reflexivity. }
  rewrite B. cbn [d_book d_msgs d_acc d_orders].
  split; [reflexivity|]. split; [|auto].
  set (o1 := set_status o Cancelled _). assert (W1 : within o1) by (now apply set_status_within).
  unfold refund. change (closed o1) with true. cbn [andb]. rewrite (proj1 (refund_of_held o1 W1)).
  change (held o1) with (held o). destruct (0 <? held o); cbn [add_settle send]; [reflexivity|]. now rewrite app_nil_r.
Qed.

(** Nobody else can cancel it. *)
Theorem cancel_only_by_owner : forall mkt st o op,
  reachable mkt st -> In o (d_book st) -> op <> o_addr o -> op <> o_agent o ->
  cancel mkt st (o_id o) op = st.
Proof.
  intros mkt st o op R IN N1 N2. pose proof (reachable_inv _ _ R) as I. unfold cancel.
  destruct (mkt (id_market (o_id o))); [|reflexivity]. rewrite (bget_in _ _ (i_sorted mkt st I) IN).
  apply Z.eqb_neq in N1, N2. rewrite N1, N2. reflexivity.
Qed.

(** * A history *)

(** Market 1 trades token 10 against token 20; both have the same decimals. *)
Definition eg_m : market := mkM 10 20 0 0.
Definition eg_mkt (k : Z) : option market := if k =? 1 then Some eg_m else None.
Definition eg_e : dexenv := mkE true true true.
Definition eg_old : dexenv := mkE true false false.
Definition unit_price : Z := 2 ^ 40.
Definition eg_place (a : Z) (side : bool) (ty price q : Z) : place :=
  mkP a (-1) 1 side ty price q false 0 false 200 200 0 (10 ^ 30).
(** Account 1 sells 1000 at 1 and 500 at 2; account 2 buys 1200 at 2, taking the first
    order and part of the second. *)
Definition eg_h : list (dexenv * op) :=
  map (pair eg_e)
    [ODeposit 1 10 2000; ODeposit 2 20 4000; OTime 100;
     OPlace (eg_place 1 true Limited unit_price 1000); OPlace (eg_place 1 true Limited (2 * unit_price) 500);
     OMatch 0 255; OMatch 0 255; OPlace (eg_place 2 false Limited (2 * unit_price) 1200)].
Definition eg_st : dex := drun eg_mkt dex0 eg_h.

Fixpoint calmb (mkt : Z -> option market) (st : dex) (l : list (dexenv * op)) : bool :=
  match l with
  | [] => true
  | x :: r => (d_time st <? 2 ^ 40) && (d_serial st + 1 <? 2 ^ 24) && calmb mkt (dstep mkt st x) r
  end.
Lemma calm_check mkt l : forall st, calmb mkt st l = true -> calm mkt st l.
Proof.
  induction l as [|x r IH]; intros st H; [exact I|]. cbn [calmb calm] in *. apply andb_prop in H as [H1 H2].
  split; [unfold calm1; lia|]. apply IH, H2.
Qed.

Lemma eg_place_ok a s ty p q : 0 <= p < 2 ^ 80 -> place_ok (eg_place a s ty p q).
Proof. intro H. unfold place_ok, eg_place, MaxOperatorFeeRate. cbn [pl_market pl_price pl_topr pl_mopr]. lia. Qed.

Example eg_reachable : reachable eg_mkt eg_st.
Proof.
  exists eg_h. split; [apply calm_check; vm_compute; reflexivity|]. split; [|reflexivity].
  unfold eg_h. cbn [map].
  repeat (apply Forall_cons || apply Forall_nil); (split; [reflexivity|]); cbn [snd]; try exact I;
    apply eg_place_ok; unfold unit_price; lia.
Qed.
Definition match_trades (r : order * list order * list settle * list (Z * Z * Z) * list tx) : list tx := snd r.
Example eg_match :
  map (fun t => (t_price t, t_qty t, t_amt t))
      (match_trades (do_match eg_e 0 eg_m (nth 0 (d_orders eg_st) (set_status (mkO 0 0 0 0 0 0 0 0 0 0 0 0 0 0 0 0 0 0) 0 0)) (d_book eg_st)))
  = [(unit_price, 1000, 1000); (2 * unit_price, 200, 400)].
Proof. vm_compute. reflexivity. Qed.
Example eg_settled :
  let st := drun eg_mkt eg_st (map (pair eg_e) [OMatch 0 255; OSettle 0]) in
  (acct (1, 10) (d_acc st), acct (1, 20) (d_acc st), acct (2, 10) (d_acc st), acct (2, 20) (d_acc st),
   tget 20 (d_div st), tget 20 (d_oper st), tget 20 (d_bal st))
  = ((500, 300), (1394, 0), (1200, 0), (2594, 0), 6, 6, 4000).
Proof. vm_compute. reflexivity. Qed.
(** A fill-or-kill order for more than the book offers, and one for less. *)
Definition eg_fok (q : Z) : dex := drun eg_mkt dex0 (firstn 7 eg_h ++ [(eg_e, OPlace (eg_place 2 false FillOrKill (2 * unit_price) q))]).
Definition eg_order (st : dex) : order := nth 0 (d_orders st) (mkO 0 0 0 0 0 0 0 0 0 0 0 0 0 0 0 0 0 0).
Definition match_status (r : order * list order * list settle * list (Z * Z * Z) * list tx) : Z * Z * Z :=
  let '(tk, _, _, _, T) := r in (o_status tk, o_exq tk, zlen T).
Example eg_fok_killed : o_type (eg_order (eg_fok 1600)) = FillOrKill
  /\ match_status (do_match eg_e 0 eg_m (eg_order (eg_fok 1600)) (d_book (eg_fok 1600))) = (Cancelled, 0, 0).
Proof. vm_compute. split; reflexivity. Qed.
Example eg_fok_filled :
  match_status (do_match eg_e 0 eg_m (eg_order (eg_fok 1100)) (d_book (eg_fok 1100))) = (FullyExecuted, 1100, 2).
Proof. vm_compute. reflexivity. Qed.
(** The same book for a post-only order at a crossing price. *)
Definition eg_post : dex := drun eg_mkt dex0 (firstn 7 eg_h ++ [(eg_e, OPlace (eg_place 2 false PostOnly (2 * unit_price) 100))]).
Example eg_post_only : o_type (eg_order eg_post) = PostOnly
  /\ match_status (do_match eg_e 0 eg_m (eg_order eg_post) (d_book eg_post)) = (Cancelled, 0, 0).
Proof. vm_compute. split; reflexivity. Qed.
(** Priority: the order at 1 has priority over the one at 2. *)
Example eg_better : exists p r, d_book eg_st = [p; r] /\ better p r.
Proof. eexists. eexists. split; [vm_compute; reflexivity|]. left. vm_compute. reflexivity. Qed.
(** Cancelling the partly filled order at 2. *)
Example eg_cancel :
  let st := drun eg_mkt eg_st (map (pair eg_e) [OMatch 0 255; OSettle 0]) in
  match d_book st with
  | [o] => d_msgs (cancel eg_mkt st (o_id o) 1) = [mkG eg_m [mkS 1 true 0 300 0] []]
  | _ => False
  end.
Proof. vm_compute. reflexivity. Qed.

(** * Refuted *)

(** A fill-or-kill order that needs more than a hundred trades is filled in part and then
    cancelled. *)
Definition fok_place (a : Z) (side : bool) (ty q : Z) : place :=
  mkP a (-1) 1 side ty unit_price q true 0 false 200 200 0 (10 ^ 30).
Definition many (k : nat) : list (dexenv * op) :=
  map (pair eg_e)
    ([ODeposit 1 10 1000; ODeposit 2 20 1000; OTime 100]
     ++ concat (repeat [OPlace (fok_place 1 true Limited 1); OMatch 0 255] k)
     ++ [OPlace (fok_place 2 false FillOrKill (Z.of_nat k))]).
(** The run of a history with the check of [calm] made on the way. *)
Fixpoint calm_run (mkt : Z -> option market) (st : dex) (l : list (dexenv * op)) : option dex :=
  match l with
  | [] => Some st
  | x :: r => if (d_time st <? 2 ^ 40) && (d_serial st + 1 <? 2 ^ 24) then calm_run mkt (dstep mkt st x) r else None
  end.
Lemma calm_run_spec mkt l : forall st st', calm_run mkt st l = Some st' -> calm mkt st l /\ drun mkt st l = st'.
Proof.
  induction l as [|x r IH]; intros st st' H.
  { split; [exact I|]. cbn [calm_run] in H. injection H as <-. reflexivity. }
  cbn [calm_run calm] in *. destruct ((d_time st <? 2 ^ 40) && (d_serial st + 1 <? 2 ^ 24)) eqn:C; [|discriminate].
  apply IH in H. destruct H as [H1 H2]. split; [split; [unfold calm1; lia|exact H1]|exact H2].
Qed.
Definition fok_shown (st : dex) : bool :=
  match d_orders st with
  | tk :: _ =>
    (o_type tk =? FillOrKill) && (o_market tk =? 1)
    && match do_match eg_e 0 eg_m tk (d_book st) with
       | (tk2, _, _, _, T) => (o_status tk2 =? Cancelled) && (o_exq tk2 =? 100) && (o_qty tk2 =? 101) && (zlen T =? 100)
       end
  | [] => false
  end.
Lemma fok_check : match calm_run eg_mkt dex0 (many 101) with Some st => fok_shown st | None => false end = true.
Proof. vm_compute. reflexivity. Qed.
Lemma many_reachable k st : calm_run eg_mkt dex0 (many k) = Some st -> reachable eg_mkt st.
Proof.
  intro C. apply calm_run_spec in C. destruct C as [C R]. exists (many k). split; [exact C|]. split; [|symmetry; exact R].
  assert (PO : forall a s ty q, place_ok (fok_place a s ty q)).
  { intros. unfold place_ok, fok_place, MaxOperatorFeeRate, unit_price. cbn [pl_market pl_price pl_topr pl_mopr]. lia. }
  apply Forall_forall. intros x X. unfold many in X. apply in_map_iff in X as (o & <- & X).
  split; [reflexivity|]. cbn [snd].
  apply in_app_or in X as [X|X]; [destruct X as [<-|[<-|[<-|[]]]]; exact I|].
  apply in_app_or in X as [X|X].
  - apply in_concat in X as (l & L & X). apply repeat_spec in L. subst l.
    destruct X as [<-|[<-|[]]]; [apply PO|exact I].
  - destruct X as [<-|[]]. apply PO.
Qed.
Theorem fill_or_kill_refuted : exists mkt st n tk m e now,
  reachable mkt st /\ nth_error (d_orders st) n = Some tk /\ e_fee e = true /\ o_type tk = FillOrKill
  /\ mkt (o_market tk) = Some m
  /\ let '(tk2, _, _, _, T) := do_match e now m tk (d_book st) in
     o_status tk2 = Cancelled /\ o_exq tk2 = 100 /\ o_qty tk2 = 101 /\ zlen T = 100.
Proof.
  pose proof fok_check as F. destruct (calm_run eg_mkt dex0 (many 101)) as [st|] eqn:C; [|discriminate].
  apply many_reachable in C. unfold fok_shown in F. destruct (d_orders st) as [|tk r] eqn:O; [discriminate|].
  exists eg_mkt, st, 0%nat, tk, eg_m, eg_e, 0.
  split; [exact C|]. split; [rewrite O; reflexivity|]. split; [reflexivity|].
  destruct (do_match eg_e 0 eg_m tk (d_book st)) as [[[[tk2 b2] l2] f2] T].
  repeat (rewrite andb_true_iff in F). destruct F as [[F1 F2] [[[F3 F4] F5] F6]].
  split; [lia|]. split; [|lia]. unfold eg_mkt. rewrite F2. reflexivity.
Qed.

(** A seller can be paid less than the limit: amounts are rounded up fill by fill, so a
    buy order at 0.5 uses up the amount locked for it before its quantity, and the next
    seller gives a unit for nothing. *)
Definition half_price : Z := 5 * 10 ^ 11.
Definition low_h : list (dexenv * op) :=
  map (pair eg_e)
    ([ODeposit 1 10 100; ODeposit 2 20 100; OTime 100; OPlace (eg_place 2 false Limited half_price 10); OMatch 0 255]
     ++ concat (repeat [OPlace (eg_place 1 true Limited half_price 1); OMatch 0 255] 5)
     ++ [OPlace (eg_place 1 true Limited half_price 1)]).
Definition low_st : dex := drun eg_mkt dex0 low_h.
Theorem seller_below_limit_refuted : exists mkt st n tk m e now,
  reachable mkt st /\ nth_error (d_orders st) n = Some tk /\ e_fee e = true
  /\ mkt (o_market tk) = Some m
  /\ o_side tk = true /\ o_price tk = half_price
  /\ let '(_, _, _, _, T) := do_match e now m tk (d_book st) in
     map (fun t => (t_qty t, t_amt t)) T = [(1, 0)].
Proof.
  exists eg_mkt, low_st, 0%nat, (eg_order low_st), eg_m, eg_e, 0.
  split.
  { exists low_h. split; [apply calm_check; vm_compute; reflexivity|]. split; [|reflexivity].
    unfold low_h. cbn [map app repeat concat].
    repeat (apply Forall_cons || apply Forall_nil); (split; [reflexivity|]); cbn [snd]; try exact I;
      apply eg_place_ok; unfold half_price; lia. }
  do 5 (split; [vm_compute; reflexivity|]). vm_compute. reflexivity.
Qed.

(** Before upgrade 11 anybody may ask for expired orders to be cleared, and the same
    order may be named twice.  It is then refunded twice, out of what other open orders
    of the owner hold; the owner withdraws everything, the other order still trades, and
    the contract owes more than it has. *)
Definition month : Z := 31 * 24 * 3600.
Definition twice_id : Z := compose_id 1 true unit_price 100 0.
Definition twice_h : list (dexenv * op) :=
  map (pair eg_old)
    [ODeposit 1 10 200; ODeposit 2 20 1000; ODeposit 3 10 10; OTime 100;
     OPlace (eg_place 1 true Limited unit_price 100); OMatch 0 255;
     OTime (100 + month);
     OPlace (eg_place 1 true Limited unit_price 100); OMatch 0 0;
     OExpire [twice_id; twice_id]; OSettle 0; OWithdraw 1 10 200;
     OPlace (eg_place 2 false Limited unit_price 100); OMatch 0 255; OSettle 0].
Theorem clear_expired_twice_refuted : exists mkt l,
  calm mkt dex0 l
  /\ Forall (fun x => e_fee (fst x) = true) l
  /\ let st := drun mkt dex0 l in
     tget 10 (d_bal st) = 10 /\ acct (2, 10) (d_acc st) = (100, 0) /\ acct (3, 10) (d_acc st) = (10, 0)
     /\ owned 10 (d_acc st) = 110.
Proof.
  exists eg_mkt, twice_h. split; [apply calm_check; vm_compute; reflexivity|].
  split; [unfold twice_h; cbn [map]; repeat (apply Forall_cons || apply Forall_nil); reflexivity|].
  vm_compute. repeat split.
Qed.

(** Before the fee upgrade the executed operator fee of a buy order was forgotten once the
    fee reserve was used up; the order was then refunded more than it had left and its
    settlement panicked for ever. *)
Definition nofee : dexenv := mkE false false false.
Definition reset_h : list (dexenv * op) :=
  map (pair nofee)
    ([ODeposit 1 10 1000; ODeposit 2 20 1004; OTime 100]
     ++ repeat (OPlace (eg_place 1 true Limited unit_price 250)) 4 ++ repeat (OMatch 0 255) 4
     ++ [OPlace (eg_place 2 false Limited unit_price 1000); OMatch 0 255]).
Theorem operator_fee_forgotten_refuted : exists mkt l,
  calm mkt dex0 l
  /\ let st := drun mkt dex0 l in
     d_book st = [] /\ acct (2, 20) (d_acc st) = (0, 1004)
     /\ exists g, d_msgs st = [g] /\ msg_takes 2 20 g = 1006 /\ settle_all nofee (g_m g) (g_set g) (d_acc st) = None.
Proof.
  exists eg_mkt, reset_h. split; [apply calm_check; vm_compute; reflexivity|].
  cbv zeta. split; [vm_compute; reflexivity|]. split; [vm_compute; reflexivity|].
  eexists. split; [vm_compute; reflexivity|]. split; vm_compute; reflexivity.
Qed.

(** Before upgrade 12 a market buy order could pay a seller less than the price. *)
Definition mb_h (e : dexenv) : list (dexenv * op) :=
  map (pair e)
    [ODeposit 1 10 1000; ODeposit 2 20 300; OTime 100;
     OPlace (eg_place 1 true Limited unit_price 1000); OMatch 0 255;
     OPlace (eg_place 2 false Market unit_price 1000)].
Theorem market_buy_underpays_refuted : exists mkt st n tk m e now,
  reachable mkt st /\ nth_error (d_orders st) n = Some tk /\ e_fee e = true /\ e_v12 e = false
  /\ mkt (o_market tk) = Some m
  /\ let '(_, _, _, _, T) := do_match e now m tk (d_book st) in
     map (fun t => (t_price t, t_qty t, t_amt t)) T = [(unit_price, 1000, 299)].
Proof.
  set (e := mkE true true false).
  exists eg_mkt, (drun eg_mkt dex0 (mb_h e)), 0%nat, (eg_order (drun eg_mkt dex0 (mb_h e))), eg_m, e, 0.
  split.
  { exists (mb_h e). split; [apply calm_check; vm_compute; reflexivity|]. split; [|reflexivity].
    unfold mb_h. cbn [map].
    repeat (apply Forall_cons || apply Forall_nil); (split; [reflexivity|]); cbn [snd]; try exact I;
      apply eg_place_ok; unfold unit_price; lia. }
  do 4 (split; [vm_compute; reflexivity|]). vm_compute. reflexivity.
Qed.

Print Assumptions match_conserves.
Print Assumptions locked_is_backed.
Print Assumptions exchange_solvent.
Print Assumptions settlement_is_covered.
Print Assumptions orders_stay_within.
Print Assumptions trades_at_limit_or_better.
Print Assumptions amount_is_price_times_quantity.
Print Assumptions seller_price_partial.
Print Assumptions post_only_never_takes.
Print Assumptions fill_or_kill_partial.
Print Assumptions price_time_priority_partial.
Print Assumptions cancel_returns_held.
Print Assumptions cancel_only_by_owner.
Print Assumptions fill_or_kill_refuted.
Print Assumptions seller_below_limit_refuted.
Print Assumptions clear_expired_twice_refuted.
Print Assumptions operator_fee_forgotten_refuted.
Print Assumptions market_buy_underpays_refuted.
