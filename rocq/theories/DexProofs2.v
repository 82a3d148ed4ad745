(** Proofs for DexProps: the matching engine. *)
From Coq Require Import ZArith List Bool Lia Sorted.
From Verif Require Import Lib DexFloat DexFloatProofs DexModel DexSpec DexProofs.
Import ListNotations.
Open Scope Z_scope.

Lemma total_app {A} (f : A -> Z) l1 l2 : total f (l1 ++ l2) = total f l1 + total f l2.
Proof. induction l1; cbn [total fold_right app]; [reflexivity|]. fold (total f (l1 ++ l2)). fold (total f l1). lia. Qed.
Lemma total_cons {A} (f : A -> Z) x l : total f (x :: l) = f x + total f l.
Proof. reflexivity. Qed.
Lemma total_ext {A} (f g : A -> Z) l : (forall x, In x l -> f x = g x) -> total f l = total g l.
Proof.
  induction l as [|a l IH]; intro H; [reflexivity|]. rewrite !total_cons, (H a) by (left; reflexivity).
  rewrite IH; [reflexivity|]. intros; apply H; now right.
Qed.
Lemma total_nonneg {A} (f : A -> Z) l : (forall x, In x l -> 0 <= f x) -> 0 <= total f l.
Proof.
  induction l as [|a l IH]; intro H; [cbn; lia|]. rewrite total_cons.
  pose proof (H a (or_introl eq_refl)). specialize (IH (fun x h => H x (or_intror h))). lia.
Qed.

(** * Weighted sums *)

Definition own (w : Z -> bool -> Z) (o : order) : Z := w (o_addr o) (o_side o) * held o.
Definition takes (w : Z -> bool -> Z) (l : list settle) : Z :=
  total (fun s => w (s_addr s) (s_trade s) * (s_rel s + s_red s)) l.
Definition net (v : bool -> Z) (l : list settle) : Z :=
  total (fun s => v (s_trade s) * (s_inc s - s_red s)) l.
Definition wt (w : Z -> bool -> Z) (t : tx) : Z := w (t_taddr t) (t_side t) * red_t t.
Definition wm (w : Z -> bool -> Z) (t : tx) : Z := w (t_maddr t) (negb (t_side t)) * red_m t.
Definition fees_in (t : tx) : Z := t_tfee t + t_tofee t + t_mfee t + t_mofee t.
Definition snn (s : settle) : Prop := 0 <= s_inc s /\ 0 <= s_rel s /\ 0 <= s_red s.

Lemma add_settle_total (f : settle -> Z) l s :
  (forall x y, s_addr x = s_addr y -> s_trade x = s_trade y ->
     f (mkS (s_addr x) (s_trade x) (s_inc x + s_inc y) (s_rel x + s_rel y) (s_red x + s_red y)) = f x + f y) ->
  total f (add_settle l s) = total f l + f s.
Proof.
  intro H. induction l as [|x r IH]; cbn [add_settle].
  - cbn. lia.
  - destruct ((s_addr x =? s_addr s) && Bool.eqb (s_trade x) (s_trade s)) eqn:C; rewrite !total_cons.
    + apply andb_prop in C as [C1 C2]. rewrite H; [lia|now apply Z.eqb_eq|now apply eqb_prop].
    + lia.
Qed.
Lemma takes_add w l s : takes w (add_settle l s) = takes w l + w (s_addr s) (s_trade s) * (s_rel s + s_red s).
Proof. apply (add_settle_total (fun s => w (s_addr s) (s_trade s) * (s_rel s + s_red s))). intros x y A B. cbn. rewrite <- A, <- B. ring. Qed.
Lemma net_add v l s : net v (add_settle l s) = net v l + v (s_trade s) * (s_inc s - s_red s).
Proof. apply (add_settle_total (fun s => v (s_trade s) * (s_inc s - s_red s))). intros x y A B. cbn. rewrite <- B. ring. Qed.
Lemma add_settle_nn l s : Forall snn l -> snn s -> Forall snn (add_settle l s).
Proof.
  intros H S. induction H as [|x r X R IH]; cbn [add_settle]; [constructor; [exact S|constructor]|].
  destruct (_ && _); constructor; auto. unfold snn in *. cbn. lia.
Qed.

Lemma tx_settles_takes w t l : takes w (tx_settles t l) = takes w l + wt w t + wm w t.
Proof.
  unfold tx_settles, wt, wm, red_t, red_m. destruct (t_side t); rewrite !takes_add; cbn [s_addr s_trade s_rel s_red negb]; lia.
Qed.
Lemma tx_settles_net v t l : tx_ok t -> net v (tx_settles t l) = net v l - v false * fees_in t.
Proof.
  intros (Q & A & F1 & F2 & F3 & F4 & L1 & L2). unfold tx_settles, fees_in.
  rewrite !(subabs_eq (t_amt t)) by lia.
  destruct (t_side t); rewrite !net_add; cbn [s_addr s_trade s_inc s_red]; ring.
Qed.
Lemma tx_settles_nn t l : tx_ok t -> Forall snn l -> Forall snn (tx_settles t l).
Proof.
  intros (Q & A & F1 & F2 & F3 & F4 & L1 & L2) H. unfold tx_settles, subabs.
  destruct (t_side t); repeat apply add_settle_nn; auto; unfold snn; cbn; lia.
Qed.
Lemma add_fee_sum l a b o : fee_sum (add_fee l a b o) = fee_sum l + b + o.
Proof.
  unfold fee_sum. induction l as [|[[a' b'] o'] r IH]; cbn [add_fee]; [cbn; lia|].
  destruct (a' =? a); rewrite !total_cons; cbn [fst snd] in *; lia.
Qed.
Lemma tx_fees_sum t f : fee_sum (tx_fees t f) = fee_sum f + fees_in t.
Proof. unfold tx_fees. rewrite !add_fee_sum. unfold fees_in. lia. Qed.
Definition fnn (x : Z * Z * Z) : Prop := 0 <= snd (fst x) /\ 0 <= snd x.
Lemma add_fee_nn l a b o : 0 <= b -> 0 <= o -> Forall fnn l -> Forall fnn (add_fee l a b o).
Proof.
  intros B O H. induction H as [|[[a' b'] o'] r X R IH]; cbn [add_fee].
  - constructor; [split; assumption|constructor].
  - destruct (a' =? a); constructor; auto. destruct X. unfold fnn. cbn [fst snd] in *. lia.
Qed.

Lemma fold_settles T : Forall tx_ok T -> forall l f,
  let l' := fold_left (fun l t => tx_settles t l) T l in
  let f' := fold_left (fun f t => tx_fees t f) T f in
  (forall w, takes w l' = takes w l + total (wt w) T + total (wm w) T)
  /\ (forall v, net v l' + v false * fee_sum f' = net v l + v false * fee_sum f)
  /\ (Forall snn l -> Forall snn l') /\ (Forall fnn f -> Forall fnn f').
Proof.
  induction 1 as [|t r K R IH]; intros l f; cbn [fold_left].
  - cbv zeta. repeat split; intros; auto. cbn. lia.
  - destruct (IH (tx_settles t l) (tx_fees t f)) as (A & B & C & D). cbv zeta in *. repeat split.
    + intro w. rewrite A, tx_settles_takes, !total_cons. lia.
    + intro v. rewrite B, tx_settles_net, tx_fees_sum by assumption. ring.
    + intro H. apply C. apply tx_settles_nn; assumption.
    + intro H. apply D. destruct K as (Q & AA & F1 & F2 & F3 & F4 & _).
      unfold tx_fees. repeat apply add_fee_nn; assumption.
Qed.

(** * Refunds *)

Lemma refund_of_held o : within o -> refund_of o = held o /\ 0 <= held o.
Proof.
  intros (W1 & W2 & W3 & W4 & W5). unfold refund_of, held. destruct (o_side o).
  - rewrite subabs_eq by lia. lia.
  - destruct (W5 eq_refl). rewrite (subabs_eq (o_amt o)), (subabs_eq (o_lock o)), subabs_eq by lia. lia.
Qed.
Lemma refund_spec o l : within o -> closed o = true ->
  (forall w, takes w (refund o l) = takes w l + own w o)
  /\ (forall v, net v (refund o l) = net v l)
  /\ (Forall snn l -> Forall snn (refund o l)).
Proof.
  intros W C. destruct (refund_of_held o W) as [R H]. unfold refund. rewrite C, R. cbn [andb].
  destruct (Z.ltb_spec 0 (held o)) as [P|P].
  - repeat split.
    + intro w. rewrite takes_add. cbn [s_addr s_trade s_rel s_red]. unfold own. ring.
    + intro v. rewrite net_add. cbn [s_trade s_inc s_red]. ring.
    + intro L. apply add_settle_nn; [exact L|]. unfold snn. cbn. lia.
  - repeat split; auto. intro w. unfold own. replace (held o) with 0 by lia. lia.
Qed.

(** * The book *)

Definition blt (x y : order) : Prop := o_id x < o_id y.
Notation bsorted := (StronglySorted blt).

Lemma bput_in x o b : In x (bput o b) -> x = o \/ In x b.
Proof.
  induction b as [|y r IH]; cbn [bput]; [intros [H|[]]; auto|].
  destruct (o_id o <? o_id y).
  - intros [H|H]; auto.
  - destruct (o_id o =? o_id y); intros [H|H]; auto; [right; now right|right; now left|].
    destruct (IH H); auto. right. now right.
Qed.
Lemma bput_sorted o b : bsorted b -> bsorted (bput o b).
Proof.
  induction 1 as [|y r S IH F]; cbn [bput]; [repeat constructor|].
  destruct (Z.ltb_spec (o_id o) (o_id y)) as [L|L].
  - constructor; [constructor; assumption|]. constructor; [exact L|].
    eapply Forall_impl; [|exact F]. intros z Z1. unfold blt in *. lia.
  - destruct (Z.eqb_spec (o_id o) (o_id y)) as [E|E].
    + constructor; [exact S|]. eapply Forall_impl; [|exact F]. intros z Z1. unfold blt in *. lia.
    + constructor; [exact IH|]. apply Forall_forall. intros z Hz. apply bput_in in Hz as [->|Hz].
      * unfold blt. lia.
      * exact (proj1 (Forall_forall _ _) F z Hz).
Qed.
Lemma bdel_sorted id b : bsorted b -> bsorted (bdel id b).
Proof.
  induction 1 as [|y r S IH F]; cbn [bdel filter]; [constructor|].
  destruct (negb _); [|exact IH]. constructor; [exact IH|].
  apply Forall_forall. intros z Hz. apply filter_In in Hz as [Hz _]. exact (proj1 (Forall_forall _ _) F z Hz).
Qed.
Lemma bget_some id b o : bget id b = Some o -> In o b /\ o_id o = id.
Proof. intro H. apply find_some in H as [H1 H2]. split; [exact H1|]. now apply Z.eqb_eq. Qed.
Lemma bget_none id b : bget id b = None -> forall o, In o b -> o_id o <> id.
Proof. intros H o I E. pose proof (find_none _ _ H o I) as K. cbv beta in K. apply Z.eqb_neq in K. congruence. Qed.
Lemma bget_in b o : bsorted b -> In o b -> bget (o_id o) b = Some o.
Proof.
  induction 1 as [|y r S IH F]; intros []; unfold bget; cbn [find].
  - subst y. now rewrite Z.eqb_refl.
  - pose proof (proj1 (Forall_forall _ _) F o H) as K. unfold blt in K.
    destruct (Z.eqb_spec (o_id y) (o_id o)); [lia|]. apply IH, H.
Qed.
Lemma bput_replace F o p b : bsorted b -> bget (o_id o) b = Some p -> total F (bput o b) = total F b - F p + F o.
Proof.
  induction 1 as [|y r S IH FA]; intro H; [discriminate|]. unfold bget in H. cbn [find] in H. cbn [bput].
  destruct (Z.eqb_spec (o_id y) (o_id o)) as [E|E].
  - injection H as <-. destruct (Z.ltb_spec (o_id o) (o_id y)); [lia|].
    destruct (Z.eqb_spec (o_id o) (o_id y)); [|lia]. rewrite !total_cons. lia.
  - assert (L : o_id y < o_id o).
    { destruct (bget_some _ _ _ H) as [I J]. pose proof (proj1 (Forall_forall _ _) FA p I) as K. unfold blt in K. lia. }
    destruct (Z.ltb_spec (o_id o) (o_id y)); [lia|]. destruct (Z.eqb_spec (o_id o) (o_id y)); [lia|].
    rewrite !total_cons, IH by exact H. lia.
Qed.
Lemma bput_new F o b : bget (o_id o) b = None -> total F (bput o b) = total F b + F o.
Proof.
  induction b as [|y r IH]; intro H; [cbn; lia|]. unfold bget in H. cbn [find] in H. cbn [bput].
  destruct (Z.eqb_spec (o_id y) (o_id o)) as [E|E]; [discriminate|].
  destruct (o_id o <? o_id y); [rewrite !total_cons; lia|].
  destruct (Z.eqb_spec (o_id o) (o_id y)); [lia|]. rewrite !total_cons, IH by exact H. lia.
Qed.
Lemma bdel_none F id b : (forall o, In o b -> o_id o <> id) -> total F (bdel id b) = total F b.
Proof.
  induction b as [|y r IH]; intro H; [reflexivity|]. cbn [bdel filter].
  destruct (Z.eqb_spec (o_id y) id) as [E|E]; [destruct (H y (or_introl eq_refl) E)|]. cbn [negb].
  rewrite !total_cons. unfold bdel in IH. rewrite IH; [reflexivity|]. intros; apply H; now right.
Qed.
Lemma bdel_total F id p b : bsorted b -> bget id b = Some p -> total F (bdel id b) = total F b - F p.
Proof.
  induction 1 as [|y r S IH FA]; intro H; [discriminate|]. unfold bget in H. cbn [find] in H. cbn [bdel filter].
  destruct (Z.eqb_spec (o_id y) id) as [E|E]; cbn [negb].
  - injection H as <-. fold (bdel id r). rewrite bdel_none, total_cons; [lia|].
    intros o I. pose proof (proj1 (Forall_forall _ _) FA o I) as K. unfold blt in K. lia.
  - rewrite !total_cons. fold (bdel id r). rewrite IH by exact H. lia.
Qed.
Lemma bget_bput id o b : o_id o <> id -> bget id (bput o b) = bget id b.
Proof.
  intro N. unfold bget. induction b as [|y r IH]; cbn [bput find].
  - destruct (Z.eqb_spec (o_id o) id); [congruence|reflexivity].
  - destruct (o_id o <? o_id y).
    + cbn [find]. destruct (Z.eqb_spec (o_id o) id); [congruence|reflexivity].
    + destruct (Z.eqb_spec (o_id o) (o_id y)); cbn [find].
      * destruct (Z.eqb_spec (o_id o) id); [congruence|]. destruct (Z.eqb_spec (o_id y) id); [congruence|reflexivity].
      * rewrite IH. reflexivity.
Qed.
Lemma bget_bdel id i b : i <> id -> bget id (bdel i b) = bget id b.
Proof.
  intro N. unfold bget, bdel. induction b as [|y r IH]; [reflexivity|]. cbn [filter].
  destruct (Z.eqb_spec (o_id y) i) as [E|E]; cbn [negb].
  - rewrite IH. cbn [find]. destruct (Z.eqb_spec (o_id y) id); [congruence|reflexivity].
  - cbn [find]. rewrite IH. reflexivity.
Qed.

(** * Taking orders *)

Definition good (o : order) : Prop := within o /\ rates_ok o /\ open o /\ rests o.

Lemma stat_match tk tk' mk : stat tk tk' -> match_price tk' mk = match_price tk mk.
Proof. intros (A & _ & _ & B & _). unfold match_price, o_price, o_side. now rewrite A, B. Qed.
Lemma stat_own w o o' : stat o o' -> own w o' = w (o_addr o) (o_side o) * held o'.
Proof. intro S. unfold own. rewrite (stat_side _ _ S). destruct S as (_ & -> & _). reflexivity. Qed.
Lemma set_status_stat o s r : stat o (set_status o s r).
Proof. repeat split. Qed.
Lemma set_status_within o s r : within (set_status o s r) <-> within o.
Proof. unfold within, o_side. cbn. tauto. Qed.
Lemma set_status_held o s r : held (set_status o s r) = held o.
Proof. reflexivity. Qed.
Lemma stat_type o o' : stat o o' -> o_type o' = o_type o.
Proof. intros (_ & _ & _ & A & _). exact A. Qed.
Lemma stat_market o o' : stat o o' -> o_market o' = o_market o.
Proof. intros (A & _). unfold o_market. now rewrite A. Qed.

Lemma closed_open o : open o -> closed o = false.
Proof. unfold open, closed. intros [-> | ->]; reflexivity. Qed.

(** A transaction between the taker and one of the makers [P]. *)
Definition tx_of (m : market) (tk : order) (P : list order) (t : tx) : Prop :=
  tx_ok t /\ t_side t = o_side tk /\ t_taker t = o_id tk /\ t_taddr t = o_addr tk
  /\ t_amt t <= raw_amount (t_qty t) (t_price t) (m_diff m)
  /\ exists p, In p P /\ t_maker t = o_id p /\ t_maddr t = o_addr p /\ t_price t = o_price p
               /\ match_price tk p = true.

Lemma tx_of_more m tk P Q t : (forall p, In p P -> In p Q) -> tx_of m tk P t -> tx_of m tk Q t.
Proof.
  intros H (A & B & C & D & E & p & I & J). repeat (split; [assumption|]). exists p. auto.
Qed.
Lemma tx_of_stat m tk tk' P t : stat tk tk' -> tx_of m tk' P t -> tx_of m tk P t.
Proof.
  intros S (A & B & C & D & E & p & I & J & K & L & M).
  rewrite (stat_side _ _ S) in B. rewrite (stat_match _ _ _ S) in M. destruct S as (S1 & S2 & _).
  rewrite S1 in C. rewrite S2 in D. repeat (split; [assumption|]). exists p. auto.
Qed.

Definition taken (tk tk' : order) (P M : list order) (T : list tx) (m : market) : Prop :=
  Forall2 (fun p q => stat p q /\ within q /\ (closed q = false -> open q)) P M
  /\ stat tk tk' /\ within tk' /\ Forall (tx_of m tk P) T
  /\ (forall w, own w tk = own w tk' + total (wt w) T)
  /\ (forall w, total (own w) P = total (own w) M + total (wm w) T)
  /\ undone tk' = false
  /\ o_exq tk' = o_exq tk + total t_qty T.

Lemma taken_nil tk m : within tk -> undone tk = false -> taken tk tk [] [] [] m.
Proof.
  intros W U. unfold taken. split; [constructor|]. split; [apply stat_refl|]. split; [exact W|].
  split; [constructor|]. split; [intro; cbn; lia|]. split; [reflexivity|]. split; [exact U|]. cbn. lia.
Qed.

Lemma expire_spec o : stat o (expire o) /\ closed (expire o) = true /\ held (expire o) = held o
  /\ (within o -> within (expire o)).
Proof.
  unfold expire. split; [apply set_status_stat|]. split; [reflexivity|]. split; [reflexivity|].
  intro. now apply set_status_within.
Qed.

Lemma taken_cons tk tk1 tk' p q t P M T m :
  stat p q -> within q -> (closed q = false -> open q) -> stat tk tk1 -> tx_of m tk [p] t ->
  (forall w, own w tk = own w tk1 + wt w t) -> (forall w, own w p = own w q + wm w t) ->
  o_exq tk1 = o_exq tk + t_qty t ->
  taken tk1 tk' P M T m -> taken tk tk' (p :: P) (q :: M) (t :: T) m.
Proof.
  intros A B C D E F G I (K1 & K2 & K3 & K4 & K5 & K6 & K7 & K8). unfold taken.
  split; [constructor; auto|]. split; [eapply stat_trans; eauto|]. split; [exact K3|].
  split.
  { constructor.
    - eapply tx_of_more; [|exact E]. intros x [->|[]]. now left.
    - eapply Forall_impl; [|exact K4]. intros x X. eapply tx_of_stat; [exact D|].
      eapply tx_of_more; [|exact X]. intros y Y. now right. }
  split; [intro w; rewrite F, K5, total_cons; lia|].
  split; [intro w; rewrite !total_cons, G, K6; lia|].
  split; [exact K7|]. rewrite K8, I, total_cons. lia.
Qed.

Lemma take_spec e now m : e_fee e = true -> forall makers tk mods txs,
  Forall (fun o => good o /\ o_side o = negb (o_side tk)) makers -> within tk -> rates_ok tk -> undone tk = false ->
  let '(tk', mods', txs') := take e now m tk makers mods txs in
  exists P R M T, makers = P ++ R /\ mods' = mods ++ M /\ txs' = txs ++ T /\ taken tk tk' P M T m.
Proof.
  intro E. induction makers as [|mk rest IH]; intros tk mods txs G W RT UN.
  { cbn [take]. exists [], [], [], []. rewrite !app_nil_r. repeat (split; [reflexivity|]). now apply taken_nil. }
  pose proof (taken_nil tk m W UN) as NIL.
  inversion G as [|x y [[Wm [Rm Om]] Sm] Gr]; subst. cbn [take].
  destruct (timed_out e now mk) eqn:TO.
  { destruct (expire_spec mk) as (X1 & X2 & X3 & X4).
    assert (STEP : forall tk' P M T, taken tk tk' P M T m -> taken tk tk' (mk :: P) (expire mk :: M) T m).
    { intros tk' P M T (K1 & K2 & K3 & K4 & K5 & K6 & K7 & K8). unfold taken.
      split; [constructor; [|exact K1]; split; [exact X1|split; [auto|congruence]]|].
      split; [exact K2|]. split; [exact K3|].
      split; [eapply Forall_impl; [|exact K4]; intros; eapply tx_of_more; [|eassumption]; now right|].
      split; [exact K5|]. split; [|now split].
      intro w. rewrite !total_cons, K6. rewrite (stat_own w _ _ X1), X3. unfold own. lia. }
    destruct (_ || _).
    - exists [mk], rest, [expire mk], []. rewrite app_nil_r. repeat (split; [reflexivity|]). apply STEP, NIL.
    - specialize (IH tk (mods ++ [expire mk]) txs Gr W RT UN).
      destruct (take _ _ _ _ _ _ _) as [[tk' mods'] txs'].
      destruct IH as (P & R & M & T & A & B & C & D). exists (mk :: P), R, (expire mk :: M), T.
      subst. rewrite <- app_assoc. repeat (split; [reflexivity|]). apply STEP, D. }
  destruct (match_price tk mk) eqn:MP.
  2:{ exists [], (mk :: rest), [], []. rewrite !app_nil_r. repeat (split; [reflexivity|]). exact NIL. }
  destruct (o_type tk =? PostOnly) eqn:PO.
  { exists [], (mk :: rest), [], []. rewrite !app_nil_r. repeat (split; [reflexivity|]).
    unfold taken. split; [constructor|]. split; [apply set_status_stat|].
    split; [now apply set_status_within|]. split; [constructor|].
    split; [intro; cbn; rewrite Z.add_0_r; reflexivity|]. split; [reflexivity|].
    split; [reflexivity|]. cbn. lia. }
  pose proof (calc_spec e m tk mk E W Wm RT Rm Sm) as CS.
  destruct (calc_tx e m tk mk) as [[tk1 mk1] t].
  destruct CS as (C1 & C2 & C3 & C4 & C5 & C6 & C7 & C8 & C9 & C10 & C11 & C12 & C13 & C14 & C15 & C16 & C17 & C18 & C19 & C20).
  set (tk2 := if (o_status tk1 =? PartialExecuted) && (maxTxsCountPerTaker <=? zlen (txs ++ [t]))
              then set_status tk1 Cancelled partialExecutedCancelledByMarket else tk1).
  assert (S2 : stat tk tk2 /\ within tk2 /\ held tk2 = held tk1 /\ undone tk2 = false /\ o_exq tk2 = o_exq tk1).
  { unfold tk2. destruct (_ && _).
    - split; [exact C1|]. split; [now apply set_status_within|]. repeat split.
    - split; [exact C1|]. split; [exact C3|]. split; [reflexivity|]. split; [|reflexivity].
      unfold undone in *. now rewrite C7. }
  destruct S2 as (S21 & S22 & S23 & S24 & S25). clearbody tk2.
  assert (STEP : forall tk' P M T, taken tk2 tk' P M T m -> taken tk tk' (mk :: P) (mk1 :: M) (t :: T) m).
  { intros tk' P M T. apply taken_cons; auto.
    - unfold closed, open. destruct C6 as [-> | ->]; [discriminate|auto].
    - unfold tx_of. repeat (split; [assumption|]). exists mk. split; [now left|]. repeat (split; [assumption|]). exact MP.
    - intro w. rewrite (stat_own w _ _ S21), S23. unfold own, wt. rewrite C8, C11, C12. ring.
    - intro w. rewrite (stat_own w _ _ C2). unfold own, wm. rewrite C9, C11, C13, Sm. ring.
    - congruence. }
  pose proof (taken_nil tk2 m S22 S24) as NIL2.
  destruct (_ || _).
  - exists [mk], rest, [mk1], [t]. repeat (split; [reflexivity|]). apply STEP, NIL2.
  - specialize (IH tk2 (mods ++ [mk1]) (txs ++ [t])).
    destruct (take _ _ _ _ _ _ _) as [[tk' mods'] txs'].
    destruct IH as (P & R & M & T & A & B & C & D); auto.
    { rewrite (stat_side _ _ S21). exact Gr. }
    { eapply stat_rates; eauto. }
    exists (mk :: P), R, (mk1 :: M), (t :: T).
    subst. rewrite <- !app_assoc. repeat (split; [reflexivity|]). apply STEP, D.
Qed.
