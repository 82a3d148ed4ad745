From Verif Require Import Lib.
From Verif Require RoadModel RoadProofs.
Import RoadProofs.
From Verif Require Import TurnModel TurnSpec TurnProofs TurnProofs2 TurnProofs3 TurnProofs4 TurnProofs5.
From Coq Require Import Permutation Sorted.
Import ListNotations.

(** ** The first entries of a caller *)
Definition low (a b : tx) : Prop := t_height a <= t_height b.
Lemma place_perm t l : Permutation (place t l) (t :: l).
Proof. induction l as [|x l IH]; [reflexivity|]. cbn. destruct (before t x); [reflexivity|]. rewrite IH. apply perm_swap. Qed.
Lemma before_low t x : (if before t x then low t x else low x t).
Proof. unfold before, low. destruct (t_height t <? t_height x) eqn:A; cbn [orb]; [apply Z.ltb_lt in A; lia|]. apply Z.ltb_ge in A. destruct ((t_height t =? t_height x) && (t_hash t <=? t_hash x)) eqn:B; [|lia]. apply andb_true_iff in B. destruct B as [B _]. apply Z.eqb_eq in B. lia. Qed.
Lemma place_sorted t l : StronglySorted low l -> StronglySorted low (place t l).
Proof.
  induction 1 as [|x l SS IH F]; [constructor; constructor|]. cbn. pose proof (before_low t x) as B. destruct (before t x).
  - constructor; [now constructor|]. constructor; [exact B|]. apply Forall_forall. intros y Y. rewrite Forall_forall in F. specialize (F y Y). unfold low in *. lia.
  - constructor; [exact IH|]. apply Forall_forall. intros y Y. apply (Permutation_in _ (place_perm t l)) in Y. destruct Y as [<-|Y]; [exact B|]. rewrite Forall_forall in F. now apply F.
Qed.
Lemma iterate_sorted d to from : StronglySorted low (iterate d to from).
Proof. unfold iterate. induction (map _ _) as [|t l IH]; [constructor|]. cbn. now apply place_sorted. Qed.
Lemma iterate_in d to from t : In t (iterate d to from) <-> In (t_key t, t_index t) d /\ t_to t = to /\ t_from t = from.
Proof.
  unfold iterate. assert (P : Permutation (fold_right place [] (map (fun e : key * option Z => Tx (fst e) (snd e)) (filter (fun e => (fst (fst (fst e)) =? to) && (snd (fst (fst e)) =? from)) d))) (map (fun e => Tx (fst e) (snd e)) (filter (fun e => (fst (fst (fst e)) =? to) && (snd (fst (fst e)) =? from)) d))).
  { induction (map _ _) as [|x l IH]; [reflexivity|]. cbn. rewrite place_perm. now constructor. }
  transitivity (In t (map (fun e : key * option Z => Tx (fst e) (snd e)) (filter (fun e => (fst (fst (fst e)) =? to) && (snd (fst (fst e)) =? from)) d))); [split; apply Permutation_in; [exact P|now apply Permutation_sym]|]. rewrite in_map_iff. split.
  - intros ([k v] & <- & H). apply filter_In in H. destruct H as [H Q]. cbn in Q. apply andb_true_iff in Q. destruct Q as [A B]. apply Z.eqb_eq in A, B. auto.
  - intros (H & A & B). exists (t_key t, t_index t). cbn. split; [now destruct t|]. apply filter_In. split; [exact H|]. cbn. apply andb_true_iff. split; apply Z.eqb_eq; assumption.
Qed.
Lemma same_from n : n <> 0 -> forall l, StronglySorted low l -> (forall t, In t l -> n <= t_height t) -> forall t, In t (same_height n l) <-> In t l /\ t_height t = n.
Proof.
  intros N. induction 1 as [|x l SS IH F]; intros H t; [cbn; tauto|]. cbn [same_height]. destruct (Z.eqb_spec n 0) as [|_]; [contradiction|]. destruct (Z.eqb_spec (t_height x) n) as [E|E].
  - cbn [In]. rewrite IH by (intros; apply H; now right). split; [intros [<-|Q]; [auto|tauto]|]. intros [[<-|Q] R]; auto.
  - split; [intros []|]. intros [[<-|Q] R]; [contradiction|]. rewrite Forall_forall in F. specialize (F t Q). specialize (H x (or_introl eq_refl)). unfold low in F. lia.
Qed.
Lemma first_in d to from : (forall t, In t (iterate d to from) -> 1 <= t_height t) -> forall t, In t (first_txs d to from) <-> In t (iterate d to from) /\ (forall u, In u (iterate d to from) -> t_height t <= t_height u).
Proof.
  intros H t. unfold first_txs. pose proof (iterate_sorted d to from) as SS. destruct (iterate d to from) as [|x l]; [cbn; tauto|]. inversion_clear SS as [|? ? SL F]. rewrite Forall_forall in F. pose proof (H x (or_introl eq_refl)) as HX. cbn [same_height Z.eqb]. rewrite Z.eqb_refl. cbn [In]. rewrite same_from; [|lia|exact SL|exact F]. split.
  - intros [<-|[T E]].
    + split; [auto|]. intros u [<-|U]; [lia|]. exact (F u U).
    + split; [auto|]. intros u [<-|U]; [lia|]. specialize (F u U). unfold low in F. lia.
  - intros [[<-|T] M]; [auto|]. right. split; [exact T|]. specialize (M x (or_introl eq_refl)). specialize (F t T). unfold low in F. lia.
Qed.
Lemma first_nil d to from : first_txs d to from = [] <-> iterate d to from = [].
Proof. unfold first_txs. destruct (iterate d to from) as [|x l]; [tauto|]. cbn [same_height Z.eqb]. rewrite Z.eqb_refl. split; discriminate. Qed.

(** The smallest index *)
Lemma min_from_ok : forall l m, t_index m <> None -> (forall t, In t l -> t_index t <> None) -> exists t i, min_from m l = Some t /\ t_index t = Some i /\ In t (m :: l) /\ forall u j, In u (m :: l) -> t_index u = Some j -> i <= j.
Proof.
  induction l as [|x l IH]; intros m HM H; cbn [min_from].
  - destruct (t_index m) as [i|] eqn:E; [|contradiction]. exists m, i. split; [reflexivity|]. split; [exact E|]. split; [now left|]. intros u j [<-|[]] Q. rewrite E in Q. injection Q as ->. lia.
  - destruct (t_index x) as [a|] eqn:EX; [|now destruct (H x (or_introl eq_refl))]. destruct (t_index m) as [b|] eqn:EM; [|contradiction]. destruct (IH (if a <? b then x else m)) as (t & i & A & B & C & D).
    + destruct (a <? b); congruence.
    + intros t T. apply H. now right.
    + exists t, i. split; [exact A|]. split; [exact B|]. split; [destruct C as [<-|C]; [destruct (a <? b); cbn; auto|now right; right]|]. intros u j [<-|[<-|U]] Q.
      * destruct (Z.ltb_spec a b); [specialize (D x a (or_introl eq_refl) EX); rewrite EM in Q; injection Q as <-; lia|exact (D m j (or_introl eq_refl) Q)].
      * destruct (Z.ltb_spec a b); [exact (D x j (or_introl eq_refl) Q)|specialize (D m b (or_introl eq_refl) EM); rewrite EX in Q; injection Q as <-; lia].
      * apply (D u j); [now right|exact Q].
Qed.
Lemma min_ok l : l <> [] -> (forall t, In t l -> t_index t <> None) -> exists t i, min_tx l = Some t /\ t_index t = Some i /\ In t l /\ forall u j, In u l -> t_index u = Some j -> i <= j.
Proof.
  destruct l as [|m l]; [contradiction|]. intros _ H. cbn [min_tx]. unfold dirty. destruct (t_index m) eqn:E; [|now destruct (H m (or_introl eq_refl))]. apply min_from_ok; [congruence|]. intros t T. apply H. now right.
Qed.

Section Turn.
Context (contract genesis pooled : Z -> bool).
Notation wf := (wf contract genesis pooled). Notation owed := (owed contract). Notation db_ok := (db_ok contract). Notation inv := (inv contract genesis pooled). Notation lazy := (lazy contract).
Lemma db_get D L k v : NoDup (map fst D) -> In (k, v) D -> db_ok D L -> exists i, In (k, i) (owed L) /\ (v = Some i \/ v = None /\ contract (k_from k) = true).
Proof. intros N H OK. specialize (OK k). rewrite (in_get _ kkeq_ok D k v N H) in OK. exact OK. Qed.

(** Entries of one block of a caller *)
Definition good (L : list blk) (from n : Z) (t : tx) : Prop := t_from t = from /\ t_height t = n /\ exists i, In (t_key t, i) (owed L) /\ (t_index t = Some i \/ t_index t = None /\ contract from = true).
Definition same_keys (d d' : db) : Prop := forall k, get keq d k = None <-> get keq d' k = None.
Lemma puts_ok L : wf L -> forall ts d, NoDup (map fst d) -> db_ok d L -> (forall t, In t ts -> exists i, In (t_key t, i) (owed L) /\ t_index t = Some i) ->
  let d' := fold_left (fun d t => put keq d (t_key t) (t_index t)) ts d in NoDup (map fst d') /\ db_ok d' L.
Proof.
  intros W. induction ts as [|t ts IH]; intros d N D H; cbn [fold_left]; [auto|]. destruct (H t (or_introl eq_refl)) as (i & I & E). apply IH; [exact (nodup_put _ kkeq_ok d (t_key t) (t_index t) N)| |intros; apply H; now right].
  intros k. rewrite (get_put _ kkeq_ok). destruct (keq (t_key t) k) eqn:K; [apply kkeq_ok in K; subst k; exists i; auto|exact (D k)].
Qed.
Lemma db_same d d' L : db_ok d L -> db_ok d' L -> same_keys d d'.
Proof.
  intros A B k. specialize (A k). specialize (B k). destruct (get keq d k), (get keq d' k); split; try tauto; intros; try discriminate.
  - destruct A as (i & A & _). now apply B in A.
  - destruct B as (i & B & _). now apply A in B.
Qed.
Lemma lazy_ok L p from n l : wf L -> fine p -> db_ok (p_db p) L -> (forall t, In t l -> good L from n t) ->
  exists p' o, lazy L p l = Some (p', o) /\ fine p' /\ db_ok (p_db p') L /\ p_callers p' = p_callers p /\ p_known p' = p_known p /\
    match l with [] => o = None | _ => exists t i, o = Some t /\ In (t_key t, i) (owed L) /\ In (t_key t) (map t_key l) /\ forall u j, In u l -> In (t_key u, j) (owed L) -> i <= j end.
Proof.
  intros W F D G. unfold TurnModel.lazy. destruct (filter dirty l) as [|t0 ds] eqn:DS.
  - exists p, (min_tx l). split; [reflexivity|]. split; [exact F|]. split; [exact D|]. split; [reflexivity|]. split; [reflexivity|].
    assert (CL : forall t, In t l -> t_index t <> None).
    { intros t T Q. assert (X : In t (filter dirty l)) by (apply filter_In; split; [exact T|unfold dirty; now rewrite Q]). rewrite DS in X. destruct X. }
    destruct l as [|x r] eqn:EL; [reflexivity|]. rewrite <- EL in *. destruct (min_ok l ltac:(congruence) CL) as (t & i & A & B & C & M). exists t, i. split; [exact A|]. destruct (G t C) as (_ & _ & j & J & [V|[V _]]); [|congruence]. assert (j = i) by congruence. subst j. split; [exact J|]. split; [now apply in_map|]. intros u j U O. destruct (G u U) as (_ & _ & j' & J' & [V'|[V' _]]); [|now apply CL in V']. rewrite (owed_one contract genesis pooled L _ _ _ W O J'). exact (M u j' U V').
  - assert (T0 : In t0 l) by (apply (proj1 (filter_In dirty t0 l)); rewrite DS; now left). assert (Q0 : dirty t0 = true) by (apply (proj2 (proj1 (filter_In dirty t0 l) ltac:(rewrite DS; now left)))). destruct (G t0 T0) as (F0 & N0 & i0 & I0 & V0). assert (CF : contract from = true) by (destruct V0 as [V0|[_ V0]]; [unfold dirty in Q0; rewrite V0 in Q0; discriminate|exact V0]).
    apply filter_In in I0. destruct I0 as [I0 _]. destruct (spot_of _ _ _ I0) as (b & s & B & S1 & P0 & K0). unfold t_hash at 1. rewrite K0. cbn [snd]. rewrite (complete_ok L b (s_hash s) (wf_hash _ _ _ _ W) B (hs_send b s S1)).
    assert (BA : b_addr b = from) by (rewrite <- F0; unfold t_from; now rewrite K0). assert (BN : b_height b = n) by (rewrite <- N0; unfold t_height; now rewrite K0). rewrite BA, CF.
    assert (SB : sends_of b = b_subs b). { pose proof (wf_kind _ _ _ _ W b B) as K. destruct b; [|reflexivity]. cbn in K, BA. congruence. }
    assert (FI : forall t, In t l -> exists i, In (t_key t, i) (owed L) /\ fill (b_subs b) t = Tx (t_key t) (Some i)).
    { intros t T. destruct (G t T) as (F1 & N1 & i & I1 & V). exists i. split; [exact I1|]. unfold fill. destruct V as [V|[V _]]; [unfold dirty; rewrite V; destruct t; cbn in *; now subst|]. unfold dirty. rewrite V. apply filter_In in I1. destruct I1 as [I1 _]. destruct (spot_of _ _ _ I1) as (b' & s' & B' & S2 & P1 & K1).
      assert (b' = b). { apply (sorted_high L b' b (wf_order _ _ _ _ W) B' B); [rewrite BA, <- F1; unfold t_from; now rewrite K1|rewrite BN, <- N1; unfold t_height; now rewrite K1]. }
      subst b'. pose proof (spot_index _ _ _ _ _ _ (hs_sends _ (block_nodup _ _ (wf_hash _ _ _ _ W) B)) P1) as Q. rewrite SB in Q. change (t_hash t) with (k_hash (t_key t)). rewrite Q. do 2 f_equal. lia. }
    assert (L' : existsb dirty (map (fill (b_subs b)) l) = false). { destruct (existsb _ _) eqn:X; [|reflexivity]. apply existsb_exists in X. destruct X as (u & U & X). apply in_map_iff in U. destruct U as (t & <- & T). destruct (FI t T) as (i & _ & E). rewrite E in X. discriminate. }
    set (ts := filter (fun t => negb (dirty t)) (map (fill (b_subs b)) (t0 :: ds))). destruct (puts_ok L W ts (p_db p) (f_keys _ F) D) as (N' & D').
    { intros u U. apply filter_In in U. destruct U as [U _]. rewrite <- DS in U. apply in_map_iff in U. destruct U as (t & <- & T). apply filter_In in T. destruct (FI t (proj1 T)) as (i & I & E). rewrite E. exists i. auto. }
    eexists _, _. split; [reflexivity|]. cbn [p_db p_callers p_known]. split; [|split; [exact D'|split; [reflexivity|split; [reflexivity|]]]].
    { constructor; cbn [p_db p_callers p_known]; [exact N'| |exact (f_callers _ F)]. intros k Q. apply (f_known _ F k). intros X. apply Q. now apply (db_same _ _ L D D'). }
    rewrite L'. destruct l as [|x r] eqn:EL; [destruct T0|]. rewrite <- EL in *. destruct (min_ok (map (fill (b_subs b)) l)) as (t & i & A & A2 & C & M).
    + rewrite EL. discriminate.
    + intros u U. apply in_map_iff in U. destruct U as (t & <- & T). destruct (FI t T) as (i & _ & E). rewrite E. discriminate.
    + apply in_map_iff in C. destruct C as (u & EU & U). destruct (FI u U) as (j & J & E). rewrite E in EU. subst t. cbn in A2. injection A2 as ->. exists (Tx (t_key u) (Some i)), i. split; [exact A|]. cbn [t_key]. split; [exact J|]. split; [now apply in_map|]. intros v j V O. destruct (FI v V) as (j' & J' & E'). rewrite (owed_one contract genesis pooled L _ _ _ W O J'). apply (M (fill (b_subs b) v)); [now apply in_map|]. now rewrite E'.
Qed.

(** ** The queue of a caller *)
Definition at_ (to from : Z) (e : key * Z) : bool := (k_to (fst e) =? to) && (k_from (fst e) =? from).
Definition queue (L : list blk) (to from : Z) : list (key * Z) := filter (at_ to from) (owed L).
Definition earlier (a b : key * Z) : Prop := k_height (fst a) < k_height (fst b) \/ k_height (fst a) = k_height (fst b) /\ snd a < snd b.
Lemma queue_in L to from k i : In (k, i) (queue L to from) <-> In (k, i) (owed L) /\ k_to k = to /\ k_from k = from.
Proof. clear genesis pooled. unfold queue. rewrite filter_In. unfold at_. cbn [fst]. rewrite andb_true_iff, !Z.eqb_eq. tauto. Qed.
Lemma spots_sorted a n : forall l i, StronglySorted earlier (spots_from i a n l) /\ Forall (fun e => k_height (fst e) = n /\ i <= snd e) (spots_from i a n l).
Proof.
  induction l as [|s l IH]; intros i; cbn; [split; constructor|]. destruct (IH (i + 1)) as [A B]. rewrite Forall_forall in B. split.
  - constructor; [exact A|]. apply Forall_forall. intros e E. destruct (B e E). right. cbn. split; [congruence|lia].
  - constructor; [cbn; split; [reflexivity|lia]|]. apply Forall_forall. intros e E. destruct (B e E). split; [assumption|lia].
Qed.
Lemma sorted_join {A} (Q : A -> A -> Prop) l r : StronglySorted Q l -> StronglySorted Q r -> (forall x y, In x l -> In y r -> Q x y) -> StronglySorted Q (l ++ r).
Proof.
  induction 1 as [|x l SS IH F]; intros R H; [exact R|]. cbn. constructor; [apply IH; [exact R|intros; apply H; [now right|assumption]]|]. apply Forall_app. split; [exact F|]. apply Forall_forall. intros y Y. apply H; [now left|exact Y].
Qed.
Lemma sorted_map_filter {A} (Q : A -> A -> Prop) (q : A -> bool) l : StronglySorted (fun x y => q x = true -> q y = true -> Q x y) l -> StronglySorted Q (filter q l).
Proof.
  induction 1 as [|x l SS IH F]; [constructor|]. cbn. destruct (q x) eqn:E; [|exact IH]. constructor; [exact IH|]. apply Forall_forall. intros y Y. apply filter_In in Y. rewrite Forall_forall in F. now apply F.
Qed.
Lemma sorted_weak {A} (Q Q' : A -> A -> Prop) l : (forall x y, Q x y -> Q' x y) -> StronglySorted Q l -> StronglySorted Q' l.
Proof. intros H. induction 1 as [|x l SS IH F]; constructor; [exact IH|]. eapply Forall_impl; [|exact F]. auto. Qed.
Lemma located_sorted L : StronglySorted later L -> StronglySorted (fun x y : key * Z => k_from (fst x) = k_from (fst y) -> earlier x y) (located L).
Proof.
  induction 1 as [|b L SS IH F]; [constructor|]. cbn. apply sorted_join; [|exact IH|].
  - apply sorted_weak with (Q := earlier); [auto|]. apply spots_sorted.
  - intros [k i] [k' i'] X Y E. destruct (spots_in _ _ _ _ _ _ X) as (s & _ & K). apply in_flat_map in Y. destruct Y as (c & C & Y). destruct (spots_in _ _ _ _ _ _ Y) as (s' & _ & K'). rewrite Forall_forall in F. subst k k'. cbn in *. left. cbn. exact (F c C E).
Qed.
Lemma queue_sorted L to from : wf L -> StronglySorted earlier (queue L to from).
Proof.
  intros W. unfold queue, TurnProofs2.owed. apply sorted_map_filter. apply sorted_filter. eapply sorted_weak; [|exact (located_sorted L (wf_order _ _ _ _ W))]. cbn. intros [k i] [k' i'] H A B. unfold at_ in A, B. cbn in *. apply H. apply andb_true_iff in A, B. destruct A as [_ A], B as [_ B]. apply Z.eqb_eq in A, B. congruence.
Qed.
Lemma keeps_filter (P : send -> Prop) q l : (forall s, In s l -> (P s <-> q s = true)) -> keeps P l (map s_hash (filter q l)).
Proof.
  induction l as [|s l IH]; intros H; [constructor|]. cbn. destruct (q s) eqn:E; cbn; constructor; try (apply IH; intros; apply H; now right); rewrite (H s (or_introl eq_refl)); congruence.
Qed.
Lemma keeps_one (P : send -> Prop) l : forall a b, keeps P l a -> keeps P l b -> a = b.
Proof.
  induction l as [|s l IH]; intros a b A B; inversion A; inversion B; subst; try contradiction; try reflexivity; [f_equal; auto|auto].
Qed.
Lemma queue_waiting L to from : contract to = true -> waiting L to from (map (fun e => k_hash (fst e)) (queue L to from)).
Proof.
  clear genesis pooled. intros C. assert (E : map (fun e => k_hash (fst e)) (queue L to from) = map s_hash (filter (fun s => (s_to s =? to) && negb (mem (s_hash s) (taken L))) (sent L from))).
  - unfold queue, TurnProofs2.owed, due. generalize (taken L) as T. intros T. unfold sent, located. induction L as [|b L IH]; [reflexivity|]. cbn [flat_map]. rewrite !filter_app, !map_app, IH. f_equal.
    assert (H : forall l i, map (fun e => k_hash (fst e)) (filter (at_ to from) (filter (fun x => contract (k_to (fst x)) && negb (mem (k_hash (fst x)) T)) (spots_from i (b_addr b) (b_height b) l))) = map s_hash (filter (fun s => (s_to s =? to) && negb (mem (s_hash s) T)) (if b_addr b =? from then l else []))).
    { induction l as [|s l IHl]; intros i; [now destruct (b_addr b =? from)|]. specialize (IHl (i + 1)). set (e := ((s_to s, b_addr b), (b_height b, s_hash s)) : key). change (spots_from i (b_addr b) (b_height b) (s :: l)) with ((e, i) :: spots_from (i + 1) (b_addr b) (b_height b) l). cbn [filter fst]. change (k_to e) with (s_to s). change (k_hash e) with (s_hash s).
      destruct (contract (s_to s) && negb (mem (s_hash s) T)) eqn:DU; cbn [filter].
      - change (at_ to from (e, i)) with ((s_to s =? to) && (b_addr b =? from)). apply andb_true_iff in DU. destruct DU as [_ M]. destruct (b_addr b =? from); cbn [filter]; rewrite ?M, ?andb_true_r, ?andb_false_r; [|exact IHl]. destruct (s_to s =? to); cbn [map]; now rewrite IHl.
      - rewrite IHl. destruct (b_addr b =? from); [|reflexivity]. cbn [filter]. destruct (Z.eqb_spec (s_to s) to) as [ST|]; [|reflexivity]. rewrite ST, C in DU. cbn [andb] in *. now rewrite DU. }
    unfold spots. rewrite H. destruct (b_addr b =? from); [|reflexivity]. now destruct b.
  - rewrite E. apply keeps_filter. intros s _. rewrite andb_true_iff, Z.eqb_eq, negb_true_iff, mem_not, received_taken. reflexivity.
Qed.

(** The first entries of the database, completed, and the head of the queue. *)
Lemma entries_ok w to from : inv w -> (forall t, In t (iterate (p_db (w_pool w)) to from) -> t_to t = to /\ t_from t = from /\ exists i, In (t_key t, i) (owed (w_chain w)) /\ (t_index t = Some i \/ t_index t = None /\ contract from = true)) /\
  (forall k i, In (k, i) (queue (w_chain w) to from) -> exists t, In t (iterate (p_db (w_pool w)) to from) /\ t_key t = k).
Proof.
  intros V. pose proof (v_fine _ _ _ _ V) as F. pose proof (v_db _ _ _ _ V) as D. split.
  - intros t T. apply iterate_in in T. destruct T as (T & A & B). split; [exact A|]. split; [exact B|]. destruct (db_get _ _ _ _ (f_keys _ F) T D) as (i & I & X). exists i. split; [exact I|]. rewrite <- B. exact X.
  - intros k i H. apply queue_in in H. destruct H as (H & A & B). pose proof (D k) as Dk. destruct (get keq (p_db (w_pool w)) k) as [v|] eqn:E; [|now apply Dk in H]. exists (Tx k v). split; [|reflexivity]. apply iterate_in. cbn. split; [exact (get_in _ kkeq_ok _ _ _ E)|auto].
Qed.
Lemma owed_high L k i : wf L -> In (k, i) (owed L) -> 1 <= k_height k.
Proof. intros W H. apply filter_In in H. destruct (spot_of _ _ _ (proj1 H)) as (b & s & B & _ & _ & ->). exact (wf_high _ _ _ _ W b B). Qed.
Lemma first_good w to from : inv w -> exists n, forall t, In t (first_txs (p_db (w_pool w)) to from) -> good (w_chain w) from n t /\ t_to t = to.
Proof.
  intros V. destruct (entries_ok w to from V) as [E _]. assert (H : forall t, In t (iterate (p_db (w_pool w)) to from) -> 1 <= t_height t) by (intros t T; destruct (E t T) as (_ & _ & i & I & _); exact (owed_high _ _ _ (v_wf _ _ _ _ V) I)).
  destruct (first_txs (p_db (w_pool w)) to from) as [|x l] eqn:FX; [exists 0; intros t []|]. assert (X : In x (first_txs (p_db (w_pool w)) to from)) by (rewrite FX; now left). exists (t_height x). intros t T. rewrite <- FX in T. apply (first_in _ _ _ H) in X, T. destruct (E t (proj1 T)) as (A & B & C). split; [|exact A]. split; [exact B|]. split; [|exact C]. pose proof (proj2 X t (proj1 T)). pose proof (proj2 T x (proj1 X)). lia.
Qed.
Lemma first_head w to from t i : inv w -> In (t_key t, i) (owed (w_chain w)) -> In (t_key t) (map t_key (first_txs (p_db (w_pool w)) to from)) ->
  (forall u j, In u (first_txs (p_db (w_pool w)) to from) -> In (t_key u, j) (owed (w_chain w)) -> i <= j) -> exists r, queue (w_chain w) to from = (t_key t, i) :: r.
Proof.
  intros V O K M. destruct (entries_ok w to from V) as [E E2]. assert (H : forall t, In t (iterate (p_db (w_pool w)) to from) -> 1 <= t_height t) by (intros u T; destruct (E u T) as (_ & _ & j & J & _); exact (owed_high _ _ _ (v_wf _ _ _ _ V) J)).
  apply in_map_iff in K. destruct K as (u & KU & U). pose proof (proj1 (first_in _ _ _ H u) U) as (UI & UM). destruct (E u UI) as (A & B & _). assert (Q : In (t_key t, i) (queue (w_chain w) to from)) by (apply queue_in; split; [exact O|]; rewrite <- KU; auto).
  pose proof (queue_sorted (w_chain w) to from (v_wf _ _ _ _ V)) as SS. destruct (queue (w_chain w) to from) as [|[k j] r] eqn:EQ; [destruct Q|]. destruct Q as [Q|Q]; [exists r; now rewrite Q|]. exfalso. inversion_clear SS as [|? ? _ F]. rewrite Forall_forall in F. specialize (F _ Q). assert (KJ : In (k, j) (queue (w_chain w) to from)) by (rewrite EQ; now left). rewrite <- EQ in E2. destruct (E2 k j KJ) as (v & VI & <-). apply queue_in in KJ. destruct KJ as (KJ & _).
  assert (HU : t_height u = k_height (t_key t)) by (rewrite <- KU; reflexivity). pose proof (UM v VI) as LE. destruct F as [F|[F1 F2]]; cbn [fst snd] in *; [change (k_height (t_key v)) with (t_height v) in F; lia|].
  assert (VF : In v (first_txs (p_db (w_pool w)) to from)). { apply (first_in _ _ _ H). split; [exact VI|]. intros y Y. specialize (UM y Y). change (k_height (t_key v)) with (t_height v) in F1. lia. }
  specialize (M v j VF KJ). lia.
Qed.
Lemma first_empty w to from : inv w -> first_txs (p_db (w_pool w)) to from = [] -> queue (w_chain w) to from = [].
Proof.
  intros V H. apply first_nil in H. destruct (queue (w_chain w) to from) as [|[k i] r] eqn:E; [reflexivity|]. destruct (entries_ok w to from V) as [_ E2]. destruct (E2 k i) as (t & T & _); [rewrite E; now left|]. rewrite H in T. destruct T.
Qed.
Lemma known_queue w to from : inv w -> mem to (p_known (w_pool w)) = false -> queue (w_chain w) to from = [].
Proof.
  intros V H. destruct (queue (w_chain w) to from) as [|[k i] r] eqn:E; [reflexivity|]. exfalso. assert (Q : In (k, i) (queue (w_chain w) to from)) by (rewrite E; now left). apply queue_in in Q. destruct Q as (Q & A & _). apply mem_not in H. apply H. rewrite <- A. apply (f_known _ (v_fine _ _ _ _ V) k). intros X. pose proof (v_db _ _ _ _ V k) as D. rewrite X in D. exact (D i Q).
Qed.
Definition head_is (L : list blk) (to from h : Z) : bool := match queue L to from with (k, _) :: _ => k_hash k =? h | [] => false end.
Lemma front_ok w to from h : inv w -> exists w', is_front contract w to from h = Some (w', head_is (w_chain w) to from h) /\ inv w' /\ w_chain w' = w_chain w.
Proof.
  intros V. unfold is_front. destruct (mem to (p_known (w_pool w))) eqn:K.
  - destruct (first_good w to from V) as (n & G). destruct (lazy_ok (w_chain w) (w_pool w) from n (first_txs (p_db (w_pool w)) to from) (v_wf _ _ _ _ V) (v_fine _ _ _ _ V) (v_db _ _ _ _ V)) as (p' & o & E & F & D & _ & _ & R); [intros t T; apply (G t T)|]. rewrite E. exists (World (w_chain w) p'). split; [|split; [constructor; [exact (v_wf _ _ _ _ V)|exact F|exact D]|reflexivity]].
    destruct (first_txs (p_db (w_pool w)) to from) as [|x l] eqn:FX.
    + rewrite R. unfold head_is. now rewrite (first_empty w to from V FX).
    + destruct R as (t & i & -> & O & KT & M). rewrite <- FX in KT, M. destruct (first_head w to from t i V O KT M) as (r & Q). unfold head_is. now rewrite Q.
  - exists w. split; [|auto]. unfold head_is. now rewrite (known_queue w to from V K).
Qed.
End Turn.
