From Verif Require Import Lib QuotaTables QuotaModel QuotaSpec QuotaProofs.
Local Opaque search_fuel.
Lemma wrap64_small x : 0 <= x < two64 -> wrap64 x = x.
Proof. intro H. now apply Z.mod_small. Qed.

Lemma lookup_earns l qc c a : rising l -> exists q, lookup_quota l qc c a = Some q /\ earns l qc c a q /\ 0 <= q <= 999880.
Proof.
  intro R. destruct (lookup_spec l qc c a R) as (i & E & B & S). exists (i * quota_for_section). split; [exact E|].
  unfold section_len, quota_for_section in *. split; [|lia]. exists i. split; [exact S|lia].
Qed.
Lemma earns_unique l qc c a q r : rising l -> earns l qc c a q -> earns l qc c a r -> q = r.
Proof. intros R (i & Hi & ->) (j & Hj & ->). now rewrite (step_unique l R _ i j Hi Hj). Qed.

(** ** The congestion ratio *)
Lemma calc_qc_spec u g : 0 <= g -> g + qc_gap <= two64 -> congestion qc_mainnet u g (fst (calc_qc u g)) (snd (calc_qc u g)).
Proof.
  intros H0 H. unfold congestion, calc_qc. destruct u; cbn [negb andb]; [|reflexivity].
  unfold wrap64. rewrite Z.mod_small by (unfold qc_gap in *; lia). cbv zeta.
  pose proof qc_table_ok as T. apply andb_true_iff in T as [_ HL]. unfold zlen in HL.
  unfold qc_gap, unit_, qc_index_min, qc_index_max in *.
  assert (exists i, i = (g + 21000 * 74 - 1) / (21000 * 74)) as [i Di] by eauto. rewrite <- Di.
  assert (Hi : (i - 1) * (74 * 21000) < g <= i * (74 * 21000)) by lia.
  destruct (50 * (74 * 21000) <? g) eqn:E.
  - replace (i <? 51) with false by lia. cbn [fst snd]. split; [reflexivity|].
    exists (if 500 <=? i then 500 else i). destruct (500 <=? i) eqn:E2.
    + split; [lia|]. split; [lia|]. split; [lia|]. apply nth_error_nth'. lia.
    + repeat split; try lia. apply nth_error_nth'. lia.
  - replace (i <? 51) with true by lia. reflexivity.
Qed.
Lemma qc_decreasing i j a b : (i <= j)%nat -> nth_error qc_mainnet i = Some a -> nth_error qc_mainnet j = Some b -> b <= a.
Proof.
  intros H Ha Hb. destruct (Nat.eq_dec i j) as [->|Hn]; [assert (a = b) by congruence; lia|].
  pose proof qc_table_ok as T. apply andb_true_iff in T as [T HL]. apply andb_true_iff in T as [_ HA]. unfold zlen in HL.
  assert (Li : (i < length qc_mainnet)%nat) by (apply nth_error_Some; congruence).
  assert (Lj : (j < length qc_mainnet)%nat) by (apply nth_error_Some; congruence).
  assert (b < a); [|lia].
  eapply (ascb_lt _ HA (length qc_mainnet - S j) (length qc_mainnet - S i)); [lia| |].
  - rewrite (nth_error_nth' _ 0) by (rewrite rev_length; lia). rewrite rev_nth by lia.
    replace (length qc_mainnet - S (length qc_mainnet - S j))%nat with j by lia. rewrite (nth_error_nth' _ 0) in Hb by lia. congruence.
  - rewrite (nth_error_nth' _ 0) by (rewrite rev_length; lia). rewrite rev_nth by lia.
    replace (length qc_mainnet - S (length qc_mainnet - S i))%nat with i by lia. rewrite (nth_error_nth' _ 0) in Ha by lia. congruence.
Qed.
Lemma effective_antitone u g g' x : 0 <= g -> g <= g' -> g' + qc_gap <= two64 -> 0 <= x ->
  effective (fst (calc_qc u g')) (snd (calc_qc u g')) x <= effective (fst (calc_qc u g)) (snd (calc_qc u g)) x.
Proof.
  intros H0 H H' Hx. pose proof (calc_qc_spec u g H0 ltac:(lia)) as S. pose proof (calc_qc_spec u g' ltac:(lia) H') as S'.
  pose proof (calc_qc_range u g) as R. pose proof (calc_qc_range u g') as R'.
  destruct (calc_qc u g) as [qc c], (calc_qc u g') as [qc' c']. cbn [fst snd] in *. unfold congestion in *.
  destruct u; cbn [andb] in *; [|rewrite S, S'; cbn; lia].
  destruct (50 * unit_ <? g') eqn:E'.
  - destruct S' as (-> & k' & K1 & K2 & K3 & K4). destruct R' as [R' _]. specialize (R' eq_refl). unfold effective, qc_division in *.
    destruct (50 * unit_ <? g) eqn:E.
    + destruct S as (-> & k & L1 & L2 & L3 & L4). apply Z.div_le_mono; [lia|]. apply Z.mul_le_mono_nonneg_l; [exact Hx|].
      assert (k <= k') by (unfold unit_ in *; lia). eapply (qc_decreasing (Z.to_nat (k - 51)) (Z.to_nat (k' - 51))); eauto. lia.
    + rewrite S. apply Z.div_le_upper_bound; [lia|]. rewrite Z.mul_comm. apply Z.mul_le_mono_nonneg_r; lia.
  - replace (50 * unit_ <? g) with false in S by lia. rewrite S, S'. cbn. lia.
Qed.

(** ** Saving up *)
Lemma accumulate_max s : 0 <= s <= 999880 -> forall l acc, Forall (fun q => 0 <= qi_total q) l ->
  0 <= acc -> acc + zlen l * s < two64 ->
  let r := accumulate s l acc in
  (r = acc + balance s (map qi_total l) \/ exists k, (k <= length l)%nat /\ r = balance s (skipn k (map qi_total l))) /\
  acc + balance s (map qi_total l) <= r /\ (forall k, balance s (skipn k (map qi_total l)) <= r) /\ 0 <= r <= acc + zlen l * s.
Proof.
  intros Hs. induction l as [|q l IH]; intros acc HF Ha Hb; cbn [accumulate map balance].
  - change (zlen (@nil qinfo)) with 0 in *. split; [left; lia|]. split; [lia|]. split; [|lia]. intro k. destruct k; cbn; lia.
  - inversion HF as [|? ? Hq HF']; subst. rewrite zlen_cons in Hb. assert (0 <= zlen l) by (unfold zlen; lia).
    unfold wrap64. rewrite Z.mod_small by nia.
    set (acc' := if qi_total q <=? acc + s then acc + s - qi_total q else 0).
    assert (A' : 0 <= acc' <= acc + s) by (unfold acc'; destruct (qi_total q <=? acc + s) eqn:E; lia).
    assert (A2 : acc + s - qi_total q <= acc') by (unfold acc'; destruct (qi_total q <=? acc + s) eqn:E; lia).
    assert (A3 : acc' = acc + s - qi_total q \/ acc' = 0) by (unfold acc'; destruct (qi_total q <=? acc + s) eqn:E; lia).
    clearbody acc'.
    destruct (IH acc' HF' ltac:(lia) ltac:(lia)) as (C1 & C2 & C3 & C4). rewrite zlen_cons.
    split; [|split; [|split]].
    + destruct C1 as [C1|(k & K1 & K2)].
      * destruct A3 as [A3|A3]; [left; lia|]. right. exists 1%nat. split; [cbn; lia|]. cbn [skipn]. lia.
      * right. exists (S k). split; [cbn; lia|exact K2].
    + lia.
    + intros [|k]; cbn [skipn balance]; [lia|apply C3].
    + lia.
Qed.
Lemma accumulate_saved s l : 0 <= s <= 999880 -> Forall (fun q => 0 <= qi_total q) l -> zlen l <= 75 ->
  saved_up s (map qi_total l) (accumulate s l 0) /\ 0 <= accumulate s l 0 <= 75 * 999880.
Proof.
  intros Hs HF HL. assert (0 <= zlen l) by (unfold zlen; lia).
  destruct (accumulate_max s Hs l 0 HF ltac:(lia) ltac:(unfold two64; nia)) as (C1 & C2 & C3 & C4).
  split; [|nia]. split; [|exact C3]. destruct C1 as [C1|(k & K1 & K2)].
  - exists 0%nat. split; [lia|]. cbn [skipn]. lia.
  - exists k. rewrite map_length. auto.
Qed.
Lemma saved_unique s l a b : saved_up s l a -> saved_up s l b -> a = b.
Proof. intros ((k & _ & ->) & H1) ((j & _ & ->) & H2). specialize (H1 j). specialize (H2 k). lia. Qed.
Lemma balance_mono s t l : s <= t -> balance s l <= balance t l.
Proof. intro H. induction l as [|x l IH]; cbn; lia. Qed.
Lemma saved_mono s t l a b : s <= t -> saved_up s l a -> saved_up t l b -> a <= b.
Proof. intros H ((k & _ & ->) & _) (_ & H2). specialize (H2 k). pose proof (balance_mono s t (skipn k l) H). lia. Qed.

(** ** The quota for a block *)
Definition db_ok (db : qdb) : Prop := zlen (q_used db) <= 75 /\ Forall (fun q => 0 <= qi_total q) (q_used db).
Definition past_of (db : qdb) : list Z := map qi_total (removelast (q_used db)).
Definition pending_of (db : qdb) : option Z := match rev (q_used db) with [] => None | q :: _ => Some (qi_total q) end.
Lemma removelast_app1 {A} (l : list A) x : removelast (l ++ [x]) = l.
Proof. rewrite removelast_app by discriminate. cbn. apply app_nil_r. Qed.
Lemma block_exact cf db stake diff s p : rising (stake_list cf) -> rising (difficulty_list cf) -> db_ok db ->
  let '(qc, c) := calc_qc (q_upgraded db) (q_global db) in
  earns (stake_list cf) qc c stake s -> earns (difficulty_list cf) qc c diff p ->
  (diff <= 0 \/ existsb (fun b => b) (q_unconfirmed db) = false) ->
  may_spend (fst (is_blocked db)) (past_of db) (pending_of db) s p (quota_for_block cf db stake diff).
Proof.
  intros R1 R2 (D1 & D2). destruct (calc_qc (q_upgraded db) (q_global db)) as [qc c] eqn:EQ.
  intros Es Ep HP. unfold quota_for_block, calc_quota, can_pow.
  replace ((0 <? diff) && negb (negb (existsb (fun b => b) (q_unconfirmed db)))) with false
    by (destruct HP as [HP|HP]; [replace (0 <? diff) with false by lia; reflexivity|rewrite HP; now rewrite andb_false_r]).
  unfold quota_total. destruct (is_blocked db) as [bl rel]. rewrite EQ. cbn [fst].
  destruct (lookup_earns (stake_list cf) qc c stake R1) as (s' & E1 & E2 & E3). rewrite E1.
  destruct (lookup_earns (difficulty_list cf) qc c diff R2) as (p' & F1 & F2 & F3). rewrite F1.
  rewrite (earns_unique _ _ _ _ _ _ R1 Es E2). rewrite (earns_unique _ _ _ _ _ _ R2 Ep F2). clear Es Ep E1 E2 F1 F2 s p.
  unfold past_of, pending_of.
  destruct (q_used db) as [|x l'] eqn:EL.
  - cbn [rev removelast map]. change (1 <? zlen (@nil qinfo)) with false. cbv iota zeta.
    change (0 <=? 0) with true. cbv iota. destruct bl.
    + cbn. now apply ms_none_blocked.
    + unfold wrap64. rewrite Z.mod_small by (unfold two64; lia). cbn [o_total o_addition].
      replace (quota_limit_block <? 0 - 0 + p') with false by (unfold quota_limit_block; lia).
      replace (0 - 0 + p') with p' by lia. now apply ms_none.
  - assert (exists l y, x :: l' = l ++ [y]) as (l & y & Ely).
    { destruct (@exists_last _ (x :: l') ltac:(discriminate)) as (l & y & H). eauto. }
    rewrite Ely in *. clear x l' Ely. rewrite rev_app_distr, removelast_app1. cbn [rev app].
    apply Forall_app in D2 as [D2 D3]. inversion D3 as [|? ? Dy _]; subst. rewrite zlen_app in *.
    change (zlen [y]) with 1 in *. assert (0 <= zlen l) by (unfold zlen; lia).
    destruct (accumulate_saved s' l E3 D2 ltac:(lia)) as [Sv Sb].
    assert (EB : (if 1 <? zlen l + 1 then accumulate s' l 0 else 0) = accumulate s' l 0).
    { destruct (1 <? zlen l + 1) eqn:E; [reflexivity|]. destruct l; [reflexivity|]. rewrite zlen_cons in *. unfold zlen in *. lia. }
    rewrite EB. cbv zeta. rewrite !(wrap64_small (accumulate s' l 0 + s')) by (unfold two64; lia).
    destruct (qi_total y <=? accumulate s' l 0 + s') eqn:E.
    + destruct bl.
      * cbn. eapply ms_blocked; eauto. lia.
      * rewrite wrap64_small by (unfold two64; lia). cbn [o_total o_addition].
        assert (Hc : quota_limit_block <? p' = false) by (unfold quota_limit_block; lia). rewrite Hc.
        destruct (quota_limit_block <? accumulate s' l 0 + s' - qi_total y + p') eqn:E4; unfold quota_limit_block in *.
        -- replace (BOk 1000000 p') with (BOk (Z.min 1000000 (accumulate s' l 0 + s' - qi_total y + p')) p') by (f_equal; lia). eapply ms_ok; eauto. lia.
        -- replace (BOk (accumulate s' l 0 + s' - qi_total y + p') p') with (BOk (Z.min 1000000 (accumulate s' l 0 + s' - qi_total y + p')) p') by (f_equal; lia).
           eapply ms_ok; eauto; lia.
    + eapply ms_over; eauto. lia.
Qed.

(** ** Inverting the tables *)
Lemma target_spec qc t : 0 < qc -> 0 <= t ->
  exists d, target_param qc true t = Some d /\ t <= stake_param qc true d /\ (forall d', d' < d -> stake_param qc true d' < t).
Proof.
  intros Hq Ht. unfold target_param. replace (qc =? 0) with false by lia.
  assert (K : forall d, t <= stake_param qc true d <-> t * qc_division <= d * qc).
  { intro d. unfold stake_param. cbn [negb]. assert (0 < qc_division) by reflexivity. split; intro H1.
    - pose proof (Z.mul_div_le (d * qc) qc_division ltac:(lia)). nia.
    - apply Z.div_le_lower_bound; lia. }
  assert (exists d0, d0 = t * qc_division / qc) as [d0 D0] by eauto. rewrite <- D0.
  assert (B : d0 * qc <= t * qc_division < (d0 + 1) * qc).
  { pose proof (Z.mul_div_le (t * qc_division) qc Hq). pose proof (Z.mul_succ_div_gt (t * qc_division) qc Hq). rewrite <- D0 in *. lia. }
  assert (L : forall d, (t * qc_division <= d * qc -> t <= stake_param qc true d) /\ (d * qc < t * qc_division -> stake_param qc true d < t)).
  { intro d. pose proof (K d). split; [lia|]. intro. destruct (Z_lt_le_dec (stake_param qc true d) t); [auto|]. apply K in l. lia. }
  cbn [raise_target]. destruct (t <=? stake_param qc true d0) eqn:E.
  - exists d0. split; [reflexivity|]. split; [lia|]. intros d' Hd. apply L. assert (t <= stake_param qc true d0) by lia.
    apply K in H. nia.
  - assert (E1 : t <= stake_param qc true (d0 + 1)) by (apply L; lia).
    replace (t <=? stake_param qc true (d0 + 1)) with true by lia. exists (d0 + 1). split; [reflexivity|]. split; [exact E1|].
    intros d' Hd. apply L. assert (~ t * qc_division <= d0 * qc) by (intro; assert (t <= stake_param qc true d0) by (apply L; lia); lia). nia.
Qed.
Lemma index_by_quota_spec q : 0 <= q <= quota_limit_block ->
  index_by_quota q = (if max_quota <? q then None else Some ((q + 279) / 280)).
Proof.
  intro H. unfold index_by_quota, quota_limit_block, max_quota, section_len, quota_for_section in *. cbv zeta.
  rewrite (wrap64_small (q + 280 - 1)) by (unfold two64; lia).
  replace (q + 280 - 1) with (q + 279) by lia.
  assert (0 <= (q + 279) / 280 <= 3573) by lia.
  rewrite wrap64_small by (unfold two64; lia).
  destruct (3571 * 280 <? q) eqn:E.
  - replace (3571 <? (q + 279) / 280) with true by lia. reflexivity.
  - replace (3571 <? (q + 279) / 280) with false by lia. replace ((q + 279) / 280 * 280 <? q) with false by lia. reflexivity.
Qed.
(** reaching the threshold of step i is what earns 280 i *)
Lemma earns_iff l qc c a i t q : rising l -> 1 <= i <= section_len -> nth_error l (Z.to_nat i) = Some t -> 0 <= a ->
  earns l qc c a q -> (280 * i <= q <-> t <= effective qc c a).
Proof.
  intros R Hi Ht Ha (j & (J1 & J2 & J3) & ->). replace (Z.max 0 a) with a in * by lia. split; intro H.
  - destruct J2 as [->|(u & Hu & Hx)]; [lia|]. destruct (Z.eq_dec i j) as [->|Hn]; [assert (t = u) by congruence; lia|].
    assert (t < u); [|lia]. eapply (proj2 (proj2 R)); [|exact Ht|exact Hu]. lia.
  - destruct (Z_lt_le_dec j i) as [Hl|Hl]; [|lia]. specialize (J3 i t ltac:(lia) Ht). lia.
Qed.
