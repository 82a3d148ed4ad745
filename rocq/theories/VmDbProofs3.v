(** What a storage iterator lists, in terms of what a read returns. *)
From Verif Require Import Lib VmDbModel VmDbSpec VmDbProofs VmDbProofs2.
From Coq Require Import Sorted.

(** ** The iterator keeps its lists, whatever is done with it *)
Lemma adv_fwd_all bad al bh : c_all (adv_fwd bad bh al) = rev bh ++ al.
Proof. apply adv_fwd_spec. Qed.
Lemma settle_all bad nx s : c_all (s_cur (settle bad nx s)) = c_all (s_cur s).
Proof.
  rewrite settle_cases. destruct (moved_spec bad nx (s_cur s)) as (_ & H & _). cbv zeta.
  destruct (s_key s) as [k|]; [destruct (bad k)|]; auto; destruct (c_here (moved bad nx (s_cur s))); auto.
Qed.
Definition lists (m : mi) : list kv * list kv := (c_all (s_cur (m_a m)), c_all (s_cur (m_b m))).
Lemma mi_step_keeps nx m : lists (fst (mi_step nx m)) = lists m /\ m_del (fst (mi_step nx m)) = m_del m.
Proof.
  unfold mi_step.
  assert (Hm : exists m1, m1 = (if Bool.eqb (m_fwd m) nx then m else mi_reset m)) by eauto.
  destruct Hm as [m1 Hm]. rewrite <- Hm.
  assert (L : lists m1 = lists m /\ m_del m1 = m_del m) by (subst m1; destruct (Bool.eqb (m_fwd m) nx); auto).
  destruct L as [<- <-]. clear Hm.
  assert (Q : forall bad s, c_all (s_cur (if exhausted nx s then s else settle bad nx s)) = c_all (s_cur s))
    by (intros; destruct (exhausted nx s); auto using settle_all).
  assert (Q2 : forall (b : bool) s, c_all (s_cur (if b then clear_key s else s)) = c_all (s_cur s)) by (intros []; auto).
  cbv zeta.
  match goal with |- context [let '(f, i) := ?e in _] => destruct e as [f0 i0] end.
  match goal with |- context [let '(f, i) := ?e in _] => destruct e as [f1 i1] end.
  destruct (i1 <? 0); cbn [fst m_del]; split; auto; unfold lists; cbn [m_a m_b]; rewrite !Q, !Q2; reflexivity.
Qed.
Lemma c_last_all c : c_all (c_last c) = c_all c.
Proof.
  unfold c_last. destruct (rev (c_all c)) as [|x r] eqn:E.
  - apply (f_equal (@rev _)) in E. rewrite rev_involutive in E. now rewrite E.
  - apply (f_equal (@rev _)) in E. rewrite rev_involutive in E. rewrite E. unfold c_all. cbn. reflexivity.
Qed.
Lemma seek_loop_adv k l : forall bh, seek_loop k bh l = adv_fwd (fun x => bltb x k) bh l.
Proof. induction l; intro bh; cbn; [reflexivity|]. destruct (bltb (fst a) k); auto. Qed.
Lemma slot_last_all s : c_all (s_cur (slot_last s)) = c_all (s_cur s).
Proof. unfold slot_last. cbv zeta. rewrite <- (c_last_all (s_cur s)). destruct (c_here (c_last (s_cur s))); reflexivity. Qed.
Lemma slot_seek_all del k s : c_all (s_cur (slot_seek del k s)) = c_all (s_cur s).
Proof.
  unfold slot_seek, c_seek. rewrite seek_loop_adv. cbv zeta.
  pose proof (adv_fwd_all (fun x => bltb x k) (c_all (s_cur s)) []) as H. change (rev [] ++ c_all (s_cur s)) with (c_all (s_cur s)) in H.
  set (c := adv_fwd (fun x => bltb x k) [] (c_all (s_cur s))) in *.
  assert (exists c', c' = match c_here c with Some x => if del (fst x) then adv_fwd del (x :: c_behind c) (c_ahead c) else c | None => c end) as [c' D] by eauto.
  rewrite <- D. assert (c_all c' = c_all (s_cur s)).
  { subst c'. destruct (c_here c) as [x|] eqn:E; [|exact H]. destruct (del (fst x)); [|exact H].
    rewrite adv_fwd_all. rewrite <- H. unfold c_all. rewrite E. cbn [rev push]. now rewrite <- app_assoc. }
  destruct (c_here c'); auto.
Qed.
Lemma istep_keeps m o : lists (istep m o) = lists m /\ m_del (istep m o) = m_del m.
Proof.
  destruct o; unfold istep.
  - apply mi_step_keeps.
  - apply mi_step_keeps.
  - unfold mi_last. cbv zeta. unfold mi_prev.
    match goal with |- context [mi_step false ?m1] => destruct (mi_step_keeps false m1) as [-> ->] end.
    unfold lists. cbn. now rewrite !slot_last_all.
  - unfold mi_seek. cbv zeta.
    match goal with |- context [let '(f, i) := ?e in _] => destruct e as [f0 i0] end.
    match goal with |- context [let '(f, i) := ?e in _] => destruct e as [f1 i1] end.
    destruct (i1 <? 0); cbn [fst m_del]; split; auto; unfold lists; cbn [m_a m_b]; rewrite !slot_seek_all; reflexivity.
Qed.
Lemma irun_keeps os : forall m, lists (fold_left istep os m) = lists m /\ m_del (fold_left istep os m) = m_del m.
Proof.
  induction os as [|o os IH]; intro m; cbn; auto. destruct (IH (istep m o)) as [-> ->]. apply istep_keeps.
Qed.

(** ** Sorted lists in both directions *)
Lemma sorted_snoc nx l x : sortedd nx l -> (forall y, In y l -> ltd nx (fst y) (fst x) = true) -> sortedd nx (l ++ [x]).
Proof.
  unfold sortedd. induction 1 as [|z l S IH F]; intro H; cbn [app].
  - constructor; constructor.
  - constructor; [apply IH; intros; apply H; now right|]. apply Forall_app. split; auto.
    constructor; [apply H; now left|constructor].
Qed.
Lemma sorted_rev nx l : sortedd nx l -> sortedd (negb nx) (rev l).
Proof.
  unfold sortedd at 1. induction 1 as [|z l S IH F]; cbn [rev]; [constructor|].
  apply sorted_snoc; auto. intros y Hy. rewrite <- in_rev in Hy. rewrite Forall_forall in F. apply F in Hy.
  destruct nx; exact Hy.
Qed.
Lemma sorted_fwd l : sorted l <-> sortedd true l.
Proof. reflexivity. Qed.

(** ** Fresh, from the end, from a key *)
Lemma drain_S stp n m : drain stp (S n) m = drain_from stp n (stp m).
Proof. cbn [drain]. unfold drain_from. destruct (stp m) as [m' [|]]; reflexivity. Qed.

Lemma fresh_lists n del A B : sortedd true A -> sortedd true B -> (length A + length B < n)%nat ->
  let L := drain mi_next n (mi_new del A B) in
  sortedd true L /\
  forall k v, In (k, v) L <-> del k = false /\ k <> [] /\ (In (k, v) A \/ In (k, v) B /\ ~ In k (keys A)).
Proof.
  intros SA SB Ln L.
  destruct (drain_spec true n A B (mi_new del A B)) as [S H]; auto.
  - split; [reflexivity|]. split; [split; cbn; [discriminate|discriminate]|].
    split; [split; cbn; [discriminate|discriminate]|]. split; reflexivity.
  - intros x _. now left.
  - intros x _. now left.
  - split; [exact S|]. intros k v. change L with (drain (mi_step true) n (mi_new del A B)). rewrite H.
    cbn [mi_new m_del m_prev]. rewrite orb_false_iff, zlist_eqb_neq. tauto.
Qed.

Lemma last_lists n m A B : lists m = (A, B) -> sortedd true A -> sortedd true B -> (length A + length B <= n)%nat ->
  ~ In [] (keys A) -> ~ In [] (keys B) ->
  let L := drain_from mi_prev n (mi_last m) in
  sortedd false L /\
  forall k v, In (k, v) L <-> m_del m k = false /\ (In (k, v) A \/ In (k, v) B /\ ~ In k (keys A)).
Proof.
  intros HL SA SB Ln EA EB L. injection HL as HA HB.
  set (m1 := mkMi (m_del m) (slot_last (slot_reset (m_a m))) (slot_last (slot_reset (m_b m))) (-1) [] false).
  assert (L = drain mi_prev (S n) m1) as -> by (rewrite drain_S; reflexivity).
  assert (Hs : forall s l, c_all (s_cur s) = l -> slot_ok false (slot_last (slot_reset s)) /\ rev l = todo false false (slot_last (slot_reset s))).
  { intros s l <-. unfold slot_last, c_last. cbn [slot_reset s_cur]. destruct (rev (c_all (s_cur s))) as [|x r] eqn:E; cbn [c_here].
    - split; [|reflexivity]. split; cbn; [discriminate|auto].
    - split; [|reflexivity]. split; cbn; [|discriminate]. intros k [= <-]. exists (snd x). now destruct x. }
  destruct (Hs _ _ HA) as [Oa Ta]. destruct (Hs _ _ HB) as [Ob Tb].
  destruct (drain_spec false (S n) (rev A) (rev B) m1) as [S H]; auto.
  - split; [reflexivity|]. split; [exact Oa|]. split; [exact Ob|]. split; auto.
  - rewrite !rev_length. lia.
  - now apply (sorted_rev true).
  - now apply (sorted_rev true).
  - intros x _. now left.
  - intros x _. now left.
  - right. unfold keys. rewrite !map_rev, <- !in_rev. auto.
  - split; [exact S|]. intros k v. unfold mi_prev. rewrite H. cbn [m1 m_del m_prev].
    unfold keys at 1. rewrite map_rev, <- !in_rev. fold (keys A). rewrite orb_false_iff, zlist_eqb_neq.
    split; [tauto|]. intros [H1 H2]. split; auto. split; auto. intros ->.
    destruct H2 as [H2|[H2 _]]; apply in_keys in H2; auto.
Qed.

Lemma adv_fwd_ext f g al : (forall x, In x al -> f (fst x) = g (fst x)) -> forall bh, adv_fwd f bh al = adv_fwd g bh al.
Proof.
  induction al as [|x al IH]; intros H bh; cbn [adv_fwd]; [reflexivity|]. rewrite (H x) by now left.
  destruct (g (fst x)); [apply IH; intros; apply H; now right|reflexivity].
Qed.
Lemma adv_fwd_parts bad l : forall bh, exists pre, adv_fwd bad bh l =
    (match dropw bad l with [] => mkCur pre None [] | x :: r => mkCur pre (Some x) r end).
Proof.
  induction l as [|x l IH]; intro bh; cbn [adv_fwd dropw].
  - now exists bh.
  - destruct (bad (fst x)); [apply IH|]. now exists bh.
Qed.
Lemma drop_lt_in k l x : sortedd true l -> In x (dropw (fun y => bltb y k) l) <-> In x l /\ bltb (fst x) k = false.
Proof.
  unfold sortedd. induction 1 as [|z l S IH F]; cbn [dropw In]; [tauto|].
  destruct (bltb (fst z) k) eqn:E.
  - rewrite IH. split; [intros [H1 H2]; auto|]. intros [[->|H] Hk]; [congruence|auto].
  - split; [|intros [H _]; exact H]. intros [->|H]; [auto|]. split; auto. rewrite Forall_forall in F. specialize (F _ H). cbn [ltd] in F.
    destruct (bltb (fst x) k) eqn:E2; [|reflexivity]. rewrite (bltb_trans _ _ _ F E2) in E. discriminate.
Qed.

Lemma seek_lists n m A B k0 : lists m = (A, B) -> sortedd true A -> sortedd true B -> (length A + length B <= n)%nat ->
  ~ In [] (keys A) -> ~ In [] (keys B) ->
  let L := drain_from mi_next n (mi_seek k0 m) in
  sortedd true L /\
  forall k v, In (k, v) L <-> m_del m k = false /\ bltb k k0 = false /\ (In (k, v) A \/ In (k, v) B /\ ~ In k (keys A)).
Proof.
  intros HL SA SB Ln EA EB L. injection HL as HA HB.
  set (del := m_del m). set (lt := fun y => bltb y k0).
  (* the same result as a step from a cursor placed just before the key *)
  assert (Pos : forall s l, c_all (s_cur s) = l -> ~ In [] (keys l) -> exists pre,
     slot_seek del k0 (slot_reset s) = run_slot (fun k => del k || zlist_eqb k []) true (mkSlot (mkCur pre None (dropw lt l)) None InMiddle)).
  { intros s l <- E. unfold slot_seek, c_seek. rewrite seek_loop_adv. cbn [slot_reset s_cur]. fold lt.
    destruct (adv_fwd_parts lt (c_all (s_cur s)) []) as [pre ->]. exists pre.
    unfold run_slot. cbn [exhausted s_stat]. rewrite settle_cases. cbn [s_key s_cur s_stat]. unfold moved. cbn [c_here c_behind c_ahead push].
    assert (X : forall x, In x (dropw lt (c_all (s_cur s))) -> del (fst x) = del (fst x) || zlist_eqb (fst x) []).
    { intros x Hx. replace (zlist_eqb (fst x) []) with false; [now rewrite orb_false_r|].
      symmetry. apply zlist_eqb_neq. intro E0. apply dropw_sub in Hx. apply in_keys in Hx. rewrite E0 in Hx. auto. }
    rewrite <- (adv_fwd_ext del _ _ X).
    destruct (dropw lt (c_all (s_cur s))) as [|x r]; cbn [c_here c_behind c_ahead adv_fwd]; [reflexivity|].
    destruct (del (fst x)); reflexivity. }
  destruct (Pos _ _ HA EA) as [pa Ea]. destruct (Pos _ _ HB EB) as [pb Eb].
  set (sa := mkSlot (mkCur pa None (dropw lt A)) None InMiddle) in *.
  set (sb := mkSlot (mkCur pb None (dropw lt B)) None InMiddle) in *.
  set (m1 := mkMi del sa sb (-1) [] true).
  assert (Oa : slot_ok true sa) by (split; cbn; discriminate).
  assert (Ob : slot_ok true sb) by (split; cbn; discriminate).
  assert (E : mi_seek k0 m = mi_step true m1).
  { rewrite (mi_step_eq true m1 eq_refl Oa Ob). unfold mi_seek. cbn [mi_reset m_del m_a m_b]. fold del.
    change (clr 0 m1 (m_a m1)) with sa. change (clr 1 m1 (m_b m1)) with sb. cbn [m1 m_del m_prev]. cbv zeta.
    rewrite Ea, Eb. unfold fit2.
    match goal with |- context [match s_key ?x with Some k => (k, 0) | None => _ end] => destruct (s_key x) end; reflexivity. }
  assert (L = drain mi_next (S n) m1) as -> by (rewrite drain_S; unfold L; now rewrite E).
  destruct (drain_spec true (S n) (dropw lt A) (dropw lt B) m1) as [S H]; auto.
  - split; [reflexivity|]. repeat split; auto; try discriminate.
  - pose proof (dropw_len lt A). pose proof (dropw_len lt B). lia.
  - now apply dropw_sorted.
  - now apply dropw_sorted.
  - intros x _. now left.
  - intros x _. now left.
  - split; [exact S|]. intros k v. unfold mi_next. rewrite H. cbn [m1 m_del m_prev].
    assert (DI : forall l x, sortedd true l -> In x (dropw lt l) <-> In x l /\ bltb (fst x) k0 = false)
      by (intros; now apply drop_lt_in).
    rewrite !DI by auto. cbn [fst]. rewrite orb_false_iff, zlist_eqb_neq.
    assert (K : bltb k k0 = false -> In k (keys (dropw lt A)) <-> In k (keys A)).
    { intro Hk. unfold keys. rewrite !in_map_iff. split; intros ([k1 v1] & E1 & H1); cbn in E1; subst k1; exists (k, v1); split; auto.
      - now apply dropw_sub in H1.
      - now apply drop_lt_in. }
    split.
    + intros [[H1 H2] [[H3 H4]|[[H3 H4] H5]]]; repeat split; auto. right. split; auto. now rewrite <- (K H4).
    + intros (H1 & H2 & H3). assert (k <> []) by (intros ->; destruct H3 as [H3|[H3 _]]; apply in_keys in H3; auto).
      split; auto. destruct H3 as [H3|[H3 H4]]; [now left|right]. split; auto. now rewrite (K H2).
Qed.

(** ** The storage iterator *)
Definition ops_ok (ops : list vop) : Prop := forall k v, In (VSet k v) ops -> bytes_ok k.
Definition prefix_ok (c : list kv) (p : bytes) : Prop :=
  bytes_ok p /\ zlen p <= 32 /\ forall k v n, In (k, v) c -> p <> k ++ repeat 0 (S n).

Lemma filter_sorted nx f l : sortedd nx l -> sortedd nx (filter f l).
Proof.
  unfold sortedd. induction 1 as [|z l S IH F]; cbn [filter]; [constructor|]. destruct (f z); auto.
  constructor; auto. rewrite Forall_forall in *. intros y Hy. apply filter_In in Hy as [Hy _]. auto.
Qed.
Lemma chain_entries_eq c p : committed_ok c ->
  chain_entries c p = filter (fun x => in_range p (enc_key (fst x))) c.
Proof.
  intros [_ F]. unfold chain_entries. induction F as [|[k v] c (H1 & H2 & H3) F IH]; [reflexivity|].
  cbn [map filter fst snd]. destruct (in_range p (enc_key k)); cbn [map fst snd]; rewrite IH; [|reflexivity].
  cbn [fst] in H2. now rewrite dec_enc.
Qed.
Lemma chain_entries_in c p k v : committed_ok c -> prefix_ok c p ->
  In (k, v) (chain_entries c p) <-> In (k, v) c /\ has_prefix p k.
Proof.
  intros Hc (P1 & P2 & P3). rewrite chain_entries_eq, filter_In by auto. cbn [fst].
  destruct Hc as [_ F]. rewrite Forall_forall in F. split; intros [H1 H2]; split; auto;
    pose proof (F _ H1) as (B1 & B2 & _); cbn [fst] in B1, B2;
    assert (Z : forall n, p <> k ++ repeat 0 (S n)) by (intro; eapply P3; eauto).
  - apply in_range_prefix in H2; auto using enc_bytes_ok. now apply (enc_prefix p k P2 B2 Z).
  - apply in_range_prefix; auto using enc_bytes_ok. now apply (enc_prefix p k P2 B2 Z).
Qed.
Lemma chain_entries_sorted c p : committed_ok c -> sortedd true (chain_entries c p).
Proof. intros Hc. rewrite chain_entries_eq by auto. apply filter_sorted. apply sorted_fwd, ascending_sorted, Hc. Qed.

Lemma storage_len c b ops : (length (u_storage (v_uns (vrun (start c b) ops))) <= length ops)%nat.
Proof.
  induction ops as [|o ops IH] using rev_ind; [cbn; lia|]. rewrite vrun_snoc, app_length. cbn [length].
  set (d := vrun (start c b) ops) in *.
  assert (M : forall k v l, (length (mput k v l) <= S (length l))%nat).
  { intros k v l. induction l as [|[k1 v1] l IHl]; cbn [mput length]; [lia|].
    destruct (bltb k k1); cbn [length]; [lia|]. destruct (zlist_eqb k k1); cbn [length]; lia. }
  destruct o; cbn [vstep].
  - unfold v_set. destruct (32 <? zlen k); [lia|]. cbn [v_uns u_set u_storage]. pose proof (M k v (u_storage (v_uns d))). lia.
  - cbn. lia.
  - unfold v_unsaved, u_get_storage. destruct (u_dirty (v_uns d)); cbn [fst v_uns u_storage]; lia.
  - cbn [v_uns v_set_balance u_set_balance u_storage]. lia.
Qed.
Lemma storage_bytes c b ops k v : ops_ok ops -> In (k, v) (u_storage (v_uns (vrun (start c b) ops))) -> bytes_ok k.
Proof.
  intros Ho H. pose proof (vrun_ok _ ops (start_ok c b)) as (S & _).
  apply mget_In in H; auto. assert (U : uval (v_uns (vrun (start c b) ops)) k = Some v) by exact H.
  apply uval_run in U as [(pre & post & E & _) _]. apply (Ho k v). rewrite E. apply in_or_app. right. now left.
Qed.

(** the listed entries are the readable ones *)
Lemma visible_lists c b ops p k v : committed_ok c -> prefix_ok c p -> ops_ok ops ->
  let d := vrun (start c b) ops in
  let A := filter (fun x => in_range p (fst x)) (u_storage (v_uns d)) in
  let B := chain_entries (v_chain d) p in
  (bin k (u_deleted (v_uns d)) = false /\ (In (k, v) A \/ In (k, v) B /\ ~ In k (keys A)))
  <-> has_prefix p k /\ v_get k d = v /\ v <> [].
Proof.
  intros Hc Hp Ho d A B.
  pose proof (vrun_ok _ ops (start_ok c b)) as Uok. fold d in Uok. pose proof Uok as (S & D & _).
  destruct (vrun_chain (start c b) ops) as [Ch _]. fold d in Ch. cbn [start v_chain] in Ch.
  assert (IA : forall k v, In (k, v) A <-> In (k, v) (u_storage (v_uns d)) /\ has_prefix p k).
  { intros k1 v1. unfold A. rewrite filter_In. cbn [fst]. split; intros [H1 H2]; split; auto.
    - apply in_range_prefix in H2; auto; [apply Hp|eapply storage_bytes; eauto].
    - apply in_range_prefix; auto; [apply Hp|eapply storage_bytes; eauto]. }
  assert (IB : forall k v, In (k, v) B <-> In (k, v) c /\ has_prefix p k).
  { intros. unfold B. rewrite Ch. now apply chain_entries_in. }
  assert (Del : bin k (u_deleted (v_uns d)) = false <-> mget k (u_storage (v_uns d)) <> Some []).
  { rewrite <- not_true_iff_false, bin_In, D. reflexivity. }
  rewrite Del, IA, IB. unfold v_get. rewrite u_get_val by auto. unfold uval, v_get_original. rewrite Ch.
  assert (Sc : sorted c) by (apply ascending_sorted, Hc).
  assert (NV : forall v1, In (k, v1) c -> v1 <> []).
  { intros v1 H1. destruct Hc as [_ F]. rewrite Forall_forall in F. now apply F in H1. }
  destruct (mget k (u_storage (v_uns d))) as [w|] eqn:G.
  - assert (Ig : In (k, w) (u_storage (v_uns d))) by now apply mget_In.
    split.
    + intros [Hd [[H1 H2]|[[H1 H2] H3]]].
      * apply mget_In in H1; auto. rewrite H1 in G. injection G as G. split; [exact H2|]. split; [now symmetry|]. intro E. apply Hd. now rewrite <- G, E.
      * exfalso. apply H3. unfold keys. apply in_map_iff. exists (k, w). split; auto. now apply IA.
    + intros (H1 & -> & H3). split; [congruence|]. left. auto.
  - split.
    + intros [Hd [[H1 H2]|[[H1 H2] H3]]].
      * apply mget_In in H1; auto. congruence.
      * repeat split; eauto. apply mget_In in H1; auto. now rewrite H1.
    + intros (H1 & H2 & H3). split; [discriminate|]. right.
      destruct (mget k c) as [w|] eqn:G2; [|now destruct H3]. rewrite H2 in G2. clear H2 w.
      split; [split; auto; now apply mget_In|]. unfold keys. intro H. apply in_map_iff in H as ([k1 v1] & E & H).
      cbn in E. subst k1. apply IA in H as [H _]. apply mget_In in H; auto. congruence.
Qed.
