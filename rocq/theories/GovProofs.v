From Verif Require Import Lib SchedModel StatsModel GovModel GovSpec.

(** ** Maps of registrations *)
Lemma get_reg_in n l r : get_reg n l = Some r -> In r l /\ r_name r = n.
Proof.
  induction l as [|x q IH]; cbn; [discriminate|]. destruct (zlist_eqb (r_name x) n) eqn:E.
  - intros [= ->]. apply zlist_eqb_eq in E. auto.
  - intro H. destruct (IH H). auto.
Qed.
Lemma get_reg_none n l : get_reg n l = None <-> ~ In n (map r_name l).
Proof.
  induction l as [|x q IH]; cbn; [easy|]. destruct (zlist_eqb (r_name x) n) eqn:E.
  - apply zlist_eqb_eq in E. split; [discriminate|]. intro H. exfalso. apply H. now left.
  - apply zlist_eqb_neq in E. rewrite IH. split; intros H; [intros [?|?]; auto|auto].
Qed.
Lemma get_reg_of l r : NoDup (map r_name l) -> In r l -> get_reg (r_name r) l = Some r.
Proof.
  induction l as [|x q IH]; cbn; [easy|]. intros N I. inversion N as [|? ? N1 N2]; subst. destruct I as [->|I].
  - now rewrite zlist_eqb_refl.
  - destruct (zlist_eqb (r_name x) (r_name r)) eqn:E; [|auto]. apply zlist_eqb_eq in E. exfalso. apply N1. rewrite E. now apply in_map.
Qed.
Lemma put_reg_in r l x : NoDup (map r_name l) -> In x (put_reg r l) <-> x = r \/ In x l /\ r_name x <> r_name r.
Proof.
  induction l as [|y q IH]; cbn; intro N; [split; [intros [->|[]]; auto|intros [->|[[] _]]; auto]|]. inversion N as [|? ? N1 N2]; subst.
  destruct (zlist_eqb (r_name y) (r_name r)) eqn:E; [apply zlist_eqb_eq in E|apply zlist_eqb_neq in E]; cbn.
  - split; [intros [->|I]; [auto|]|intros [->|[[->|I] D]]; auto; contradiction]. right. split; [auto|]. rewrite <- E. intro D. apply N1. rewrite <- D. now apply in_map.
  - rewrite IH by auto. split; [intros [->|[->|[I D]]]; auto|intros [->|[[->|I] D]]; auto].
Qed.
Lemma put_reg_names r l : map r_name (put_reg r l) = if existsb (zlist_eqb (r_name r)) (map r_name l) then map r_name l else map r_name l ++ [r_name r].
Proof.
  induction l as [|y q IH]; cbn; [reflexivity|]. destruct (zlist_eqb (r_name y) (r_name r)) eqn:E.
  - apply zlist_eqb_eq in E. cbn. rewrite <- E, zlist_eqb_refl. reflexivity.
  - cbn. rewrite IH. destruct (zlist_eqb (r_name r) (r_name y)) eqn:E2; [apply zlist_eqb_eq in E2; apply zlist_eqb_neq in E; congruence|]. cbn. now destruct (existsb _ _).
Qed.
Lemma existsb_name n l : existsb (zlist_eqb n) l = true <-> In n l.
Proof. rewrite existsb_exists. split; [intros (x & I & E); apply zlist_eqb_eq in E; now subst|intro I; exists n; split; [auto|apply zlist_eqb_refl]]. Qed.
Lemma put_reg_nodup r l : NoDup (map r_name l) -> NoDup (map r_name (put_reg r l)).
Proof.
  intro N. rewrite put_reg_names. destruct (existsb _ _) eqn:E; [auto|]. apply NoDup_rev in N. rewrite <- (rev_involutive (map r_name l ++ [r_name r])). apply NoDup_rev. rewrite rev_app_distr. cbn. constructor; [|auto].
  intro I. apply in_rev in I. apply existsb_name in I. congruence.
Qed.
Lemma put_reg_get r l n : get_reg n (put_reg r l) = if zlist_eqb (r_name r) n then Some r else get_reg n l.
Proof.
  induction l as [|y q IH]; cbn; [reflexivity|]. destruct (zlist_eqb (r_name y) (r_name r)) eqn:E.
  - apply zlist_eqb_eq in E. cbn. rewrite E. now destruct (zlist_eqb (r_name r) n).
  - cbn. rewrite IH. destruct (zlist_eqb (r_name y) n) eqn:E2; [|reflexivity]. apply zlist_eqb_eq in E2. subst n. destruct (zlist_eqb (r_name r) (r_name y)) eqn:E3; [|reflexivity]. apply zlist_eqb_eq in E3. apply zlist_eqb_neq in E. congruence.
Qed.
Lemma put_reg_some r l n : In n (map r_name l) -> In n (map r_name (put_reg r l)).
Proof. intro I. rewrite put_reg_names. destruct (existsb _ _); [auto|]. apply in_or_app. now left. Qed.

Lemma zsum_app a b : zsum (a ++ b) = zsum a + zsum b.
Proof. induction a; cbn; lia. Qed.
Lemma deposit_put r l : zsum (map r_amount (put_reg r l)) = zsum (map r_amount l) - match get_reg (r_name r) l with Some o => r_amount o | None => 0 end + r_amount r.
Proof. induction l as [|y q IH]; cbn; [lia|]. destruct (zlist_eqb (r_name y) (r_name r)) eqn:E; cbn; lia. Qed.
Lemma deposit_in r l : Forall (fun x => 0 <= r_amount x) l -> In r l -> 0 <= r_amount r <= zsum (map r_amount l).
Proof.
  intro F. assert (P : 0 <= zsum (map r_amount l)) by (induction F; cbn; lia). induction F as [|x q F1 F2 IH]; cbn; [easy|]. intros [->|I]; [|].
  - assert (0 <= zsum (map r_amount q)) by (clear - F2; induction F2; cbn; lia). lia.
  - assert (0 <= zsum (map r_amount q)) by (clear - F2; induction F2; cbn; lia). specialize (IH H I). lia.
Qed.

Lemma stored_name b r : r_name (stored b r) = r_name r. Proof. now destruct b. Qed.
Lemma stored_prod b r : r_prod (stored b r) = r_prod r. Proof. now destruct b. Qed.
Lemma stored_owner b r : r_owner (stored b r) = r_owner r. Proof. now destruct b. Qed.
Lemma stored_amount b r : r_amount (stored b r) = r_amount r. Proof. now destruct b. Qed.
Lemma stored_exp b r : r_exp (stored b r) = r_exp r. Proof. now destruct b. Qed.
Lemma stored_rt b r : r_rt (stored b r) = r_rt r. Proof. now destruct b. Qed.
Lemma stored_rv b r : r_rv (stored b r) = r_rv r. Proof. now destruct b. Qed.
Lemma stored_his b r : r_his (stored b r) = r_his r. Proof. now destruct b. Qed.
Lemma stored_wd b r : r_wd (stored b r) = if b then r_wd r else r_owner r. Proof. now destruct b. Qed.
Lemma upd_same {A} (f : Z -> A) k v : upd f k v k = v. Proof. unfold upd. now rewrite Z.eqb_refl. Qed.
Lemma upd_other {A} (f : Z -> A) k v x : x <> k -> upd f k v x = f x. Proof. unfold upd. intro. now rewrite (proj2 (Z.eqb_neq x k)) by auto. Qed.

Lemma words_no_comma : forall l, words_ok l = true -> l <> [] /\ ~ In comma l.
Proof.
  assert (H : forall k l, (length l <= k)%nat -> words_ok l = true -> l <> [] /\ ~ In comma l).
  { induction k as [|k IH]; intros l L W; [destruct l; [discriminate|cbn in L; lia]|]. destruct l as [|c q]; [discriminate|]. split; [discriminate|]. cbn in L.
    assert (C : char_ok c = true -> comma <> c) by (intros C E; subst c; discriminate C). destruct q as [|d r]; cbn [words_ok] in W; [intros [E|[]]; exact (C W (eq_sym E))|].
    apply andb_prop in W. destruct W as [W1 W2]. cbn in L. destruct (Z.eq_dec d 32) as [->|D].
    - assert (W3 : words_ok r = true) by exact W2. apply IH in W3; [|lia]. intros [E|[E|I]]; [exact (C W1 (eq_sym E))|discriminate E|tauto].
    - assert (W3 : words_ok (d :: r) = true). { destruct d as [|p|p]; try exact W2. repeat (destruct p as [p|p|]; try exact W2). contradiction. }
      apply IH in W3; [|cbn; lia]. intros [E|I]; [exact (C W1 (eq_sym E))|tauto]. }
  intros l W. exact (H (length l) l (Nat.le_refl _) W).
Qed.
Lemma name_ok_plain n : name_ok n = true -> n <> [] /\ ~ In comma n.
Proof. unfold name_ok. intro H. apply andb_prop in H. destruct H as [_ H]. now apply words_no_comma. Qed.

(** ** The invariant of the contract's maps *)
Definition reg_good (gt : Z) (s : gstate) (r : reg) : Prop :=
  r_name r <> [] /\ ~ In comma (r_name r) /\ 0 <= r_amount r /\ In (r_prod r) (r_his r) /\ Forall (fun a => g_his s a = r_name r) (r_his r) /\ NoDup (r_his r) /\
  (r_rv r = 0 \/ r_amount r = 0) /\ -1 <= r_rt r /\ (0 <= r_rt r -> time_ok gt (r_rt r)) /\ time_ok gt (r_rv r).
Record good (gt : Z) (w : world) : Prop := {
  gd_names : NoDup (map r_name (g_regs (w_st w)));
  gd_regs : Forall (reg_good gt (w_st w)) (g_regs (w_st w));
  gd_his : forall a, g_his (w_st w) a <> [] -> exists r, In r (g_regs (w_st w)) /\ r_name r = g_his (w_st w) a /\ In a (r_his r);
  gd_votes : forall a, g_votes (w_st w) a = [] \/ exists r, In r (g_regs (w_st w)) /\ r_name r = g_votes (w_st w) a;
  gd_snap : Forall (fun r => r_name r <> [] /\ Forall (fun a => g_his (w_st w) a = r_name r) (r_his r)) (w_snap w) }.

Lemma genesis_good gt w : genesis_ok gt w -> good gt w.
Proof.
  intro G. destruct G as [N R H L V S T M]. constructor; auto.
  - eapply Forall_impl; [|exact R]. unfold reg_good. intros r. tauto.
  - rewrite S. eapply Forall_impl; [|exact R]. cbn. intros r. tauto.
Qed.
(** What [claim] does. *)
Lemma claim_spec s a n his l hm : n <> [] -> claim s a n his = Some (l, hm) -> Forall (fun b => g_his s b = n) his -> NoDup his ->
  (forall b, g_his s b <> [] -> hm b = g_his s b) /\ (forall b, hm b <> [] -> g_his s b <> [] \/ b = a) /\ hm a = n /\ Forall (fun b => hm b = n) l /\ NoDup l /\
  (forall b, In b l <-> In b his \/ b = a /\ g_his s a = []).
Proof.
  intros NN C F ND. unfold claim in C. destruct (g_his s a) as [|y m] eqn:E.
  - injection C as <- <-. assert (NA : ~ In a his). { intro I. rewrite Forall_forall in F. specialize (F a I). congruence. }
    split; [intros b B; apply upd_other; intros ->; contradiction|]. split; [intros b B; destruct (Z.eq_dec b a); [auto|]; rewrite upd_other in B by auto; auto|].
    split; [apply upd_same|]. split.
    + apply Forall_app. split; [|repeat constructor; apply upd_same]. apply Forall_forall. intros b B. rewrite upd_other; [|intros ->; contradiction]. rewrite Forall_forall in F. auto.
    + split.
      * apply NoDup_rev in ND. rewrite <- (rev_involutive (his ++ [a])). apply NoDup_rev. rewrite rev_app_distr. cbn. constructor; [|auto]. intro I. apply in_rev in I. contradiction.
      * intro b. rewrite in_app_iff. cbn. split; [intros [?|[->|[]]]; auto|intros [?|[-> _]]; auto].
  - rewrite <- E in C. destruct (zlist_eqb (g_his s a) n) eqn:E2; [|discriminate]. injection C as <- <-. apply zlist_eqb_eq in E2. rewrite E2 in *. split; [auto|]. split; [auto|]. split; [auto|]. split; [auto|]. split; [auto|].
    intro b. split; [auto|]. intros [?|[_ H]]; [auto|]. congruence.
Qed.

(** How a single registration may be replaced. *)
Lemma good_put gt w s r : good gt w -> g_regs s = put_reg r (g_regs (w_st w)) -> reg_good gt s r -> g_votes s = g_votes (w_st w) ->
  (forall b, g_his (w_st w) b <> [] -> g_his s b = g_his (w_st w) b) -> (forall b, g_his s b <> [] -> g_his (w_st w) b <> [] \/ In b (r_his r)) ->
  (forall o, In o (g_regs (w_st w)) -> r_name o = r_name r -> incl (r_his o) (r_his r)) ->
  forall snap t ea m bal, snap = w_snap w -> good gt {| w_st := s; w_snap := snap; w_bal := bal; w_time := t; w_earth := ea; w_mints := m |}.
Proof.
  intros [N R H V S] ES RG EV HK HN HI snap t ea m bal ->.
  assert (HKF : forall r0 l, r_name r0 <> [] -> Forall (fun a => g_his (w_st w) a = r_name r0) l -> Forall (fun a => g_his s a = r_name r0) l).
  { intros r0 l NE F. eapply Forall_impl; [|exact F]. cbn. intros b B. rewrite HK; [auto|congruence]. }
  constructor; cbn [w_st w_snap].
  - rewrite ES. now apply put_reg_nodup.
  - rewrite ES. apply Forall_forall. intros x I. apply put_reg_in in I; [|auto]. destruct I as [->|[I _]]; [auto|]. rewrite Forall_forall in R. specialize (R x I). unfold reg_good in *. intuition.
  - intros a A. specialize (HN a A). assert (IR : forall o, In o (g_regs (w_st w)) -> r_name o = g_his s a -> In a (r_his o) -> exists r0, In r0 (g_regs s) /\ r_name r0 = g_his s a /\ In a (r_his r0)).
    { intros o I E1 E2. destruct (zlist_eqb (r_name o) (r_name r)) eqn:E; [apply zlist_eqb_eq in E|apply zlist_eqb_neq in E].
      - exists r. rewrite ES, put_reg_in by auto. split; [auto|]. split; [congruence|]. exact (HI o I E a E2).
      - exists o. rewrite ES, put_reg_in by auto. auto. }
    destruct HN as [HN|HN].
    + destruct (H a HN) as (o & I & E1 & E2). apply (IR o); auto. rewrite HK; auto.
    + exists r. rewrite ES, put_reg_in by auto. split; [auto|]. split; [|auto]. destruct RG as (_ & _ & _ & _ & F & _). rewrite Forall_forall in F. symmetry. auto.
  - intros a. rewrite EV. destruct (V a) as [?|(o & I & E)]; [auto|]. right. destruct (zlist_eqb (r_name o) (r_name r)) eqn:E2; [apply zlist_eqb_eq in E2|apply zlist_eqb_neq in E2].
    + exists r. rewrite ES, put_reg_in by auto. split; [auto|congruence].
    + exists o. rewrite ES, put_reg_in by auto. auto.
  - eapply Forall_impl; [|exact S]. cbn. intros x [A B]. split; auto.
Qed.


(** ** Days *)
Definition gen_ok (g : group) : Prop := 0 <= g_genesis g /\ g_genesis g mod sec = 0.
Lemma pow63 : 2 ^ 63 = 9223372036854775808. Proof. reflexivity. Qed.
Lemma sec_eq : sec = 1000000000. Proof. reflexivity. Qed.
Lemma wrap_i64_small x : 0 <= x < 2 ^ 63 -> wrap_i64 x = x.
Proof. intro H. unfold wrap_i64. rewrite Z.mod_small; [lia|]. change two64 with (2 * 2 ^ 63). rewrite pow63 in *. lia. Qed.
Lemma wrap64_small' x : 0 <= x < 2 ^ 63 -> wrap64 x = x.
Proof. intro H. unfold wrap64. apply Z.mod_small. change two64 with (2 * 2 ^ 63). rewrite pow63 in *. lia. Qed.
Section Days.
Context (g : group) (OK : gen_ok g).
Let gt := genesis_time g.
Lemma gt_eq : g_genesis g = gt * sec /\ 0 <= gt.
Proof. destruct OK as [P M]. unfold gt, genesis_time, unix. rewrite sec_eq in *. split; lia. Qed.
Lemma time_idx_eq t : gt <= t -> time_ok gt t -> time_idx g t = (t - gt) / 86400.
Proof.
  intros L [T0 T]. destruct gt_eq as [E P]. rewrite sec_eq, pow63 in *. unfold time_idx, time2index, day_index. cbn [ti_genesis ti_interval]. rewrite E.
  replace (t * sec - gt * 1000000000) with ((t - gt) * sec) by (rewrite sec_eq; lia). unfold sat_i64. rewrite Z.min_r, Z.max_r by (rewrite pow63, sec_eq; lia).
  rewrite Z.quot_mul by (rewrite sec_eq; lia). rewrite wrap64_small' by (rewrite pow63; lia). f_equal.
Qed.
Lemma day_pos : 0 < 24 * (3600 * sec). Proof. rewrite sec_eq. lia. Qed.
Lemma start_eq i : 0 <= i -> i * 86400 * sec < 2 ^ 63 -> start_time g i = gt + i * 86400.
Proof.
  intros I B. destruct gt_eq as [E P]. rewrite sec_eq, pow63 in *. unfold start_time, index2time, day_index. cbn [ti_genesis ti_interval fst snd]. rewrite E.
  rewrite !wrap_i64_small by (rewrite ?wrap_i64_small; rewrite ?sec_eq, ?pow63; lia). unfold unix. rewrite sec_eq. lia.
Qed.
Lemma end_eq i : 0 <= i -> (i + 1) * 86400 * sec < 2 ^ 63 -> end_time g i = gt + (i + 1) * 86400.
Proof.
  intros I B. destruct gt_eq as [E P]. rewrite sec_eq, pow63 in *. unfold end_time, index2time, day_index. cbn [ti_genesis ti_interval fst snd]. rewrite E.
  rewrite (wrap64_small' (i + 1)), !wrap_i64_small by (rewrite ?wrap_i64_small; rewrite ?sec_eq, ?pow63; lia). unfold unix. rewrite sec_eq. lia.
Qed.
Lemma by_start_eq t : time_ok gt t -> by_start g t = if t <=? gt then (0, gt, false) else ((t - gt - 1) / 86400 + 1, gt + ((t - gt - 1) / 86400 + 1) * 86400, false).
Proof.
  intros TO. pose proof TO as [T0 T1]. unfold by_start. fold gt. destruct (Z.ltb_spec t 0); [lia|]. destruct (Z.leb_spec t gt) as [H1|H1]; [reflexivity|]. destruct gt_eq as [_ P].
  rewrite sec_eq, pow63 in T1. rewrite time_idx_eq by (unfold time_ok; rewrite ?sec_eq, ?pow63; lia). replace (t - 1 - gt) with (t - gt - 1) by lia.
  rewrite wrap64_small' by (rewrite pow63; lia). rewrite start_eq; [reflexivity|lia|rewrite sec_eq, pow63; lia].
Qed.
Lemma by_end_eq t : time_ok gt t -> by_end g t = if t - gt <? 86400 then (0, gt, true) else ((t - gt) / 86400 - 1, gt + (t - gt) / 86400 * 86400, false).
Proof.
  intros TO. unfold by_end. fold gt. destruct (Z.ltb_spec t gt) as [H|H]; [destruct (Z.ltb_spec (t - gt) 86400); [reflexivity|lia]|]. rewrite time_idx_eq by auto. cbv zeta.
  destruct TO as [T0 T1]. rewrite sec_eq, pow63 in T1. destruct (Z.ltb_spec (t - gt) 86400) as [H1|H1].
  - rewrite (Z.div_small (t - gt)) by lia. reflexivity.
  - destruct (Z.eqb_spec ((t - gt) / 86400) 0); [lia|]. rewrite end_eq; [|lia|rewrite sec_eq, pow63; lia]. do 3 f_equal. lia.
Qed.
Lemma by_end_time t : time_ok gt (t + reward_limit) -> time_ok gt (snd (fst (by_end g t))) /\ by_end g t = (if t - gt <? 86400 then (0, gt, true) else ((t - gt) / 86400 - 1, gt + (t - gt) / 86400 * 86400, false)).
Proof.
  intros TO. destruct gt_eq as [_ P]. assert (E : by_end g t = if t - gt <? 86400 then (0, gt, true) else ((t - gt) / 86400 - 1, gt + (t - gt) / 86400 * 86400, false)).
  { destruct (Z_lt_le_dec t 0) as [H|H].
    - unfold by_end. fold gt. destruct (Z.ltb_spec t gt); [|lia]. destruct (Z.ltb_spec (t - gt) 86400); [reflexivity|lia].
    - apply by_end_eq. unfold time_ok, reward_limit in *. rewrite sec_eq, pow63 in *. lia. }
  rewrite E. unfold time_ok, reward_limit in *. rewrite sec_eq, pow63 in *. destruct (Z.ltb_spec (t - gt) 86400); cbn [fst snd]; (split; [split; lia|reflexivity]).
Qed.
End Days.

Section Steps.
Context (g : group) (OK : gen_ok g) (days : Z -> option point) (fork sh : Z).
Let gt := genesis_time g.

Lemma time_ok_le t t' : 0 <= t <= t' -> time_ok gt t' -> time_ok gt t.
Proof. unfold time_ok. rewrite sec_eq, pow63. lia. Qed.
Lemma calc_end e regs o et rw d : 0 < e_time e -> time_ok gt (e_time e) -> time_ok gt (r_rv o) -> calc_reward g days fork e regs o = (et, rw, d) -> time_ok gt et.
Proof.
  intros TP TO RG C. assert (T0 : time_ok gt 0) by (apply (time_ok_le _ (e_time e)); auto; lia).
  assert (LE : time_ok gt (snd (fst (by_end g (e_time e - reward_limit))))).
  { destruct (by_end_time g OK (e_time e - reward_limit)) as [A _]; [now rewrite Z.sub_add|auto]. }
  unfold calc_reward in C. destruct (e_panic e); [injection C as <- <- <-; auto|]. unfold calc in C. destruct (by_start g (r_rt o)) as [[si st] [|]]; [injection C as <- <- <-; auto|].
  destruct (is_active o).
  - destruct (by_end g (e_time e - reward_limit)) as [[ei et0] wi]. cbn [fst snd] in LE. destruct (wi || (ei <? si)); injection C as <- <- <-; auto.
  - destruct (Z.leb_spec (snd (fst (by_end g (r_rv o)))) (e_time e - reward_limit)) as [H|H].
    + assert (H1 : time_ok gt (snd (fst (by_end g (r_rv o))))).
      { rewrite by_end_eq by auto. destruct (gt_eq g OK) as [_ P]. fold gt in P |- *. revert RG. unfold time_ok. rewrite sec_eq, pow63. destruct (Z.ltb_spec (r_rv o - gt) 86400); cbn [fst snd]; lia. }
      destruct (by_end g (r_rv o)) as [[ei et0] wi]. cbn [fst snd] in *. destruct (wi || (ei <? si)); injection C as <- <- <-; auto.
    + destruct (by_end g (e_time e - reward_limit)) as [[ei et0] wi]. cbn [fst snd] in LE. destruct (wi || (ei <? si)); injection C as <- <- <-; auto.
Qed.

Definition base (x : op) : Prop := match x with ORequest e _ => 0 <= e_amount e /\ 0 < e_time e /\ time_ok gt (e_time e) /\ 0 <= e_height e /\ e_height e + sh < two64 | OSnapshot => True end.

Lemma request_good w e c : good gt w -> base (ORequest e c) -> do_send (e_amount e) c = true -> good gt (fst (request g days fork sh w e c)).
Proof.
  intros GD (A0 & TP & TO & _) DS. unfold request.
  assert (RF : good gt {| w_st := w_st w; w_snap := w_snap w; w_bal := w_bal w; w_time := e_time e; w_earth := e_earth e; w_mints := w_mints w |}) by (destruct GD; constructor; auto).
  assert (LIFT : forall s o, receive g days fork sh e (w_snap w) (w_st w) c = Some (s, o) ->
     (forall bal m, good gt {| w_st := s; w_snap := w_snap w; w_bal := bal; w_time := e_time e; w_earth := e_earth e; w_mints := m |})).
  2: { destruct (receive g days fork sh e (w_snap w) (w_st w) c) as [[s o]|]; [|exact RF]. destruct (_ <? _); [exact RF|]. cbn [fst]. apply (LIFT s o eq_refl). }
  clear RF. intros s o R bal m. pose proof GD as [N RG HH VV SS]. rewrite Forall_forall in RG.
  assert (T0 : time_ok gt 0) by (apply (time_ok_le _ (e_time e)); auto; lia).
  assert (SAME : forall n o', get_reg n (g_regs (w_st w)) = Some o' -> forall o2, In o2 (g_regs (w_st w)) -> r_name o2 = r_name o' -> o2 = o').
  { intros n o' G o2 I E. destruct (get_reg_in _ _ _ G) as [I' E']. pose proof (get_reg_of _ _ N I) as G2. rewrite E, E', G in G2. now injection G2. }
  destruct c as [wd n prod|n|n to|n prod|n wd|n|]; cbn [receive do_send] in R, DS.
  - destruct (_ || _); [discriminate|]. cbv zeta in R. destruct (match get_reg n (g_regs (w_st w)) with Some _ => _ | None => _ end) eqn:CK; [discriminate|].
    destruct (claim _ _ _ _) as [[his hm]|] eqn:CL; [|discriminate]. injection R as <- <-. destruct (name_ok_plain n DS) as [NE NC].
    apply claim_spec in CL; [|auto| |].
    2, 3: destruct (get_reg n (g_regs (w_st w))) as [o'|] eqn:G; [|constructor]; destruct (get_reg_in _ _ _ G) as [I E]; destruct (RG o' I) as (_ & _ & _ & _ & F & ND & _); ((rewrite <- E; exact F) || exact ND).
    destruct CL as (H1 & H2 & H3 & H4 & H5 & H6).
    assert (IP : In prod his). { apply H6. destruct (g_his (w_st w) prod) as [|y q] eqn:E; [auto|]. left. destruct (HH prod) as (r & I & E1 & E2); [congruence|]. assert (EH : hm prod = g_his (w_st w) prod) by (apply H1; congruence).
      rewrite <- EH, H3 in E1. rewrite <- E1, (get_reg_of _ _ N I). exact E2. }
    eapply good_put; [exact GD|cbn [g_regs]; reflexivity| |reflexivity|exact H1| | |reflexivity].
    + unfold reg_good. cbn [g_his]. rewrite stored_name, stored_amount, stored_prod, stored_his, stored_rt, stored_rv. cbn. intuition (auto; lia).
    + intros b B. rewrite stored_his. cbn. destruct (H2 b B) as [?| ->]; auto.
    + intros o' I E. rewrite stored_his. rewrite stored_name in E. cbn in E |- *. rewrite <- E, (get_reg_of _ _ N I) in H6. intros b B. apply H6. auto.
  - destruct (get_reg n (g_regs (w_st w))) as [o'|] eqn:G; [|discriminate]. destruct (get_reg_in _ _ _ G) as [I E]. destruct (_ || _); [discriminate|]. injection R as <- <-. pose proof (RG o' I) as RGo. unfold reg_good in RGo.
    eapply good_put; [exact GD|cbn [g_regs]; reflexivity| |reflexivity|auto|auto| |reflexivity].
    + unfold reg_good. cbn [g_his]. rewrite stored_name, stored_amount, stored_prod, stored_his, stored_rt, stored_rv. cbn. destruct (drained_of _ _ _ _ _ _); intuition lia.
    + intros o2 I2 E2. rewrite stored_name in E2. rewrite stored_his. cbn in E2 |- *. rewrite (SAME n o' G o2 I2 E2). apply incl_refl.
  - destruct (get_reg n (g_regs (w_st w))) as [o'|] eqn:G; [|discriminate]. destruct (get_reg_in _ _ _ G) as [I E]. destruct (_ || _); [discriminate|]. pose proof (RG o' I) as RGo. unfold reg_good in RGo.
    destruct (calc_reward _ _ _ _ _ _) as [[et rw] dr] eqn:C. apply calc_end in C; [|auto|auto|tauto]. cbv zeta in R. match type of R with (if ?b then _ else _) = _ => destruct b end; injection R as <- <-; [constructor; auto; apply Forall_forall; auto|].
    eapply good_put; [exact GD|cbn [g_regs]; reflexivity| |reflexivity|auto|auto| |reflexivity].
    + unfold reg_good. cbn [g_his]. rewrite stored_name, stored_amount, stored_prod, stored_his, stored_rt, stored_rv. cbn. pose proof C as [C0 _]. destruct dr; intuition lia.
    + intros o2 I2 E2. rewrite stored_name in E2. rewrite stored_his. cbn in E2 |- *. rewrite (SAME n o' G o2 I2 E2). apply incl_refl.
  - apply andb_prop in DS. destruct DS as [_ DS]. destruct (get_reg n (g_regs (w_st w))) as [o'|] eqn:G; [|discriminate]. destruct (get_reg_in _ _ _ G) as [I E]. destruct (_ || _); [discriminate|]. pose proof (RG o' I) as RGo. unfold reg_good in RGo.
    destruct (claim _ _ _ _) as [[his hm]|] eqn:CL; [|discriminate]. injection R as <- <-. destruct (name_ok_plain n DS) as [NE NC].
    apply claim_spec in CL; [|auto|rewrite <- E; tauto|tauto]. destruct CL as (H1 & H2 & H3 & H4 & H5 & H6).
    assert (IP : In prod his). { apply H6. destruct (g_his (w_st w) prod) as [|y q] eqn:E0; [auto|]. left. destruct (HH prod) as (r & I' & E1 & E2); [congruence|]. assert (EH : hm prod = g_his (w_st w) prod) by (apply H1; congruence).
      rewrite <- EH, H3 in E1. rewrite <- (SAME n o' G r I'); [exact E2|congruence]. }
    eapply good_put; [exact GD|cbn [g_regs]; reflexivity| |reflexivity|exact H1| | |reflexivity].
    + unfold reg_good. cbn [g_his]. rewrite stored_name, stored_amount, stored_prod, stored_his, stored_rt, stored_rv. cbn. rewrite E. intuition.
    + intros b B. rewrite stored_his. cbn. destruct (H2 b B) as [?| ->]; auto.
    + intros o2 I2 E2. rewrite stored_name in E2. rewrite stored_his. cbn in E2 |- *. rewrite (SAME n o' G o2 I2 E2). intros b B. apply H6. auto.
  - destruct (get_reg n (g_regs (w_st w))) as [o'|] eqn:G; [|discriminate]. destruct (get_reg_in _ _ _ G) as [I E]. destruct (_ || _); [discriminate|]. injection R as <- <-. pose proof (RG o' I) as RGo. unfold reg_good in RGo.
    eapply good_put; [exact GD|cbn [g_regs]; reflexivity| |reflexivity|auto|auto| |reflexivity].
    + unfold reg_good. cbn. intuition.
    + intros o2 I2 E2. cbn in E2 |- *. rewrite (SAME n o' G o2 I2 E2). apply incl_refl.
  - destruct (get_reg n (g_regs (w_st w))) as [o'|] eqn:G; [|discriminate]. destruct (get_reg_in _ _ _ G) as [I E]. destruct (is_active o'); [|discriminate]. injection R as <- <-. constructor; cbn; auto; [apply Forall_forall; auto|].
    intro a. unfold upd. destruct (a =? e_caller e); [right; exists o'; auto|auto].
  - injection R as <- <-. constructor; cbn; auto; [apply Forall_forall; auto|]. intro a. unfold upd. destruct (a =? e_caller e); auto.
Qed.
Lemma step_good w x : good gt w -> base x -> good gt (w_step g days fork sh w x).
Proof.
  intros GD B. destruct x as [e c|]; cbn [w_step].
  - destruct (do_send (e_amount e) c) eqn:D; [|auto]. destruct (exists_method e c); [|auto]. now apply request_good.
  - destruct GD as [N R H V S]. constructor; cbn; auto. eapply Forall_impl; [|exact R]. unfold reg_good. intros r. tauto.
Qed.
Lemma hist_good ok w : hist g days fork sh ok w -> good gt w.
Proof. induction 1; [now apply genesis_good|]. apply step_good; auto. Qed.

(** ** Deposits *)
Lemma step_deposits w x : good gt w -> base x -> w_bal (w_step g days fork sh w x) - deposits (w_step g days fork sh w x) = w_bal w - deposits w.
Proof.
  intros GD B. destruct x as [e c|]; [|reflexivity]. cbn [w_step]. destruct (do_send (e_amount e) c) eqn:DS; [|reflexivity]. destruct (exists_method e c); [|reflexivity]. cbn [andb].
  unfold request. destruct (receive g days fork sh e (w_snap w) (w_st w) c) as [[s o]|] eqn:R; [|reflexivity]. destruct (_ <? _); [reflexivity|]. cbn [fst w_bal]. unfold deposits. cbn [w_st].
  destruct B as (A0 & _). pose proof (gd_names _ _ GD) as N. pose proof (gd_regs _ _ GD) as RG. rewrite Forall_forall in RG.
  destruct c as [wd n prod|n|n to|n prod|n wd|n|]; cbn [receive do_send] in R, DS.
  - destruct (_ || _) eqn:AM in R; [discriminate|]. apply orb_false_elim in AM. destruct AM as [_ TK]. apply negb_false_iff in TK. cbv zeta in R. destruct (match get_reg n (g_regs (w_st w)) with Some _ => _ | None => _ end) eqn:CK; [discriminate|].
    destruct (claim _ _ _ _) as [[his hm]|] eqn:CL; [|discriminate]. injection R as <- <-. cbn [g_regs]. rewrite deposit_put, stored_name, stored_amount. cbn [r_name r_amount]. unfold amount_of. rewrite TK.
    destruct (get_reg n (g_regs (w_st w))) as [o'|] eqn:G; [|lia]. destruct (get_reg_in _ _ _ G) as [I E]. apply orb_false_elim in CK. destruct CK as [CK _]. apply orb_false_elim in CK. destruct CK as [CK _].
    unfold is_active in CK. apply Z.eqb_neq in CK. destruct (RG o' I) as (_ & _ & _ & _ & _ & _ & [?|Z0] & _); [contradiction|]. lia.
  - apply andb_prop in DS. destruct DS as [DS _]. apply Z.eqb_eq in DS. unfold amount_of. rewrite DS. destruct (get_reg n (g_regs (w_st w))) as [o'|] eqn:G; [|discriminate]. destruct (get_reg_in _ _ _ G) as [I E]. destruct (_ || _); [discriminate|].
    injection R as <- <-. cbn [g_regs]. rewrite deposit_put, stored_name, stored_amount. cbn [r_name r_amount]. rewrite E, G. destruct (RG o' I) as (_ & _ & A & _). destruct (Z.ltb_spec 0 (r_amount o')); destruct (e_token e =? vite); lia.
  - apply Z.eqb_eq in DS. unfold amount_of. rewrite DS. destruct (get_reg n (g_regs (w_st w))) as [o'|] eqn:G; [|discriminate]. destruct (get_reg_in _ _ _ G) as [I E]. destruct (_ || _); [discriminate|].
    destruct (calc_reward _ _ _ _ _ _) as [[et rw] dr]. cbv zeta in R. match type of R with (if ?b then _ else _) = _ => destruct b end; injection R as <- <-; [destruct (e_token e =? vite); lia|]. cbn [g_regs]. rewrite deposit_put, stored_name, stored_amount. cbn [r_name r_amount]. rewrite E, G.
    destruct rw as [x|]; [destruct (0 <? x)|]; destruct (e_token e =? vite); lia.
  - apply andb_prop in DS. destruct DS as [DS _]. apply Z.eqb_eq in DS. unfold amount_of. rewrite DS. destruct (get_reg n (g_regs (w_st w))) as [o'|] eqn:G; [|discriminate]. destruct (get_reg_in _ _ _ G) as [I E]. destruct (_ || _); [discriminate|].
    destruct (claim _ _ _ _) as [[his hm]|]; [|discriminate]. injection R as <- <-. cbn [g_regs]. rewrite deposit_put, stored_name, stored_amount. cbn [r_name r_amount]. rewrite E, G. destruct (e_token e =? vite); lia.
  - apply andb_prop in DS. destruct DS as [DS _]. apply Z.eqb_eq in DS. unfold amount_of. rewrite DS. destruct (get_reg n (g_regs (w_st w))) as [o'|] eqn:G; [|discriminate]. destruct (get_reg_in _ _ _ G) as [I E]. destruct (_ || _); [discriminate|].
    injection R as <- <-. cbn [g_regs]. rewrite deposit_put. cbn [r_name r_amount]. rewrite E, G. destruct (e_token e =? vite); lia.
  - apply andb_prop in DS. destruct DS as [DS _]. apply Z.eqb_eq in DS. unfold amount_of. rewrite DS. destruct (get_reg n (g_regs (w_st w))) as [o'|]; [|discriminate]. destruct (is_active o'); [|discriminate]. injection R as <- <-. cbn [g_regs]. destruct (e_token e =? vite); lia.
  - apply Z.eqb_eq in DS. unfold amount_of. rewrite DS. injection R as <- <-. cbn [g_regs]. destruct (e_token e =? vite); lia.
Qed.
End Steps.
