From Verif Require Import Lib SchedModel SchedSpec SchedProofs SchedProofs2 StatsModel StatsSpec.
From Verif Require VmProofs3 LedgerProofs.
Local Opaque sec Z.pow two64 hour.

(** ** Rising chains split at a time *)
Definition lt_ (t : Z) (b : sblock) : bool := b_time b <? t.
Definition ge_ (t : Z) (b : sblock) : bool := t <=? b_time b.
Lemma rising_cons x r : rising (x :: r) -> rising r /\ Forall (fun y => x < y) r.
Proof.
  revert x. induction r as [|y r IH]; intros x H; [split; [exact I|constructor]|]. destruct H as [H1 H2]. split; [exact H2|].
  constructor; [auto|]. destruct (IH y H2) as [_ F]. eapply Forall_impl; [|exact F]. cbn. lia.
Qed.
Lemma filter_all {A} (f : A -> bool) l : Forall (fun x => f x = true) l -> filter f l = l.
Proof. induction 1 as [|x l H _ IH]; cbn; [auto|]. now rewrite H, IH. Qed.
Lemma filter_none {A} (f : A -> bool) l : Forall (fun x => f x = false) l -> filter f l = [].
Proof. induction 1 as [|x l H _ IH]; cbn; [auto|]. now rewrite H. Qed.
Lemma split_at c t : rising (times c) -> c = filter (lt_ t) c ++ filter (ge_ t) c.
Proof.
  induction c as [|b c IH]; intro R; [auto|]. cbn [times map] in R. apply rising_cons in R as [R F]. cbn [filter]. unfold lt_ at 1, ge_ at 1.
  destruct (b_time b <? t) eqn:E.
  - replace (t <=? b_time b) with false by lia. cbn. f_equal. apply IH, R.
  - replace (t <=? b_time b) with true by lia. apply (proj1 (Forall_map b_time (fun y => b_time b < y) c)) in F.
    rewrite filter_none, filter_all; [auto| |]; (eapply Forall_impl; [|exact F]); cbn; intros x X; unfold ge_, lt_; lia.
Qed.
Lemma filter_len_prefix c t : rising (times c) -> forall h, 1 <= h <= zlen (filter (lt_ t) c) <-> exists b, block_at c h = Some b /\ b_time b < t.
Proof.
  intros R h. pose proof (split_at c t R) as S. split.
  - intro H. unfold block_at. replace (h <=? 0) with false by lia. rewrite S.
    destruct (nth_error (filter (lt_ t) c) (Z.to_nat (h - 1))) as [b|] eqn:E.
    + exists b. rewrite nth_error_app1 by (apply nth_error_Some; congruence). split; [auto|]. apply nth_error_In, filter_In in E. unfold lt_ in E. lia.
    + apply nth_error_None in E. unfold zlen in H. lia.
  - intros (b & B & T). unfold block_at in B. destruct (h <=? 0) eqn:E; [discriminate|]. rewrite S in B.
    destruct (Nat.ltb (Z.to_nat (h - 1)) (length (filter (lt_ t) c))) eqn:L.
    + apply Nat.ltb_lt in L. unfold zlen. lia.
    + apply Nat.ltb_ge in L. rewrite nth_error_app2 in B by auto. apply nth_error_In, filter_In in B. unfold ge_ in B. lia.
Qed.
Lemma last_before_len c t h : rising (times c) -> last_before (times c) t h -> h = zlen (filter (lt_ t) c).
Proof.
  intros R (x & X & XT & XM). rewrite block_at_time in X. destruct (block_at c h) as [b|] eqn:B; [|discriminate]. injection X as <-.
  assert (H : 1 <= h <= zlen (filter (lt_ t) c)) by (apply filter_len_prefix; eauto).
  assert (exists b', block_at c (zlen (filter (lt_ t) c)) = Some b' /\ b_time b' < t) as (b' & B' & T') by (apply filter_len_prefix; auto; lia).
  specialize (XM (zlen (filter (lt_ t) c)) (b_time b')). rewrite block_at_time, B' in XM. specialize (XM eq_refl T'). lia.
Qed.
Lemma firstn_before c t : rising (times c) -> firstn (length (filter (lt_ t) c)) c = filter (lt_ t) c /\ skipn (length (filter (lt_ t) c)) c = filter (ge_ t) c.
Proof.
  intro R. pose proof (split_at c t R) as S. split; rewrite S at 2.
  - rewrite firstn_app, firstn_all, Nat.sub_diag. cbn. apply app_nil_r.
  - rewrite skipn_app, skipn_all, Nat.sub_diag. reflexivity.
Qed.
Lemma rising_app ts us : rising (ts ++ us) -> rising ts /\ rising us.
Proof.
  induction ts as [|x ts IH]; intro H; [split; [exact I|exact H]|]. cbn [app] in H. apply rising_cons in H as [H F]. destruct (IH H) as [A B]. split; [|auto].
  destruct ts as [|y ts]; [exact I|]. split; [|exact A]. inversion F; auto.
Qed.
Lemma rising_last c b x : rising (times (c ++ [b])) -> In x c -> b_time x < b_time b.
Proof.
  unfold times. rewrite map_app. induction c as [|y c IH]; intros R I; [easy|]. cbn in R. apply rising_cons in R as [R F]. destruct I as [->|I]; [|auto].
  rewrite Forall_forall in F. apply F. apply in_app_iff. right. left. auto.
Qed.

(** ** Maps *)
Lemma get_put {A} k (v : A) m k' : get k' (put k v m) = if k' =? k then Some v else get k' m.
Proof. apply VmProofs3.assoc_set_get. Qed.
Definition u32 (x : Z) : Prop := 0 <= x < 2 ^ 32.
Definition map_ok (m : list (Z * (Z * Z))) : Prop := NoDup (map fst m) /\ Forall (fun x => u32 (fst (snd x)) /\ u32 (snd (snd x))) m.
Definition look (m : list (Z * (Z * Z))) (a : Z) : Z * Z := match get a m with Some x => x | None => (0, 0) end.
Definition add2 (x : Z * Z) (e f : Z) : Z * Z := (wrap32 (fst x + e), wrap32 (snd x + f)).
Lemma wrap32_small x : u32 x -> wrap32 x = x. Proof. intro. apply Z.mod_small. auto. Qed.
Lemma wrap32_u x : u32 (wrap32 x). Proof. apply Z.mod_pos_bound. reflexivity. Qed.
Lemma put_Forall {A} (P : Z * A -> Prop) k v m : P (k, v) -> Forall P m -> Forall P (put k v m).
Proof.
  intros K F. induction F as [|[k' w] m X F IH]; cbn; [auto|]. destruct (Z.eqb_spec k k') as [->|]; auto.
Qed.
Lemma add_num_ok m a e f : map_ok m -> u32 e -> u32 f -> map_ok (add_num m a e f).
Proof.
  intros [N F] E G. unfold add_num. destruct (get a m) as [[e0 f0]|]; split.
  - now apply LedgerProofs.assoc_set_nodup.
  - apply put_Forall; auto. split; apply wrap32_u.
  - now apply LedgerProofs.assoc_set_nodup.
  - apply put_Forall; auto.
Qed.
Lemma add_num_look m a e f a' : u32 e -> u32 f -> look (add_num m a e f) a' = if a' =? a then add2 (look m a) e f else look m a'.
Proof.
  intros E F. unfold add_num, look, add2. destruct (get a m) as [[e0 f0]|] eqn:G; rewrite get_put; destruct (a' =? a) eqn:A; auto; cbn; rewrite ?Z.add_0_l, !wrap32_small; auto.
Qed.
Lemma look_u m a : map_ok m -> u32 (fst (look m a)) /\ u32 (snd (look m a)).
Proof.
  intros [_ F]. unfold look. destruct (get a m) as [x|] eqn:G; [|cbn; unfold u32; lia].
  assert (I : In (a, x) m).
  { clear F. induction m as [|[k v] m IH]; cbn in G; [discriminate|]. destruct (Z.eqb_spec a k) as [->|]; [injection G as ->; now left|right; auto]. }
  rewrite Forall_forall in F. apply (F _ I).
Qed.
Lemma merge_ok m2 : forall m1, map_ok m1 -> Forall (fun x => u32 (fst (snd x)) /\ u32 (snd (snd x))) m2 -> map_ok (merge_map m1 m2).
Proof. induction m2 as [|x m2 IH]; intros m1 O F; [exact O|]. inversion F as [|? ? [X Y] F']; subst. cbn. apply IH; auto. apply add_num_ok; auto. Qed.
Lemma look_cons k v m a : look ((k, v) :: m) a = if a =? k then v else look m a.
Proof. unfold look. cbn [VmModel.assoc]. destruct (a =? k); reflexivity. Qed.
Lemma look_out m a : ~ In a (map fst m) -> look m a = (0, 0).
Proof. induction m as [|[k v] m IH]; intro H; [reflexivity|]. cbn in H. rewrite look_cons. replace (a =? k) with false by lia. apply IH. tauto. Qed.
Lemma merge_look m2 a : NoDup (map fst m2) -> Forall (fun x => u32 (fst (snd x)) /\ u32 (snd (snd x))) m2 -> forall m1, map_ok m1 ->
  look (merge_map m1 m2) a = (wrap32 (fst (look m1 a) + fst (look m2 a)), wrap32 (snd (look m1 a) + snd (look m2 a))).
Proof.
  induction m2 as [|[k [e f]] m2 IH]; intros N F m1 O.
  - cbn. destruct (look_u m1 a O). rewrite !Z.add_0_r, !wrap32_small by auto. now destruct (look m1 a).
  - cbn [map fst] in N. inversion N as [|? ? NI N']; subst. inversion F as [|? ? [X Y] F']; subst. cbn [fst snd] in X, Y.
    change (merge_map m1 ((k, (e, f)) :: m2)) with (merge_map (add_num m1 k e f) m2). rewrite IH by (auto; apply add_num_ok; auto).
    rewrite add_num_look by auto. rewrite look_cons. destruct (a =? k) eqn:A; [|reflexivity].
    assert (a = k) as -> by lia. rewrite (look_out m2 k NI). unfold add2, wrap32. cbn [fst snd]. rewrite !Z.add_0_r, !Zmod_mod. reflexivity.
Qed.
(** Folding single additions counts. *)
Lemma fold_add {A} (key : A -> Z) e f l : u32 e -> u32 f -> forall m, map_ok m ->
  map_ok (fold_left (fun m x => add_num m (key x) e f) l m) /\
  forall a, look (fold_left (fun m x => add_num m (key x) e f) l m) a = (wrap32 (fst (look m a) + e * count a (map key l)), wrap32 (snd (look m a) + f * count a (map key l))).
Proof.
  intros E F. induction l as [|x l IH]; intros m O.
  - split; [exact O|]. intro a. cbn. destruct (look_u m a O). change (zlen []) with 0. rewrite !Z.mul_0_r, !Z.add_0_r, !wrap32_small by auto. now destruct (look m a).
  - cbn [fold_left]. destruct (IH (add_num m (key x) e f)) as [O' L]; [apply add_num_ok; auto|]. split; [exact O'|]. intro a. rewrite L, add_num_look by auto.
    unfold count. cbn [map filter]. destruct (a =? key x) eqn:Q.
    + assert (a = key x) as -> by lia. rewrite zlen_cons. unfold add2, wrap32. cbn [fst snd]. rewrite !Zplus_mod_idemp_l. f_equal; f_equal; ring.
    + reflexivity.
Qed.

(** ** Prefixes of a chain *)
Definition nob : sblock := {| b_hash := 0; b_time := 0; b_producer := 0 |}.
Definition top (d : list sblock) : sblock := last d nob.
Definition lasth (d : list sblock) : Z := b_hash (top d).
Definition cut (d : list sblock) (t : Z) : list sblock := match d with [] => [] | x :: r => x :: filter (lt_ t) r end.
Definition from_ (d : list sblock) (t : Z) : list sblock := filter (ge_ t) (tl d).
Lemma top_snoc d b : top (d ++ [b]) = b. Proof. apply last_last. Qed.
Lemma snoc_of d : d <> [] -> exists r, d = r ++ [top d].
Proof. intro H. destruct (exists_last H) as (r & b & ->). exists r. now rewrite top_snoc. Qed.
Lemma cut_nonempty d t : d <> [] -> cut d t <> []. Proof. destruct d; cbn; congruence. Qed.
Lemma rising_tl d : rising (times d) -> rising (times (tl d)).
Proof. destruct d; cbn; [auto|]. intro H. now apply rising_cons in H. Qed.
Lemma cut_split d t : rising (times d) -> d = cut d t ++ from_ d t.
Proof. intro R. destruct d as [|x r]; [auto|]. cbn [cut from_ tl app]. f_equal. apply split_at. now apply rising_tl in R. Qed.
Lemma cut_all d t : rising (times d) -> from_ d t = [] -> cut d t = d.
Proof. intros R F. rewrite (cut_split d t R) at 2. now rewrite F, app_nil_r. Qed.
Lemma top_le d x : rising (times d) -> In x d -> b_time x <= b_time (top d).
Proof.
  intros R I. assert (N : d <> []) by (intro Q; subst; easy). destruct (snoc_of d N) as (r & E). rewrite E in I, R. apply in_app_iff in I as [I|[<-|[]]]; [|lia].
  pose proof (rising_last r (top d) x R I). lia.
Qed.
Lemma from_nil d t : rising (times d) -> d <> [] -> b_time (top d) < t -> from_ d t = [].
Proof.
  intros R N T. apply filter_none, Forall_forall. intros x I. assert (In x d) by (destruct d; [easy|now right]). pose proof (top_le d x R H). unfold ge_. lia.
Qed.
Lemma from_top d t : rising (times d) -> from_ d t <> [] -> t <= b_time (top d) /\ top d = last (from_ d t) nob.
Proof.
  intros R F. destruct (exists_last F) as (r & b & E). assert (T : top d = b) by (rewrite (cut_split d t R), E, app_assoc; apply top_snoc).
  rewrite T, E, last_last. split; [|auto]. assert (I : In b (from_ d t)) by (rewrite E, in_app_iff; right; now left). apply filter_In in I. unfold ge_ in I. lia.
Qed.
Lemma cut_time d t : d <> [] -> (forall b r, d = b :: r -> b_time b < t) -> b_time (top (cut d t)) < t.
Proof.
  intros N G. destruct d as [|x r]; [easy|]. cbn [cut]. assert (I : In (top (x :: filter (lt_ t) r)) (x :: filter (lt_ t) r)).
  { destruct (snoc_of (x :: filter (lt_ t) r)) as (r' & E); [easy|]. rewrite E at 2. apply in_app_iff. right. now left. }
  destruct I as [<-|I]; [eapply G; eauto|]. apply filter_In in I as [_ I]. apply Z.ltb_lt in I. exact I.
Qed.
Lemma filter_filter {A} (f h : A -> bool) l : filter f (filter h l) = filter (fun x => h x && f x) l.
Proof. induction l as [|x l IH]; [auto|]. cbn [filter]. destruct (h x); cbn [filter]; rewrite IH; auto. Qed.
Lemma filter_same {A} (f h : A -> bool) l : (forall x, In x l -> f x = h x) -> filter f l = filter h l.
Proof. apply filter_ext_in. Qed.
Lemma during_cut d t s e : e <= t -> during (cut d t) s e = during d s e.
Proof.
  intro L. unfold during. destruct d as [|x r]; [auto|]. cbn [cut tl]. rewrite filter_filter. apply filter_ext. intro b. unfold lt_. lia.
Qed.
Lemma during_from d s e : d <> [] -> rising (times d) -> b_time (top d) < e -> during d s e = from_ d s.
Proof.
  intros N R T. unfold during, from_. apply filter_same. intros x I. assert (I2 : In x d) by (destruct d; [easy|now right]). pose proof (top_le d x R I2). unfold ge_. lia.
Qed.
Lemma tl_app (d e : list sblock) : d <> [] -> tl (d ++ e) = tl d ++ e. Proof. destruct d; cbn; congruence. Qed.
Lemma during_prefix d e s t : d <> [] -> (forall b, In b e -> t <= b_time b) -> during (d ++ e) s t = during d s t.
Proof.
  intros N H. unfold during. rewrite tl_app, filter_app by auto. rewrite (filter_none _ e); [apply app_nil_r|]. apply Forall_forall. intros b B. specialize (H b B). lia.
Qed.
