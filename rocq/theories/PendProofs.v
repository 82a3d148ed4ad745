(** The amounts held back by day and their release. *)
From Verif Require Import Lib PendModel PendSpec.
From Coq Require Import Sorting.Sorted.
Import ListNotations.
Open Scope Z_scope.

(** * Records *)
Lemma get_put {A} (x : A) : forall l u v, get v (put u x l) = if u =? v then Some x else get v l.
Proof.
  induction l as [|[w y] l IH]; intros u v; cbn; [reflexivity|].
  destruct (Z.eqb_spec w u) as [->|N]; cbn.
  - destruct (u =? v); reflexivity.
  - rewrite IH. destruct (Z.eqb_spec w v) as [->|]; [|reflexivity]. destruct (Z.eqb_spec u v); [congruence|reflexivity].
Qed.
Lemma get_del {A} : forall (l : list (Z * A)) u v, get v (del u l) = if u =? v then None else get v l.
Proof.
  induction l as [|[w y] l IH]; intros u v; cbn; [now destruct (u =? v)|].
  destruct (Z.eqb_spec w u) as [->|N]; cbn.
  - rewrite IH. destruct (u =? v); reflexivity.
  - rewrite IH. destruct (Z.eqb_spec w v) as [->|]; [|reflexivity]. destruct (Z.eqb_spec u v); [congruence|reflexivity].
Qed.
Lemma get_none {A} : forall (l : list (Z * A)) u, get u l = None <-> ~ In u (map fst l).
Proof.
  induction l as [|[w y] l IH]; intros u; cbn; [tauto|].
  destruct (Z.eqb_spec w u) as [->|N]; [split; [discriminate|tauto]|]. rewrite IH. tauto.
Qed.
Lemma put_keys {A} (x : A) : forall l u v, In v (map fst (put u x l)) <-> v = u \/ In v (map fst l).
Proof.
  induction l as [|[w y] l IH]; intros u v; cbn; [intuition|].
  destruct (Z.eqb_spec w u) as [->|N]; cbn; [intuition|]. rewrite IH. tauto.
Qed.
Lemma put_nodup {A} (x : A) : forall l u, NoDup (map fst l) -> NoDup (map fst (put u x l)).
Proof.
  induction l as [|[w y] l IH]; intros u N; cbn; [constructor; [tauto|constructor]|].
  cbn in N. inversion N as [|? ? H1 H2]; subst.
  destruct (Z.eqb_spec w u) as [->|Q]; cbn; constructor; auto. rewrite put_keys. intros [->|]; auto.
Qed.
Lemma del_keys {A} : forall (l : list (Z * A)) u v, In v (map fst (del u l)) -> In v (map fst l) /\ v <> u.
Proof.
  induction l as [|[w y] l IH]; intros u v; cbn; [tauto|].
  destruct (Z.eqb_spec w u) as [->|N]; cbn; [intros H; apply IH in H; tauto|].
  intros [->|H]; [auto|apply IH in H; tauto].
Qed.
Lemma del_nodup {A} : forall (l : list (Z * A)) u, NoDup (map fst l) -> NoDup (map fst (del u l)).
Proof.
  induction l as [|[w y] l IH]; intros u N; cbn; [constructor|].
  cbn in N. inversion N as [|? ? H1 H2]; subst.
  destruct (w =? u); cbn; [auto|]. constructor; auto. intros H. apply del_keys in H. tauto.
Qed.
Lemma get_in {A} : forall (l : list (Z * A)) u x, NoDup (map fst l) -> (get u l = Some x <-> In (u, x) l).
Proof.
  induction l as [|[w y] l IH]; intros u x N; cbn; [split; [discriminate|tauto]|].
  cbn in N. inversion N as [|? ? H1 H2]; subst.
  destruct (Z.eqb_spec w u) as [->|Q].
  - split; [intros E; injection E as ->; auto|]. intros [E|E]; [injection E as ->; reflexivity|].
    elim H1. apply in_map_iff. exists (u, x). auto.
  - rewrite IH by assumption. split; [auto|]. intros [E|E]; [congruence|assumption].
Qed.

(** * Amounts by day *)
Fixpoint lsum (l : list (Z * Z)) : Z := match l with [] => 0 | (_, a) :: r => a + lsum r end.
Lemma lsum_app : forall l m, lsum (l ++ m) = lsum l + lsum m.
Proof. induction l as [|[d a] l IH]; intros m; cbn; [reflexivity|]. rewrite IH. ring. Qed.
Definition group (l : list (Z * Z)) : pendings := fold_left (fun g e => add_pending (fst e) (snd e) g) l [].
Lemma group_snoc l d a : group (l ++ [(d, a)]) = add_pending d a (group l).
Proof. unfold group. now rewrite fold_left_app. Qed.
Definition asc (l : list (Z * Z)) : Prop := StronglySorted (fun x y => fst x < fst y) l.
Definition upto (d : Z) (l : list (Z * Z)) : Prop := Forall (fun x => fst x <= d) l.

Lemma asc_cons x l : asc (x :: l) <-> Forall (fun y => fst x < fst y) l /\ asc l.
Proof. unfold asc. split; [intros H; inversion H; auto|]. intros [H1 H2]. constructor; auto. Qed.
Lemma add_in d a : forall g x, In x (add_pending d a g) -> In (fst x) (map fst g) \/ fst x = d.
Proof.
  induction g as [|[e b] r IH]; intros x; [cbn; intros [<-|[]]; auto|].
  destruct r as [|y r].
  - cbn [add_pending]. destruct (e =? d) eqn:E.
    + intros [<-|[]]. left. now left.
    + intros [<-|[<-|[]]]; [left; now left|now right].
  - intros H. change (In x ((e, b) :: add_pending d a (y :: r))) in H. destruct H as [<-|H]; [left; now left|].
    apply IH in H. destruct H; [left; now right|now right].
Qed.
Lemma add_upto d a g : upto d g -> upto d (add_pending d a g).
Proof.
  unfold upto. rewrite !Forall_forall. intros H x X. apply add_in in X. destruct X as [X| ->]; [|lia].
  apply in_map_iff in X. destruct X as (y & E & Y). rewrite <- E. auto.
Qed.
Lemma add_asc d a : forall g, asc g -> upto d g -> asc (add_pending d a g).
Proof.
  induction g as [|[e b] r IH]; intros A U; [repeat constructor|].
  destruct r as [|y r].
  - cbn [add_pending]. destruct (Z.eqb_spec e d) as [->|N].
    + repeat constructor.
    + inversion U; subst; cbn in *. repeat constructor. cbn. lia.
  - change (asc ((e, b) :: add_pending d a (y :: r))). apply asc_cons in A. destruct A as [A1 A2]. inversion U as [|? ? U1 U2]; subst.
    apply asc_cons. split; [|apply IH; assumption].
    rewrite Forall_forall in *. intros x X. apply add_in in X. destruct X as [X|X].
    + apply in_map_iff in X. destruct X as (z & E & Z). rewrite <- E. auto.
    + cbn in *. rewrite X. specialize (A1 y (or_introl eq_refl)). specialize (U2 y (or_introl eq_refl)). lia.
Qed.
Definition keep (c : Z -> bool) (l : list (Z * Z)) : list (Z * Z) := filter (fun e => c (fst e)) l.
Lemma add_keep c d a : forall g, asc g -> upto d g -> keep c (add_pending d a g) = if c d then add_pending d a (keep c g) else keep c g.
Proof.
  induction g as [|[e b] r IH]; intros A U; [cbn; now destruct (c d)|].
  destruct r as [|y r].
  - cbn [add_pending]. destruct (Z.eqb_spec e d) as [->|N].
    + cbn. destruct (c d); cbn; [now rewrite Z.eqb_refl|reflexivity].
    + cbn. destruct (c e), (c d); cbn; try reflexivity. destruct (Z.eqb_spec e d); [congruence|reflexivity].
  - change (keep c ((e, b) :: add_pending d a (y :: r)) = if c d then add_pending d a (keep c ((e, b) :: y :: r)) else keep c ((e, b) :: y :: r)).
    apply asc_cons in A. destruct A as [A1 A2]. inversion U as [|? ? U1 U2]; subst. specialize (IH A2 U2).
    assert (Q : forall z l, keep c (z :: l) = if c (fst z) then z :: keep c l else keep c l) by reflexivity.
    rewrite !(Q (e, b)), IH. cbn [fst]. destruct (c e); [|reflexivity]. destruct (c d); [|reflexivity].
    remember (keep c (y :: r)) as k. destruct k as [|z k]; [|reflexivity].
    cbn. destruct (Z.eqb_spec e d) as [->|]; [|reflexivity].
    exfalso. inversion A1; subst. inversion U2; subst. cbn in *. lia.
Qed.
Lemma add_sum d a : forall g, lsum (add_pending d a g) = lsum g + a.
Proof.
  induction g as [|[e b] r IH]; [cbn; ring|]. destruct r as [|y r].
  - cbn [add_pending]. destruct (e =? d); cbn; ring.
  - change (b + lsum (add_pending d a (y :: r)) = b + lsum (y :: r) + a). rewrite IH. ring.
Qed.
Lemma add_nonempty d a g : add_pending d a g <> [].
Proof. destruct g as [|[e b] [|y r]]; cbn; [discriminate| |discriminate]. destruct (e =? d); discriminate. Qed.

(** Requests in the order of their days *)
Definition ordered (l : list (Z * Z)) : Prop := StronglySorted (fun x y => fst x <= fst y) l.
Lemma ordered_snoc : forall l x, ordered l -> upto (fst x) l -> ordered (l ++ [x]).
Proof.
  induction l as [|y l IH]; intros x O U; [repeat constructor|].
  inversion O as [|? ? O1 O2]; subst. inversion U as [|? ? U1 U2]; subst. cbn. constructor; [now apply IH|].
  apply Forall_app. split; [assumption|]. constructor; [assumption|constructor].
Qed.
Lemma ordered_split : forall l x, ordered (l ++ [x]) -> ordered l /\ upto (fst x) l.
Proof.
  induction l as [|y l IH]; intros x O; [split; constructor|].
  cbn in O. inversion O as [|? ? O1 O2]; subst. apply IH in O1. destruct O1 as [O1 O3]. apply Forall_app in O2. destruct O2 as [O2 O4].
  split; constructor; auto. inversion O4; subst. assumption.
Qed.
Lemma upto_mono d e l : d <= e -> upto d l -> upto e l.
Proof. unfold upto. intros H. apply Forall_impl. intros x X. lia. Qed.
Lemma upto_keep d c l : upto d l -> upto d (keep c l).
Proof. unfold upto, keep. rewrite !Forall_forall. intros H x X. apply filter_In in X. apply H. tauto. Qed.
Lemma ordered_keep c : forall l, ordered l -> ordered (keep c l).
Proof.
  induction l as [|x l IH]; intros O; [constructor|]. inversion O as [|? ? O1 O2]; subst. cbn.
  destruct (c (fst x)); [|now apply IH]. constructor; [now apply IH|]. rewrite Forall_forall in *. intros y Y. apply filter_In in Y. apply O2. tauto.
Qed.
Lemma keep_app c l m : keep c (l ++ m) = keep c l ++ keep c m.
Proof. apply filter_app. Qed.
Lemma group_ok : forall l, ordered l -> asc (group l) /\ (forall d, upto d l -> upto d (group l)) /\ lsum (group l) = lsum l /\ (forall c, keep c (group l) = group (keep c l)) /\ (group l = [] <-> l = []).
Proof.
  induction l as [|[d a] l IH] using rev_ind; intros O.
  { repeat split; try constructor; auto. }
  apply ordered_split in O. destruct O as [O U]. specialize (IH O). destruct IH as (I1 & I2 & I3 & I4 & I5). cbn in U.
  rewrite group_snoc. split; [apply add_asc; auto|]. split.
  { intros e E. unfold upto in E. apply Forall_app in E. destruct E as [E1 E2]. inversion E2; subst. cbn in *.
    unfold upto. rewrite Forall_forall. intros x X. apply add_in in X. destruct X as [X| ->]; [|assumption].
    apply in_map_iff in X. destruct X as (y & E & Y). rewrite <- E. specialize (I2 _ E1). unfold upto in I2. rewrite Forall_forall in I2. auto. }
  split; [rewrite add_sum, I3, lsum_app; cbn; ring|]. split.
  - intros c. rewrite add_keep, keep_app by auto. cbn [keep filter fst]. destruct (c d).
    + rewrite group_snoc, I4. reflexivity.
    + rewrite app_nil_r, I4. reflexivity.
  - split; intros E; [now apply add_nonempty in E|]. now apply app_eq_nil in E.
Qed.

(** * The entries due *)
Definition days_ok (l : list (Z * Z)) : Prop := Forall (fun x => 0 <= fst x < 2 ^ 63) l.
Lemma wrap_day d : 0 <= d < 2 ^ 63 -> wrap64 (d + schedule_periods) = d + 7.
Proof. intros H. unfold wrap64, schedule_periods, two64. apply Z.mod_small. change (2 ^ 63) with 9223372036854775808 in H. lia. Qed.
Definition is_due (p d : Z) : bool := d + 7 <=? p.
Definition not_due (p d : Z) : bool := negb (is_due p d).
Lemma keep_none c l : Forall (fun x => c (fst x) = false) l -> keep c l = [].
Proof. induction 1 as [|x l H _ IH]; [reflexivity|]. cbn. now rewrite H. Qed.
Lemma keep_all c l : Forall (fun x => c (fst x) = true) l -> keep c l = l.
Proof. induction 1 as [|x l H _ IH]; [reflexivity|]. cbn. rewrite H. f_equal. exact IH. Qed.
Lemma due_ok p : forall g, asc g -> days_ok g -> due p g = (lsum (keep (is_due p) g), keep (not_due p) g).
Proof.
  induction g as [|[d a] g IH]; intros A D; [reflexivity|].
  apply asc_cons in A. destruct A as [A1 A2]. inversion D as [|? ? D1 D2]; subst. cbn [fst] in *.
  cbn [due]. rewrite wrap_day by assumption. unfold keep, not_due, is_due. cbn [filter fst]. destruct (Z.leb_spec (d + 7) p) as [L|L]; cbn [negb].
  - rewrite IH by assumption. reflexivity.
  - assert (K : Forall (fun x => is_due p (fst x) = false) g).
    { rewrite Forall_forall in *. intros x X. unfold is_due. apply Z.leb_gt. specialize (A1 x X). lia. }
    f_equal.
    + change (0 = lsum (keep (is_due p) g)). now rewrite keep_none.
    + f_equal. symmetry. apply (keep_all (not_due p)). revert K. apply Forall_impl. intros x X. unfold not_due. now rewrite X.
Qed.
Lemma due_same p : forall g, (length (snd (due p g)) <? length g)%nat = false -> due p g = (0, g).
Proof.
  assert (Q : forall g, (length (snd (due p g)) <= length g)%nat).
  { induction g as [|[d a] g IH]; cbn; [auto|]. destruct (_ <=? p); cbn; lia. }
  intros [|[d a] g]; cbn; [reflexivity|]. destruct (_ <=? p); cbn; [|reflexivity].
  intros H. apply Nat.leb_gt in H. specialize (Q g). lia.
Qed.

(** * The release *)
Definition has (u : Z) (l : accts) : Prop := get u l <> None.
Definition amt (p u : Z) (todo : list (Z * pendings)) : Z := match get u todo with Some r => fst (due p r) | None => 0 end.
Definition nilopt (r : pendings) : option pendings := match r with [] => None | _ => Some r end.
Lemma get_save u r v l : get v (save u r l) = if u =? v then nilopt r else get v l.
Proof. unfold save. destruct r; [apply get_del|apply get_put]. Qed.
Lemma save_nodup u r l : NoDup (map fst l) -> NoDup (map fst (save u r l)).
Proof. unfold save. destruct r; [apply del_nodup|apply put_nodup]. Qed.
Lemma release_ok p : forall todo recs l,
  NoDup (map fst todo) -> NoDup (map fst recs) -> (forall u r, get u todo = Some r -> r <> [] /\ get u recs = Some r /\ has u l /\ fst (due p r) <= fld a_held u l) ->
  exists recs' l', release p todo recs l = Some (recs', l') /\ NoDup (map fst recs')
    /\ (forall u, get u recs' = match get u todo with Some r => nilopt (snd (due p r)) | None => get u recs end)
    /\ (forall u, fld a_avail u l' = fld a_avail u l + amt p u todo) /\ (forall u, fld a_held u l' = fld a_held u l - amt p u todo)
    /\ (forall u, fld a_locked u l' = fld a_locked u l) /\ (forall u, has u l' <-> has u l).
Proof.
  induction todo as [|[u r] t IH]; intros recs l N NR H.
  { exists recs, l. unfold amt. cbn. repeat split; auto; intros; lia. }
  cbn in N. inversion N as [|? ? N1 N2]; subst.
  assert (Hu := H u r). cbn [get] in Hu. rewrite Z.eqb_refl in Hu. destruct (Hu eq_refl) as (Hr & Hg & Hh & Hd). clear Hu.
  assert (NT : get u t = None) by now apply get_none.
  assert (AT : amt p u t = 0) by (unfold amt; now rewrite NT).
  assert (AC : forall v, amt p v ((u, r) :: t) = if u =? v then fst (due p r) else amt p v t).
  { intros v. unfold amt. cbn. destruct (u =? v); reflexivity. }
  assert (HT : forall v s, get v t = Some s -> v <> u /\ get v ((u, r) :: t) = Some s).
  { intros v s E. assert (v <> u) by congruence. split; [assumption|]. cbn. destruct (Z.eqb_spec u v); [congruence|assumption]. }
  cbn [release]. destruct (_ <? _)%nat eqn:LT.
  - unfold finish, update. unfold has in Hh. unfold fld in Hd. destruct (get u l) as [x|] eqn:G; [|congruence].
    destruct (Z.ltb_spec (a_held x) (fst (due p r))) as [B|B]; [lia|].
    set (y := Acct (a_avail x + fst (due p r)) (a_locked x) (a_held x - fst (due p r))).
    destruct (IH (save u (snd (due p r)) recs) (put u y l)) as (recs' & l' & E & ND & R1 & R2 & R3 & R4 & R5); [assumption|now apply save_nodup| |].
    { intros v s Q. destruct (HT v s Q) as [NV Q']. destruct (H v s Q') as (A1 & A2 & A3 & A4). split; [assumption|].
      rewrite get_save. unfold has, fld. rewrite get_put. destruct (Z.eqb_spec u v); [congruence|]. auto. }
    exists recs', l'. split; [exact E|]. split; [exact ND|].
    assert (F : forall f v, fld f v (put u y l) = if u =? v then f y else fld f v l).
    { intros f v. unfold fld. rewrite get_put. destruct (u =? v); reflexivity. }
    split; [|split; [|split; [|split]]]; intros v.
    + rewrite R1, get_save. cbn [get]. destruct (Z.eqb_spec u v) as [<-|NE]; [now rewrite NT|]. reflexivity.
    + rewrite R2, F, AC. destruct (Z.eqb_spec u v) as [<-|NE]; [|reflexivity]. rewrite AT. unfold fld. rewrite G. unfold y. cbn. lia.
    + rewrite R3, F, AC. destruct (Z.eqb_spec u v) as [<-|NE]; [|reflexivity]. rewrite AT. unfold fld. rewrite G. unfold y. cbn. lia.
    + rewrite R4, F. destruct (Z.eqb_spec u v) as [<-|NE]; [|reflexivity]. unfold fld. now rewrite G.
    + rewrite R5. unfold has. rewrite get_put. destruct (Z.eqb_spec u v) as [<-|NE]; [|reflexivity]. rewrite G. split; congruence.
  - apply due_same in LT.
    destruct (IH recs l) as (recs' & l' & E & ND & R1 & R2 & R3 & R4 & R5); [assumption|assumption| |].
    { intros v s Q. destruct (HT v s Q) as [NV Q']. exact (H v s Q'). }
    exists recs', l'. split; [exact E|]. split; [exact ND|].
    assert (AM : forall v, amt p v ((u, r) :: t) = amt p v t).
    { intros v. rewrite AC. destruct (Z.eqb_spec u v) as [<-|NE]; [|reflexivity]. now rewrite AT, LT. }
    split; [|split; [|split; [|split]]]; intros v; try rewrite AM; auto.
    rewrite R1. cbn [get]. destruct (Z.eqb_spec u v) as [<-|NE]; [|reflexivity]. rewrite NT, LT. cbn. destruct r; [congruence|assumption].
Qed.

(** * A book and the requests behind it *)
Definition live (j : Z) (l : list (Z * Z)) : list (Z * Z) := keep (not_due j) l.
Definition past (j : Z) (l : list (Z * Z)) : list (Z * Z) := keep (is_due j) l.
Record book_ok (rq : Z -> list (Z * Z)) (cur : Z) (b : book) : Prop := {
  bo_recs : forall u, get u (b_recs b) = nilopt (group (live (b_last b) (rq u)));
  bo_held : forall u, fld a_held u (b_accts b) = lsum (live (b_last b) (rq u));
  bo_order : forall u, ordered (rq u);
  bo_days : forall u, Forall (fun x => 0 <= fst x <= cur) (rq u);
  bo_pos : forall u, Forall (fun x => 0 < snd x) (rq u);
  bo_keys : NoDup (map fst (b_recs b));
  bo_cur : 0 <= cur < 2 ^ 63;
  bo_last : b_last b <= cur;
  bo_has : forall u, rq u <> [] -> has u (b_accts b) }.
Lemma keep_keep c1 c2 l : keep c1 (keep c2 l) = keep (fun d => c2 d && c1 d) l.
Proof. induction l as [|x l IH]; [reflexivity|]. cbn. destruct (c2 (fst x)); cbn; [destruct (c1 (fst x)); cbn; unfold keep in IH; now rewrite IH|exact IH]. Qed.
Lemma keep_ext c1 c2 l : Forall (fun x => c1 (fst x) = c2 (fst x)) l -> keep c1 l = keep c2 l.
Proof. induction 1 as [|x l H _ IH]; [reflexivity|]. cbn. rewrite H. unfold keep in IH. now rewrite IH. Qed.
Lemma lsum_nonneg l : Forall (fun x => 0 < snd x) l -> 0 <= lsum l.
Proof. induction 1 as [|[d a] l H _ IH]; cbn in *; lia. Qed.
Lemma keep_forall c (P : Z * Z -> Prop) l : Forall P l -> Forall P (keep c l).
Proof. rewrite !Forall_forall. intros H x X. apply filter_In in X. apply H. tauto. Qed.
Lemma lsum_split j l : lsum (past j l) + lsum (live j l) = lsum l.
Proof. induction l as [|[d a] l IH]; [reflexivity|]. unfold past, live, keep, not_due in *. cbn. destruct (is_due j d); cbn; lia. Qed.

Lemma live_live p j l : Forall (fun x => 0 <= fst x) l -> (0 < j -> j <= p) -> keep (not_due p) (live j l) = live p l.
Proof.
  intros F H. unfold live. rewrite keep_keep. apply keep_ext. revert F. apply Forall_impl. intros x X. unfold not_due, is_due.
  destruct (Z.leb_spec (fst x + 7) j), (Z.leb_spec (fst x + 7) p); cbn; try reflexivity; lia.
Qed.
Lemma past_live p j l : Forall (fun x => 0 <= fst x) l -> (0 < j -> j <= p) -> lsum (keep (is_due p) (live j l)) = lsum (live j l) - lsum (live p l).
Proof. intros F H. rewrite <- (live_live p j l F H). pose proof (lsum_split p (live j l)) as Q.
  change (keep (is_due p) (live j l)) with (past p (live j l)). change (keep (not_due p) (live j l)) with (live p (live j l)). lia. Qed.

(** The job *)
Lemma job_ok rq cur p b : book_ok rq cur b -> p < cur -> (0 < b_last b -> p = b_last b + 1) ->
  exists b', job true cur p b = Some b' /\ book_ok rq cur b' /\ b_last b' = p
    /\ (forall u, fld a_avail u (b_accts b') = fld a_avail u (b_accts b) + (lsum (past p (rq u)) - lsum (past (b_last b) (rq u))))
    /\ (forall u, fld a_locked u (b_accts b') = fld a_locked u (b_accts b)) /\ (forall u, has u (b_accts b') <-> has u (b_accts b)).
Proof.
  intros B P L. set (j := b_last b) in *.
  assert (JP : 0 < j -> j <= p) by (intros Q; specialize (L Q); lia).
  assert (NN : forall u, Forall (fun x => 0 <= fst x) (rq u)).
  { intros u. generalize (bo_days _ _ _ B u). apply Forall_impl. intros x X. lia. }
  assert (DU : forall u, due p (group (live j (rq u))) = (lsum (live j (rq u)) - lsum (live p (rq u)), group (live p (rq u)))).
  { intros u. assert (O : ordered (live j (rq u))) by apply ordered_keep, (bo_order _ _ _ B).
    destruct (group_ok _ O) as (G1 & G2 & G3 & G4 & G5).
    assert (D : days_ok (group (live j (rq u)))).
    { assert (Q : upto cur (group (live j (rq u)))).
      { apply G2. unfold upto. apply keep_forall. generalize (bo_days _ _ _ B u). apply Forall_impl. intros x X. lia. }
      assert (Q2 : keep (fun d => 0 <=? d) (group (live j (rq u))) = group (live j (rq u))).
      { rewrite G4. f_equal. apply keep_all. apply keep_forall. generalize (NN u). apply Forall_impl. intros x X. now apply Z.leb_le. }
      unfold days_ok. rewrite Forall_forall. intros x X. unfold upto in Q. rewrite Forall_forall in Q. specialize (Q x X).
      rewrite <- Q2 in X. apply filter_In in X. destruct X as [_ X]. apply Z.leb_le in X. pose proof (bo_cur _ _ _ B). lia. }
    rewrite due_ok by assumption. rewrite !G4, (live_live p j) by auto. f_equal.
    rewrite <- (past_live p j) by auto. apply group_ok. now apply ordered_keep. }
  destruct (release_ok p (b_recs b) (b_recs b) (b_accts b)) as (recs' & l' & E & ND & R1 & R2 & R3 & R4 & R5); try apply (bo_keys _ _ _ B).
  { intros u r G. pose proof (bo_recs _ _ _ B u) as Q. fold j in Q. rewrite G in Q. destruct (group (live j (rq u))) as [|z g] eqn:GE; cbn in Q; [discriminate|].
    injection Q as ->. rewrite <- GE. split; [rewrite GE; discriminate|]. rewrite G, GE. split; [reflexivity|]. split.
    - apply (bo_has _ _ _ B). intros Z0. rewrite Z0 in GE. discriminate.
    - rewrite <- GE, DU. cbn. rewrite (bo_held _ _ _ B). fold j. pose proof (lsum_nonneg (live p (rq u)) (keep_forall _ _ _ (bo_pos _ _ _ B u))). lia. }
  assert (AM : forall u, amt p u (b_recs b) = lsum (live j (rq u)) - lsum (live p (rq u))).
  { intros u. unfold amt. rewrite (bo_recs _ _ _ B). fold j. specialize (DU u).
    destruct (group (live j (rq u))) as [|z g] eqn:GE; cbn [nilopt]; [|now rewrite DU]. apply (f_equal fst) in DU. cbn [due fst] in DU. lia. }
  exists (Book l' recs' p). unfold job. destruct (Z.leb_spec cur p); [lia|]. fold j.
  assert (C : (0 <? j) && negb (p =? wrap64 (j + 1)) = false).
  { destruct (Z.ltb_spec 0 j) as [Q|Q]; [|reflexivity]. cbn. specialize (L Q). pose proof (bo_cur _ _ _ B). pose proof (bo_last _ _ _ B). fold j in H1.
    unfold wrap64. rewrite Z.mod_small; [rewrite L, Z.eqb_refl; reflexivity|]. unfold two64. change (2 ^ 63) with 9223372036854775808 in *. lia. }
  rewrite C, E. split; [reflexivity|]. split; [|split; [reflexivity|]].
  - constructor; cbn [b_recs b_accts b_last]; try apply B; auto.
    + intros u. rewrite R1, (bo_recs _ _ _ B). fold j. specialize (DU u).
      destruct (group (live j (rq u))) as [|z g] eqn:GE; cbn [nilopt]; [|now rewrite DU]. apply (f_equal snd) in DU. cbn [due snd] in DU. now rewrite <- DU.
    + intros u. rewrite R3, AM, (bo_held _ _ _ B). fold j. lia.
    + lia.
    + intros u Q. apply R5. now apply (bo_has _ _ _ B).
  - cbn [b_accts]. split; [|split; auto]. intros u. rewrite R2, AM. pose proof (lsum_split p (rq u)). pose proof (lsum_split j (rq u)). lia.
Qed.

(** A request *)
Definition add_rq (rq : Z -> list (Z * Z)) (u d a : Z) : Z -> list (Z * Z) := fun v => if u =? v then rq v ++ [(d, a)] else rq v.
Lemma live_snoc j d a l : j <= d -> live j (l ++ [(d, a)]) = live j l ++ [(d, a)].
Proof. intros H. unfold live. rewrite keep_app. f_equal. cbn. unfold not_due, is_due. destruct (Z.leb_spec (d + 7) j); [lia|reflexivity]. Qed.
Lemma past_snoc j d a l : j <= d -> past j (l ++ [(d, a)]) = past j l.
Proof. intros H. unfold past. rewrite keep_app. cbn. unfold is_due. destruct (Z.leb_spec (d + 7) j); [lia|apply app_nil_r]. Qed.
Lemma request_ok rq cur b u a l : book_ok rq cur b -> 0 < a ->
  (forall v, fld a_held v l = fld a_held v (b_accts b) + if u =? v then a else 0) -> (forall v, has v (b_accts b) -> has v l) -> has u l ->
  book_ok (add_rq rq u cur a) cur (Book l (note u cur a (b_recs b)) (b_last b)).
Proof.
  intros B A H1 H2 H3. pose proof (bo_last _ _ _ B) as L. pose proof (bo_cur _ _ _ B) as CU. unfold add_rq.
  constructor; cbn [b_recs b_accts b_last]; try assumption.
  - intros v. unfold note. rewrite get_put. destruct (Z.eqb_spec u v) as [<-|N]; [|apply B].
    rewrite live_snoc, group_snoc by assumption. rewrite (bo_recs _ _ _ B).
    assert (Q : match nilopt (group (live (b_last b) (rq u))) with Some r => r | None => [] end = group (live (b_last b) (rq u))) by now destruct (group _).
    rewrite Q. destruct (add_pending _ _ _) eqn:E; [now apply add_nonempty in E|reflexivity].
  - intros v. rewrite H1, (bo_held _ _ _ B). destruct (Z.eqb_spec u v) as [<-|N]; [|lia]. rewrite live_snoc, lsum_app by assumption. cbn. lia.
  - intros v. destruct (u =? v); [|apply (bo_order _ _ _ B)]. apply ordered_snoc; [apply (bo_order _ _ _ B)|]. unfold upto. generalize (bo_days _ _ _ B v). apply Forall_impl. cbn. intros x X. lia.
  - intros v. destruct (u =? v); [|apply B]. apply Forall_app. split; [apply B|]. repeat constructor; cbn; lia.
  - intros v. destruct (u =? v); [|apply B]. apply Forall_app. split; [apply B|]. repeat constructor; cbn; lia.
  - unfold note. apply put_nodup, B.
  - intros v. destruct (Z.eqb_spec u v) as [<-|N]; intros Q; [assumption|]. apply H2, (bo_has _ _ _ B), Q.
Qed.
(** Anything else *)
Lemma other_ok rq cur cur' b l : book_ok rq cur b -> cur <= cur' < 2 ^ 63 -> (forall v, fld a_held v l = fld a_held v (b_accts b)) -> (forall v, has v (b_accts b) -> has v l) ->
  book_ok rq cur' (Book l (b_recs b) (b_last b)).
Proof.
  intros B C H1 H2. pose proof (bo_last _ _ _ B) as L. pose proof (bo_cur _ _ _ B) as CU.
  constructor; cbn [b_recs b_accts b_last]; try apply B; try lia; auto.
  - intros u. rewrite H1. apply B.
  - intros u. generalize (bo_days _ _ _ B u). apply Forall_impl. intros x X. lia.
  - intros u Q. apply H2, (bo_has _ _ _ B), Q.
Qed.
