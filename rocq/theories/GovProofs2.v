From Verif Require Import Lib SchedModel StatsModel GovModel GovSpec GovProofs.

(** ** Lists of names separated by commas *)
Lemma split_nonnil v : split_names v <> [].
Proof. destruct v as [|c r]; cbn; [discriminate|]. destruct (c =? comma); [discriminate|]. now destruct (split_names r). Qed.
Lemma split_plain n : ~ In comma n -> split_names n = [n].
Proof.
  induction n as [|c r IH]; cbn; [reflexivity|]. intro H. destruct (Z.eqb_spec c comma) as [->|]; [exfalso; auto|]. rewrite IH by auto. reflexivity.
Qed.
Lemma split_app x y : split_names (x ++ comma :: y) = split_names x ++ split_names y.
Proof.
  induction x as [|c r IH]; cbn [app split_names]; [now rewrite Z.eqb_refl|]. destruct (c =? comma); [now rewrite IH|]. rewrite IH. pose proof (split_nonnil r). destruct (split_names r); [contradiction|reflexivity].
Qed.
Lemma split_in_plain v n : In n (split_names v) -> ~ In comma n.
Proof.
  revert n. induction v as [|c r IH]; intros n; cbn; [intros [<-|[]] []|]. destruct (Z.eqb_spec c comma) as [->|D]; [intros [<-|I]; [easy|auto]|].
  destruct (split_names r) as [|w ws] eqn:E; [intros [<-|[]] [?|[]]; auto|]. intros [<-|I]; [|apply IH; now right]. intros [?|?]; [auto|]. apply (IH w); [now left|auto].
Qed.
Fixpoint join (l : list name) : list Z := match l with [] => [] | [n] => n | n :: r => n ++ comma :: join r end.
Lemma join_split v : join (split_names v) = v.
Proof.
  induction v as [|c r IH]; cbn; [reflexivity|]. destruct (Z.eqb_spec c comma) as [->|]; [|].
  - pose proof (split_nonnil r). destruct (split_names r) as [|w ws] eqn:E; [contradiction|]. change (join ([] :: w :: ws)) with (comma :: join (w :: ws)). now rewrite IH.
  - pose proof (split_nonnil r). destruct (split_names r) as [|w ws] eqn:E; [contradiction|]. cbn [join] in IH |- *. rewrite <- IH. now destruct ws.
Qed.
Lemma join_app a b : a <> [] -> b <> [] -> join (a ++ b) = join a ++ comma :: join b.
Proof.
  induction a as [|n r IH]; [easy|]. intros _ B. destruct r as [|m r]; [cbn; destruct b; [contradiction|reflexivity]|]. cbn [app join] in *. rewrite IH by (auto; discriminate). now rewrite <- app_assoc.
Qed.
(** Where a name is in the list. *)
Lemma split_find n v : In n (split_names v) -> v = n \/ (exists y, v = n ++ comma :: y) \/ (exists x, v = x ++ comma :: n) \/ (exists x y, v = x ++ comma :: n ++ comma :: y).
Proof.
  intro I. apply in_split in I. destruct I as (a & b & E). rewrite <- (join_split v), E. destruct a as [|a0 a], b as [|b0 b].
  - now left.
  - right; left. exists (join (b0 :: b)). change ([] ++ n :: b0 :: b) with ([n] ++ (b0 :: b)). rewrite join_app by discriminate. reflexivity.
  - right; right; left. exists (join (a0 :: a)). rewrite join_app by discriminate. reflexivity.
  - right; right; right. exists (join (a0 :: a)), (join (b0 :: b)). change (n :: b0 :: b) with ([n] ++ (b0 :: b)). rewrite !join_app by discriminate. reflexivity.
Qed.

Lemma starts_spec p v : starts p v = true <-> exists y, v = p ++ y.
Proof.
  revert v. induction p as [|x p IH]; intro v; cbn; [split; [exists v; reflexivity|auto]|]. destruct v as [|y v]; [split; [discriminate|intros (q & H); discriminate]|].
  rewrite andb_true_iff, Z.eqb_eq, IH. split; [intros [-> [q ->]]; exists q; reflexivity|intros (q & H); injection H as -> ->; split; [auto|exists q; reflexivity]].
Qed.
Lemma index_of_sound p v i : index_of p v = Some i -> exists y, v = firstn i v ++ p ++ y /\ length (firstn i v) = i.
Proof.
  revert i. induction v as [|c r IH]; intro i; cbn.
  - destruct (starts p []) eqn:S; [|discriminate]. intros [= <-]. apply starts_spec in S. destruct S as [y E]. exists y. auto.
  - destruct (starts p (c :: r)) eqn:S.
    + intros [= <-]. apply starts_spec in S. destruct S as [y E]. exists y. auto.
    + destruct (index_of p r) as [k|]; [|discriminate]. cbn. intros [= <-]. destruct (IH k eq_refl) as (y & E & L). exists y. cbn. split; [f_equal; auto|now rewrite L].
Qed.
Lemma index_of_complete p v x y : v = x ++ p ++ y -> index_of p v <> None.
Proof.
  revert v. induction x as [|c x IH]; intros v ->; cbn [app].
  - assert (S : starts p (p ++ y) = true) by (apply starts_spec; now exists y). destruct (p ++ y); cbn [index_of]; rewrite S; discriminate.
  - cbn [index_of]. destruct (starts p _); [discriminate|]. specialize (IH _ eq_refl). destruct (index_of p (x ++ p ++ y)); [discriminate|contradiction].
Qed.

(** Deleting a name from a list deletes exactly that name. *)
Lemma del_name_spec m a n v : m a = v -> ~ In comma n -> n <> [] -> In n (split_names v) -> ~ In [] (split_names v) ->
  exists a1 a2, split_names v = a1 ++ n :: a2 /\
    (forall b, b <> a -> del_name m a n b = m b) /\
    match a1 ++ a2 with [] => del_name m a n a = [] | _ => split_names (del_name m a n a) = a1 ++ a2 /\ del_name m a n a <> [] end.
Proof.
  intros MA NC NE I NN. unfold del_name. rewrite MA. assert (SN : split_names n = [n]) by now apply split_plain.
  assert (KEY : forall x, ~ In [] (split_names x) -> exists w ws, split_names x = w :: ws /\ x <> []).
  { intros x H. pose proof (split_nonnil x). destruct (split_names x) as [|w ws] eqn:E; [contradiction|]. exists w, ws. split; [auto|]. intros ->. cbn in E. injection E as <- <-. apply H. now left. }
  destruct (zlist_eqb v n) eqn:E1; [apply zlist_eqb_eq in E1; subst n|apply zlist_eqb_neq in E1].
  { exists [], []. rewrite SN. cbn. split; [auto|]. split; [intros b B; now apply upd_other|apply upd_same]. }
  destruct (starts (n ++ [comma]) v) eqn:E2.
  { apply starts_spec in E2. destruct E2 as [y EV]. rewrite <- app_assoc in EV. cbn in EV. assert (ES : split_names v = [n] ++ split_names y) by (rewrite EV, split_app, SN; reflexivity).
    exists [], (split_names y). cbn [app]. split; [now rewrite ES|]. split; [intros b B; now apply upd_other|]. rewrite upd_same.
    replace (skipn (S (length n)) v) with y. 2: { rewrite EV. clear. induction n as [|c n IH]; [reflexivity|cbn; exact IH]. }
    destruct (KEY y) as (w & ws & H1 & H2); [intro H; apply NN; rewrite ES; apply in_or_app; now right|]. rewrite H1. auto. }
  destruct (starts (rev ([comma] ++ n)) (rev v)) eqn:E3.
  { apply starts_spec in E3. destruct E3 as [y EV]. apply (f_equal (@rev Z)) in EV. rewrite rev_involutive, rev_app_distr, rev_involutive in EV. cbn [app] in EV. set (x := rev y) in *.
    assert (ES : split_names v = split_names x ++ [n]) by (rewrite EV, split_app, SN; reflexivity). exists (split_names x), []. rewrite app_nil_r. split; [now rewrite ES|]. split; [intros b B; now apply upd_other|]. rewrite upd_same.
    replace (firstn (length v - length n - 1) v) with x. 2: { rewrite EV, app_length. cbn [length]. replace (length x + S (length n) - length n - 1)%nat with (length x + 0)%nat by lia. rewrite firstn_app_2. cbn. now rewrite app_nil_r. }
    destruct (KEY x) as (w & ws & H1 & H2); [intro H; apply NN; rewrite ES; apply in_or_app; now left|]. rewrite H1. auto. }
  destruct (index_of ([comma] ++ n ++ [comma]) v) as [[|i]|] eqn:E4.
  - exfalso. apply index_of_sound in E4. destruct E4 as (y & EV & _). cbn [firstn app] in EV. rewrite <- app_assoc in EV. cbn [app] in EV. apply NN. rewrite EV. change (comma :: n ++ comma :: y) with ([] ++ comma :: n ++ comma :: y). rewrite split_app. cbn. now left.
  - apply index_of_sound in E4. destruct E4 as (y & EV & L). set (x := firstn (S i) v) in *. cbn [app] in EV. rewrite <- app_assoc in EV. cbn [app] in EV.
    assert (ES : split_names v = split_names x ++ n :: split_names y) by (rewrite EV, !split_app, SN; reflexivity). exists (split_names x), (split_names y). split; [auto|]. split; [intros b B; now apply upd_other|]. rewrite upd_same.
    replace (skipn (S i + length n + 1) v) with (comma :: y).
    2: { rewrite EV. rewrite <- L. replace (length x + length n + 1)%nat with (length x + (1 + (length n + 0)))%nat by lia. rewrite skipn_app, skipn_all2 by lia. replace (length x + (1 + (length n + 0)) - length x)%nat with (1 + (length n + 0))%nat by lia.
         cbn [app skipn Nat.add]. rewrite skipn_app, skipn_all2 by lia. replace (length n + 0 - length n)%nat with 0%nat by lia. reflexivity. }
    rewrite split_app. destruct (KEY x) as (w & ws & H1 & H2); [intro H; apply NN; rewrite ES; apply in_or_app; now left|]. rewrite H1. cbn [app]. split; [auto|]. intro H. apply app_eq_nil in H. destruct H; discriminate.
  - exfalso. apply split_find in I. destruct I as [->|[[y EV]|[[x EV]|(x & y & EV)]]]; [auto| | |].
    + assert (starts (n ++ [comma]) v = true) by (apply starts_spec; exists y; rewrite <- app_assoc; exact EV). congruence.
    + assert (starts (rev ([comma] ++ n)) (rev v) = true) by (apply starts_spec; exists (rev x); rewrite <- rev_app_distr; cbn [app]; now rewrite EV). congruence.
    + apply (index_of_complete ([comma] ++ n ++ [comma]) v x y) in E4; [auto|]. rewrite EV. cbn [app]. now rewrite <- app_assoc.
Qed.

(** ** The list of an address is exact *)
Definition listed (s : gstate) (a : Z) (n : name) : Prop := exists r, In r (g_regs s) /\ r_name r = n /\ r_wd r = a /\ r_owner r <> a.
Definition names_at (m : Z -> list Z) (a : Z) : list name := match m a with [] => [] | v => split_names v end.
Definition list_ok (m : Z -> list Z) : Prop := forall a, NoDup (names_at m a) /\ ~ In [] (names_at m a).
Lemma names_at_nil m a : m a = [] -> names_at m a = []. Proof. unfold names_at. now intros ->. Qed.
Lemma names_at_split m a : m a <> [] -> names_at m a = split_names (m a). Proof. unfold names_at. now destruct (m a). Qed.
Lemma add_name_spec m a n : ~ In comma n -> n <> [] -> names_at (add_name m a n) a = names_at m a ++ [n] /\ forall b, b <> a -> names_at (add_name m a n) b = names_at m b.
Proof.
  intros NC NE. split.
  - unfold names_at at 1. unfold add_name. rewrite upd_same. destruct (m a) as [|c v] eqn:E.
    + rewrite names_at_nil by auto. destruct n; [contradiction|]. now apply split_plain.
    + rewrite names_at_split by congruence. change ((c :: v) ++ [comma] ++ n) with ((c :: v) ++ comma :: n). cbn [app]. change (c :: v ++ comma :: n) with ((c :: v) ++ comma :: n). rewrite split_app, E, (split_plain n) by auto. reflexivity.
  - intros b B. unfold names_at, add_name. now rewrite upd_other by auto.
Qed.
Lemma del_name_at m a n : ~ In comma n -> n <> [] -> list_ok m -> In n (names_at m a) ->
  (exists a1 a2, names_at m a = a1 ++ n :: a2 /\ names_at (del_name m a n) a = a1 ++ a2) /\ forall b, b <> a -> names_at (del_name m a n) b = names_at m b.
Proof.
  intros NC NE LO I. assert (MA : m a <> []). { intro E. now rewrite names_at_nil in I. } destruct (LO a) as [_ NN]. rewrite names_at_split in I, NN by auto.
  destruct (del_name_spec m a n (m a) eq_refl NC NE I NN) as (a1 & a2 & E & O & D). split.
  - exists a1, a2. rewrite names_at_split by auto. split; [auto|]. destruct (a1 ++ a2) as [|z l]; [now apply names_at_nil|]. destruct D as [D1 D2]. rewrite names_at_split; auto.
  - intros b B. unfold names_at. now rewrite O.
Qed.
Lemma in_mid {A} (a1 a2 : list A) x y : NoDup (a1 ++ x :: a2) -> In y (a1 ++ a2) <-> In y (a1 ++ x :: a2) /\ y <> x.
Proof.
  intro N. rewrite !in_app_iff. cbn. split; [|intros [[?|[->|?]] D]; auto; contradiction]. intro H. split; [tauto|]. intros ->. apply NoDup_remove_2 in N. apply N. apply in_or_app. auto.
Qed.
(** Moving one name to another address. *)
Lemma save_name_spec m old new owner n : ~ In comma n -> n <> [] -> list_ok m ->
  (forall a, In n (names_at m a) <-> match old with Some o => o = a /\ owner <> a | None => False end) ->
  list_ok (save_name m old new owner n) /\ (forall a k, k <> n -> In k (names_at (save_name m old new owner n) a) <-> In k (names_at m a)) /\
  (forall a, In n (names_at (save_name m old new owner n) a) <-> new = a /\ owner <> a).
Proof.
  intros NC NE LO AT.
  assert (ADD : forall m', list_ok m' -> (forall a, ~ In n (names_at m' a)) -> new <> owner ->
     list_ok (add_name m' new n) /\ (forall a k, k <> n -> In k (names_at (add_name m' new n) a) <-> In k (names_at m' a)) /\ (forall a, In n (names_at (add_name m' new n) a) <-> new = a /\ owner <> a)).
  { intros m' LO' NI D. destruct (add_name_spec m' new n NC NE) as [A1 A2]. split; [|split].
    - intro a. destruct (Z.eq_dec a new) as [->|B]; [|rewrite A2 by auto; apply LO']. rewrite A1. destruct (LO' new) as [L1 L2]. split.
      + rewrite <- (rev_involutive (names_at m' new ++ [n])). apply NoDup_rev. rewrite rev_app_distr. cbn. constructor; [|now apply NoDup_rev]. intro I. apply in_rev in I. exact (NI new I).
      + intro I. apply in_app_or in I. destruct I as [I|[I|[]]]; [auto|congruence].
    - intros a k K. destruct (Z.eq_dec a new) as [->|B]; [|now rewrite A2]. rewrite A1, in_app_iff. cbn. split; [intros [?|[?|[]]]; [auto|congruence]|auto].
    - intro a. destruct (Z.eq_dec a new) as [->|B].
      + rewrite A1, in_app_iff. cbn. split; [auto|intros _; auto].
      + rewrite A2 by auto. split; [intro I; now apply NI in I|intros [? _]; congruence]. }
  assert (DEL : forall o, old = Some o -> o <> owner ->
     list_ok (del_name m o n) /\ (forall a k, k <> n -> In k (names_at (del_name m o n) a) <-> In k (names_at m a)) /\ (forall a, ~ In n (names_at (del_name m o n) a))).
  { intros o -> D. assert (I : In n (names_at m o)) by (apply AT; auto). destruct (del_name_at m o n NC NE LO I) as [(a1 & a2 & E1 & E2) O]. pose proof (LO o) as [L1 L2]. rewrite E1 in L1, L2. split; [|split].
    - intro a. destruct (Z.eq_dec a o) as [->|B]; [|rewrite O by auto; apply LO]. rewrite E2. split; [now apply NoDup_remove_1 in L1|]. intro H. apply L2. apply in_app_or in H. apply in_or_app. destruct H; [auto|right; now right].
    - intros a k K. destruct (Z.eq_dec a o) as [->|B]; [|now rewrite O]. rewrite E1, E2, in_mid by eauto. tauto.
    - intros a H. destruct (Z.eq_dec a o) as [->|B].
      + rewrite E2 in H. apply (in_mid _ _ n n L1) in H. tauto.
      + rewrite O in H by auto. apply AT in H. destruct H. congruence. }
  unfold save_name. destruct old as [o|].
  - destruct (Z.eqb_spec o new) as [->|D1]; [split; [auto|split; [tauto|auto]]|]. destruct (Z.eqb_spec o owner) as [->|D2].
    + apply ADD; auto. intros a I. apply AT in I. destruct I. congruence.
    + destruct (DEL o eq_refl D2) as (L & K & NI). destruct (Z.eqb_spec new owner) as [->|D3].
      * split; [auto|]. split; [auto|]. intro a. split; [intro I; now apply NI in I|intros [-> ?]; congruence].
      * destruct (ADD (del_name m o n) L NI D3) as (A1 & A2 & A3). split; [auto|]. split; [|auto]. intros a k KN. now rewrite A2, K by auto.
  - destruct (Z.eqb_spec new owner) as [->|D3].
    + split; [auto|]. split; [tauto|]. intro a. rewrite AT. split; [easy|]. intros [-> ?]. congruence.
    + apply ADD; auto. intros a I. now apply AT in I.
Qed.
