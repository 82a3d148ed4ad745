(** Sorting, random permutations, picking. *)
From Verif Require Import Lib VmModel VmDbModel VmDbSpec VmDbProofs ElectModel ElectSpec.
From Coq Require Import Permutation Sorting.Sorted.

(** ** Sorting *)
Lemma insert_perm {A} (less : A -> A -> bool) x l : Permutation (insert less x l) (x :: l).
Proof. induction l as [|y r IH]; cbn; [reflexivity|]. destruct (less y x); [|reflexivity]. rewrite IH. apply perm_swap. Qed.
Lemma isort_perm {A} (less : A -> A -> bool) l : Permutation (isort less l) l.
Proof. induction l as [|x r IH]; cbn; [reflexivity|]. rewrite insert_perm. now constructor. Qed.
Lemma insert_sorted {A} (less : A -> A -> bool) L x : In x L -> strict_order less L -> forall l, incl l L -> StronglySorted (fun x y => less y x = false) l -> StronglySorted (fun x y => less y x = false) (insert less x l).
Proof.
  intros XI (IR & TR & NT). induction l as [|y r IH]; intros LI S; cbn; [repeat constructor|].
  apply StronglySorted_inv in S as [S F]. assert (YI : In y L) by (apply LI; left; auto). assert (RI : incl r L) by (intros z Z; apply LI; right; auto).
  destruct (less y x) eqn:E.
  - constructor; [apply IH; auto|]. apply Forall_forall. intros z Z. apply (Permutation_in _ (insert_perm less x r)) in Z as [<- |Z].
    + destruct (less x y) eqn:E2; [|reflexivity]. pose proof (TR x y x XI YI XI E2 E). rewrite IR in H; auto.
    + rewrite Forall_forall in F. auto.
  - constructor; [constructor; auto|]. constructor; [auto|]. apply Forall_forall. intros z Z. rewrite Forall_forall in F. apply (NT z y x); auto.
Qed.
Lemma isort_sorts : sorts (@isort cand).
Proof.
  intros less l. split; [apply isort_perm|]. intro O. assert (G : forall k, incl k l -> StronglySorted (fun x y => less y x = false) (isort less k)); [|apply G, incl_refl].
  induction k as [|x r IH]; intro I; cbn; [constructor|]. assert (In x l) by (apply I; left; auto). assert (incl r l) by (intros z Z; apply I; right; auto).
  apply (insert_sorted less l); auto. intros z Z. apply (Permutation_in _ (isort_perm less r)) in Z. auto.
Qed.
(** a sorted rearrangement is unique when no two elements tie *)
Lemma sorted_unique {A} (R : A -> A -> Prop) l : forall l', (forall x y, In x l -> In y l -> R x y -> R y x -> x = y) ->
  StronglySorted R l -> StronglySorted R l' -> Permutation l l' -> l = l'.
Proof.
  induction l as [|x l IH]; intros l' AS S S' P; [now apply Permutation_nil in P|].
  destruct l' as [|y l']; [symmetry in P; now apply Permutation_nil in P|].
  apply StronglySorted_inv in S as [S F]. apply StronglySorted_inv in S' as [S' F']. rewrite Forall_forall in F, F'.
  assert (E : x = y).
  { assert (X : In x (y :: l')) by (apply (Permutation_in _ P); left; auto). assert (Y : In y (x :: l)) by (symmetry in P; apply (Permutation_in _ P); left; auto).
    destruct X as [X|X]; [auto|]. destruct Y as [Y|Y]; [auto|]. apply AS; [left; auto|right; auto|apply F; auto|apply F'; auto]. }
  subst y. f_equal. apply IH; auto. - intros; apply AS; auto; right; auto. - now apply Permutation_cons_inv in P.
Qed.

(** ** The two orders *)
Lemma less_bal_irrefl a : less_bal a a = false.
Proof. unfold less_bal. rewrite Z.eqb_refl. apply bltb_irrefl. Qed.
Lemma less_bal_trans a b c : less_bal a b = true -> less_bal b c = true -> less_bal a c = true.
Proof.
  unfold less_bal. destruct (c_bal a =? c_bal b) eqn:E1, (c_bal b =? c_bal c) eqn:E2, (c_bal a =? c_bal c) eqn:E3; intros; try lia. eapply bltb_trans; eauto.
Qed.
Lemma bltb_ntrans a b c : bltb a b = false -> bltb b c = false -> bltb a c = false.
Proof.
  intros H1 H2. destruct (bltb a c) eqn:E; [|reflexivity]. destruct (bltb c b) eqn:E2.
  - rewrite (bltb_trans _ _ _ E E2) in H1. discriminate.
  - assert (b = c) by (apply bltb_total; auto). subst. congruence.
Qed.
Lemma less_bal_ntrans a b c : less_bal a b = false -> less_bal b c = false -> less_bal a c = false.
Proof.
  unfold less_bal. destruct (c_bal a =? c_bal b) eqn:E1, (c_bal b =? c_bal c) eqn:E2, (c_bal a =? c_bal c) eqn:E3; intros; try lia. eapply bltb_ntrans; eauto.
Qed.
Lemma less_bal_ahead a b : less_bal a b = true <-> ahead a b.
Proof.
  unfold less_bal, ahead. rewrite <- bltb_before. destruct (c_bal a =? c_bal b) eqn:E; [|split; [intros; left; lia|intros [?|[? ?]]; lia]].
  split; [intro; right; split; [lia|auto]|intros [?|[? ?]]; [lia|auto]].
Qed.
Lemma less_bal_tie a b : less_bal a b = false -> less_bal b a = false -> c_name a = c_name b.
Proof.
  unfold less_bal. rewrite (Z.eqb_sym (c_bal b)). destruct (c_bal a =? c_bal b) eqn:E; [apply bltb_total|lia].
Qed.
Lemma nodup_map_in {A B} (f : A -> B) l x y : NoDup (map f l) -> In x l -> In y l -> f x = f y -> x = y.
Proof.
  induction l as [|z l IH]; intros N X Y E; [contradiction|]. cbn in N. apply NoDup_cons_iff in N as [N1 N2].
  destruct X as [<- |X], Y as [<- |Y]; auto; exfalso; apply N1; [rewrite E|rewrite <- E]; now apply in_map.
Qed.
Lemma order_bal l : strict_order less_bal l.
Proof. split; [intros; apply less_bal_irrefl|]. split; [intros x y z _ _ _; apply less_bal_trans|intros x y z _ _ _; apply less_bal_ntrans]. Qed.

Definition small_rates (rates : list (Z * Z)) : Prop := forall c, -1 <= rate_of rates c <= 1000000.
Lemma assoc_In' (l : list (Z * Z)) k v : assoc k l = Some v -> In (k, v) l.
Proof. induction l as [|[k' v'] l IH]; cbn; [discriminate|]. destruct (k =? k') eqn:E; intro H; [injection H as <-; left; f_equal; lia|right; auto]. Qed.
Lemma assoc_nodup (l : list (Z * Z)) k v : NoDup (map fst l) -> In (k, v) l -> assoc k l = Some v.
Proof.
  induction l as [|[k' v'] l IH]; intros N I; [contradiction|]. cbn in *. apply NoDup_cons_iff in N as [N1 N2]. destruct I as [E|I].
  - injection E as -> ->. now rewrite Z.eqb_refl.
  - destruct (k =? k') eqn:E; [|auto]. exfalso. apply N1. replace k' with k by lia. now apply (in_map fst) in I.
Qed.
Lemma assoc_none' (l : list (Z * Z)) k : assoc k l = None <-> ~ In k (map fst l).
Proof.
  induction l as [|[k' v'] l IH]; cbn; [tauto|]. destruct (k =? k') eqn:E.
  - split; [discriminate|]. intro H. exfalso. apply H. left. lia.
  - rewrite IH. split; intros H ?; apply H; [intuition lia|auto].
Qed.
Lemma rates_small rates : rates_ok rates -> small_rates rates.
Proof.
  intros [_ F] c. unfold rate_of. destruct (assoc (c_addr c) rates) eqn:E; [|lia]. apply assoc_In' in E. rewrite Forall_forall in F. apply (F _ E).
Qed.
Lemma rate_of_in rates c r : rates_ok rates -> (rate_of rates c = r <-> rate_in rates (c_addr c) r).
Proof.
  intros [N _]. unfold rate_of, rate_in. destruct (assoc (c_addr c) rates) as [v|] eqn:E.
  - pose proof (assoc_In' _ _ _ E) as I. split; [intros <-; auto|]. intros [H|[_ H]]; [pose proof (assoc_nodup _ _ _ N H); congruence|exfalso; apply H; now apply (in_map fst) in I].
  - apply assoc_none' in E. split; [intros <-; auto|]. intros [H|[H _]]; [exfalso; apply E; now apply (in_map fst) in H|auto].
Qed.
Lemma less_rate_eq rates a b : small_rates rates -> less_rate rates a b = if rate_of rates a =? rate_of rates b then less_bal a b else rate_of rates b <? rate_of rates a.
Proof.
  intro S. pose proof (S a). pose proof (S b). unfold less_rate, wrap_i32. rewrite Z.mod_small by lia.
  destruct (rate_of rates a =? rate_of rates b) eqn:E; [replace (rate_of rates b - rate_of rates a + 2 ^ 31 - 2 ^ 31 =? 0) with true by lia; reflexivity|].
  replace (rate_of rates b - rate_of rates a + 2 ^ 31 - 2 ^ 31 =? 0) with false by lia. lia.
Qed.
Lemma order_rate rates l : small_rates rates -> strict_order (less_rate rates) l.
Proof.
  intro S. split; [|split].
  - intros x _. rewrite less_rate_eq by auto. rewrite Z.eqb_refl. apply less_bal_irrefl.
  - intros x y z _ _ _. rewrite !less_rate_eq by auto.
    destruct (rate_of rates x =? rate_of rates y) eqn:E1, (rate_of rates y =? rate_of rates z) eqn:E2, (rate_of rates x =? rate_of rates z) eqn:E3; intros; try lia. eapply less_bal_trans; eauto.
  - intros x y z _ _ _. rewrite !less_rate_eq by auto.
    destruct (rate_of rates x =? rate_of rates y) eqn:E1, (rate_of rates y =? rate_of rates z) eqn:E2, (rate_of rates x =? rate_of rates z) eqn:E3; intros; try lia. eapply less_bal_ntrans; eauto.
Qed.
Lemma less_rate_tie rates a b : small_rates rates -> less_rate rates a b = false -> less_rate rates b a = false -> c_name a = c_name b.
Proof.
  intro S. rewrite !less_rate_eq by auto. rewrite (Z.eqb_sym (rate_of rates b)). destruct (rate_of rates a =? rate_of rates b) eqn:E; [apply less_bal_tie|lia].
Qed.

(** any two sorting routines agree on candidates of different names, whatever the order of the input *)
Lemma sort_same s1 s2 less l l' : sorts s1 -> sorts s2 -> strict_order less l -> (forall a b, less a b = false -> less b a = false -> c_name a = c_name b) ->
  NoDup (map c_name l) -> Permutation l l' -> s1 less l = s2 less l'.
Proof.
  intros S1 S2 O T N P. destruct (S1 less l) as [P1 R1]. destruct (S2 less l') as [P2 R2].
  apply (sorted_unique (fun x y => less y x = false)); [|auto| |].
  - intros x y X Y H1 H2. apply (nodup_map_in c_name l); auto; apply (Permutation_in _ P1); auto.
  - apply R2. destruct O as (A & B & C). split; [|split].
    + intros x X. apply A. apply (Permutation_in x (Permutation_sym P)). auto.
    + intros x y z X Y Z. apply B; apply (Permutation_in _ (Permutation_sym P)); auto.
    + intros x y z X Y Z. apply C; apply (Permutation_in _ (Permutation_sym P)); auto.
  - rewrite P1, P2. auto.
Qed.
Lemma sort_bal_same s1 s2 l l' : sorts s1 -> sorts s2 -> NoDup (map c_name l) -> Permutation l l' -> s1 less_bal l = s2 less_bal l'.
Proof. intros. apply sort_same; auto using order_bal, less_bal_tie. Qed.
Lemma sort_rate_same s1 s2 rates l l' : sorts s1 -> sorts s2 -> small_rates rates -> NoDup (map c_name l) -> Permutation l l' -> s1 (less_rate rates) l = s2 (less_rate rates) l'.
Proof. intros. apply sort_same; auto using order_rate. intros. eapply less_rate_tie; eauto. Qed.

Lemma sort_ranking s l : sorts s -> NoDup (map c_name l) -> ranking l (s less_bal l).
Proof.
  intros S N. destruct (S less_bal l) as [P R]. split; [auto|]. specialize (R (order_bal l)).
  assert (N' : NoDup (map c_name (s less_bal l))) by (apply (Permutation_NoDup (Permutation_map c_name (Permutation_sym P))); auto).
  revert N' R. generalize (s less_bal l). clear. intro k. induction k as [|x k IH]; intros N R; [constructor|].
  apply StronglySorted_inv in R as [R F]. cbn in N. apply NoDup_cons_iff in N as [N1 N2]. constructor; [auto|]. rewrite Forall_forall in *. intros y Y. apply less_bal_ahead.
  destruct (less_bal x y) eqn:E; [auto|]. exfalso. apply N1. rewrite (less_bal_tie x y); auto using in_map.
Qed.
Lemma ahead_asym a b : ahead a b -> ahead b a -> False.
Proof. rewrite <- !less_bal_ahead. intros H1 H2. pose proof (less_bal_trans _ _ _ H1 H2). rewrite less_bal_irrefl in H. discriminate. Qed.
Lemma ranking_unique votes r r' : ranking votes r -> ranking votes r' -> r = r'.
Proof. intros [P S] [P' S']. apply (sorted_unique ahead); auto; [intros x y _ _ A B; destruct (ahead_asym x y A B)|rewrite P, P'; auto]. Qed.

(** ** Random permutations *)
Lemma set_nth_split {A} (x : A) d l : forall j, (j < length l)%nat -> exists p q, l = p ++ nth j l d :: q /\ set_nth j x l = p ++ x :: q /\ length p = j.
Proof.
  induction l as [|y l IH]; intros j H; cbn in H; [lia|]. destruct j as [|j]; cbn.
  - exists [], l. auto.
  - destruct (IH j ltac:(lia)) as (p & q & E1 & E2 & E3). exists (y :: p), q. cbn. rewrite <- E1, E2. auto.
Qed.
Lemma perm_loop_ok draw n : (forall i, (draw i <= i)%nat) -> forall i m, Permutation m (seq 0 i) -> Permutation (perm_loop draw n i m) (seq 0 (i + n)).
Proof.
  intro D. induction n as [|n IH]; intros i m P; cbn [perm_loop]; [now rewrite Nat.add_0_r|].
  replace (i + S n)%nat with (S i + n)%nat by lia. apply IH. rewrite seq_S. cbn [plus]. unfold perm_step. pose proof (Permutation_length P) as L. rewrite seq_length in L.
  destruct (draw i =? i)%nat eqn:E; [now rewrite P|]. apply Nat.eqb_neq in E. specialize (D i).
  destruct (set_nth_split i O m (draw i) ltac:(lia)) as (p & q & E1 & E2 & _). rewrite E2, <- P. rewrite E1 at 2.
  rewrite <- app_assoc. cbn. set (x := nth (draw i) m O). rewrite <- app_assoc. apply Permutation_app_head. cbn.
  rewrite (Permutation_app_comm q [x]). rewrite (Permutation_app_comm q [i]). cbn. apply perm_swap.
Qed.
Lemma perm_ok draw n : (forall i, (draw i <= i)%nat) -> Permutation (perm draw n) (seq 0 n).
Proof. intro D. apply (perm_loop_ok draw n D 0 []). reflexivity. Qed.

(** ** Picking *)
Lemma pick_firstn {A} (l : list A) ix : forall xs k, pick l ix = Some xs -> pick l (firstn k ix) = Some (firstn k xs).
Proof.
  induction ix as [|i r IH]; intros xs k H; cbn in H; [injection H as <-; now rewrite !firstn_nil|].
  destruct (nth_error l i) eqn:E; [|discriminate]. destruct (pick l r) eqn:R; [|discriminate]. injection H as <-. destruct k; [reflexivity|]. cbn. rewrite E, (IH l0 k eq_refl). reflexivity.
Qed.
Lemma pick_map {A} (l : list A) d ix : Forall (fun i => i < length l)%nat ix -> pick l ix = Some (map (fun i => nth i l d) ix).
Proof.
  induction 1 as [|i r H F IH]; [reflexivity|]. cbn. rewrite (nth_error_nth' l d H), IH. reflexivity.
Qed.
Lemma map_nth_seq {A} (l : list A) d : map (fun i => nth i l d) (seq 0 (length l)) = l.
Proof. induction l as [|x l IH]; [reflexivity|]. cbn. rewrite <- seq_shift, map_map. cbn. now rewrite IH. Qed.
Lemma pick_perm {A} (l : list A) ix : Permutation ix (seq 0 (length l)) -> exists xs, pick l ix = Some xs /\ Permutation xs l.
Proof.
  intro P. destruct l as [|d l'].
  - cbn in P. symmetry in P. apply Permutation_nil in P as ->. exists []. auto.
  - set (l := d :: l') in *. exists (map (fun i => nth i l d) ix). split.
    + apply pick_map. rewrite P. apply Forall_forall. intros i I. apply in_seq in I. lia.
    + rewrite P. now rewrite map_nth_seq.
Qed.
Lemma pick_length {A} (l : list A) ix : forall xs, pick l ix = Some xs -> length xs = length ix.
Proof. induction ix as [|i r IH]; intros xs H; cbn in H; [now injection H as <-|]. destruct (nth_error l i); [|discriminate]. destruct (pick l r); [|discriminate]. injection H as <-. cbn. now rewrite (IH l0). Qed.
Lemma pick_some {A} (l : list A) draw k : (forall i, (draw i <= i)%nat) -> exists xs, pick l (firstn k (perm draw (length l))) = Some (firstn k xs) /\ Permutation xs l.
Proof. intro D. destruct (pick_perm l _ (perm_ok draw (length l) D)) as (xs & E & P). exists xs. split; [now apply pick_firstn|auto]. Qed.
Lemma perm_length draw n : (forall i, (draw i <= i)%nat) -> length (perm draw n) = n.
Proof. intro D. pose proof (Permutation_length (perm_ok draw n D)). now rewrite seq_length in H. Qed.
Lemma slice0 {A} (l : list A) k : (k <= length l)%nat -> slice l 0 k = Some (firstn k l).
Proof. intro H. unfold slice. cbn [Nat.leb andb]. replace (k <=? length l)%nat with true by (symmetry; apply Nat.leb_le; auto). rewrite Nat.sub_0_r. reflexivity. Qed.
