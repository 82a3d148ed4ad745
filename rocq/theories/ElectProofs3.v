(** The result does not depend on the order of the inputs or the sorting algorithm. *)
From Verif Require Import Lib VmModel VmDbModel VmDbSpec ElectModel ElectSpec ElectProofs ElectProofs2.
From Verif Require ChainProofs.
From Coq Require Import Permutation Sorting.Sorted.

Lemma NoDup_perm_names l l' : Permutation l l' -> NoDup (map c_name l) -> NoDup (map c_name l').
Proof. intro P. apply Permutation_NoDup. now apply Permutation_map. Qed.
Lemma NoDup_app_names l l' : NoDup (map c_name (l ++ l')) -> NoDup (map c_name l) /\ NoDup (map c_name l').
Proof. rewrite map_app, ChainProofs.NoDup_app_iff. tauto. Qed.

Lemma filter_simple_same s1 s2 g votes votes' : sorts s1 -> sorts s2 -> NoDup (map c_name votes) -> Permutation votes votes' -> (e_nodes g < length votes)%nat ->
  filter_simple s1 g votes = filter_simple s2 g votes'.
Proof.
  intros S1 S2 N P L. unfold filter_simple. pose proof (Permutation_length P) as LP. replace (length votes <=? e_nodes g)%nat with false by (symmetry; apply Nat.leb_gt; lia).
  replace (length votes' <=? e_nodes g)%nat with false by (symmetry; apply Nat.leb_gt; lia). now rewrite (sort_bal_same s1 s2 votes votes').
Qed.
Lemma filter_simple_parts s g votes a b : sorts s -> (e_nodes g < length votes)%nat -> filter_simple s g votes = Some (a, b) ->
  a = firstn (e_nodes g) (s less_bal votes) /\ b = firstn (Nat.min (e_rank g) (length votes) - e_nodes g) (skipn (e_nodes g) (s less_bal votes)) /\ length a = e_nodes g /\ (e_nodes g <= e_rank g)%nat.
Proof.
  intros S L H. unfold filter_simple in H. replace (length votes <=? e_nodes g)%nat with false in H by (symmetry; apply Nat.leb_gt; lia).
  pose proof (Permutation_length (proj1 (S less_bal votes))) as LS. set (v := s less_bal votes) in *. cbv zeta in H. rewrite slice0 in H by lia. unfold slice in H.
  destruct (length v <=? e_rank g)%nat eqn:E.
  - apply Nat.leb_le in E. destruct ((e_nodes g <=? length v)%nat && (length v <=? length v)%nat); [|discriminate]. injection H as <- <-. repeat split; [f_equal; lia|rewrite firstn_length; lia|lia].
  - apply Nat.leb_gt in E. destruct ((e_nodes g <=? e_rank g)%nat && (e_rank g <=? length v)%nat) eqn:C; [|discriminate]. apply andb_prop in C as [C _]. apply Nat.leb_le in C. injection H as <- <-. repeat split; [f_equal; lia|rewrite firstn_length; lia|lia].
Qed.
Lemma filter_simple_some s g votes : sorts s -> (e_nodes g < length votes)%nat -> (e_nodes g <= e_rank g)%nat ->
  filter_simple s g votes = Some (firstn (e_nodes g) (s less_bal votes), firstn (Nat.min (e_rank g) (length votes) - e_nodes g) (skipn (e_nodes g) (s less_bal votes))).
Proof.
  intros S L R. destruct (filter_simple s g votes) as [[a b]|] eqn:E; [destruct (filter_simple_parts _ _ _ _ _ S L E) as (-> & -> & _); reflexivity|].
  exfalso. unfold filter_simple in E. replace (length votes <=? e_nodes g)%nat with false in E by (symmetry; apply Nat.leb_gt; lia).
  pose proof (Permutation_length (proj1 (S less_bal votes))) as LS. set (v := s less_bal votes) in *. cbv zeta in E. rewrite slice0 in E by lia. unfold slice in E.
  destruct (length v <=? e_rank g)%nat eqn:C.
  - replace ((e_nodes g <=? length v)%nat && (length v <=? length v)%nat) with true in E; [discriminate|]. symmetry. apply andb_true_intro. split; apply Nat.leb_le; lia.
  - apply Nat.leb_gt in C. replace ((e_nodes g <=? e_rank g)%nat && (e_rank g <=? length v)%nat) with true in E; [discriminate|]. symmetry. apply andb_true_intro. split; apply Nat.leb_le; lia.
Qed.
(** the two groups together are the best [e_rank] candidates *)
Lemma groups_firstn {A} (v : list A) n k : (n <= k)%nat -> firstn n v ++ firstn (k - n) (skipn n v) = firstn k v.
Proof. intro H. rewrite <- (firstn_skipn n v) at 3. rewrite firstn_app. rewrite firstn_firstn, firstn_length. destruct (Nat.le_gt_cases n (length v)) as [L|L].
  - rewrite Nat.min_r by lia. f_equal. f_equal. lia.
  - rewrite Nat.min_r by lia. f_equal. rewrite !skipn_all2 by lia. now rewrite !firstn_nil.
Qed.

(** ** Rates *)
Definition eq_rates (r r' : list (Z * Z)) : Prop := (forall c, rate_of r c = rate_of r' c) /\ length r = length r'.
Lemma same_rates_eq r r' : rates_ok r -> rates_ok r' -> same_rates r r' -> eq_rates r r'.
Proof.
  intros O O' E. split.
  - intro c. symmetry. apply (rate_of_in r' c (rate_of r c) O'). pose proof (proj1 (rate_of_in r c _ O) eq_refl) as [H|[H1 H2]]; [left; now apply E|right; split; [auto|]].
    intro I. apply H2. apply in_map_iff in I as ((x, y) & X & I). apply in_map_iff. exists (x, y). split; [auto|now apply E].
  - apply Permutation_length. apply NoDup_Permutation; [apply (NoDup_map_inv fst); apply O|apply (NoDup_map_inv fst); apply O'|auto].
Qed.
Lemma strongly_ext {A} (R R' : A -> A -> Prop) l : (forall x y, R x y -> R' x y) -> StronglySorted R l -> StronglySorted R' l.
Proof. intro H. induction 1; constructor; auto. eapply Forall_impl; [|eauto]. auto. Qed.
Lemma less_rate_ext r r' a b : eq_rates r r' -> less_rate r a b = less_rate r' a b.
Proof. intros [E _]. unfold less_rate. now rewrite !E. Qed.
Lemma sort_rates_same s1 s2 r r' l l' : sorts s1 -> sorts s2 -> small_rates r -> eq_rates r r' -> NoDup (map c_name l) -> Permutation l l' -> s1 (less_rate r) l = s2 (less_rate r') l'.
Proof.
  intros S1 S2 SM E N P. assert (SM' : small_rates r') by (intro c; rewrite <- (proj1 E); apply SM).
  destruct (S1 (less_rate r) l) as [P1 R1]. destruct (S2 (less_rate r') l') as [P2 R2]. specialize (R1 (order_rate r l SM)). specialize (R2 (order_rate r' l' SM')).
  apply (sorted_unique (fun x y => less_rate r y x = false)); [|auto| |rewrite P1, P2; auto].
  - intros x y X Y A B. apply (nodup_map_in c_name l); auto; try (apply (Permutation_in _ P1); auto). now apply (less_rate_tie r).
  - eapply strongly_ext; [|exact R2]. intros x y. now rewrite (less_rate_ext r r').
Qed.
Lemma split_b_ext r r' l : eq_rates r r' -> forall k, split_b r k l = split_b r' k l.
Proof. intros [E _]. induction l as [|v l IH]; intro k; [reflexivity|]. cbn. destruct k as [|k]; [now rewrite IH|]. rewrite E. destruct (line <? rate_of r' v); now rewrite IH. Qed.
Lemma filter_rate_same s1 s2 r r' a b : sorts s1 -> sorts s2 -> small_rates r -> eq_rates r r' -> NoDup (map c_name (a ++ b)) -> filter_rate s1 a b r = filter_rate s2 a b r'.
Proof.
  intros S1 S2 SM E N. apply NoDup_app_names in N as [NA NB]. unfold filter_rate. destruct b as [|b0 br]; [reflexivity|]. set (b := b0 :: br) in *. rewrite <- (proj2 E).
  destruct (length r <? 2)%nat; [reflexivity|]. rewrite (sort_rates_same s1 s2 r r' a a) by auto. set (sa := s2 (less_rate r') a). cbv zeta. destruct (length sa <? 2)%nat; [reflexivity|].
  rewrite (sort_rates_same s1 s2 r r' b b) by auto. rewrite (split_b_ext r r') by auto.
  rewrite (filter_ext (fun v => (0 <=? rate_of r v) && (rate_of r v <? line)) (fun v => (0 <=? rate_of r' v) && (rate_of r' v <? line))) by (intro c; now rewrite (proj1 E)).
  rewrite (filter_ext (fun v => negb ((0 <=? rate_of r v) && (rate_of r v <? line))) (fun v => negb ((0 <=? rate_of r' v) && (rate_of r' v <? line)))) by (intro c; now rewrite (proj1 E)).
  reflexivity.
Qed.
Lemma filter_rand_same s1 s2 intn g a b h s : sorts s1 -> sorts s2 -> NoDup (map c_name a) -> NoDup (map c_name b) -> filter_rand s1 intn g a b h s = filter_rand s2 intn g a b h s.
Proof. intros S1 S2 NA NB. unfold filter_rand. destruct b; [reflexivity|]. now rewrite (sort_bal_same s1 s2 a a), (sort_bal_same s1 s2 (c :: b) (c :: b)). Qed.

Lemma names_sub (votes v : list cand) k : Permutation v votes -> NoDup (map c_name votes) -> NoDup (map c_name (firstn k v)).
Proof. intros P N. symmetry in P. apply (NoDup_perm_names _ _ P) in N. rewrite <- (firstn_skipn k v) in N. now apply NoDup_app_names in N. Qed.

Lemma filter_votes_same s1 s2 intn g votes votes' h s r r' : sorts s1 -> sorts s2 -> draws intn -> NoDup (map c_name votes) -> Permutation votes votes' ->
  small_rates r -> eq_rates r r' -> filter_votes s1 intn g votes h s r = filter_votes s2 intn g votes' h s r'.
Proof.
  intros S1 S2 D N P SM E. unfold filter_votes. destruct (Nat.leb_spec (length votes) (e_nodes g)) as [L|L].
  - unfold filter_simple. pose proof (Permutation_length P). replace (length votes <=? e_nodes g)%nat with true by (symmetry; apply Nat.leb_le; lia).
    replace (length votes' <=? e_nodes g)%nat with true by (symmetry; apply Nat.leb_le; lia). f_equal. now apply sort_bal_same.
  - rewrite (filter_simple_same s1 s2 g votes votes') by auto. destruct (filter_simple s2 g votes') as [[a b]|] eqn:F; [|reflexivity].
    assert (L' : (e_nodes g < length votes')%nat) by (now rewrite <- (Permutation_length P)). pose proof (filter_simple_parts _ _ _ _ _ S2 L' F) as (EA & EB & LA & RK).
    assert (NAB : NoDup (map c_name (a ++ b))).
    { rewrite EA, EB. rewrite groups_firstn by lia. apply (names_sub votes); [|auto]. rewrite (proj1 (S2 less_bal votes')). now symmetry. }
    destruct b as [|b0 br]; [f_equal; apply NoDup_app_names in NAB as [NAB _]; now apply sort_bal_same|]. set (b := b0 :: br) in *.
    rewrite (filter_rate_same s1 s2 r r') by auto. destruct (filter_rate s2 a b r') as [[a' b']|] eqn:FR; [|reflexivity].
    assert (NB : b <> []) by discriminate.
    assert (NAB' : NoDup (map c_name (a' ++ b'))).
    { assert (LEN : (length r' < 2 \/ 2 <= length a)%nat).
      { unfold filter_rate in FR. unfold b in FR. fold b in FR. destruct (length r' <? 2)%nat eqn:C; [left; now apply Nat.ltb_lt|right]. cbv zeta in FR.
        destruct (length (s2 (less_rate r') a) <? 2)%nat eqn:C2; [discriminate|]. apply Nat.ltb_ge in C2. now rewrite (Permutation_length (proj1 (S2 (less_rate r') a))) in C2. }
      destruct (filter_rate_ok s2 S2 a b r' NB LEN) as (a2 & b2 & ka & d & kb & p & E1 & P1 & P2 & P3 & P4 & _). rewrite E1 in FR. injection FR as -> ->.
      refine (NoDup_perm_names _ _ _ NAB). rewrite P1, P2, P3, P4. rewrite <- !app_assoc. apply Permutation_app_head. rewrite !app_assoc. rewrite (Permutation_app_comm (d ++ kb) p), <- app_assoc. apply Permutation_app_head, Permutation_app_comm. }
    apply NoDup_app_names in NAB' as NN. destruct NN as [NA' NB']. rewrite (filter_rand_same s1 s2) by auto. destruct (filter_rand s2 intn g a' b' h s) as [l|] eqn:FF; [|reflexivity]. cbn. f_equal.
    apply sort_bal_same; auto.
    destruct b' as [|b0' br']; [unfold filter_rand in FF; injection FF as <-; auto|].
    assert (LA' : length a' = e_nodes g).
    { assert (LEN : (length r' < 2 \/ 2 <= length a)%nat).
      { unfold filter_rate in FR. unfold b in FR. fold b in FR. destruct (length r' <? 2)%nat eqn:C; [left; now apply Nat.ltb_lt|right]. cbv zeta in FR.
        destruct (length (s2 (less_rate r') a) <? 2)%nat eqn:C2; [discriminate|]. apply Nat.ltb_ge in C2. now rewrite (Permutation_length (proj1 (S2 (less_rate r') a))) in C2. }
      destruct (filter_rate_ok s2 S2 a b r' NB LEN) as (a2 & b2 & ka & d & kb & p & E1 & P1 & P2 & P3 & P4 & LL & _). rewrite E1 in FR. injection FR as -> ->.
      apply Permutation_length in P1, P3. rewrite app_length in P1, P3. lia. }
    destruct (filter_rand_ok s2 S2 intn D g a' (b0' :: br') h s LA' ltac:(discriminate)) as (rr & E1 & _ & (rest & PR) & _). rewrite E1 in FF. injection FF as ->.
    apply (NoDup_perm_names _ _ PR) in NAB'. now apply NoDup_app_names in NAB'.
Qed.
