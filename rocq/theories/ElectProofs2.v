(** The stages of the election. *)
From Verif Require Import Lib VmModel VmDbModel VmDbSpec ElectModel ElectSpec ElectProofs.
From Coq Require Import Permutation Sorting.Sorted.

Ltac perm_solve := repeat (reflexivity || (apply perm_skip) || (apply perm_swap)).

Lemma exchange_ok d imp : (length d <= 2)%nat -> (length imp <= 2)%nat ->
  exists kd xd ki xi, Permutation d (kd ++ xd) /\ Permutation imp (ki ++ xi) /\
    Permutation (fst (exchange d imp)) (kd ++ xi) /\ Permutation (snd (exchange d imp)) (ki ++ xd) /\ length xd = length xi.
Proof.
  intros L1 L2. destruct d as [|a [|b [|c d]]]; cbn in L1; try lia.
  - exists [], [], imp, []. rewrite (app_nil_r imp). repeat split; reflexivity.
  - destruct imp as [|x [|y [|z imp]]]; cbn in L2; try lia.
    + exists [a], [], [], []. repeat split; reflexivity.
    + exists [], [a], [], [x]. repeat split; reflexivity.
    + exists [], [a], [y], [x]. cbn. repeat split; try reflexivity; apply perm_swap.
  - destruct imp as [|x [|y [|z imp]]]; cbn in L2; try lia.
    + exists [a; b], [], [], []. repeat split; reflexivity.
    + exists [a], [b], [], [x]. cbn. repeat split; reflexivity.
    + exists [], [a; b], [], [x; y]. cbn. repeat split; try reflexivity; apply perm_swap.
Qed.

Lemma split_b_ok rates l : forall k, Permutation l (snd (split_b rates k l) ++ fst (split_b rates k l)) /\ (length (fst (split_b rates k l)) <= k)%nat /\
  Forall (fun v => line < rate_of rates v) (fst (split_b rates k l)).
Proof.
  induction l as [|v r IH]; intro k; [cbn; repeat split; auto with arith|]. cbn [split_b]. destruct k as [|k].
  - specialize (IH O). destruct (split_b rates 0 r) as [i b]. cbn in *. destruct IH as (P & L & F). repeat split; auto.
  - destruct (line <? rate_of rates v) eqn:E.
    + specialize (IH k). destruct (split_b rates k r) as [i b]. cbn in *. destruct IH as (P & L & F). repeat split; [rewrite P; apply Permutation_middle|lia|constructor; auto; lia].
    + specialize (IH (S k)). destruct (split_b rates (S k) r) as [i b]. cbn [fst snd] in *. destruct IH as (P & L & F). repeat split; auto. cbn. auto.
Qed.
Lemma filter_split {A} (f : A -> bool) l : Permutation l (filter (fun x => negb (f x)) l ++ filter f l).
Proof. induction l as [|x l IH]; cbn; [reflexivity|]. destruct (f x); cbn; [|now rewrite IH at 1]. rewrite IH at 1. apply Permutation_middle. Qed.
Lemma filter_le {A} (f : A -> bool) l : (length (filter f l) <= length l)%nat.
Proof. induction l as [|x l IH]; cbn; [lia|]. destruct (f x); cbn; lia. Qed.

Definition poor (rates : list (Z * Z)) (c : cand) : Prop := 0 <= rate_of rates c < line.
Definition good (rates : list (Z * Z)) (c : cand) : Prop := line < rate_of rates c.

Section Stages.
Context (sort : (cand -> cand -> bool) -> list cand -> list cand) (S : sorts sort) (intn : Z -> nat -> nat) (D : draws intn).
Lemma sort_p less l : Permutation (sort less l) l.
Proof. apply S. Qed.

(** members leave the first group only for a poor rate, members enter it only for a good one, at most two do *)
Lemma filter_rate_ok a b rates : b <> [] -> (length rates < 2 \/ 2 <= length a)%nat ->
  exists a' b' ka d kb p, filter_rate sort a b rates = Some (a', b') /\ Permutation a (ka ++ d) /\ Permutation b (kb ++ p) /\
    Permutation a' (ka ++ p) /\ Permutation b' (kb ++ d) /\ length d = length p /\ (length d <= 2)%nat /\ Forall (poor rates) d /\ Forall (good rates) p.
Proof.
  intros NB H. unfold filter_rate. destruct b as [|b0 br]; [congruence|]. set (b := b0 :: br) in *.
  destruct (length rates <? 2)%nat eqn:E.
  - exists a, b, a, [], b, []. rewrite !app_nil_r. repeat split; auto.
  - apply Nat.ltb_ge in E. destruct H as [H|H]; [lia|]. set (sa := sort (less_rate rates) a). pose proof (sort_p (less_rate rates) a) as PA. fold sa in PA.
    pose proof (Permutation_length PA) as LA. replace (length sa <? 2)%nat with false by (symmetry; apply Nat.ltb_ge; lia).
    set (low := fun v => (0 <=? rate_of rates v) && (rate_of rates v <? line)). set (tm := skipn (length sa - 2) sa).
    pose proof (split_b_ok rates (sort (less_rate rates) b) 2) as (PB & LB & FB). destruct (split_b rates 2 (sort (less_rate rates) b)) as [imp b1]. cbn [fst snd] in *.
    assert (LT : (length tm <= 2)%nat) by (unfold tm; rewrite skipn_length; lia).
    assert (LD : (length (filter low tm) <= 2)%nat) by (pose proof (filter_le low tm); lia).
    destruct (exchange_ok (filter low tm) imp LD LB) as (kd & xd & ki & xi & P1 & P2 & P3 & P4 & LX). destruct (exchange (filter low tm) imp) as [del' imp']. cbn [fst snd] in *.
    exists (firstn (length sa - 2) sa ++ filter (fun v => negb (low v)) tm ++ del'), (b1 ++ imp').
    exists (firstn (length sa - 2) sa ++ filter (fun v => negb (low v)) tm ++ kd), xd, (b1 ++ ki), xi.
    split; [now rewrite <- app_assoc|]. rewrite <- !app_assoc. split; [|split; [|split; [|split; [|split; [|split; [|split]]]]]].
    + rewrite <- P1, <- filter_split. unfold tm. rewrite firstn_skipn. now symmetry.
    + rewrite <- P2, <- PB. symmetry. apply sort_p.
    + now rewrite P3.
    + now rewrite P4.
    + auto.
    + apply Permutation_length in P1. rewrite app_length in P1. lia.
    + apply Forall_forall. intros v V. assert (I : In v (filter low tm)) by (symmetry in P1; apply (Permutation_in _ P1), in_or_app; auto). apply filter_In in I as [_ I]. unfold low in I. unfold poor. lia.
    + apply Forall_forall. intros v V. rewrite Forall_forall in FB. apply FB. symmetry in P2. apply (Permutation_in _ P2), in_or_app; auto.
Qed.

Lemma rand_cnt_le t n : (rand_cnt t n <= t / 3)%nat.
Proof. unfold rand_cnt. destruct (n <? t / 3)%nat eqn:E; [apply Nat.ltb_lt in E|]; lia. Qed.

(** the random stage takes the seats from the two groups without repeating a member *)
Lemma filter_rand_ok g a b h s : length a = e_nodes g -> b <> [] ->
  exists r, filter_rand sort intn g a b h s = Some r /\ length r = e_nodes g /\ (exists rest, Permutation (a ++ b) (r ++ rest)) /\
    let rc := rand_cnt (e_nodes g) (e_rand g) in
    (Z.of_nat rc * Z.of_nat (e_nodes g) < Z.of_nat (e_nodes g - rc) * Z.of_nat (length b) ->
      exists xa ya xb yb, r = xa ++ xb /\ Permutation a (xa ++ ya) /\ Permutation b (xb ++ yb) /\ length xb = rc).
Proof.
  intros LA NB. unfold filter_rand. destruct b as [|b0 br]; [congruence|]. set (b := b0 :: br) in *. clear NB.
  set (sa := sort less_bal a). set (sb := sort less_bal b). assert (PA : Permutation sa a) by apply sort_p. assert (PB : Permutation sb b) by apply sort_p.
  pose proof (Permutation_length PA) as LSA. pose proof (Permutation_length PB) as LSB. set (rc := rand_cnt (e_nodes g) (e_rand g)). pose proof (rand_cnt_le (e_nodes g) (e_rand g)) as RC. fold rc in RC.
  assert (R3 : (e_nodes g / 3 <= e_nodes g)%nat) by (apply Nat.div_le_upper_bound; lia). set (n := e_nodes g) in *.
  assert (R4 : (3 * (n / 3) <= n)%nat) by (apply Nat.mul_div_le; lia).
  cbv zeta. set (sd := find_seed g (sa ++ sb) h s).
  replace (Z.of_nat (length sa + length sb) - Z.of_nat n) with (Z.of_nat (length b)) by lia.
  destruct (Z.of_nat rc * Z.of_nat n <? Z.of_nat (n - rc) * Z.of_nat (length b)) eqn:E.
  - assert (RB : (rc <= length b)%nat) by nia.
    rewrite (slice0 (perm (intn sd) n)) by (rewrite perm_length; [lia|apply D]). replace (length sa + length sb - n)%nat with (length sb) by lia.
    rewrite (slice0 (perm (intn (SchedModel.wrap_i64 (sd + 1))) (length sb))) by (rewrite perm_length; [lia|apply D]).
    replace (perm (intn sd) n) with (perm (intn sd) (length sa)) by (f_equal; lia).
    destruct (pick_some sa (intn sd) (n - rc) (D sd)) as (xa & -> & XA). destruct (pick_some sb (intn (SchedModel.wrap_i64 (sd + 1))) rc (D _)) as (xb & -> & XB).
    pose proof (Permutation_length XA) as LXA. pose proof (Permutation_length XB) as LXB.
    exists (firstn (n - rc) xa ++ firstn rc xb). split; [reflexivity|]. split; [rewrite app_length, !firstn_length; lia|]. split.
    + exists (skipn (n - rc) xa ++ skipn rc xb). rewrite <- PA, <- PB, <- XA, <- XB. rewrite <- (firstn_skipn (n - rc) xa) at 1. rewrite <- (firstn_skipn rc xb) at 1.
      rewrite <- !app_assoc. apply Permutation_app_head. rewrite !app_assoc. apply Permutation_app_tail, Permutation_app_comm.
    + intros _. exists (firstn (n - rc) xa), (skipn (n - rc) xa), (firstn rc xb), (skipn rc xb). rewrite !firstn_skipn. rewrite firstn_length. repeat split; [rewrite <- PA; now symmetry|rewrite <- PB; now symmetry|lia].
  - replace (perm (intn sd) (length sa + length sb)) with (perm (intn sd) (length (sa ++ sb))) by (f_equal; apply app_length).
    rewrite slice0 by (rewrite perm_length, app_length; [lia|apply D]). destruct (pick_some (sa ++ sb) (intn sd) n (D sd)) as (x & -> & X). pose proof (Permutation_length X) as LX. rewrite app_length in LX.
    exists (firstn n x). split; [reflexivity|]. split; [rewrite firstn_length; lia|]. split; [|lia].
    exists (skipn n x). rewrite firstn_skipn, X, PA, PB. reflexivity.
Qed.
End Stages.
