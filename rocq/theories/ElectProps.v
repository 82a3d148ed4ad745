(** Election of producers: the seats are filled with different candidates from the best ranked, most of them the very best, and every node gets the same answer. *)
From Verif Require Import Lib VmModel VmDbModel VmDbSpec ElectModel ElectSpec ElectProofs ElectProofs2 ElectProofs3.
From Verif Require ChainProofs.
From Coq Require Import Permutation Sorting.Sorted.

(** ** The seats *)
Lemma elect_parts sort intn g votes h s rates : sorts sort -> draws intn -> (e_nodes g < length votes)%nat -> (e_nodes g <= e_rank g)%nat -> (length rates < 2 \/ 2 <= e_nodes g)%nat ->
  let v := sort less_bal votes in let n := e_nodes g in let rc := rand_cnt n (e_rand g) in
  exists l rest, elect sort intn g votes h s rates = Some l /\ length l = n /\ Permutation (firstn (Nat.min (e_rank g) (length votes)) v) (l ++ rest) /\
    (Z.of_nat rc * Z.of_nat n < Z.of_nat (n - rc) * (Z.of_nat (Nat.min (e_rank g) (length votes)) - Z.of_nat n) ->
     exists t o d, Permutation l (t ++ o) /\ incl t (firstn n v) /\ (length o <= rc + length d)%nat /\ (length d <= 2)%nat /\ Forall (poor rates) d /\ (exists k, Permutation (firstn n v) (k ++ d))).
Proof.
  intros S D L R LEN. cbv zeta. set (v := sort less_bal votes). set (n := e_nodes g). set (rc := rand_cnt n (e_rand g)). set (m := Nat.min (e_rank g) (length votes)).
  assert (LV : length v = length votes) by (apply Permutation_length, S). assert (NM : (n <= m)%nat) by (unfold m, n; lia).
  assert (SH : forall x, exists l, shuffle intn g x h s = Some l /\ Permutation l x).
  { intro x. unfold shuffle. destruct (pick_some x (intn (find_seed g x h s)) (length x) (D _)) as (xs & E & P).
    rewrite firstn_all2 in E by (rewrite perm_length; [lia|apply D]). exists xs. rewrite E. split; [|auto]. rewrite firstn_all2; [auto|]. rewrite (Permutation_length P). lia. }
  unfold elect, filter_votes. rewrite (filter_simple_some sort g votes S L R). fold v m n.
  set (a := firstn n v). set (b := firstn (m - n) (skipn n v)). assert (AB : a ++ b = firstn m v) by (now apply groups_firstn). assert (LA : length a = n) by (unfold a; rewrite firstn_length; lia).
  assert (LB : length b = (m - n)%nat) by (unfold b; rewrite firstn_length, skipn_length; unfold m; lia).
  destruct b as [|b0 br] eqn:EB.
  - destruct (SH (sort less_bal a)) as (l & -> & P). exists l, []. rewrite app_nil_r in *. rewrite (proj1 (S less_bal a)) in P. split; [reflexivity|]. split; [rewrite (Permutation_length P); auto|]. split; [rewrite <- AB; now symmetry|].
    intros _. exists l, [], []. rewrite app_nil_r. repeat split; auto; cbn; try lia. intros x X. apply (Permutation_in x P X). exists a. now rewrite app_nil_r.
  - rewrite <- EB in *. assert (NB : b <> []) by (rewrite EB; discriminate). clear EB b0 br.
    destruct (filter_rate_ok sort S a b rates NB ltac:(rewrite LA; exact LEN)) as (a' & b' & ka & d & kb & p & -> & P1 & P2 & P3 & P4 & LD & D2 & FD & FP).
    assert (LA' : length a' = e_nodes g) by (apply Permutation_length in P1, P3; rewrite app_length in P1, P3; unfold n in LA; lia).
    assert (LB' : length b' = length b) by (apply Permutation_length in P2, P4; rewrite app_length in P2, P4; lia).
    assert (NB' : b' <> []) by (destruct b'; [destruct b; [congruence|cbn in LB'; lia]|discriminate]).
    destruct (filter_rand_ok sort S intn D g a' b' h s LA' NB') as (r & -> & LR & (rest & PR) & TOP). cbn [option_map].
    destruct (SH (sort less_bal r)) as (l & -> & P). rewrite (proj1 (S less_bal r)) in P. exists l, rest. split; [reflexivity|]. split; [now rewrite (Permutation_length P)|]. split.
    + rewrite P, <- PR, <- AB, P1, P2, P3, P4. rewrite <- !app_assoc. apply Permutation_app_head. rewrite !app_assoc. rewrite (Permutation_app_comm (d ++ kb) p), <- app_assoc. apply Permutation_app_head, Permutation_app_comm.
    + intro C. cbv zeta in TOP. fold n in TOP. fold rc in TOP. destruct TOP as (xa & ya & xb & yb & -> & QA & QB & LX); [rewrite LB', LB, (Nat2Z.inj_sub m n) by lia; exact C|].
      rewrite P3 in QA.
      (* split xa into those kept from [ka] and those from [p] *)
      assert (SPL : forall (xa ya ka p : list cand), Permutation (ka ++ p) (xa ++ ya) -> exists t o, Permutation xa (t ++ o) /\ incl t ka /\ (length o <= length p)%nat).
      { clear. intros xa ya ka p. revert xa ya ka. induction p as [|x p IH]; intros xa ya ka Q.
        - rewrite app_nil_r in Q. exists xa, []. rewrite app_nil_r. repeat split; auto. intros z Z. symmetry in Q. apply (Permutation_in _ Q), in_or_app; auto.
        - assert (I : In x (xa ++ ya)) by (apply (Permutation_in _ Q), in_or_app; right; left; auto). apply in_app_or in I as [I|I].
          + apply in_split in I as (u & w & ->). assert (Q' : Permutation (ka ++ p) ((u ++ w) ++ ya)).
            { apply (Permutation_cons_inv (a := x)). rewrite Permutation_middle, Q. rewrite <- !app_assoc. cbn. symmetry. apply Permutation_middle. }
            destruct (IH _ _ _ Q') as (t & o & P & I & LO). exists t, (x :: o). repeat split; auto; [|cbn; lia]. rewrite <- !Permutation_middle. now constructor.
          + apply in_split in I as (u & w & ->). assert (Q' : Permutation (ka ++ p) (xa ++ (u ++ w))).
            { apply (Permutation_cons_inv (a := x)). rewrite Permutation_middle, Q. rewrite !app_assoc. symmetry. apply Permutation_middle. }
            destruct (IH _ _ _ Q') as (t & o & P & I & LO). exists t, o. repeat split; auto; cbn; lia. }
      destruct (SPL xa ya ka p QA) as (t & o & PT & IT & LO). exists t, (o ++ xb), d. split; [rewrite P, PT; now rewrite <- app_assoc|]. split.
      { intros z Z. symmetry in P1. apply (Permutation_in _ P1), in_or_app. auto. }
      split; [rewrite app_length; lia|]. split; [auto|]. split; [auto|]. exists ka. auto.
Qed.

(** Every election succeeds and fills the seats: as many as the group has, or all candidates when there are fewer; no candidate is elected
    more often than it stands (so, with different names and addresses, none twice). *)
Theorem election_fills_seats sort intn g votes h s rates : sorts sort -> draws intn -> (e_nodes g <= e_rank g)%nat -> (length rates < 2 \/ 2 <= e_nodes g)%nat ->
  exists l, elect sort intn g votes h s rates = Some l /\ length l = Nat.min (e_nodes g) (length votes) /\ exists rest, Permutation votes (l ++ rest).
Proof.
  intros S D R LEN. destruct (Nat.leb_spec (length votes) (e_nodes g)) as [L|L].
  - unfold elect, filter_votes, filter_simple. replace (length votes <=? e_nodes g)%nat with true by (symmetry; apply Nat.leb_le; lia). unfold shuffle.
    set (x := sort less_bal votes). assert (PX : Permutation x votes) by apply S. destruct (pick_some x (intn (find_seed g x h s)) (length x) (D _)) as (xs & E & P).
    rewrite firstn_all2 in E by (rewrite perm_length; [lia|apply D]). pose proof (Permutation_length P) as LX. rewrite firstn_all2 in E by lia. exists xs. rewrite E. split; [reflexivity|]. pose proof (Permutation_length PX).
    split; [lia|]. exists []. rewrite app_nil_r, P. now symmetry.
  - destruct (elect_parts sort intn g votes h s rates S D L R LEN) as (l & rest & -> & LL & P & _). exists l. split; [reflexivity|]. split; [lia|].
    exists (rest ++ skipn (Nat.min (e_rank g) (length votes)) (sort less_bal votes)). rewrite app_assoc, <- P, firstn_skipn. symmetry. apply S.
Qed.
Theorem elected_distinct sort intn g votes h s rates l : sorts sort -> draws intn -> (e_nodes g <= e_rank g)%nat -> (length rates < 2 \/ 2 <= e_nodes g)%nat ->
  elect sort intn g votes h s rates = Some l ->
  incl l votes /\ (NoDup (map c_name votes) -> NoDup (map c_name l)) /\ (NoDup (map c_addr votes) -> NoDup (map c_addr l)).
Proof.
  intros S D R LEN E. destruct (election_fills_seats sort intn g votes h s rates S D R LEN) as (l' & E' & _ & rest & P). rewrite E in E'. injection E' as <-.
  split; [intros x X; symmetry in P; apply (Permutation_in _ P), in_or_app; auto|].
  split; intro N; [apply (Permutation_NoDup (Permutation_map c_name P)) in N|apply (Permutation_NoDup (Permutation_map c_addr P)) in N]; rewrite map_app in N; apply ChainProofs.NoDup_app_iff in N; tauto.
Qed.
(** Nobody ranked below RandRank is elected while there are more candidates than seats. *)
Theorem elected_within_rank sort intn g votes h s rates l r c : sorts sort -> draws intn -> (e_nodes g <= e_rank g)%nat -> (length rates < 2 \/ 2 <= e_nodes g)%nat ->
  NoDup (map c_name votes) -> ranking votes r -> (e_nodes g < length votes)%nat -> elect sort intn g votes h s rates = Some l -> In c l -> In c (firstn (e_rank g) r).
Proof.
  intros S D R LEN N RK L E I. assert (RV : r = sort less_bal votes) by (apply (ranking_unique votes); auto using sort_ranking). subst r.
  destruct (elect_parts sort intn g votes h s rates S D L R LEN) as (l' & rest & E' & _ & P & _). rewrite E in E'. injection E' as <-.
  assert (X : In c (firstn (Nat.min (e_rank g) (length votes)) (sort less_bal votes))) by (symmetry in P; apply (Permutation_in _ P), in_or_app; auto).
  assert (LV : length (sort less_bal votes) = length votes) by (apply Permutation_length, S). rewrite <- LV, Nat.min_comm in X. rewrite <- firstn_firstn, firstn_all2 in X; [auto|].
  rewrite firstn_length. lia.
Qed.
(** When enough candidates stand behind the seats, all but [rand_cnt] (at most a third) of the elected are of the best [e_nodes] by votes, up to
    two of them exchanged for poor production: [bad] lists (at least) the best candidates with a success rate below 80%. *)
Theorem top_seats sort intn g votes h s rates l r bad : sorts sort -> draws intn -> (e_nodes g <= e_rank g)%nat -> (length rates < 2 \/ 2 <= e_nodes g)%nat -> rates_ok rates ->
  NoDup (map c_name votes) -> ranking votes r -> (e_nodes g < length votes)%nat ->
  let n := e_nodes g in let rc := Nat.min (e_rand g) (n / 3) in let others := (Nat.min (e_rank g) (length votes) - n)%nat in
  (rc * n < (n - rc) * others)%nat ->
  (forall c x, In c (firstn n r) -> rate_in rates (c_addr c) x -> 0 <= x < 800000 -> In c bad) ->
  elect sort intn g votes h s rates = Some l -> exists t o, Permutation l (t ++ o) /\ incl t (firstn n r) /\ (length o <= rc + Nat.min 2 (length bad))%nat.
Proof.
  intros S D R LEN RO N RK L n rc others C B E. assert (RV : r = sort less_bal votes) by (apply (ranking_unique votes); auto using sort_ranking). subst r.
  destruct (elect_parts sort intn g votes h s rates S D L R LEN) as (l' & rest & E' & _ & P & T). rewrite E in E'. injection E' as <-.
  assert (RC : rand_cnt (e_nodes g) (e_rand g) = rc).
  { unfold rand_cnt, rc, n. destruct (e_rand g <? e_nodes g / 3)%nat eqn:X; [apply Nat.ltb_lt in X|apply Nat.ltb_ge in X]; lia. }
  rewrite RC in T. fold n in T. destruct T as (t & o & d & PT & IT & LO & D2 & FD & k & PK); [unfold others in C; nia|]. exists t, o. split; [auto|]. split; [auto|].
  assert (LD : (length d <= length bad)%nat); [|lia]. apply NoDup_incl_length.
  - assert (X : NoDup (map c_name (firstn n (sort less_bal votes)))) by (apply (names_sub votes); [apply S|auto]). apply (NoDup_perm_names _ _ PK) in X. apply NoDup_app_names in X as [_ X]. now apply NoDup_map_inv in X.
  - intros c Ic. rewrite Forall_forall in FD. specialize (FD c Ic). unfold poor, line in FD. apply (B c (rate_of rates c)); [|apply rate_of_in; auto|auto].
    symmetry in PK. apply (Permutation_in _ PK), in_or_app. auto.
Qed.

(** ** Every node gets the same answer *)
(** The same candidates in any order, the same rates in any order, any two correct sorting routines: the same producers in the same order. *)
Theorem election_same sort sort' intn g votes votes' h s rates rates' : sorts sort -> sorts sort' -> draws intn -> NoDup (map c_name votes) ->
  Permutation votes votes' -> rates_ok rates -> rates_ok rates' -> same_rates rates rates' ->
  elect sort intn g votes h s rates = elect sort' intn g votes' h s rates'.
Proof.
  intros S S' D N P O O' E. unfold elect. now rewrite (filter_votes_same sort sort' intn g votes votes' h s rates rates') by auto using rates_small, same_rates_eq.
Qed.

(** ** The votes *)
Lemma zadd_perm l l' : Permutation l l' -> total l = total l'.
Proof. induction 1; unfold total in *; cbn in *; lia. Qed.
(** A candidate's votes are the balances of exactly the accounts that vote for its name, each once. *)
Theorem votes_exact balance regs votes c w : In c (cal_votes balance regs votes) -> NoDup w -> (forall a, In a w <-> In (a, c_name c) votes) -> c_bal c = total (map balance w).
Proof.
  intros I N W. unfold cal_votes in I. apply in_map_iff in I as (r & <- & _). cbn in *. unfold vote_total. apply zadd_perm, Permutation_map, NoDup_Permutation; [apply NoDup_nodup|auto|].
  intro a. rewrite nodup_In, W, in_map_iff. split.
  - intros ((a', m) & <- & F). apply filter_In in F as [F E]. cbn in *. apply zlist_eqb_eq in E as ->. auto.
  - intro F. exists (a, fst r). split; [reflexivity|]. apply filter_In. split; [auto|apply zlist_eqb_refl].
Qed.
(** With one vote per account (the vote table is keyed by account) no balance counts twice: all candidates together have at most the balances of the voters. *)
Theorem votes_count_once balance regs votes : (forall a, 0 <= balance a) -> NoDup (map fst regs) -> NoDup (map fst votes) ->
  total (map c_bal (cal_votes balance regs votes)) <= total (map balance (map fst votes)).
Proof.
  intros B NR NV.
  assert (V : forall n, vote_total balance votes n = total (map balance (map fst (filter (fun v => zlist_eqb (snd v) n) votes)))).
  { intro n. unfold vote_total. rewrite nodup_fixed_point; [reflexivity|]. clear -NV. induction votes as [|v votes IH]; [constructor|]. cbn in *. apply NoDup_cons_iff in NV as [N1 N2]. destruct (zlist_eqb (snd v) n); [|auto]. cbn. constructor; [|auto].
    intro I. apply N1. apply in_map_iff in I as (x & E & F). apply filter_In in F as [F _]. rewrite <- E. now apply in_map. }
  unfold cal_votes. rewrite map_map. cbn [c_bal]. erewrite map_ext by (intro; apply V). clear V NV. induction votes as [|v votes IH].
  - clear. unfold total. induction regs as [|r regs IH]; cbn in *; [lia|auto].
  - set (f := fun n => total (map balance (map fst (filter (fun v => zlist_eqb (snd v) n) votes)))) in *.
    assert (E : forall n, total (map balance (map fst (filter (fun v => zlist_eqb (snd v) n) (v :: votes)))) = (if zlist_eqb (snd v) n then balance (fst v) else 0) + f n).
    { intro n. unfold f. cbn [filter]. destruct (zlist_eqb (snd v) n); reflexivity. }
    erewrite map_ext by (intro; apply E). change (total (map balance (map fst (v :: votes)))) with (balance (fst v) + total (map balance (map fst votes))).
    change (total (map (fun r : list Z * Z => f (fst r)) regs) <= total (map balance (map fst votes))) in IH. clear E. specialize (B (fst v)). set (bv := balance (fst v)) in *. clearbody f bv.
    assert (G : total (map (fun r : list Z * Z => (if zlist_eqb (snd v) (fst r) then bv else 0) + f (fst r)) regs) <= (if existsb (fun r => zlist_eqb (snd v) (fst r)) regs then bv else 0) + total (map (fun r => f (fst r)) regs)).
    { clear IH. induction regs as [|r regs IH]; [cbn; lia|]. cbn in NR. apply NoDup_cons_iff in NR as [N1 N2]. specialize (IH N2). unfold total in *. cbn. destruct (zlist_eqb (snd v) (fst r)) eqn:Z; cbn; [|lia].
      destruct (existsb (fun r0 => zlist_eqb (snd v) (fst r0)) regs) eqn:X; [|lia]. exfalso. apply existsb_exists in X as (y & Y & YE). apply N1. apply zlist_eqb_eq in Z, YE. rewrite <- Z, YE. now apply in_map. }
    destruct (existsb (fun r => zlist_eqb (snd v) (fst r)) regs); lia.
Qed.

(** ** A concrete election *)
(** Six seats, two of them drawn at random, ranks up to ten; twelve candidates; the fifth produces badly, the eighth well. *)
Definition eg_g : egroup := {| e_nodes := 6; e_rand := 2; e_rank := 10; e_seed := 1 |}.
Definition eg_cand (k : Z) : cand := {| c_name := [115; k]; c_addr := 100 + k; c_bal := 50 * (7 - k mod 7) |}.
Definition eg_votes : list cand := map (fun k => eg_cand (Z.of_nat k)) (seq 0 12).
Definition eg_rates : list (Z * Z) := [(100, 1000000); (107, 1000000); (101, 990000); (108, 990000); (102, 300000); (109, 980000); (110, 950000)].
Definition eg_intn (s : Z) (i : nat) : nat := Z.to_nat ((s + 3 * Z.of_nat i) mod (Z.of_nat i + 1)).
Lemma eg_draws : draws eg_intn.
Proof. intros s i. unfold eg_intn. pose proof (Z.mod_pos_bound (s + 3 * Z.of_nat i) (Z.of_nat i + 1) ltac:(lia)). lia. Qed.
Lemma eg_names : NoDup (map c_name eg_votes) /\ NoDup (map c_addr eg_votes).
Proof. split; vm_compute; repeat (constructor; [intro H; repeat (destruct H as [H|H]; [congruence|]); exact H|]); constructor. Qed.
Lemma eg_rates_ok : rates_ok eg_rates.
Proof. split; [vm_compute; repeat (constructor; [intro H; repeat (destruct H as [H|H]; [congruence|]); exact H|]); constructor|]. repeat (apply Forall_cons || apply Forall_nil); cbn; lia. Qed.
Example eg_elect : exists l, elect (@isort cand) eg_intn eg_g eg_votes 77 0 eg_rates = Some l /\ map c_addr l = [110; 108; 107; 111; 102; 109] /\
  elect (@isort cand) eg_intn eg_g (rev eg_votes) 77 0 (rev eg_rates) = Some l.
Proof. eexists. split; [vm_compute; reflexivity|]. split; vm_compute; reflexivity. Qed.
Example eg_ranking : ranking eg_votes (isort less_bal eg_votes) /\ map c_addr (isort less_bal eg_votes) = [100; 107; 101; 108; 102; 109; 103; 110; 104; 111; 105; 106].
Proof. split; [apply sort_ranking; [apply isort_sorts|apply eg_names]|vm_compute; reflexivity]. Qed.
Example eg_seats : (2 <= e_nodes eg_g <= e_rank eg_g)%nat /\ (e_nodes eg_g < length eg_votes)%nat /\
  (let rc := Nat.min (e_rand eg_g) (e_nodes eg_g / 3) in let others := (Nat.min (e_rank eg_g) (length eg_votes) - e_nodes eg_g)%nat in (rc * e_nodes eg_g < (e_nodes eg_g - rc) * others)%nat).
Proof. vm_compute. repeat split; lia. Qed.
Example eg_count : let c := cal_votes (fun a => a * 10) [([97], 11); ([98], 12)] [(1, [97]); (2, [98]); (3, [97]); (4, [99])] in map c_bal c = [40; 20] /\
  total (map (fun a => a * 10) (map fst [(1, [97]); (2, [98]); (3, [97]); (4, [99])])) = 100.
Proof. split; reflexivity. Qed.

(** ** Where the election fails its purpose *)
(** A group of one seat cannot elect anybody once two producers have a success rate and somebody stands behind the seat: the code cuts the
    last two of a slice of one. *)
Theorem single_seat_refuted : exists g votes h s rates, e_nodes g = 1%nat /\ (e_nodes g <= e_rank g)%nat /\ NoDup (map c_name votes) /\ rates_ok rates /\
  elect (@isort cand) eg_intn g votes h s rates = None.
Proof.
  exists {| e_nodes := 1; e_rand := 0; e_rank := 3; e_seed := 2 |}, eg_votes, 77, 0, eg_rates. split; [reflexivity|]. split; [cbn; lia|]. split; [apply eg_names|]. split; [apply eg_rates_ok|]. vm_compute. reflexivity.
Qed.
(** A producer that misses every block keeps its seat, though a well-producing candidate stands behind, when two elected newcomers have no
    success rate yet: they count as the two worst and are spared. *)
Theorem bad_producer_stays_refuted : exists g votes h s rates l bad good r, (2 <= e_nodes g <= e_rank g)%nat /\ NoDup (map c_name votes) /\ rates_ok rates /\
  ranking votes r /\ In bad (firstn (e_nodes g) r) /\ In (c_addr bad, 0) rates /\ In good (firstn (e_rank g) r) /\ ~ In good (firstn (e_nodes g) r) /\ In (c_addr good, 1000000) rates /\
  elect (@isort cand) eg_intn g votes h s rates = Some l /\ In bad l /\ ~ In good l.
Proof.
  exists {| e_nodes := 3; e_rand := 0; e_rank := 6; e_seed := 2 |}, eg_votes, 77, 0, [(100, 0); (108, 1000000)].
  eexists. exists (eg_cand 0), (eg_cand 8), (isort less_bal eg_votes). split; [cbn; lia|]. split; [apply eg_names|]. split.
  { split; [|repeat (apply Forall_cons || apply Forall_nil); cbn; lia]. cbn. apply NoDup_cons; [intros [H|[]]; lia|]. apply NoDup_cons; [intros []|constructor]. }
  split; [apply sort_ranking; [apply isort_sorts|apply eg_names]|]. split; [vm_compute; auto|]. split; [vm_compute; auto|]. split; [vm_compute; tauto|].
  split; [vm_compute; intro H; repeat (destruct H as [H|H]; [congruence|]); exact H|]. split; [vm_compute; auto|]. split; [vm_compute; reflexivity|].
  split; [vm_compute; tauto|]. vm_compute; intro H; repeat (destruct H as [H|H]; [congruence|]); exact H.
Qed.

Print Assumptions election_fills_seats. Print Assumptions elected_distinct. Print Assumptions elected_within_rank. Print Assumptions top_seats.
Print Assumptions election_same. Print Assumptions votes_exact. Print Assumptions votes_count_once. Print Assumptions single_seat_refuted. Print Assumptions bad_producer_stays_refuted.
