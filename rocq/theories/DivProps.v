(** Theorems about the fees of the exchange and their dividends. *)
From Verif Require Import Lib DexFloat DivModel DivSpec DivProofs DivProofs2 DivProofs3 DivProofs4 DivProofs5 DivProofs6.
Import ListNotations.

(** * The methods never fail *)
Theorem dividend_never_fails ops d o : run ops d -> allowed d o -> exists d', step d o = Some d'.
Proof. intros R A. destruct (inv_step ops d o (run_inv _ _ R) A) as (d' & E & _). now exists d'. Qed.

(** * The total the fees are divided by is the VX of all who hold ten or more at the end of the day:
    [us] is any list of users, none twice, with all of those in it. *)
Theorem vx_total_exact ops d p us : run ops d -> d_job d < p -> NoDup us -> (forall u, threshold <= held ops u p -> In u us) ->
  match match_funds (d_sum d) p with Some (total, _) => total | None => 0 end = fold_right (fun u s => counts (held ops u p) + s) 0 us.
Proof.
  intros R J N C. pose proof (run_inv _ _ R) as V. pose proof (match_ok (d_cur d) (d_sum d) p (i_sum _ _ V)) as M.
  assert (E : at_ (d_sum d) p = gsum (fun u => counts (held ops u p)) us).
  { rewrite <- (i_total _ _ V p J). rewrite <- (cs_sum (d_users d) p us (proj1 (i_users _ _ V)) N); [apply gsum_ext; intros u _; now apply V|].
    intros u NZ. apply C. rewrite (i_held _ _ V u p J) in NZ. unfold counts in NZ. destruct (Z.leb_spec threshold (held ops u p)); [assumption|lia]. }
  change (fold_right _ 0 us) with (gsum (fun u => counts (held ops u p)) us). rewrite <- E. destruct (match_funds (d_sum d) p) as [[a f]|]; [|now rewrite M]. now destruct M as [-> _].
Qed.

(** * Dividends go to holders: who is paid on a day held ten VX at its end. *)
Theorem dividend_to_holders ops d p d' : run ops d -> allowed d (ODivide p) -> step d (ODivide p) = Some d' ->
  exists pays, d_paid d' = d_paid d ++ pays /\ forall u t a, In (u, t, a) pays -> 10 * 10 ^ 18 <= held ops u p /\ 0 <= a.
Proof. change (10 * 10 ^ 18) with threshold. intros R [P J] E. cbn [step] in E. injection E as <-. apply inv_divide; auto. exact (run_inv _ _ R). Qed.

(** * No fee is lost or paid twice: what was taken in is paid, burned or waiting in the pools. *)
Theorem fees_conserved ops d t : run ops d -> collected t ops = paid t (d_paid d) + (if t =? vite then d_burned d else 0) + pooled t (d_fees d).
Proof. intros R. apply (i_kept _ _ (run_inv _ _ R)). Qed.

(** * The job of a day leaves nothing of that day or before behind, if anybody held ten VX. *)
Theorem dividend_complete ops d p d' u : run ops d -> allowed d (ODivide p) -> step d (ODivide p) = Some d' -> 10 * 10 ^ 18 <= held ops u p ->
  forall r, In r (d_fees d') -> f_period r <= p -> f_divided r = true.
Proof.
  change (10 * 10 ^ 18) with threshold.
  intros R [P J] E H r IN LE. cbn [step] in E. injection E as <-. pose proof (run_inv _ _ R) as V. assert (JP : d_job d < p) by (pose proof (i_job _ _ V); lia).
  assert (TP : 0 < at_ (d_sum d) p).
  { rewrite <- (i_total _ _ V p JP). pose proof (cs_ge u (d_users d) p) as X. rewrite (i_held _ _ V u p JP) in X. unfold counts in X at 1. rewrite (proj2 (Z.leb_le _ _) H) in X. pose proof threshold_pos. lia. }
  destruct (i_fees _ _ V) as [(C0 & _)|(h & U & F & z & EF & RL & S)]; [lia|]. destruct (todo_ok _ _ _ _ _ p S ltac:(lia)) as (A & B & EU & AP & BP & TD).
  pose proof (match_ok (d_cur d) (d_sum d) p (i_sum _ _ V)) as M. unfold divide_fees in IN. rewrite EF, TD in IN. destruct (match_funds (d_sum d) p) as [[total sum']|]; [|lia]. subst U.
  assert (G : forall F', shape (d_cur d) z h A F' \/ (exists z', shape (d_cur d) z' h A F') -> In r (h :: A ++ F') -> f_divided r = true).
  { intros F' SS I. assert (SX : exists z', shape (d_cur d) z' h A F') by (destruct SS as [SS|SS]; [now exists z|exact SS]). destruct SX as (z' & CC & _ & _ & _ & FD & _). destruct I as [<-|I]; [lia|]. apply in_app_or in I. destruct I as [I|I]; [specialize (AP r I); lia|now apply FD]. }
  destruct B as [|b B].
  - cbn [d_fees] in IN. rewrite app_nil_r in *. apply (G F); [left; exact S|exact IN].
  - destruct (shape_divide _ _ _ _ _ _ S) as (F' & z' & E' & S'). destruct (burn (d_earth d) (sums (b :: B))) as [bb m]. destruct (walk total p _ (d_users d)) as [us pays]. cbn [d_fees] in IN. rewrite E' in IN. apply (G F'); [right; now exists z'|exact IN].
Qed.

(** * Each gets the due share: of a token whose dividend is below 2^110, nobody is paid twice on a day, and
    all but the last who is paid get their part of the whole, to within one unit of the token. *)
Theorem dividend_proportional ops d p d' pays t us : run ops d -> allowed d (ODivide p) -> step d (ODivide p) = Some d' -> d_paid d' = d_paid d ++ pays -> paid t pays < 2 ^ 110 ->
  NoDup us -> (forall u, threshold <= held ops u p -> In u us) ->
  let total := fold_right (fun u s => counts (held ops u p) + s) 0 us in
  let got := filter (fun x => snd (fst x) =? t) pays in
  NoDup (map (fun x => fst (fst x)) got) /\ forall pre u s a post, got = pre ++ (u, s, a) :: post -> post <> [] -> Z.abs (a * total - paid t pays * held ops u p) < total.
Proof.
  intros R [P J] E EP RM N C. cbn zeta. cbn [step] in E. injection E as <-. pose proof (run_inv _ _ R) as V. assert (JP : d_job d < p) by (pose proof (i_job _ _ V); lia).
  destruct (divide_share ops d p pays t V P J EP RM) as [A B]. fold (pt t pays). split.
  - clear - A. induction A as [|x l A IH F]; cbn [map]; [constructor|]. constructor; [|exact IH]. intros I. apply in_map_iff in I. destruct I as (y & E & Y). rewrite Forall_forall in F. specialize (F y Y). cbn beta in F. lia.
  - assert (ET : fold_right (fun u s => counts (held ops u p) + s) 0 us = at_ (d_sum d) p); [|rewrite ET; exact B].
    rewrite <- (vx_total_exact ops d p us R JP N C). pose proof (match_ok (d_cur d) (d_sum d) p (i_sum _ _ V)) as M. destruct (match_funds (d_sum d) p) as [[a f]|]; [now destruct M|now rewrite M].
Qed.

(** * A history with all of it *)
Definition ten := threshold.
Definition vx_token : Z := 7.
Definition sample : list op :=
  [OPeriod 1; OVx 1 (3 * ten); OVx 2 ten; OFee vx_token 1000; OFee vite 200; OPeriod 2; OVx 2 (- ten); OVx 3 5; ODivide 1; OMine 1; OFee vx_token 500; OPeriod 4; ODivide 2; ODivide 3].
Fixpoint runs (d : dex) (ops : list op) : option dex := match ops with [] => Some d | o :: r => match step d o with Some d' => runs d' r | None => None end end.
Fixpoint allowed_all (d : dex) (ops : list op) : Prop := match ops with [] => True | o :: r => allowed d o /\ match step d o with Some d' => allowed_all d' r | None => False end end.
Lemma runs_run ops : forall pre d d', run pre d -> allowed_all d ops -> runs d ops = Some d' -> run (pre ++ ops) d'.
Proof.
  induction ops as [|o ops IH]; intros pre d d' R A E; cbn in *; [injection E as <-; now rewrite app_nil_r|]. destruct A as [A1 A2]. destruct (step d o) as [d1|] eqn:ES; [|contradiction]. replace (pre ++ o :: ops) with ((pre ++ [o]) ++ ops) by (rewrite <- app_assoc; reflexivity). apply (IH _ d1); auto. eapply R_step; eauto.
Qed.
Definition sample_end : dex := match runs start sample with Some d => d | None => start end.
Example sample_runs : run sample sample_end.
Proof.
  apply (runs_run sample [] start); [constructor| |vm_compute; reflexivity]. unfold sample. cbn [allowed_all].
  repeat (split; [vm_compute; repeat split; try discriminate; try lia; try (intros; discriminate)|]; match goal with |- match ?s with _ => _ end => let v := eval vm_compute in s in change s with v; cbn iota end). exact Logic.I.
Qed.
(** Day 1: one percent of 1000, three quarters to user 1, the rest to user 2; of the two of 200 the share
    of user 1 is one and a half, rounded up to both; day 2 and
    3: user 1 alone. *)
Example sample_paid : d_paid sample_end = [(1, vite, 2); (1, vx_token, 8); (2, vx_token, 2); (1, vite, 2); (1, vx_token, 15)].
Proof. vm_compute. reflexivity. Qed.
Example sample_kept : collected vx_token sample = 1500 /\ paid vx_token (d_paid sample_end) = 25 /\ pooled vx_token (d_fees sample_end) = 1475 /\ held sample 2 1 = ten /\ held sample 2 2 = 0 /\ held sample 3 2 = 5.
Proof. vm_compute. repeat split. Qed.

(** * Finding: the fees of day 0 are not carried over (fund_storage.go:1155 [formerId > 0]).
    The first day the exchange knows is day 0, the day of the chain's genesis; each later operation is allowed. *)
Definition first_day : list op := [OPeriod 0; OFee vx_token 1000; OPeriod 1].
Definition first_day_end : dex := match runs start first_day with Some d => d | None => start end.
Theorem first_day_refuted : exists d, runs start first_day = Some d /\ collected vx_token first_day = 1000 /\ paid vx_token (d_paid d) = 0 /\ pooled vx_token (d_fees d) = 10.
Proof. exists first_day_end. repeat split; vm_compute; reflexivity. Qed.

Print Assumptions dividend_never_fails.
Print Assumptions vx_total_exact.
Print Assumptions dividend_to_holders.
Print Assumptions fees_conserved.
Print Assumptions dividend_complete.
Print Assumptions dividend_proportional.
Print Assumptions first_day_refuted.
