(** What the exchange holds back for seven days. *)
From Verif Require Import Lib PendModel PendSpec PendProofs PendProofs2 PendProofs3 PendProofs4 PendProofs5.
From Coq Require Import Sorting.Sorted.
Import ListNotations.
Open Scope Z_scope.

(** A history: days, deposits, withdrawals, locks, unlocks, mined VX, stakes and jobs of two users. *)
Definition vx (n : Z) : Z := n * 10 ^ 18.
Definition sample : list op :=
  [OPeriod 3; OJob VX 1; OIn VX 1 (vx 100); OEarth; OLock 1 (vx 60); OUnlock 1 (vx 55); OUnlock 1 (vx 20); OUnlock 1 (vx 10); OIn VITE 2 (vx 500); OStake 2 77 (vx 200);
   OStaked 77 true; OCancelled 77; OCancelled 77; OPeriod 4; OUnlock 1 (vx 5); OMined 1 (vx 3); OAuto 1 true; OMined 1 (vx 2); OOut VX 1 (vx 40); OPeriod 12;
   OJob VX 10; OJob VX 2; OJob VX 3; OJob VX 4; OJob VX 5; OJob VX 6; OJob VX 7; OJob VX 8; OJob VX 9; OJob VX 10; OJob VITE 9; OStake 2 78 (vx 140); OStaked 78 true; OCancelled 78].
Definition final : state := fst (run init sample).
Definition accepted : events := snd (run init sample).
Example sample_distinct : distinct sample.
Proof. unfold distinct, ids, sample. cbn. repeat constructor; cbn; intuition discriminate. Qed.

(** Queries show exactly what the history made of the amounts: what is available, what is held back
    and what is locked. *)
Theorem balances_exact : forall ops, distinct ops -> forall t u, let s := fst (run init ops) in let es := snd (run init ops) in
  fld a_avail u (b_accts (bk t s)) = available t u es /\ fld a_held u (b_accts (bk t s)) = waiting t u es
  /\ fld a_locked u (b_accts (bk VX s)) = locked u es /\ mining u s = staked u es.
Proof.
  intros ops D t u s es. pose proof (run_ok ops D) as V. fold s es in V. rewrite available_eq, waiting_eq.
  split; [apply V|]. split; [rewrite <- (i_last _ _ V); apply (bo_held _ _ _ (i_book _ _ V t))|]. split; [apply (i_locked _ _ V)|apply (i_staked _ _ V)].
Qed.
Example balances_sample :
  map (fun e => match e with (t, u) => (fld a_avail u (b_accts (bk t final)), fld a_held u (b_accts (bk t final)), waiting t u accepted) end) [(VX, 1); (VITE, 2)]
    = [(vx 33, vx 5, vx 5); (vx 160, vx 340, vx 340)] /\ fld a_locked 1 (b_accts (bk VX final)) = vx 27.
Proof. vm_compute. split; reflexivity. Qed.

(** The list of amounts held back has the days in order, each once, and for each day what was asked
    back on it, unless the job seven days later has run. *)
Theorem list_exact : forall ops, distinct ops -> forall t u, let s := fst (run init ops) in let es := snd (run init ops) in
  StronglySorted (fun x y => fst x < fst y) (listed u (bk t s)) /\ Forall (fun x => 0 < snd x) (listed u (bk t s))
  /\ forall d, entered d (listed u (bk t s)) = if d + 7 <=? last_job t es then 0 else asked_on t u d es.
Proof.
  intros ops D t u s es. pose proof (run_ok ops D) as V. fold s es in V. split; [|split].
  - rewrite (listed_eq s es) by assumption. apply group_ok, ordered_keep, (bo_order _ _ _ (i_book _ _ V t)).
  - rewrite (listed_eq s es) by assumption. apply group_pos, keep_forall, (bo_pos _ _ _ (i_book _ _ V t)).
  - intros d. now apply listed_entered.
Qed.
Example list_sample : listed 1 (bk VX final) = [(4, vx 5)] /\ listed 2 (bk VITE final) = [(3, vx 200); (12, vx 140)].
Proof. vm_compute. split; reflexivity. Qed.

(** Nothing is released before the eighth day after the request. *)
Theorem never_early : forall ops, distinct ops -> forall t d, let s := fst (run init ops) in let es := snd (run init ops) in
  0 <= d -> s_cur s <= d + 7 -> last_job t es < d + 7.
Proof.
  intros ops D t d s es D0 H. pose proof (run_ok ops D) as V. fold s es in V. rewrite <- (i_last _ _ V).
  assert (J : job_before s). { apply before_run. split; [cbn; lia|]. intros [|]; now right. }
  destruct J as [_ J]. specialize (J t). lia.
Qed.
(** The job of a day runs as soon as the day is over and the job of the day before has run, whatever the
    users did: it never fails. *)
Theorem job_runs : forall ops, distinct ops -> forall t p, let s := fst (run init ops) in let es := snd (run init ops) in
  step s (OJob t p) <> None <-> p < s_cur s /\ (0 < last_job t es -> p = last_job t es + 1).
Proof.
  intros ops D t p s es. pose proof (run_ok ops D) as V. fold s es in V. rewrite <- (i_last _ _ V). pose proof (i_book _ _ V t) as B.
  assert (W : 0 < b_last (bk t s) -> wrap64 (b_last (bk t s) + 1) = b_last (bk t s) + 1).
  { intros Q. unfold wrap64. apply Z.mod_small. pose proof (bo_last _ _ _ B). pose proof (bo_cur _ _ _ B). unfold two64. change (2 ^ 63) with 9223372036854775808 in *. lia. }
  cbn [step]. split.
  - intros H. destruct (job (s_earth s) (s_cur s) p (bk t s)) eqn:J; [|congruence]. unfold job in J. destruct (Z.leb_spec (s_cur s) p); [discriminate|].
    split; [assumption|]. intros Q. rewrite W in J by assumption. apply Z.ltb_lt in Q. rewrite Q in J. cbn in J. destruct (Z.eqb_spec p (b_last (bk t s) + 1)); [assumption|discriminate].
  - intros [P L]. destruct (s_earth s) eqn:EA.
    + destruct (job_ok _ _ _ _ B P L) as (b' & E & _). rewrite E. discriminate.
    + unfold job. destruct (Z.leb_spec (s_cur s) p); [lia|]. destruct (Z.ltb_spec 0 (b_last (bk t s))) as [Q|Q]; cbn [andb]; [|discriminate].
      rewrite W by assumption. rewrite (L Q), Z.eqb_refl. cbn. discriminate.
Qed.
Example job_sample : s_cur final = 12 /\ last_job VX accepted = 10 /\ step final (OJob VX 11) <> None /\ step final (OJob VX 12) = None.
Proof. vm_compute. repeat split; discriminate. Qed.

(** Locking takes what is available, unlocking what is locked if nothing or ten VX stay locked; at least one VX (10^18)
    is locked or unlocked at once. *)
Theorem lock_exact : forall ops, distinct ops -> forall u a, let s := fst (run init ops) in let es := snd (run init ops) in
  (step s (OLock u a) <> None <-> earth es = true /\ 10 ^ 18 <= a <= available VX u es)
  /\ (step s (OUnlock u a) <> None <-> earth es = true /\ 10 ^ 18 <= a <= locked u es /\ (locked u es = a \/ 10 * 10 ^ 18 <= locked u es - a)).
Proof.
  intros ops D u a s es. change (10 * 10 ^ 18) with ten_vx. change (10 ^ 18) with one_vx.
  destruct (balances_exact ops D VX u) as (B1 & _ & B3 & _). fold s es in B1, B3. pose proof (run_ok ops D) as V. fold s es in V.
  rewrite <- B1, <- B3, <- (i_earth _ _ V). cbn [bk step]. assert (O : 0 < one_vx) by (unfold one_vx; lia). clear B1 B3.
  unfold on_accts, lock_vx, schedule_unlock, update, fld. cbn [bk].
  destruct (s_earth s); cbn [negb orb]; [|split; (split; [congruence|intros [H _]; discriminate])].
  generalize one_vx ten_vx O. intros one ten O1. clear O.
  destruct (Z.ltb_spec a one) as [L|L]; [split; (split; [congruence|lia])|].
  destruct (get u (b_accts (s_vx s))) as [x|]; [|split; (split; [congruence|lia])]. split.
  - destruct (Z.ltb_spec (a_avail x) a); split; try congruence; try lia; try discriminate.
  - destruct (Z.ltb_spec (a_locked x) a); cbv zeta; [split; [congruence|lia]|].
    destruct (Z.eqb_spec (a_locked x - a) 0); cbn [negb andb].
    + split; [|discriminate]. intros _. repeat split; lia.
    + destruct (Z.ltb_spec (a_locked x - a) ten); split; try congruence; try lia; try discriminate.
Qed.
Example lock_sample : locked 1 accepted = vx 27 /\ step final (OUnlock 1 (vx 27)) <> None /\ step final (OUnlock 1 (vx 20)) = None /\ step final (OLock 1 (vx 34)) = None.
Proof. vm_compute. repeat split; discriminate. Qed.

(** Staking takes what is available, at least 134 VITE; [id] is new.  The answer of the quota contract is taken
    once. *)
Theorem stake_exact : forall ops, distinct ops -> forall u id a, let s := fst (run init ops) in let es := snd (run init ops) in
  (stake_of id es = None -> (step s (OStake u id a) <> None <-> earth es = true /\ 134 * 10 ^ 18 <= a <= available VITE u es))
  /\ (step s (OStaked id true) <> None <-> stake_of id es <> None /\ confirmed id es = false).
Proof.
  intros ops D u id a s es. change (134 * 10 ^ 18) with min_stake. destruct (balances_exact ops D VITE u) as (B1 & _).
  fold s es in B1. pose proof (run_ok ops D) as V. fold s es in V. split.
  - intros F. rewrite <- B1, <- (i_earth _ _ V). cbn [bk step].
    assert (G : get id (s_stakes s) = None).
    { destruct (get id (s_stakes s)) as [[v b c]|] eqn:G; [|reflexivity]. destruct (i_stakes _ _ V _ _ _ _ G) as [A _]. congruence. }
    rewrite G. unfold reduce, update, fld. assert (M : 0 < min_stake) by (unfold min_stake; lia).
    generalize dependent min_stake. intros m M.
    destruct (s_earth s); cbn [negb orb]; [|split; [congruence|intros [H _]; discriminate]].
    destruct (Z.ltb_spec a m) as [L|L]; [split; [congruence|lia]|].
    destruct (get u (b_accts (s_vite s))) as [x|]; [|split; [congruence|lia]].
    destruct (Z.ltb_spec (a_avail x) a); split; try congruence; try lia; try discriminate.
  - rewrite <- (i_new _ _ V). cbn [step]. destruct (get id (s_stakes s)) as [[v b [|]]|].
    + split; [congruence|]. intros (w & c & E). discriminate.
    + split; [eauto|discriminate].
    + split; [congruence|]. intros (w & c & E). discriminate.
Qed.
Example stake_sample : available VITE 2 accepted = vx 160 /\ stake_of 79 accepted = None /\ step final (OStake 2 79 (vx 160)) <> None
  /\ step final (OStake 2 79 (vx 161)) = None /\ step final (OStake 2 79 (vx 133)) = None /\ step final (OStaked 78 true) = None.
Proof. vm_compute. repeat split; discriminate. Qed.

(** A stake the quota contract has confirmed can be cancelled once, and the amount is never lost. *)
Theorem cancel_exact : forall ops, distinct ops -> forall id, let s := fst (run init ops) in let es := snd (run init ops) in
  step s (OCancelled id) <> None <-> confirmed id es = true /\ cancelled id es = false.
Proof.
  intros ops D id s es. pose proof (run_ok ops D) as V. fold s es in V. rewrite <- (i_there _ _ V). cbn [step].
  destruct (get id (s_stakes s)) as [[u a [|]]|] eqn:K.
  - split; [eauto|]. intros _. cbv zeta. pose proof (ksum_ge u id (s_stakes s)) as Q. rewrite K in Q. cbn [kval k_owner k_there k_amount] in Q. rewrite Z.eqb_refl in Q. cbn in Q.
    assert (QQ : a <= ksum u (s_stakes s)).
    { apply Q; [|apply V]. intros i [v b c] G. cbn. now destruct (i_stakes _ _ V _ _ _ _ G) as (_ & P & _). }
    rewrite <- (i_mining _ _ V) in QQ. destruct (Z.ltb_spec (mining u s - a) 0); [lia|]. discriminate.
  - split; [congruence|]. intros (v & b & E). discriminate.
  - split; [congruence|]. intros (v & b & E). discriminate.
Qed.
Example cancel_sample : confirmed 77 accepted = true /\ cancelled 77 accepted = true /\ staked 2 accepted = 0 /\ available VITE 2 accepted = vx 160.
Proof. vm_compute. repeat split. Qed.

(** What a user got less what the user gave is always available, locked or held back. *)
Theorem vx_conserved : forall ops, distinct ops -> forall u, let s := fst (run init ops) in
  fld a_avail u (b_accts (bk VX s)) + fld a_locked u (b_accts (bk VX s)) + fld a_held u (b_accts (bk VX s)) = net u (snd (run init ops)).
Proof. intros ops D u s. destruct (balances_exact ops D VX u) as (E1 & E2 & E3 & _). unfold s. rewrite E1, E2, E3. apply vx_sum. Qed.
Example conserved_sample : net 1 accepted = vx 65.
Proof. vm_compute. reflexivity. Qed.

Print Assumptions balances_exact.
Print Assumptions list_exact.
Print Assumptions never_early.
Print Assumptions job_runs.
Print Assumptions lock_exact.
Print Assumptions stake_exact.
Print Assumptions cancel_exact.
Print Assumptions vx_conserved.
