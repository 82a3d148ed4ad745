(** What the governance contract should guarantee, in terms of its requests and queries. *)
From Verif Require Import Lib SchedModel StatsModel GovModel.

Fixpoint zsum (l : list Z) : Z := match l with [] => 0 | x :: r => x + zsum r end.
(** The deposits the contract holds for the registered producers. *)
Definition deposits (w : world) : Z := zsum (map r_amount (g_regs (w_st w))).
(** All VITE issued for rewards so far, and for one name. *)
Definition issued (w : world) : Z := zsum (map snd (w_mints w)).
Definition issued_for (n : name) (l : list (name * Z)) : Z := zsum (map snd (filter (fun x => zlist_eqb (fst x) n) l)).
(** The blocks of a day. *)
Definition day_blocks (days : Z -> option point) (i : Z) : Z := match days i with Some p => zsum (map (fun x => snd (snd x)) (p_sbps p)) | None => 0 end.
Fixpoint blocks_before (days : Z -> option point) (n : nat) : Z := match n with O => 0 | S k => blocks_before days k + day_blocks days (Z.of_nat k) end.
(** The number of days that ended at least an hour before [t] (a day has 86400 seconds; days are counted from genesis at [gt]). *)
Definition settled (gt t : Z) : Z := Z.max 0 ((t - 3600 - gt) / 86400).

(** The first whole day after [rt] (days are counted from genesis at [gt]). *)
Definition first_day (gt rt : Z) : Z := if rt <=? gt then 0 else (rt - gt - 1) / 86400 + 1.
(** What [n] earned on day [i], given the registrations at the newest snapshot. *)
Definition earned (days : Z -> option point) (regs : list reg) (leaf : bool) (fork : Z) (n : name) (i : Z) : Z :=
  match days i with
  | Some p => match p_votes p with
      | Some v => fst (day_reward (day_detail regs i p v) n (stake_of leaf fork i)) + snd (day_reward (day_detail regs i p v) n (stake_of leaf fork i))
      | None => 0 end
  | None => 0 end.
(** The days a request pays rewards for: when it makes the contract issue VITE, the days from the recorded reward time to the end of the period calculated. *)
Definition paid_days (g : group) (days : Z -> option point) (fork sh : Z) (w : world) (x : op) : list (name * Z) :=
  match x with
  | ORequest e (CWithdraw n to) =>
      if do_send (e_amount e) (CWithdraw n to) then
        match snd (request g days fork sh w e (CWithdraw n to)), get_reg n (g_regs (w_st w)) with
        | Mint _ _ _, Some o =>
            let from := first_day (genesis_time g) (r_rt o) in
            let til := (fst (fst (calc_reward g days fork e (w_snap w) o)) - genesis_time g) / 86400 in
            map (fun j => (n, from + Z.of_nat j)) (seq 0 (Z.to_nat (til - from)))
        | _, _ => []
        end
      else []
  | _ => []
  end.
(** All days paid during a run. *)
Fixpoint all_paid (g : group) (days : Z -> option point) (fork sh : Z) (w : world) (xs : list op) : list (name * Z) :=
  match xs with [] => [] | x :: r => paid_days g days fork sh w x ++ all_paid g days fork sh (w_step g days fork sh w x) r end.

(** The statistics of a day are those of some chain: nobody produced more blocks than expected; votes are balances and their total. *)
Definition day_ok (p : point) : Prop :=
  NoDup (map fst (p_sbps p)) /\ Forall (fun x => 0 <= snd (snd x) <= fst (snd x)) (p_sbps p) /\ zsum (map (fun x => fst (snd x)) (p_sbps p)) < two64 /\
  match p_votes p with Some v => NoDup (map fst (v_details v)) /\ Forall (fun x => 0 <= snd x) (v_details v) /\ v_total v = zsum (map snd (v_details v)) | None => True end.

(** Times in seconds within Go's range of durations from genesis at [gt]. *)
Definition time_ok (gt t : Z) : Prop := 0 <= t /\ (t - gt + 86400) * sec < 2 ^ 63.

(** A sound genesis configuration: names are distinct and addresses belong to one name; nothing has been issued yet. *)
Record genesis_ok (gt : Z) (w : world) : Prop := {
  go_names : NoDup (map r_name (g_regs (w_st w)));
  go_regs : Forall (fun r => r_name r <> [] /\ ~ In comma (r_name r) /\ r_wd r = r_owner r /\ 0 <= r_amount r /\ In (r_prod r) (r_his r) /\
                     Forall (fun a => g_his (w_st w) a = r_name r) (r_his r) /\ NoDup (r_his r) /\ (r_rv r = 0 \/ r_amount r = 0) /\ -1 <= r_rt r /\ (0 <= r_rt r -> time_ok gt (r_rt r)) /\ time_ok gt (r_rv r)) (g_regs (w_st w));
  go_his : forall a, g_his (w_st w) a <> [] -> exists r, In r (g_regs (w_st w)) /\ r_name r = g_his (w_st w) a /\ In a (r_his r);
  go_lists : forall a, g_names (w_st w) a = [];
  go_votes : forall a, g_votes (w_st w) a = [] \/ exists r, In r (g_regs (w_st w)) /\ r_name r = g_votes (w_st w) a;
  go_snap : w_snap w = g_regs (w_st w);
  go_time : w_time w = gt;
  go_mints : w_mints w = [] }.

(** Every state of the contract, with a condition [ok] on what happens. Requests carry no negative amount and are confirmed after the epoch, before the end
    of Go's time range and before height 2^64. *)
Inductive hist (g : group) (days : Z -> option point) (fork sh : Z) (ok : world -> op -> Prop) : world -> Prop :=
| h_gen w : genesis_ok (genesis_time g) w -> hist g days fork sh ok w
| h_next w x : hist g days fork sh ok w -> ok w x ->
    match x with ORequest e _ => 0 <= e_amount e /\ 0 < e_time e /\ time_ok (genesis_time g) (e_time e) /\ 0 <= e_height e /\ e_height e + sh < two64 | OSnapshot => True end ->
    hist g days fork sh ok (w_step g days fork sh w x).
Definition any : world -> op -> Prop := fun _ _ => True.
(** Requests are received in the order of the snapshots that confirmed them, no calculation panics, and the day of the Leaf upgrade is not over before the upgrade. *)
Definition in_order (g : group) (fork : Z) : world -> op -> Prop := fun w x =>
  match x with ORequest e _ => w_time w <= e_time e /\ e_panic e = false /\ (e_leaf e = false -> (e_time e - genesis_time g) / 86400 <= fork) | OSnapshot => True end.
(** The Earth upgrade stays, and requests confirmed before it are not received after it. *)
Definition earth_once : world -> op -> Prop := fun w x =>
  match x with ORequest e _ => (w_earth w = true -> e_earth e = true) /\ e_earth_c e = e_earth e | OSnapshot => True end.

(** A condition holds at every step of a run. *)
Fixpoint along (g : group) (days : Z -> option point) (fork sh : Z) (ok : world -> op -> Prop) (w : world) (xs : list op) : Prop :=
  match xs with [] => True | x :: r => ok w x /\ along g days fork sh ok (w_step g days fork sh w x) r end.
