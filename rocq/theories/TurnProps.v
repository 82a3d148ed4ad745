(** C63, C64: which request a contract has to receive next. *)
From Verif Require Import Lib.
From Verif Require RoadModel RoadProofs.
From Verif Require Import TurnModel TurnSpec TurnProofs TurnProofs2 TurnProofs5 TurnProofs6 TurnProofs7.
From Coq Require Import Permutation.
Import ListNotations.

(** The orders in which maps are walked: any permutation, at each call. *)
Definition orders (ord : Z -> forall A : Type, list A -> list A) : Prop := forall z A l, Permutation (ord z A l) l.

(** The queue of a caller exists and is one. *)
Theorem waiting_one chain to from : exists l, waiting chain to from l /\ forall m, waiting chain to from m -> m = l.
Proof.
  exists (map s_hash (filter (fun s => (s_to s =? to) && negb (mem (s_hash s) (taken chain))) (sent chain from))). assert (W : waiting chain to from (map s_hash (filter (fun s => (s_to s =? to) && negb (mem (s_hash s) (taken chain))) (sent chain from)))).
  - apply keeps_filter. intros s _. rewrite andb_true_iff, Z.eqb_eq, negb_true_iff, mem_not, received_taken. reflexivity.
  - split; [exact W|]. intros m M. exact (keeps_one _ _ _ _ M W).
Qed.

Section Turn.
Context (contract genesis pooled : Z -> bool) (ord : Z -> forall A : Type, list A -> list A) (ORD : orders ord).
Notation reach := (reach contract genesis pooled ord). Notation allowed := (allowed contract genesis pooled). Notation step := (step contract genesis pooled ord).
Notation fronts := (fronts contract ord). Notation is_front := (is_front contract).

(** C63: after any history of blocks, rollbacks, restarts and questions, a request of a caller is
    said to be the one a contract has to receive next exactly when it is the caller's oldest request
    to the contract that was not received. *)
Theorem front_exact w to from h l : reach w -> contract to = true -> waiting (w_chain w) to from l ->
  exists w', is_front w to from h = Some (w', match l with x :: _ => x =? h | [] => false end) /\ w_chain w' = w_chain w.
Proof.
  intros R C W. destruct (front_ok contract genesis pooled w to from h (reach_inv _ _ _ _ ORD _ R)) as (w' & E & _ & N). exists w'. rewrite E, (waiting_head contract (w_chain w) to from l h C W). auto.
Qed.
(** Only contracts have such a queue. *)
Theorem front_account w to from h : reach w -> contract to = false -> exists w', is_front w to from h = Some (w', false) /\ w_chain w' = w_chain w.
Proof.
  intros R C. destruct (front_ok contract genesis pooled w to from h (reach_inv _ _ _ _ ORD _ R)) as (w' & E & _ & N). exists w'. split; [|exact N]. rewrite E. unfold head_is. destruct (queue contract (w_chain w) to from) as [|[k i] r] eqn:Q; [reflexivity|]. exfalso. assert (X : In (k, i) (queue contract (w_chain w) to from)) by (rewrite Q; now left). apply (queue_in contract) in X. destruct X as (X & A & _). apply filter_In in X. destruct X as [_ X]. unfold due in X. apply andb_true_iff in X. destruct X as [X _]. cbn [fst] in X. congruence.
Qed.
(** No block, rollback or question the chain allows makes the pool panic. *)
Theorem turn_never_panics w o : reach w -> allowed w o -> exists w', step w o = Some w'.
Proof. intros R A. destruct (step_ok contract genesis pooled ord ORD w o (reach_inv _ _ _ _ ORD _ R) A) as (w' & E & _). eauto. Qed.
(** Blocks and rollbacks change the chain as they should; the rest does not touch it. *)
Theorem turn_chain w o w' : step w o = Some w' -> reach w -> w_chain w' = match o with OBlock _ b => w_chain w ++ [b] | ODelete _ bs => without (w_chain w) bs | _ => w_chain w end.
Proof.
  intros E R. pose proof (reach_inv _ _ _ _ ORD _ R) as V. destruct o as [z b|z bs|z|to from h|z to]; cbn [TurnSpec.step] in E.
  - unfold insert in E. destruct (handle _ _ _ _ _ _ _ _ _); [|discriminate]. now injection E as <-.
  - unfold delete in E. destruct (handle _ _ _ _ _ _ _ _ _); [|discriminate]. now injection E as <-.
  - now injection E as <-.
  - destruct (front_ok contract genesis pooled w to from h V) as (w1 & E1 & _ & N). rewrite E1 in E. now injection E as <-.
  - destruct (fronts_ok contract genesis pooled ord ORD z w to V) as (w1 & hs & E1 & _ & N & _). rewrite E1 in E. now injection E as <-.
Qed.

(** C64: what the listing gives to a producer: only requests whose turn it is, each once. *)
Theorem fronts_sound z w to : reach w -> contract to = true -> exists w' hs, fronts z w to = Some (w', hs) /\ NoDup hs /\
  forall h, In h hs -> exists from l, waiting (w_chain w) to from (h :: l).
Proof.
  intros R C. destruct (fronts_ok contract genesis pooled ord ORD z w to (reach_inv _ _ _ _ ORD _ R)) as (w' & hs & E & _ & _ & _ & N & H). exists w', hs. split; [exact E|]. split; [exact N|]. intros h I. apply H in I. destruct I as (c & _ & Q). destruct (waiting_one (w_chain w) to c) as (l & W & _). rewrite (waiting_head contract (w_chain w) to c l h C W) in Q. destruct l as [|x l]; [discriminate|]. apply Z.eqb_eq in Q. subst x. eauto.
Qed.
(** After a start the listing has the oldest request of every caller. *)
Theorem fronts_after_restart z z' w w' to from h l : reach w -> step w (ORestart z) = Some w' -> contract to = true -> waiting (w_chain w) to from (h :: l) ->
  exists w2 hs, fronts z' w' to = Some (w2, hs) /\ In h hs.
Proof.
  intros R [= <-] C W. destruct (inv_restart contract genesis pooled ord ORD z w (reach_inv _ _ _ _ ORD _ R)) as (V & IC). destruct (fronts_ok contract genesis pooled ord ORD z' _ to V) as (w2 & hs & E & _ & _ & _ & _ & H). exists w2, hs. split; [exact E|]. apply H. exists from. change (w_chain (restart contract pooled ord z w)) with (w_chain w). pose proof (waiting_head contract (w_chain w) to from (h :: l) h C W) as Q. cbv beta iota in Q. rewrite Z.eqb_refl in Q. split; [|exact Q]. unfold head_is in Q. destruct (queue contract (w_chain w) to from) as [|[k i] r] eqn:QU; [discriminate|]. assert (X : In (k, i) (queue contract (w_chain w) to from)) by (rewrite QU; now left). apply (queue_in contract) in X. destruct X as (X & _ & <-). exact (IC k i X).
Qed.
(** Once an account sends to a contract, its oldest request there is listed. *)
Theorem fronts_after_send z z' w a n s w' h l : reach w -> accepted contract genesis pooled (w_chain w) (BSend a n s) -> step w (OBlock z (BSend a n s)) = Some w' ->
  contract (s_to s) = true -> waiting (w_chain w') (s_to s) a (h :: l) -> exists w2 hs, fronts z' w' (s_to s) = Some (w2, hs) /\ In h hs.
Proof.
  intros R A E C W. pose proof (reach_inv _ _ _ _ ORD _ R) as V. pose proof (insert_send contract genesis pooled ord ORD z w a n s w' V A C E) as IC. destruct (inv_insert contract genesis pooled ord ORD z w _ V A) as (w1 & E1 & V1 & _). cbn [TurnSpec.step] in E. rewrite E1 in E. injection E as <-.
  destruct (fronts_ok contract genesis pooled ord ORD z' w1 (s_to s) V1) as (w2 & hs & E2 & _ & _ & _ & _ & H). exists w2, hs. split; [exact E2|]. apply H. exists a. split; [exact IC|]. rewrite (waiting_head contract (w_chain w1) (s_to s) a (h :: l) h C W). apply Z.eqb_refl.
Qed.
End Turn.

(** ** A case: account 1 calls contract 10 twice; contract 10 receives the first request and calls
    contract 11 twice. *)
Definition x_contract (a : Z) : bool := 10 <=? a.
Definition x_no (_ : Z) : bool := false.
Definition x_yes (_ : Z) : bool := true.
(** Two ways to walk a map. *)
Definition x_ord (z : Z) (A : Type) (l : list A) : list A := if z =? 0 then l else rev l.
Lemma x_orders : orders x_ord.
Proof. intros z A l. unfold x_ord. destruct (z =? 0); [reflexivity|]. apply Permutation_sym, Permutation_rev. Qed.
Definition x_b1 := BSend 1 1 (Send 100 10).
Definition x_b2 := BSend 1 2 (Send 101 10).
Definition x_b3 := BRecv 10 1 200 100 [Send 201 11; Send 202 11].
Fixpoint x_run (w : world) (os : list op) : option world :=
  match os with [] => Some w | o :: r => match step x_contract x_no x_yes x_ord w o with Some w' => x_run w' r | None => None end end.
Definition x_empty := World [] (Pool [] [] []).
Ltac accept := split; [cbn; repeat (apply NoDup_cons; [cbn; lia|]); apply NoDup_nil|split; [cbn; lia|split; [cbn; lia|split; [cbn; intros c H; repeat (destruct H as [<-|H]; [cbn; lia|]); destruct H|split; [cbn; intros s H _; repeat (destruct H as [<-|H]; [reflexivity|]); destruct H|]]]]].
Ltac next R A w := match type of R with reach _ _ _ _ ?u => refine (R_step _ _ _ _ u _ w R A _); vm_compute; reflexivity end.
Definition x_w1 := Eval vm_compute in match x_run x_empty [OBlock 0 x_b1] with Some w => w | None => x_empty end.
Definition x_w2 := Eval vm_compute in match x_run x_w1 [OBlock 1 x_b2] with Some w => w | None => x_empty end.
Definition x_w3 := Eval vm_compute in match x_run x_w2 [OBlock 1 x_b3] with Some w => w | None => x_empty end.
Definition x_w4 := Eval vm_compute in match x_run x_w3 [ORestart 1] with Some w => w | None => x_empty end.
Definition x_w5 := Eval vm_compute in match x_run x_w3 [ODelete 1 [x_b3]] with Some w => w | None => x_empty end.
Lemma x_reach1 : reach x_contract x_no x_yes x_ord x_w1.
Proof. assert (A : allowed x_contract x_no x_yes x_empty (OBlock 0 x_b1)) by (cbn [allowed]; accept; reflexivity). pose proof (R_new x_contract x_no x_yes x_ord) as R. next R A x_w1. Qed.
Lemma x_reach2 : reach x_contract x_no x_yes x_ord x_w2.
Proof. assert (A : allowed x_contract x_no x_yes x_w1 (OBlock 1 x_b2)) by (cbn [allowed]; accept; reflexivity). pose proof x_reach1 as R. next R A x_w2. Qed.
Example x_accepts3 : allowed x_contract x_no x_yes x_w2 (OBlock 1 x_b3).
Proof.
  cbn [allowed]. accept. split; [reflexivity|]. split; [reflexivity|]. split.
  - intros (a & n & x & subs & [H|[H|[]]]); discriminate.
  - exists 1, (Send 100 10). split; [now left|auto].
Qed.
Lemma x_reach3 : reach x_contract x_no x_yes x_ord x_w3.
Proof. pose proof x_accepts3 as A. pose proof x_reach2 as R. next R A x_w3. Qed.
Lemma x_reach4 : reach x_contract x_no x_yes x_ord x_w4.
Proof. assert (A : allowed x_contract x_no x_yes x_w3 (ORestart 1)) by exact Logic.I. pose proof x_reach3 as R. next R A x_w4. Qed.
Example x_deletes : allowed x_contract x_no x_yes x_w3 (ODelete 1 [x_b3]).
Proof.
  cbn [allowed]. split; [repeat constructor; intros []|]. split; [intros b [<-|[]]; right; right; now left|]. intros c s [<-|[]] H a n x subs [Q|[Q|[Q|[]]]]; try discriminate. injection Q as <- <- <- Q <-. cbn in H. rewrite <- Q in *. destruct H as [<-|[<-|[]]]; discriminate.
Qed.
Lemma x_reach5 : reach x_contract x_no x_yes x_ord x_w5.
Proof. pose proof x_deletes as A. pose proof x_reach3 as R. next R A x_w5. Qed.
Ltac queue := repeat first [apply K_nil | apply K_in; [split; [reflexivity|]; intros (a & n & x & subs & H); repeat (destruct H as [H|H]; [discriminate|]); destruct H|]
  | apply K_out; [intros [H _]; discriminate|] | apply K_out; [intros [_ H]; apply H; exists 10, 1, 200, [Send 201 11; Send 202 11]; right; right; now left|]].
Example x_waiting2 : waiting (w_chain x_w2) 10 1 [100; 101]. Proof. unfold waiting. cbn. queue. Qed.
Example x_waiting3 : waiting (w_chain x_w3) 10 1 [101] /\ waiting (w_chain x_w3) 11 10 [201; 202]. Proof. unfold waiting. cbn. split; queue. Qed.
Example x_waiting5 : waiting (w_chain x_w5) 10 1 [100; 101] /\ waiting (w_chain x_w5) 11 10 []. Proof. unfold waiting. cbn. split; queue. Qed.
Example x_front : map (fun q => match q with (w, to, from, h) => option_map snd (is_front x_contract w to from h) end)
    [(x_w2, 10, 1, 100); (x_w2, 10, 1, 101); (x_w3, 10, 1, 100); (x_w3, 10, 1, 101); (x_w3, 11, 10, 201); (x_w3, 11, 10, 202); (x_w4, 11, 10, 201); (x_w4, 11, 10, 202); (x_w5, 10, 1, 100); (x_w5, 11, 10, 201)]
  = [Some true; Some false; Some false; Some true; Some true; Some false; Some true; Some false; Some true; Some false].
Proof. vm_compute. reflexivity. Qed.
Example x_fronts : map (fun q => option_map snd (fronts x_contract x_ord 1 (fst q) (snd q))) [(x_w2, 10); (x_w3, 10); (x_w3, 11); (x_w4, 11); (x_w5, 10); (x_w5, 11)]
  = [Some [100]; Some [101]; Some [201]; Some [201]; Some [100]; Some []].
Proof. vm_compute. reflexivity. Qed.

(** ** What does not hold *)
(** The listing can miss a caller: the set of callers is shared by all contracts, and loses a caller
    as soon as one contract has no more requests of the caller (storage.go:73-91).  Here account 1
    calls contracts 10 and 11, contract 10 receives; at contract 11 the request waits and would be
    accepted, but is not listed, until the next start or the next request. *)
Definition y_b2 := BSend 1 2 (Send 101 11).
Definition y_b3 := BRecv 10 1 200 100 [].
Definition y_w2 := Eval vm_compute in match x_run x_w1 [OBlock 0 y_b2] with Some w => w | None => x_empty end.
Definition y_w3 := Eval vm_compute in match x_run y_w2 [OBlock 0 y_b3] with Some w => w | None => x_empty end.
Theorem forgotten_caller_refuted : exists contract genesis pooled ord w to from h,
  orders ord /\ reach contract genesis pooled ord w /\ contract to = true /\ waiting (w_chain w) to from [h] /\
  option_map snd (is_front contract w to from h) = Some true /\ forall z, option_map snd (fronts contract ord z w to) = Some [].
Proof.
  exists x_contract, x_no, x_yes, x_ord, y_w3, 11, 1, 101. split; [exact x_orders|]. split.
  - assert (A : allowed x_contract x_no x_yes x_w1 (OBlock 0 y_b2)) by (cbn [allowed]; accept; reflexivity). pose proof x_reach1 as R. assert (R2 : reach x_contract x_no x_yes x_ord y_w2) by next R A y_w2.
    assert (A3 : allowed x_contract x_no x_yes y_w2 (OBlock 0 y_b3)).
    { cbn [allowed]. accept. split; [reflexivity|]. split; [intros []; reflexivity|]. split; [intros (a & n & x & subs & [H|[H|[]]]); discriminate|]. exists 1, (Send 100 10). split; [now left|auto]. }
    next R2 A3 y_w3.
  - split; [reflexivity|]. split; [unfold waiting; cbn; queue|]. split; [reflexivity|]. intros z. unfold fronts, x_ord. cbn. destruct (z =? 0); reflexivity.
Qed.
(** A contract of another group, which any account can create (vm/vm.go:299-302), disturbs the
    others: the loop over the contracts of a block ends at it (chain_events.go:56-59), so whether the
    contracts visited after it are updated depends on the order of a Go map.  Here contract 10
    receives the first request of account 1 and calls contract 20, which is not in the group: on one
    node the second request is next, on another the first, already received, still is, and the
    second is refused. *)
Definition z_pooled (a : Z) : bool := a <? 20.
Definition z_b3 := BRecv 10 1 200 100 [Send 201 20].
Theorem other_group_refuted : exists contract genesis pooled ord w b to from h w1 w2,
  orders ord /\ reach contract genesis pooled ord w /\ accepted contract genesis (fun _ => true) (w_chain w) b /\ pooled (b_addr b) = true /\
  insert contract genesis pooled ord 0 w b = Some w1 /\ insert contract genesis pooled ord 1 w b = Some w2 /\
  contract to = true /\ pooled to = true /\ waiting (w_chain w1) to from [h] /\ w_chain w1 = w_chain w2 /\
  option_map snd (is_front contract w1 to from h) = Some true /\ option_map snd (is_front contract w2 to from h) = Some false.
Proof.
  exists x_contract, x_no, z_pooled, x_ord, x_w2, z_b3, 10, 1, 101. eexists _, _. split; [exact x_orders|]. split; [|split].
  - assert (A : allowed x_contract x_no z_pooled x_empty (OBlock 0 x_b1)) by (cbn [allowed]; accept; reflexivity). pose proof (R_new x_contract x_no z_pooled x_ord) as R. assert (R1 : reach x_contract x_no z_pooled x_ord x_w1) by next R A x_w1.
    assert (A2 : allowed x_contract x_no z_pooled x_w1 (OBlock 1 x_b2)) by (cbn [allowed]; accept; reflexivity). next R1 A2 x_w2.
  - accept. split; [reflexivity|]. split; [reflexivity|]. split; [intros (a & n & x & subs & [H|[H|[]]]); discriminate|]. exists 1, (Send 100 10). split; [now left|auto].
  - split; [reflexivity|]. split; [vm_compute; reflexivity|]. split; [vm_compute; reflexivity|]. split; [reflexivity|]. split; [reflexivity|]. split; [|split; [reflexivity|split; vm_compute; reflexivity]]. unfold waiting. cbn. apply K_out; [intros [_ H]; apply H; exists 10, 1, 200, [Send 201 20]; right; right; now left|]. queue.
Qed.

Print Assumptions waiting_one.
Print Assumptions front_exact.
Print Assumptions front_account.
Print Assumptions turn_never_panics.
Print Assumptions turn_chain.
Print Assumptions fronts_sound.
Print Assumptions fronts_after_restart.
Print Assumptions fronts_after_send.
Print Assumptions forgotten_caller_refuted.
Print Assumptions other_group_refuted.
