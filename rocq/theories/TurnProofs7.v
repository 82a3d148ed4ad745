From Verif Require Import Lib.
From Verif Require RoadModel RoadProofs.
Import RoadProofs.
From Verif Require Import TurnModel TurnSpec TurnProofs TurnProofs2 TurnProofs3 TurnProofs4 TurnProofs5 TurnProofs6.
From Coq Require Import Permutation Sorted.
Import ListNotations.

Section Turn.
Context (contract genesis pooled : Z -> bool) (ord : Z -> forall A : Type, list A -> list A) (ORD : forall z A l, Permutation (ord z A l) l).
Notation wf := (wf contract genesis pooled). Notation owed := (owed contract). Notation db_ok := (db_ok contract). Notation inv := (inv contract genesis pooled). Notation queue := (queue contract). Notation head_is := (head_is contract).
Definition head (L : list blk) (to c : Z) : list Z := match queue L to c with (k, _) :: _ => [k_hash k] | [] => [] end.
Lemma head_in L to c h : In h (head L to c) <-> head_is L to c h = true.
Proof. unfold head, TurnProofs6.head_is. destruct (queue L to c) as [|[k i] r]; [split; [intros []|discriminate]|]. cbn. rewrite Z.eqb_eq. tauto. Qed.
Lemma callers_ok w to : inv w -> forall cs p, fine p -> db_ok (p_db p) (w_chain w) ->
  exists p' ts, all_lazy contract (w_chain w) p (filter (fun l => match l with [] => false | _ => true end) (map (first_txs (p_db (w_pool w)) to) cs)) = Some (p', ts) /\
    fine p' /\ db_ok (p_db p') (w_chain w) /\ p_callers p' = p_callers p /\ p_known p' = p_known p /\ map t_hash ts = flat_map (head (w_chain w) to) cs /\ forall t, In t ts -> exists i, In (t_key t, i) (owed (w_chain w)).
Proof.
  intros V. induction cs as [|c cs IH]; intros p F D; cbn [map filter flat_map].
  - exists p, []. cbn. repeat (split; [auto|]). intros t [].
  - destruct (first_good contract genesis pooled w to c V) as (n & G). destruct (lazy_ok contract genesis pooled (w_chain w) p c n (first_txs (p_db (w_pool w)) to c) (v_wf _ _ _ _ V) F D) as (p1 & o & E & F1 & D1 & C1 & K1 & R); [intros t T; apply (G t T)|].
    destruct (first_txs (p_db (w_pool w)) to c) as [|x l] eqn:FX.
    + unfold head at 1. rewrite (first_empty contract genesis pooled w to c V FX). exact (IH p F D).
    + cbn [all_lazy]. rewrite E. destruct (IH p1 F1 D1) as (p2 & ts & E2 & F2 & D2 & C2 & K2 & H & O). rewrite E2. destruct R as (t & i & -> & OT & KT & M). rewrite <- FX in KT, M. destruct (first_head contract genesis pooled w to c t i V OT KT M) as (r & Q). exists p2, (t :: ts). split; [reflexivity|]. split; [exact F2|]. split; [exact D2|]. split; [congruence|]. split; [congruence|]. split.
      * unfold head at 1. rewrite Q. cbn. now rewrite H.
      * intros u [<-|U]; [eauto|now apply O].
Qed.
Lemma heads_nodup L to : wf L -> forall cs, NoDup cs -> NoDup (flat_map (head L to) cs).
Proof.
  intros W. induction 1 as [|c cs N ND IH]; [constructor|]. cbn. unfold head at 1. destruct (queue L to c) as [|[k i] r] eqn:Q; [exact IH|]. cbn. constructor; [|exact IH]. intros X. apply in_flat_map in X. destruct X as (c' & C & X). unfold head in X. destruct (queue L to c') as [|[k' i'] r'] eqn:Q'; [destruct X|]. destruct X as [X|[]].
  assert (A : In (k, i) (queue L to c)) by (rewrite Q; now left). assert (B : In (k', i') (queue L to c')) by (rewrite Q'; now left). apply (queue_in contract) in A, B. destruct A as (A & _ & A2), B as (B & _ & B2). apply filter_In in A, B. pose proof (spot_one L k' i' k i (wf_hash _ _ _ _ W) (proj1 B) (proj1 A) X) as E. injection E as -> _. apply N. replace c with c' by congruence. exact C.
Qed.
Lemma fronts_ok z w to : inv w -> exists w' hs, fronts contract ord z w to = Some (w', hs) /\ inv w' /\ w_chain w' = w_chain w /\ p_callers (w_pool w') = p_callers (w_pool w) /\ NoDup hs /\
  forall h, In h hs <-> exists c, In c (p_callers (w_pool w)) /\ head_is (w_chain w) to c h = true.
Proof.
  intros V. unfold fronts. destruct (mem to (p_known (w_pool w))) eqn:K.
  - destruct (callers_ok w to V (ord z _ (p_callers (w_pool w))) (w_pool w) (v_fine _ _ _ _ V) (v_db _ _ _ _ V)) as (p' & ts & E & F & D & C & KN & H & O). rewrite E.
    assert (FT : forall l, (forall t, In t l -> In t ts) -> filter (fun h => match by_hash (w_chain w) h with Some _ => true | None => false end) (map t_hash l) = map t_hash l).
    { induction l as [|t l IH]; intros Q; [reflexivity|]. cbn [map filter]. destruct (O t (Q t (or_introl eq_refl))) as (i & I). apply filter_In in I. destruct (by_hash_ok contract genesis pooled (w_chain w) (t_key t) i (v_wf _ _ _ _ V) (proj1 I)) as (m & B & _). change (t_hash t) with (k_hash (t_key t)). rewrite B. f_equal. apply IH. intros u U. apply Q. now right. }
    eexists _, _. split; [reflexivity|]. split; [constructor; [exact (v_wf _ _ _ _ V)|exact F|exact D]|]. split; [reflexivity|]. split; [exact C|]. rewrite (FT ts (fun t T => T)), H. assert (P : Permutation (ord z _ (p_callers (w_pool w))) (p_callers (w_pool w))) by apply ORD. split.
    + apply (heads_nodup _ _ (v_wf _ _ _ _ V)). apply (Permutation_NoDup (Permutation_sym P)). exact (f_callers _ (v_fine _ _ _ _ V)).
    + intros h. rewrite in_flat_map. split; intros (c & I & Q); exists c; (split; [|now apply head_in]); [exact (Permutation_in _ P I)|exact (Permutation_in _ (Permutation_sym P) I)].
  - exists w, []. split; [reflexivity|]. split; [exact V|]. split; [reflexivity|]. split; [reflexivity|]. split; [constructor|]. intros h. split; [intros []|]. intros (c & _ & Q). unfold TurnProofs6.head_is in Q. rewrite (known_queue contract genesis pooled w to c V K) in Q. discriminate.
Qed.
(** ** Every history *)
Lemma step_ok w o : inv w -> allowed contract genesis pooled w o -> exists w', step contract genesis pooled ord w o = Some w' /\ inv w'.
Proof.
  intros V A. destruct o as [z b|z bs|z|to from h|z to]; cbn [step].
  - destruct (inv_insert contract genesis pooled ord ORD z w b V A) as (w' & E & V' & _). eauto.
  - destruct (inv_delete contract genesis pooled ord ORD z w bs V A) as (w' & E & V' & _). eauto.
  - eexists. split; [reflexivity|]. now apply (inv_restart contract genesis pooled ord ORD).
  - destruct (front_ok contract genesis pooled w to from h V) as (w' & E & V' & _). rewrite E. cbn. eauto.
  - destruct (fronts_ok z w to V) as (w' & hs & E & V' & _). rewrite E. cbn. eauto.
Qed.
Lemma reach_inv w : reach contract genesis pooled ord w -> inv w.
Proof.
  induction 1 as [|w o w' R IH A E]; [apply inv_new|]. destruct (step_ok w o IH A) as (w1 & E1 & V). congruence.
Qed.
Lemma waiting_head L to c l h : contract to = true -> waiting L to c l -> head_is L to c h = match l with x :: _ => x =? h | [] => false end.
Proof.
  intros C W. rewrite (keeps_one _ _ _ _ W (queue_waiting contract L to c C)). unfold TurnProofs6.head_is. now destruct (queue L to c) as [|[k i] r].
Qed.
Lemma ord1 z A (x : A) : ord z A [x] = [x].
Proof. apply Permutation_length_1_inv, Permutation_sym, ORD. Qed.
Lemma insert_send z w a n s w' : inv w -> accepted contract genesis pooled (w_chain w) (BSend a n s) -> contract (s_to s) = true -> insert contract genesis pooled ord z w (BSend a n s) = Some w' -> In a (p_callers (w_pool w')).
Proof.
  intros V A C. unfold insert, handle, unpaired. cbn [flat_map parts app fold_left]. unfold pair_off. cbn [RoadModel.get e_key]. cbn [RoadModel.put RoadModel.del filter map snd]. rewrite ord1. unfold by_owner. cbn [map e_owner nodup in_dec]. cbn [filter e_owner]. destruct (in_dec Z.eq_dec (s_to s) []) as [[]|_]. cbn [map]. rewrite Z.eqb_refl, ord1. cbn [groups]. rewrite C. cbn [negb].
  destruct A as (_ & _ & _ & _ & PO & K). rewrite sent_self in PO. rewrite (PO s (or_introl eq_refl) C). cbn [negb]. unfold pool_blocks. cbn [all_some on_road]. rewrite K. cbn [is_send]. rewrite ord1. cbn [acts act]. unfold act. cbn [fst snd Bool.eqb]. intros [= <-]. cbn. apply with_in. now left.
Qed.
End Turn.
