From Verif Require Import Lib.
From Verif Require RoadModel RoadProofs.
Import RoadProofs.
From Verif Require Import TurnModel TurnSpec TurnProofs TurnProofs2.
From Coq Require Import Permutation Sorted.
Import ListNotations.

Section Turn.
Context (contract genesis pooled : Z -> bool) (ord : Z -> forall A : Type, list A -> list A) (ORD : forall z A l, Permutation (ord z A l) l).
Notation parts := (parts contract genesis). Notation unpaired := (unpaired contract genesis ord).
Notation on_road := (on_road contract). Notation wf := (wf contract genesis pooled). Notation owed := (owed contract).

(** ** The loops are acts *)
Definition road (L : list blk) (e : ent) : tx := match on_road L e with Some t => t | None => Tx ((0, 0), (0, 0)) None end.
Definition deed (L : list blk) (e : ent) : bool * tx := (is_send e, road L e).
Definition mine (es : list ent) : list ent := filter (fun e => contract (e_owner e)) es.
Lemma all_ok L es : (forall e, In e es -> on_road L e <> None) ->
  all_some (fun e => match on_road L e with Some t => Some (is_send e, t) | None => None end) es = Some (map (deed L) es).
Proof.
  induction es as [|e es IH]; [reflexivity|]. intros H. cbn [all_some map]. rewrite IH by (intros x X; apply H; now right). destruct (on_road L e) as [t|] eqn:E; [|now destruct (H e (or_introl eq_refl))]. assert (D : deed L e = (is_send e, t)) by (unfold deed, road; now rewrite E). now rewrite D.
Qed.
Definition deeds (z : Z) (L : list blk) (gs : list (Z * list ent)) : list (bool * tx) := concat (map (fun g => if contract (fst g) then ord z _ (map (deed L) (snd g)) else []) gs).
Lemma deeds_perm z L gs : (forall a es e, In (a, es) gs -> In e es -> e_owner e = a) -> Permutation (deeds z L gs) (map (deed L) (mine (concat (map snd gs)))).
Proof.
  induction gs as [|[a es] gs IH]; intros HO; [constructor|]. unfold deeds, mine. cbn [map concat fst snd]. rewrite filter_app, map_app. apply Permutation_app; [|apply IH; intros; eapply HO; [right|]; eassumption].
  assert (OW : forall e, In e es -> e_owner e = a) by (intros e E; eapply HO; [now left|exact E]). destruct (contract a) eqn:CA.
  - rewrite ORD. replace (filter (fun e => contract (e_owner e)) es) with es; [reflexivity|]. clear - OW CA. induction es as [|e es IH]; [reflexivity|]. cbn. rewrite (OW e (or_introl eq_refl)), CA. f_equal. apply IH. intros x X. apply OW. now right.
  - replace (filter (fun e => contract (e_owner e)) es) with (@nil ent); [constructor|]. clear - OW CA. induction es as [|e es IH]; [reflexivity|]. cbn. rewrite (OW e (or_introl eq_refl)), CA. apply IH. intros x X. apply OW. now right.
Qed.
Lemma groups_acts z add L : forall gs p, (forall a es, In (a, es) gs -> contract a = true -> pooled a = true) ->
  (forall a es e, In (a, es) gs -> In e es -> contract a = true -> on_road L e <> None) ->
  groups contract pooled ord z add L p gs = acts add p (deeds z L gs).
Proof.
  induction gs as [|[a es] gs IH]; intros p HP HR; [reflexivity|]. unfold deeds. cbn [groups map concat fst snd]. fold (deeds z L gs).
  assert (IH' : forall p', groups contract pooled ord z add L p' gs = acts add p' (deeds z L gs)) by (intros p'; apply IH; [intros; eapply HP; [right|]; eassumption|intros; eapply HR; [right| |]; eassumption]). destruct (contract a) eqn:CA; cbn [negb]; [|apply IH'].
  rewrite (HP a es (or_introl eq_refl) CA). cbn [negb]. unfold pool_blocks. rewrite all_ok by (intros e E; eapply HR; [now left|exact E|exact CA]). rewrite acts_app. destruct (acts add p _); [apply IH'|reflexivity].
Qed.

(** ** The blocks of a part of the chain *)
Lemma taken_app A B : taken (A ++ B) = taken A ++ taken B. Proof. apply flat_map_app. Qed.
Lemma taken_in L f : In f (taken L) <-> exists a n x subs, In (BRecv a n x f subs) L.
Proof.
  unfold taken. rewrite in_flat_map. split.
  - intros (b & B & H). destruct b as [|a n x g subs]; [destruct H|]. destruct H as [<-|[]]. eauto.
  - intros (a & n & x & subs & H). eexists. split; [exact H|now left].
Qed.
Lemma part_in M b e : wf M -> In b M -> In e (parts b) ->
  match e with ESend a n s => In s (sends_of b) | ERecv a f => exists n x subs, b = BRecv a n x f subs end.
Proof.
  intros W B H. destruct b as [a n s|a n x f subs]; cbn in H.
  - destruct H as [<-|[]]. now left.
  - destruct (genesis x); [destruct H|]. destruct H as [<-|H]; [eauto|]. destruct (contract a); [|destruct H]. apply in_map_iff in H. destruct H as (s & <- & S1). exact S1.
Qed.
Lemma in_part_send M b s : wf M -> In b M -> In s (sends_of b) -> exists a n, In (ESend a n s) (parts b).
Proof.
  intros W B S1. pose proof (wf_kind _ _ _ _ W b B) as K. destruct b as [a n t|a n x f subs]; cbn in S1, K.
  - destruct S1 as [<-|[]]. exists a, n. now left.
  - destruct K as [K1 K2]. exists a, 0. cbn. rewrite K1, (K2 ltac:(intros ->; destruct S1)). right. now apply in_map.
Qed.
Lemma in_part_recv M a n x f subs : wf M -> In (BRecv a n x f subs) M -> In (ERecv a f) (parts (BRecv a n x f subs)).
Proof. intros W B. destruct (wf_kind _ _ _ _ W _ B) as [K _]. cbn. rewrite K. now left. Qed.
Lemma cls_flat bs h : cls (flat_map parts bs) h = flat_map (fun b => cls (parts b) h) bs.
Proof. unfold cls. induction bs as [|b bs IH]; [reflexivity|]. cbn. now rewrite filter_app, IH. Qed.
(** In a chain each hash is sent once and received once. *)
Lemma one_send M h : wf M -> forall l r e e', cls (flat_map parts M) h = l ++ e :: r -> In e' (l ++ r) -> is_send e = is_send e' -> False.
Proof.
  intros W. assert (ONE : forall b, In b M -> forall e e', In e (parts b) -> In e' (parts b) -> e_key e = e_key e' -> is_send e = is_send e' -> e = e').
  { intros b B e e' E E' K I. pose proof (part_in M b e W B E) as P. pose proof (part_in M b e' W B E') as P'. destruct e as [a n s|a f], e' as [a' n' s'|a' f']; try discriminate; cbn in K.
    - pose proof (hs_sends _ (block_nodup _ _ (wf_hash _ _ _ _ W) B)) as ND. assert (s = s').
      { clear - ND P P' K. induction (sends_of b) as [|u l IH]; [destruct P|]. cbn in ND. inversion_clear ND as [|? ? X Y]. destruct P as [->|P], P' as [->|P']; [reflexivity| | |auto]; destruct X; [rewrite K|rewrite <- K]; now apply in_map. }
      subst s'. destruct b as [a0 n0 s0|a0 n0 x0 f0 subs0]; cbn in E, E'.
      + destruct E as [[= <- <- <-]|[]], E' as [[= <- <-]|[]]. reflexivity.
      + destruct (genesis x0); [destruct E|]. destruct E as [E|E]; [discriminate|]. destruct E' as [E'|E']; [discriminate|]. destruct (contract a0); [|destruct E]. apply in_map_iff in E, E'. destruct E as (? & [= <- <- <-] & _), E' as (? & [= <- <- _] & _). reflexivity.
    - destruct P as (n & x & subs & ->), P' as (n' & x' & subs' & [= <- <- <- <- <-]). reflexivity. }
  assert (NB : forall b, In b M -> forall h, forall l r e e', cls (parts b) h = l ++ e :: r -> In e' (l ++ r) -> is_send e = is_send e' -> False).
  { intros b B h0 l r e e' C I S1. assert (ND : NoDup (parts b)).
    { pose proof (hs_sends _ (block_nodup _ _ (wf_hash _ _ _ _ W) B)) as ND. destruct b as [a0 n0 s0|a0 n0 x0 f0 subs0]; cbn; [constructor; [intros []|constructor]|]. destruct (genesis x0); [constructor|]. constructor.
      - destruct (contract a0); [|intros []]. intros X. apply in_map_iff in X. destruct X as (? & X & _). discriminate.
      - destruct (contract a0); [|constructor]. cbn in ND. clear - ND. induction subs0 as [|s l IH]; [constructor|]. cbn in ND. inversion_clear ND as [|? ? X Y]. constructor; [|now apply IH]. intros Q. apply in_map_iff in Q. destruct Q as (t & [= ->] & T). apply X. now apply in_map. }
    assert (NC : NoDup (cls (parts b) h0)) by (unfold cls; now apply NoDup_filter). rewrite C in NC. apply NoDup_remove_2 in NC. assert (E1 : In e (cls (parts b) h0)) by (rewrite C; apply in_or_app; right; now left). assert (E2 : In e' (cls (parts b) h0)) by (rewrite C; apply in_or_app; apply in_app_or in I; destruct I; [now left|right; now right]). apply filter_In in E1, E2. destruct E1 as [E1 K1], E2 as [E2 K2]. apply Z.eqb_eq in K1, K2. assert (e = e') by (apply (ONE b B); [exact E1|exact E2|congruence|exact S1]). subst e'. contradiction. }
  rewrite cls_flat. intros l r e e' C I S1.
  assert (X : exists b b' , In b M /\ In b' M /\ In e (cls (parts b) h) /\ In e' (cls (parts b') h) /\ b <> b').
  { assert (NM : NoDup M).
    { pose proof (wf_hash _ _ _ _ W) as N. clear - N. induction M as [|b M IH]; [constructor|]. rewrite hashes_hs in N. cbn in N. constructor; [|apply IH; now apply nodup_app_r' in N]. intros X. apply (nodup_app_ht _ _ (b_hash b) N); [apply hs_head|]. apply in_flat_map. exists b. split; [exact X|apply hs_head]. }
    clear W ONE. revert l r C I. induction M as [|b M IH]; intros l r C I; [destruct l; discriminate|]. cbn in C. inversion_clear NM as [|? ? NX NM']. assert (SP : (exists r', cls (parts b) h = l ++ e :: r' /\ r = r' ++ flat_map (fun b => cls (parts b) h) M) \/ (exists l', l = cls (parts b) h ++ l' /\ flat_map (fun b => cls (parts b) h) M = l' ++ e :: r)).
    { clear - C. revert l C. induction (cls (parts b) h) as [|y Y IHY]; intros l C; [right; exists l; auto|]. destruct l as [|x l]; cbn in C.
      - injection C as -> C. left. exists Y. auto.
      - injection C as -> C. destruct (IHY l C) as [(r' & A & B)|(l' & A & B)]; [left; exists r'|right; exists l']; split; auto; cbn; now rewrite A. }
    destruct SP as [(r' & A & ->)|(l' & -> & B)].
    - rewrite app_assoc in I. apply in_app_or in I. destruct I as [I|I]; [exfalso; exact (NB b (or_introl eq_refl) h l r' e e' A I S1)|]. apply in_flat_map in I. destruct I as (b' & B' & I). exists b, b'. split; [now left|]. split; [now right|]. split; [rewrite A; apply in_or_app; right; now left|]. split; [exact I|]. intros ->. contradiction.
    - rewrite <- app_assoc in I. apply in_app_or in I. destruct I as [I|I].
      + assert (EM : In e (flat_map (fun b => cls (parts b) h) M)) by (rewrite B; apply in_or_app; right; now left). apply in_flat_map in EM. destruct EM as (b' & B' & EM). exists b', b. split; [now right|]. split; [now left|]. split; [exact EM|]. split; [exact I|]. intros ->. contradiction.
      + destruct (IH ltac:(intros; eapply NB; [right; eassumption|eassumption..]) NM' l' r B I) as (b1 & b2 & B1 & B2 & Q). exists b1, b2. split; [now right|]. split; [now right|exact Q]. }
  destruct X as (b & b' & B & B' & E1 & E2 & NE). apply filter_In in E1, E2. destruct E1 as [E1 K1], E2 as [E2 K2]. apply Z.eqb_eq in K1, K2. pose proof (part_in M b e W B E1) as P. pose proof (part_in M b' e' W B' E2) as P'. destruct e as [a n s|a f], e' as [a' n' s'|a' f']; try discriminate; cbn in K1, K2.
  - apply NE. apply (same_block M h b b' (wf_hash _ _ _ _ W) B B'); [rewrite <- K1|rewrite <- K2]; now apply hs_send.
  - destruct P as (n & x & subs & ->), P' as (n' & x' & subs' & ->). subst f f'. pose proof (wf_taken _ _ _ _ W) as N. apply NE. clear - N B B'. unfold taken in N. induction M as [|c M IH]; [destruct B|]. cbn in N. destruct B as [->|B], B' as [->|B'].
    + reflexivity.
    + exfalso. apply (nodup_app_ht _ _ h N); [now left|]. apply in_flat_map. eexists. split; [exact B'|now left].
    + exfalso. apply (nodup_app_ht _ _ h N); [now left|]. apply in_flat_map. eexists. split; [exact B|now left].
    + apply IH; auto. now apply nodup_app_r' in N.
Qed.
End Turn.
