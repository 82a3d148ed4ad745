From Verif Require Import Lib.
From Verif Require RoadModel RoadProofs.
Import RoadProofs.
From Verif Require Import TurnModel TurnSpec.
From Coq Require Import Permutation Sorted.
Import ListNotations.

Lemma kkeq_ok a b : keq a b = true <-> a = b.
Proof. destruct a, b. unfold keq. cbn. rewrite andb_true_iff, !keq_ok. split; [intros [-> ->]; reflexivity|intros [= -> ->]; auto]. Qed.
Lemma mem_in x l : mem x l = true <-> In x l.
Proof. unfold mem. rewrite existsb_exists. split; [intros (y & A & B); apply Z.eqb_eq in B; now subst|intros A; exists x; now rewrite Z.eqb_refl]. Qed.
Lemma mem_not x l : mem x l = false <-> ~ In x l.
Proof. rewrite <- mem_in. now destruct (mem x l). Qed.
Lemma with_in x y l : In y (with_ x l) <-> y = x \/ In y l.
Proof. unfold with_. destruct (mem x l) eqn:E; [apply mem_in in E|]; cbn; split; intuition (subst; auto). Qed.
Lemma with_nodup x l : NoDup l -> NoDup (with_ x l).
Proof. intros N. unfold with_. destruct (mem x l) eqn:E; [exact N|]. constructor; [now apply mem_not|exact N]. Qed.

(** ** Pairs *)
Definition cls (E : list ent) (h : Z) : list ent := filter (fun e => e_key e =? h) E.
Definition shape (l : list ent) : Prop := match l with [] | [_] => True | [a; b] => is_send a <> is_send b | _ => False end.
Definition net (l : list ent) : option ent := match l with [e] => Some e | _ => None end.
Lemma shape_pre l e : shape (l ++ [e]) -> shape l.
Proof. destruct l as [|a [|b [|c r]]]; cbn; try tauto. Qed.
Lemma cls_app E e h : cls (E ++ [e]) h = if e_key e =? h then cls E h ++ [e] else cls E h.
Proof. unfold cls. rewrite filter_app. cbn. destruct (e_key e =? h); [reflexivity|apply app_nil_r]. Qed.
Lemma pair_get E : (forall h, shape (cls E h)) -> NoDup (map fst (fold_left pair_off E [])) /\ forall h, get Z.eqb (fold_left pair_off E []) h = net (cls E h).
Proof.
  induction E as [|e E IH] using rev_ind; [intros _; split; [constructor|reflexivity]|]. intros SH. destruct IH as [N G].
  { intros h. specialize (SH h). rewrite cls_app in SH. destruct (e_key e =? h); [now apply shape_pre in SH|exact SH]. }
  rewrite fold_left_app. cbn [fold_left]. set (m := fold_left pair_off E []) in *. unfold pair_off. pose proof (SH (e_key e)) as S1. rewrite cls_app, Z.eqb_refl in S1. rewrite G. destruct (cls E (e_key e)) as [|a [|b r]] eqn:C; cbn [net].
  - split; [now apply nodup_put; [exact zeq|]|]. intros h. rewrite (get_put _ zeq), cls_app. destruct (Z.eqb_spec (e_key e) h) as [<-|]; [now rewrite C|apply G].
  - cbn in S1. destruct (Bool.eqb (is_send a) (is_send e)) eqn:B; [apply Bool.eqb_prop in B; contradiction|]. split; [now apply nodup_del; [exact zeq|]|]. intros h. rewrite (get_del _ zeq), cls_app. destruct (Z.eqb_spec (e_key e) h) as [<-|]; [now rewrite C|apply G].
  - destruct r; cbn in S1; contradiction.
Qed.
Lemma net_in E e : net (cls E (e_key e)) = Some e -> In e E.
Proof. unfold net. destruct (cls E (e_key e)) as [|a [|b r]] eqn:C; try discriminate. intros [= ->]. assert (H : In e (cls E (e_key e))) by (rewrite C; now left). apply filter_In in H. tauto. Qed.
Lemma pair_in E e : (forall h, shape (cls E h)) -> (In e (map snd (fold_left pair_off E [])) <-> net (cls E (e_key e)) = Some e).
Proof.
  intros SH. destruct (pair_get E SH) as [N G]. split.
  - intros H. apply in_map_iff in H. destruct H as ((k & x) & A & B). cbn in A. subst x. pose proof (in_get _ zeq _ _ _ N B) as F. rewrite G in F. assert (K : e_key e = k).
    { unfold net in F. destruct (cls E k) as [|a [|b r]] eqn:C; try discriminate. injection F as ->. assert (H : In e (cls E k)) by (rewrite C; now left). apply filter_In in H. destruct H as [_ H]. now apply Z.eqb_eq in H. }
    now rewrite K.
  - intros F. rewrite <- G in F. apply (get_in _ zeq) in F. apply in_map_iff. now exists (e_key e, e).
Qed.
Lemma pair_keys E : (forall h, shape (cls E h)) -> NoDup (map e_key (map snd (fold_left pair_off E []))).
Proof.
  intros SH. destruct (pair_get E SH) as [N G]. set (m := fold_left pair_off E []) in *. replace (map e_key (map snd m)) with (map fst m); [exact N|]. rewrite map_map. apply map_ext_in. intros (k & x) B. cbn. pose proof (in_get _ zeq _ _ _ N B) as F. rewrite G in F. unfold net in F. destruct (cls E k) as [|a [|b r]] eqn:C; try discriminate. injection F as ->. assert (H : In x (cls E k)) by (rewrite C; now left). apply filter_In in H. destruct H as [_ H]. now apply Z.eqb_eq in H.
Qed.

(** ** Groups *)
Lemma split_perm {A} (q : A -> bool) l : Permutation (filter q l ++ filter (fun x => negb (q x)) l) l.
Proof. induction l as [|x l IH]; cbn; [constructor|]. destruct (q x); cbn; [now constructor|]. rewrite <- Permutation_middle. now constructor. Qed.
Lemma cover {A} (f : A -> Z) (D : list Z) : NoDup D -> forall es, (forall e, In e es -> In (f e) D) -> Permutation (flat_map (fun a => filter (fun e => f e =? a) es) D) es.
Proof.
  induction D as [|a D IH]; intros N es C; [destruct es as [|e r]; [constructor|destruct (C e); now left]|]. inversion_clear N as [|? ? NA ND]. cbn. transitivity (filter (fun e => f e =? a) es ++ filter (fun e => negb (f e =? a)) es); [|apply split_perm]. apply Permutation_app_head. rewrite <- (IH ND (filter (fun e => negb (f e =? a)) es)).
  - replace (flat_map (fun b => filter (fun e => f e =? b) (filter (fun e => negb (f e =? a)) es)) D) with (flat_map (fun b => filter (fun e => f e =? b) es) D); [reflexivity|]. clear - NA. induction D as [|b D IH]; [reflexivity|]. cbn. rewrite IH by (intros X; apply NA; now right). f_equal. assert (NE : b <> a) by (intros ->; apply NA; now left). clear - NE. induction es as [|e es IH]; [reflexivity|]. cbn. destruct (Z.eqb_spec (f e) b) as [E|E], (Z.eqb_spec (f e) a) as [F|F]; cbn; try (subst; contradiction); rewrite ?IH; [apply Z.eqb_eq in E; now rewrite E|reflexivity|]. destruct (Z.eqb_spec (f e) b); [contradiction|reflexivity].
  - intros e H. apply filter_In in H. destruct H as [H F]. destruct (C e H) as [Q|X]; [cbn in F; rewrite <- Q, Z.eqb_refl in F; discriminate|exact X].
Qed.
Lemma owner_perm es : Permutation (concat (map snd (by_owner es))) es.
Proof.
  unfold by_owner. rewrite map_map. cbn [snd]. rewrite <- flat_map_concat_map. apply cover; [apply NoDup_nodup|]. intros e H. apply nodup_In. now apply in_map.
Qed.
Lemma perm_concat {A} (l r : list (list A)) : Permutation l r -> Permutation (concat l) (concat r).
Proof. induction 1; cbn; [constructor|now apply Permutation_app_head|rewrite !app_assoc; apply Permutation_app_tail, Permutation_app_comm|etransitivity; eauto]. Qed.

(** ** The acts of the pool *)
Lemma acts_app add : forall l p r, acts add p (l ++ r) = match acts add p l with Some p' => acts add p' r | None => None end.
Proof. induction l as [|x l IH]; intros p r; cbn; [reflexivity|]. destruct (act add p x); [apply IH|reflexivity]. Qed.
Record fine (p : pool) : Prop := { f_keys : NoDup (map fst (p_db p)); f_known : forall k, get keq (p_db p) k <> None -> In (fst (fst k)) (p_known p); f_callers : NoDup (p_callers p) }.
Lemma acts_ok add : forall l p, fine p -> NoDup (map (fun x => t_key (snd x)) l) ->
  (forall x, In x l -> Bool.eqb (fst x) add = false -> get keq (p_db p) (t_key (snd x)) <> None) ->
  exists p', acts add p l = Some p' /\ fine p' /\
    (forall x, In x l -> get keq (p_db p') (t_key (snd x)) = if Bool.eqb (fst x) add then Some (t_index (snd x)) else None) /\
    (forall k, ~ In k (map (fun x => t_key (snd x)) l) -> get keq (p_db p') k = get keq (p_db p) k).
Proof.
  induction l as [|x l IH]; intros p F N H; cbn [acts].
  { exists p. split; [reflexivity|]. split; [exact F|]. split; [intros x []|reflexivity]. }
  cbn in N. inversion_clear N as [|? ? NX NL]. assert (STEP : exists p1, act add p x = Some p1 /\ fine p1 /\ get keq (p_db p1) (t_key (snd x)) = (if Bool.eqb (fst x) add then Some (t_index (snd x)) else None) /\ forall k, k <> t_key (snd x) -> get keq (p_db p1) k = get keq (p_db p) k).
  { unfold act. destruct (Bool.eqb (fst x) add) eqn:B.
    - eexists. split; [reflexivity|]. unfold insert_tx. cbn [p_db p_callers p_known]. split; [|split].
      + destruct F as [K W C]. constructor; cbn [p_db p_callers p_known].
        * exact (nodup_put _ kkeq_ok (p_db p) (t_key (snd x)) (t_index (snd x)) K).
        * intros k G. rewrite with_in. destruct (keq (t_key (snd x)) k) eqn:E; [apply kkeq_ok in E; subst k; now left|]. right. apply W. rewrite (get_put _ kkeq_ok), E in G. exact G.
        * now apply with_nodup.
      + now rewrite (get_put _ kkeq_ok), (eqb_refl _ kkeq_ok).
      + intros k NE. rewrite (get_put _ kkeq_ok), (eqb_no _ kkeq_ok) by congruence. reflexivity.
    - unfold delete_tx. pose proof (f_known _ F _ (H x (or_introl eq_refl) B)) as W. rewrite (proj2 (mem_in (t_to (snd x)) (p_known p)) W). eexists. split; [reflexivity|]. cbn. split; [|split].
      + destruct F as [K W' C]. constructor; cbn.
        * exact (nodup_del _ kkeq_ok (p_db p) (t_key (snd x)) K).
        * intros k G. apply W'. rewrite (get_del _ kkeq_ok) in G. now destruct (keq (t_key (snd x)) k).
        * destruct (first_txs _ _ _); [|exact C]. unfold minus. now apply NoDup_filter.
      + rewrite (get_del _ kkeq_ok). now rewrite (eqb_refl _ kkeq_ok).
      + intros k NE. rewrite (get_del _ kkeq_ok), (eqb_no _ kkeq_ok) by congruence. reflexivity. }
  destruct STEP as (p1 & A1 & F1 & G1 & O1). rewrite A1. destruct (IH p1 F1 NL) as (p' & A & F' & G & O).
  { intros y Y B. rewrite O1; [now apply H; [right|]|]. intros E. apply NX. rewrite <- E. apply in_map_iff. now exists y. }
  exists p'. split; [exact A|]. split; [exact F'|]. split.
  - intros y [<-|Y]; [|now apply G]. rewrite O by exact NX. exact G1.
  - intros k NK. rewrite O by (intros X; apply NK; now right). apply O1. intros ->. apply NK. now left.
Qed.
