From Verif Require Import Lib.
From Verif Require RoadModel RoadProofs.
Import RoadProofs.
From Verif Require Import TurnModel TurnSpec TurnProofs TurnProofs2 TurnProofs3 TurnProofs4.
From Coq Require Import Permutation Sorted.
Import ListNotations.

(** ** Growing and shrinking chains *)
Lemma sorted_app {A} (Q : A -> A -> Prop) l x : StronglySorted Q l -> (forall y, In y l -> Q y x) -> StronglySorted Q (l ++ [x]).
Proof.
  induction 1 as [|y l SS IH F]; intros H; cbn; [constructor; constructor|]. constructor; [apply IH; intros z Z; apply H; now right|]. apply Forall_app. split; [exact F|]. constructor; [apply H; now left|constructor].
Qed.
Lemma sorted_filter {A} (Q : A -> A -> Prop) (q : A -> bool) l : StronglySorted Q l -> StronglySorted Q (filter q l).
Proof.
  induction 1 as [|y l SS IH F]; [constructor|]. cbn. destruct (q y); [|exact IH]. constructor; [exact IH|]. apply Forall_forall. intros z Z. apply filter_In in Z. rewrite Forall_forall in F. now apply F.
Qed.
Lemma nodup_flat_filter {A B} (f : A -> list B) (q : A -> bool) l : NoDup (flat_map f l) -> NoDup (flat_map f (filter q l)).
Proof.
  intros N. assert (P : Permutation (flat_map f l) (flat_map f (filter q l) ++ flat_map f (filter (fun x => negb (q x)) l))) by (rewrite <- flat_map_app; apply Permutation_sym, perm_flat, split_perm). apply (Permutation_NoDup P) in N. now apply nodup_app_l in N.
Qed.
Lemma sent_self b : sent [b] (b_addr b) = sends_of b.
Proof. unfold sent. cbn. rewrite Z.eqb_refl, app_nil_r. now destruct b. Qed.
Lemma sent_in L c s : In s (sent L c) <-> exists b, In b L /\ b_addr b = c /\ In s (sends_of b).
Proof.
  unfold sent. rewrite in_flat_map. split.
  - intros (b & B & H). destruct (Z.eqb_spec (b_addr b) c) as [E|]; [|destruct H]. exists b. split; [exact B|]. split; [exact E|]. now destruct b.
  - intros (b & B & E & H). exists b. split; [exact B|]. subst c. rewrite Z.eqb_refl. now destruct b.
Qed.
Lemma received_taken L f : received L f <-> In f (taken L).
Proof. rewrite taken_in. reflexivity. Qed.

Section Turn.
Context (contract genesis pooled : Z -> bool) (ord : Z -> forall A : Type, list A -> list A) (ORD : forall z A l, Permutation (ord z A l) l).
Notation wf := (wf contract genesis pooled). Notation owed := (owed contract).
Lemma wf_insert L b : wf L -> accepted contract genesis pooled L b -> wf (L ++ [b]).
Proof.
  intros W (N & F & H1 & HH & PO & K). rewrite sent_self in PO. constructor.
  - rewrite hashes_hs, flat_map_app. pose proof (wf_hash _ _ _ _ W) as NL. change (forall h, In h (flat_map hs [b]) -> ~ In h (flat_map hs L)) in F. rewrite hashes_hs in N, NL. revert NL N F. generalize (flat_map hs L) (flat_map hs [b]). clear. intros l r NL NR D. induction l as [|x l IH]; [exact NR|]. inversion_clear NL as [|? ? X Y]. cbn. constructor; [|apply IH; [exact Y|intros h H Q; apply (D h H); now right]]. intros Q. apply in_app_or in Q. destruct Q as [Q|Q]; [contradiction|]. apply (D x Q). now left.
  - intros c C. apply in_app_or in C. destruct C as [C|[<-|[]]]; [exact (wf_high _ _ _ _ W c C)|exact H1].
  - apply sorted_app; [exact (wf_order _ _ _ _ W)|]. intros c C. exact (HH c C).
  - intros c C. apply in_app_or in C. destruct C as [C|[<-|[]]]; [exact (wf_kind _ _ _ _ W c C)|]. destruct b; [exact K|]. cbn. tauto.
  - intros a n x f subs C. apply in_app_or in C. destruct C as [C|[->|[]]].
    + destruct (wf_from _ _ _ _ W _ _ _ _ _ C) as (c & s & I & Q). exists c, s. split; [apply in_or_app; now left|exact Q].
    + destruct K as (_ & _ & _ & c & s & I & Q). apply sent_in in I. destruct I as (c' & I & _ & I2). exists c', s. split; [apply in_or_app; now left|tauto].
  - rewrite taken_app. pose proof (wf_taken _ _ _ _ W) as NT. destruct b as [|a n x f subs]; [cbn; now rewrite app_nil_r|]. destruct K as (_ & _ & K & _). rewrite received_taken in K. cbn [taken flat_map app]. apply (Permutation_NoDup (Permutation_cons_append _ _)). constructor; assumption.
  - intros c s C I. apply in_app_or in C. destruct C as [C|[<-|[]]]; [exact (wf_pool _ _ _ _ W c s C I)|now apply PO].
Qed.
Lemma wf_filter L q : wf L -> (forall a n x f subs c s, In (BRecv a n x f subs) L -> q (BRecv a n x f subs) = true -> In c L -> In s (sends_of c) -> s_hash s = f -> q c = true) -> wf (filter q L).
Proof.
  intros W H. constructor.
  - rewrite hashes_hs. apply nodup_flat_filter. rewrite <- hashes_hs. exact (wf_hash _ _ _ _ W).
  - intros c C. apply filter_In in C. now apply (wf_high _ _ _ _ W).
  - apply sorted_filter, (wf_order _ _ _ _ W).
  - intros c C. apply filter_In in C. now apply (wf_kind _ _ _ _ W).
  - intros a n x f subs C. apply filter_In in C. destruct C as [C Q]. destruct (wf_from _ _ _ _ W _ _ _ _ _ C) as (c & s & I & S1 & E & T). exists c, s. split; [|auto]. apply filter_In. split; [exact I|]. eapply H; eassumption.
  - apply (nodup_flat_filter _ _ _ (wf_taken _ _ _ _ W)).
  - intros c s C. apply filter_In in C. now apply (wf_pool _ _ _ _ W).
Qed.
Lemma gone_iff L bs b : wf L -> incl bs L -> In b L -> (existsb (fun c => b_hash c =? b_hash b) bs = true <-> In b bs).
Proof.
  intros W I B. rewrite existsb_exists. split.
  - intros (c & C & E). apply Z.eqb_eq in E. assert (c = b); [|now subst]. apply (same_block L (b_hash b) c b (wf_hash _ _ _ _ W) (I c C) B); [rewrite <- E|]; apply hs_head.
  - intros H. exists b. now rewrite Z.eqb_refl.
Qed.
Lemma nodup_chain L : wf L -> NoDup L.
Proof.
  intros W. pose proof (wf_hash _ _ _ _ W) as N. clear - N. induction L as [|b M IH]; [constructor|]. rewrite hashes_hs in N. cbn in N. constructor; [|apply IH; now apply nodup_app_r' in N]. intros X. apply (nodup_app_ht _ _ (b_hash b) N); [apply hs_head|]. apply in_flat_map. exists b. split; [exact X|apply hs_head].
Qed.
Lemma without_perm L bs : wf L -> NoDup bs -> incl bs L -> Permutation L (bs ++ without L bs).
Proof.
  intros W N I. apply Permutation_sym. eapply Permutation_trans; [|exact (split_perm (fun b => existsb (fun c => b_hash c =? b_hash b) bs) L)]. apply Permutation_app; [|reflexivity]. apply Permutation_sym, NoDup_Permutation; [apply NoDup_filter, nodup_chain, W|exact N|]. intros b. rewrite filter_In. split.
  - intros [B E]. now apply (gone_iff L).
  - intros B. split; [now apply I|]. apply (gone_iff L); auto.
Qed.
Lemma wf_delete w z bs : wf (w_chain w) -> allowed contract genesis pooled w (ODelete z bs) -> wf (without (w_chain w) bs).
Proof.
  intros W (N & I & C). apply wf_filter; [exact W|]. intros a n x f subs c s R Q CL S1 E. apply negb_true_iff. apply negb_true_iff in Q. destruct (existsb (fun c0 => b_hash c0 =? b_hash c) bs) eqn:X; [|reflexivity]. apply (gone_iff (w_chain w) bs c W I CL) in X. subst f. specialize (C c s X ltac:(rewrite sent_self; exact S1) _ _ _ _ R). apply (gone_iff (w_chain w) bs _ W I R) in C. congruence.
Qed.

(** ** What the database holds *)
Definition db_ok (D : db) (L : list blk) : Prop := forall k,
  match get keq D k with
  | Some v => exists i, In (k, i) (owed L) /\ (v = Some i \/ v = None /\ contract (k_from k) = true)
  | None => forall i, ~ In (k, i) (owed L)
  end.
Record inv (w : world) : Prop := { v_wf : wf (w_chain w); v_fine : fine (w_pool w); v_db : db_ok (p_db (w_pool w)) (w_chain w) }.
Lemma inv_new : inv (World [] (Pool [] [] [])).
Proof.
  constructor; [|constructor|]; cbn.
  - constructor; cbn; try (intros; contradiction); constructor.
  - constructor.
  - intros k H. contradiction.
  - constructor.
  - intros k i [].
Qed.
Lemma owed_one L k i j : wf L -> In (k, i) (owed L) -> In (k, j) (owed L) -> i = j.
Proof. intros W A B. apply filter_In in A, B. pose proof (spot_one L k i k j (wf_hash _ _ _ _ W) (proj1 A) (proj1 B) eq_refl) as E. congruence. Qed.
Lemma key_dec (k : key) l : In k l \/ ~ In k l.
Proof.
  destruct (existsb (keq k) l) eqn:E.
  - left. apply existsb_exists in E. destruct E as (x & X & E). apply kkeq_ok in E. now subst.
  - right. intros H. assert (T : existsb (keq k) l = true) by (apply existsb_exists; exists k; split; [exact H|now apply kkeq_ok]). congruence.
Qed.
Lemma move_ok z add M bs R p : wf M -> wf R -> Permutation M (bs ++ R) -> fine p -> db_ok (p_db p) (if add : bool then R else M) ->
  exists p', handle contract genesis pooled ord z add M p bs = Some p' /\ fine p' /\ db_ok (p_db p') (if add then M else R).
Proof.
  intros WM WR PM F D. destruct (handle_ok contract genesis pooled ord ORD M bs R WM WR PM z add p) as (l & HA & ND & IN & OUT).
  assert (HAS : forall k i, In (k, i) (owed (if add then R else M)) -> get keq (p_db p) k <> None).
  { intros k i H Q. specialize (D k). rewrite Q in D. exact (D i H). }
  destruct (acts_ok add l p F ND) as (p' & A & F' & G & O).
  { intros [s t] X B. cbn in *. destruct (IN s t X) as (i & _ & C). destruct s, add; try discriminate; destruct C as [C _]; exact (HAS _ _ C). }
  exists p'. split; [now rewrite HA|]. split; [exact F'|]. intros k. destruct (key_dec k (map (fun x => t_key (snd x)) l)) as [K|K].
  - apply in_map_iff in K. destruct K as ([s t] & <- & X). specialize (G _ X). cbn [fst snd] in *. rewrite G. destruct (IN s t X) as (i & E & C). destruct s, add; cbn [Bool.eqb]; destruct C as [C1 C2].
    + exists i. split; [exact C1|]. left. exact E.
    + exact C2.
    + exact C2.
    + exists i. split; [exact C1|]. left. exact E.
  - rewrite (O k K). specialize (D k). destruct (get keq (p_db p) k) as [v|].
    + destruct D as (i & I & V). exists i. split; [|exact V]. destruct add; now apply (OUT k i K).
    + intros i I. apply (D i). destruct add; now apply (OUT k i K).
Qed.
Lemma inv_insert z w b : inv w -> accepted contract genesis pooled (w_chain w) b -> exists w', insert contract genesis pooled ord z w b = Some w' /\ inv w' /\ w_chain w' = w_chain w ++ [b].
Proof.
  intros V A. pose proof (wf_insert _ _ (v_wf _ V) A) as W. destruct (move_ok z true (w_chain w ++ [b]) [b] (w_chain w) (w_pool w) W (v_wf _ V)) as (p' & H & F & D); [apply Permutation_app_comm|exact (v_fine _ V)|exact (v_db _ V)|].
  unfold insert. rewrite H. eexists. split; [reflexivity|]. split; [|reflexivity]. now constructor.
Qed.
Lemma inv_delete z w bs : inv w -> allowed contract genesis pooled w (ODelete z bs) -> exists w', delete contract genesis pooled ord z w bs = Some w' /\ inv w' /\ w_chain w' = without (w_chain w) bs.
Proof.
  intros V A. pose proof (wf_delete w z bs (v_wf _ V) A) as W. destruct A as (N & I & _). destruct (move_ok z false (w_chain w) bs (without (w_chain w) bs) (w_pool w) (v_wf _ V) W) as (p' & H & F & D); [now apply without_perm; [exact (v_wf _ V)|..]|exact (v_fine _ V)|exact (v_db _ V)|].
  unfold delete. rewrite H. eexists. split; [reflexivity|]. split; [|reflexivity]. now constructor.
Qed.

(** ** A start *)
Lemma fine_insert p t : fine p -> fine (insert_tx p t).
Proof.
  intros [K W C]. unfold insert_tx. constructor; cbn [p_db p_callers p_known].
  - exact (nodup_put _ kkeq_ok (p_db p) (t_key t) (t_index t) K).
  - intros k G. rewrite with_in. destruct (keq (t_key t) k) eqn:E; [apply kkeq_ok in E; subst k; now left|]. right. apply W. rewrite (get_put _ kkeq_ok), E in G. exact G.
  - now apply with_nodup.
Qed.
Definition entry (L : list blk) (s : send) : tx :=
  match complete L (s_hash s) with Some b => Tx ((s_to s, b_addr b), (b_height b, s_hash s)) (if contract (b_addr b) then None else Some 0) | None => Tx ((0, 0), (0, 0)) None end.
Lemma load_ok L : forall ss p, (forall s, In s ss -> complete L (s_hash s) <> None) -> fine p ->
  let p' := fold_left (init_add contract L) ss p in fine p' /\ incl (p_callers p) (p_callers p') /\ (forall s, In s ss -> In (t_from (entry L s)) (p_callers p')) /\
  forall k, match get keq (p_db p') k with Some v => (exists s, In s ss /\ entry L s = Tx k v) \/ get keq (p_db p) k = Some v | None => get keq (p_db p) k = None /\ forall s, In s ss -> t_key (entry L s) <> k end.
Proof.
  induction ss as [|s ss IH]; intros p H F; cbn [fold_left].
  - split; [exact F|]. split; [intros x X; exact X|]. split; [intros s []|]. intros k. destruct (get keq (p_db p) k); [now right|]. split; [reflexivity|intros s []].
  - assert (E : init_add contract L p s = insert_tx p (entry L s)) by (unfold init_add, entry; specialize (H s (or_introl eq_refl)); destruct (complete L (s_hash s)); [reflexivity|contradiction]). rewrite E. destruct (IH (insert_tx p (entry L s)) ltac:(intros; apply H; now right) (fine_insert _ _ F)) as (F' & IC & FC & G). split; [exact F'|]. split; [|split].
    + intros x X. apply IC. unfold insert_tx. cbn. apply with_in. now right.
    + intros t [<-|T]; [|now apply FC]. apply IC. unfold insert_tx. cbn. apply with_in. now left.
    + intros k. specialize (G k). unfold insert_tx in G at 2 3. cbn [p_db] in G. rewrite (get_put _ kkeq_ok) in G. destruct (get keq (p_db (fold_left (init_add contract L) ss (insert_tx p (entry L s)))) k) as [v|].
      * destruct G as [(t & T & Q)|G]; [left; exists t; split; [now right|exact Q]|]. destruct (keq (t_key (entry L s)) k) eqn:K; [|now right]. apply kkeq_ok in K. left. exists s. split; [now left|]. destruct (entry L s) as [k0 v0]. cbn in *. congruence.
      * destruct (keq (t_key (entry L s)) k) eqn:K; [destruct G; discriminate|]. destruct G as [G1 G2]. split; [exact G1|]. intros t [<-|T]; [|now apply G2]. intros Q. apply kkeq_ok in Q. congruence.
Qed.
Lemma indexed_in L s : In s (indexed contract pooled L) <-> (exists b, In b L /\ In s (sends_of b)) /\ contract (s_to s) = true /\ pooled (s_to s) = true /\ ~ In (s_hash s) (taken L).
Proof. unfold indexed. rewrite filter_In, in_flat_map, !andb_true_iff, negb_true_iff, mem_not. tauto. Qed.
Lemma entry_ok L b s : wf L -> In b L -> In s (sends_of b) -> exists i, In (t_key (entry L s), i) (spots b) /\ t_key (entry L s) = ((s_to s, b_addr b), (b_height b, s_hash s)) /\ (t_index (entry L s) = Some i \/ t_index (entry L s) = None /\ contract (b_addr b) = true).
Proof.
  intros W B S1. unfold entry. rewrite (complete_ok L b (s_hash s) (wf_hash _ _ _ _ W) B (hs_send b s S1)). cbn [t_key t_index]. destruct (in_spots (sends_of b) 0 (b_addr b) (b_height b) s S1) as (i & I). exists i. split; [exact I|]. split; [reflexivity|]. destruct (contract (b_addr b)) eqn:C; [now right|]. left. pose proof (wf_kind _ _ _ _ W b B) as K. destruct b as [a n t|a n x f subs]; cbn in *.
  - destruct I as [E|[]]. now inversion E.
  - destruct K as [_ K]. rewrite K in C; [discriminate|]. intros ->. destruct S1.
Qed.
Lemma owed_in L k i : In (k, i) (owed L) <-> In (k, i) (located L) /\ contract (k_to k) = true /\ ~ In (k_hash k) (taken L).
Proof. unfold TurnProofs2.owed. rewrite filter_In. unfold due. cbn [fst]. rewrite andb_true_iff, negb_true_iff, mem_not. tauto. Qed.
Lemma inv_restart z w : inv w -> inv (restart contract pooled ord z w) /\ (forall k i, In (k, i) (owed (w_chain w)) -> In (k_from k) (p_callers (w_pool (restart contract pooled ord z w)))).
Proof.
  intros V. pose proof (v_wf _ V) as W. unfold restart. cbn [w_pool]. set (L := w_chain w) in *.
  assert (SS : forall s, In s (ord z _ (indexed contract pooled L)) <-> In s (indexed contract pooled L)) by (intros s; split; apply Permutation_in; [apply ORD|apply Permutation_sym, ORD]).
  destruct (load_ok L (ord z _ (indexed contract pooled L)) (Pool [] [] [])) as (F & _ & FC & G).
  - intros s H. apply SS, indexed_in in H. destruct H as ((b & B & S1) & _). now rewrite (complete_ok L b (s_hash s) (wf_hash _ _ _ _ W) B (hs_send b s S1)).
  - constructor; cbn; [constructor|intros k H; contradiction|constructor].
  - set (p' := fold_left (init_add contract L) (ord z send (indexed contract pooled L)) (Pool [] [] [])) in *.
    assert (OW : forall k i, In (k, i) (owed L) -> exists s, In s (indexed contract pooled L) /\ t_key (entry L s) = k).
    { intros k i H. apply owed_in in H. destruct H as (LO & C & NT). destruct (spot_of _ _ _ LO) as (b & s & B & S1 & SP & K). exists s. split.
      - apply indexed_in. subst k. split; [eauto|]. split; [exact C|]. split; [exact (wf_pool _ _ _ _ W b s B S1 C)|exact NT].
      - destruct (entry_ok L b s W B S1) as (j & _ & E & _). congruence. }
    split; [constructor; cbn [w_chain w_pool]; [exact W|exact F|]|].
    + intros k. specialize (G k). destruct (get keq (p_db p') k) as [v|].
      * destruct G as [(s & H & E)|G]; [|discriminate]. apply SS, indexed_in in H. destruct H as ((b & B & S1) & C & _ & NT). destruct (entry_ok L b s W B S1) as (i & I & EK & EV). exists i. rewrite E in I, EK, EV. cbn [t_key t_index] in I, EK, EV. split.
        -- apply owed_in. subst k. split; [apply in_flat_map; eauto|]. auto.
        -- subst k. exact EV.
      * intros i I. destruct (OW k i I) as (s & H & E). apply (proj2 G s); [now apply SS|exact E].
    + intros k i H. destruct (OW k i H) as (s & I & E). rewrite <- E. apply FC. now apply SS.
Qed.
End Turn.
