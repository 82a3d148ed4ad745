From Verif Require Import Lib.
From Verif Require RoadModel RoadProofs.
Import RoadProofs.
From Verif Require Import TurnModel TurnSpec TurnProofs TurnProofs2 TurnProofs3.
From Coq Require Import Permutation Sorted.
Import ListNotations.

Section Turn.
Context (contract genesis pooled : Z -> bool) (ord : Z -> forall A : Type, list A -> list A) (ORD : forall z A l, Permutation (ord z A l) l).
Notation parts := (parts contract genesis). Notation unpaired := (unpaired contract genesis ord).
Notation on_road := (on_road contract). Notation wf := (wf contract genesis pooled). Notation owed := (owed contract).
Notation handle := (handle contract genesis pooled ord). Notation road := (road contract). Notation deed := (deed contract).
Notation mine := (mine contract).

Lemma nodup_by {A B} (f : A -> B) L : (forall l r e e', L = l ++ e :: r -> In e' (l ++ r) -> f e = f e' -> False) -> NoDup (map f L).
Proof.
  induction L as [|x L IH]; intros H; [constructor|]. cbn. constructor.
  - intros X. apply in_map_iff in X. destruct X as (y & E & Y). exact (H [] L x y eq_refl Y (eq_sym E)).
  - apply IH. intros l r e e' -> I E. apply (H (x :: l) r e e' eq_refl); [now right|exact E].
Qed.
Lemma nodup_map_app {A B} (f : A -> B) l r : NoDup (map f (l ++ r)) -> NoDup (map f l).
Proof. rewrite map_app. apply nodup_app_l. Qed.
Lemma bools_shape l : NoDup (map is_send l) -> shape l.
Proof.
  destruct l as [|a [|b [|c r]]]; cbn; auto; intros N; inversion_clear N as [|? ? A N1]; [cbn in A; intuition|]. inversion_clear N1 as [|? ? B N2]. cbn in A, B. destruct (is_send a), (is_send b), (is_send c); intuition.
Qed.
Lemma net_one l e : NoDup (map is_send l) -> In e l -> (forall e', In e' l -> is_send e' = is_send e) -> net l = Some e.
Proof.
  destruct l as [|a [|b r]]; [intros _ []|intros _ [->|[]]; reflexivity|]. intros N _ H. cbn in N. inversion_clear N as [|? ? A N1]. destruct A. left. rewrite (H a), (H b); cbn; auto.
Qed.
Lemma net_only E h e : net (cls E h) = Some e -> forall e', In e' E -> e_key e' = h -> e' = e.
Proof. unfold net. destruct (cls E h) as [|a [|b r]] eqn:C; try discriminate. intros [= ->] e' H K. assert (X : In e' (cls E h)) by (apply filter_In; split; [exact H|now apply Z.eqb_eq]). rewrite C in X. destruct X as [->|[]]. reflexivity. Qed.

Section Part.
Context (M bs R : list blk) (WM : wf M) (WR : wf R) (PM : Permutation M (bs ++ R)).
Notation E := (flat_map parts bs).
Lemma in_bs b : In b bs -> In b M. Proof. intros H. apply (Permutation_in _ (Permutation_sym PM)), in_or_app. now left. Qed.
Lemma in_R b : In b R -> In b M. Proof. intros H. apply (Permutation_in _ (Permutation_sym PM)), in_or_app. now right. Qed.
Lemma in_M b : In b M -> In b bs \/ In b R. Proof. intros H. apply (Permutation_in _ PM) in H. now apply in_app_or. Qed.
Lemma apart_h h b c : In b bs -> In c R -> In h (hs b) -> In h (hs c) -> False.
Proof.
  intros B C HB HC. pose proof (wf_hash _ _ _ _ WM) as N. rewrite hashes_hs in N. pose proof (Permutation_NoDup (perm_flat hs _ _ PM) N) as N'. rewrite flat_map_app in N'. apply (nodup_app_ht _ _ h N'); apply in_flat_map; eauto.
Qed.
Lemma taken_M f : In f (taken M) <-> In f (taken bs) \/ In f (taken R).
Proof. rewrite <- in_app_iff, <- taken_app. split; apply Permutation_in; [apply perm_flat; exact PM|apply Permutation_sym, perm_flat; exact PM]. Qed.
Lemma taken_apart f : In f (taken bs) -> In f (taken R) -> False.
Proof. intros A B. pose proof (Permutation_NoDup (perm_flat _ _ _ PM) (wf_taken _ _ _ _ WM)) as N. change (NoDup (taken (bs ++ R))) in N. rewrite taken_app in N. exact (nodup_app_ht _ _ f N A B). Qed.
Lemma cls_nodup h : NoDup (map is_send (cls E h)).
Proof.
  pose proof (nodup_by is_send _ (one_send contract genesis pooled M h WM)) as N. apply (Permutation_NoDup (l' := map is_send (cls (flat_map parts (bs ++ R)) h))) in N.
  - rewrite flat_map_app in N. unfold cls in N. rewrite filter_app in N. now apply nodup_map_app in N.
  - apply Permutation_map, perm_filter, perm_flat, PM.
Qed.
Lemma shapes h : shape (cls E h). Proof. apply bools_shape, cls_nodup. Qed.
Lemma loc_M x : In x (located M) <-> In x (located bs) \/ In x (located R).
Proof. unfold located. rewrite <- in_app_iff, <- flat_map_app. split; apply Permutation_in; [|apply Permutation_sym]; apply perm_flat; exact PM. Qed.
Lemma due_M k i : In (k, i) (owed M) <-> In (k, i) (located M) /\ contract (k_to k) = true /\ ~ In (k_hash k) (taken M).
Proof. unfold TurnProofs2.owed. rewrite filter_In. unfold due. cbn [fst]. rewrite andb_true_iff, negb_true_iff, mem_not. tauto. Qed.
Lemma due_R k i : In (k, i) (owed R) <-> In (k, i) (located R) /\ contract (k_to k) = true /\ ~ In (k_hash k) (taken R).
Proof. unfold TurnProofs2.owed. rewrite filter_In. unfold due. cbn [fst]. rewrite andb_true_iff, negb_true_iff, mem_not. tauto. Qed.
Lemma loc_hash L k i : In (k, i) (located L) -> exists b, In b L /\ In (k_hash k) (hs b).
Proof. intros H. destruct (spot_of _ _ _ H) as (b & s & B & S1 & _ & ->). exists b. split; [exact B|]. now apply hs_send. Qed.
(** A net send: not yet received, and not in the rest of the chain. *)
Lemma net_send a n s : net (cls E (s_hash s)) = Some (ESend a n s) ->
  exists k i, on_road M (ESend a n s) = Some (Tx k (Some i)) /\ k_hash k = s_hash s /\ k_to k = s_to s /\ In (k, i) (located bs) /\ ~ In (s_hash s) (taken M) /\ forall k' j, In (k', j) (located R) -> k_hash k' <> s_hash s.
Proof.
  intros NE. pose proof (net_in E (ESend a n s) NE) as IE. apply in_flat_map in IE. destruct IE as (b & B & P). pose proof (in_bs b B) as BM. pose proof (part_in _ _ _ M b _ WM BM P) as S1. cbn in S1. destruct (in_spots (sends_of b) 0 (b_addr b) (b_height b) s S1) as (i & SP). exists ((s_to s, b_addr b), (b_height b, s_hash s)), i. split; [apply (road_send contract genesis pooled M b); auto|]. split; [reflexivity|]. split; [reflexivity|]. split; [apply in_flat_map; eauto|].
  assert (HN : forall k' j, In (k', j) (located R) -> k_hash k' <> s_hash s).
  { intros k' j L Q. destruct (loc_hash _ _ _ L) as (c & C & HC). rewrite Q in HC. exact (apart_h _ b c B C (hs_send b s S1) HC). }
  split; [|exact HN]. intros T. apply taken_M in T. destruct T as [T|T].
  - apply taken_in in T. destruct T as (a' & n' & x & subs & T). pose proof (in_part_recv _ _ _ M a' n' x (s_hash s) subs WM (in_bs _ T)) as PR. assert (IR : In (ERecv a' (s_hash s)) E) by (apply in_flat_map; eauto). pose proof (net_only E _ _ NE _ IR eq_refl). discriminate.
  - apply taken_in in T. destruct T as (a' & n' & x & subs & T). destruct (wf_from _ _ _ _ WR _ _ _ _ _ T) as (c & t & C & S2 & Q & _). apply (apart_h (s_hash s) b c B C (hs_send b s S1)). rewrite <- Q. now apply hs_send.
Qed.
(** A net receive: of a send in the rest of the chain. *)
Lemma net_recv a f : net (cls E f) = Some (ERecv a f) ->
  exists k i, on_road M (ERecv a f) = Some (Tx k (Some i)) /\ k_hash k = f /\ k_to k = a /\ In (k, i) (located R) /\ In f (taken bs) /\ ~ In f (taken R).
Proof.
  intros NE. pose proof (net_in E (ERecv a f) NE) as IE. apply in_flat_map in IE. destruct IE as (b & B & P). pose proof (part_in _ _ _ M b _ WM (in_bs b B) P) as (n & x & subs & ->). destruct (wf_from _ _ _ _ WM _ _ _ _ _ (in_bs _ B)) as (c & s & C & S1 & Q & TO). destruct (in_spots (sends_of c) 0 (b_addr c) (b_height c) s S1) as (i & SP). assert (CR : In c R).
  { destruct (in_M c C) as [CB|CR]; [|exact CR]. exfalso. destruct (in_part_send _ _ _ M c s WM C S1) as (a' & n' & P'). assert (IS : In (ESend a' n' s) E) by (apply in_flat_map; eauto). pose proof (net_only E _ _ NE _ IS Q). discriminate. }
  assert (TB : In f (taken bs)) by (apply taken_in; eauto). exists ((s_to s, b_addr c), (b_height c, s_hash s)), i. split; [|split; [exact Q|split; [exact TO|split; [apply in_flat_map; eauto|split; [exact TB|]]]]].
  - rewrite <- Q. apply (road_recv contract genesis pooled M ((s_to s, b_addr c), (b_height c, s_hash s)) i a WM). apply in_flat_map. eauto.
  - intros T. exact (taken_apart f TB T).
Qed.
Definition nets : list ent := map snd (fold_left pair_off E []).
Lemma nets_in e : In e nets <-> net (cls E (e_key e)) = Some e. Proof. apply pair_in, shapes. Qed.
Lemma nets_road e : In e nets -> exists k i, on_road M e = Some (Tx k (Some i)) /\ k_hash k = e_key e /\ k_to k = e_owner e /\ In (k, i) (located M).
Proof.
  intros H. apply nets_in in H. destruct e as [a n s|a f]; cbn in H.
  - destruct (net_send _ _ _ H) as (k & i & A & B & C & D & _). exists k, i. split; [exact A|]. split; [exact B|]. split; [exact C|]. apply loc_M. now left.
  - destruct (net_recv _ _ H) as (k & i & A & B & C & D & _). exists k, i. split; [exact A|]. split; [exact B|]. split; [exact C|]. apply loc_M. now right.
Qed.
Lemma handle_acts z add p : exists l, handle z add M p bs = acts add p l /\ NoDup (map (fun x => t_key (snd x)) l) /\
  forall x, In x l <-> exists e, In e nets /\ contract (e_owner e) = true /\ x = deed M e.
Proof.
  assert (PN : Permutation (unpaired z bs) nets) by apply ORD.
  assert (GI : forall a es, In (a, es) (ord (z + 1) _ (by_owner (unpaired z bs))) -> In a (map e_owner (unpaired z bs)) /\ es = filter (fun e => e_owner e =? a) (unpaired z bs)).
  { intros a es H. apply (Permutation_in _ (ORD (z + 1) _ _)) in H. unfold by_owner in H. apply in_map_iff in H. destruct H as (a' & [= -> <-] & H). apply nodup_In in H. auto. }
  assert (GO : forall a es e, In (a, es) (ord (z + 1) _ (by_owner (unpaired z bs))) -> In e es -> e_owner e = a /\ In e nets).
  { intros a es e H I. destruct (GI a es H) as [_ ->]. apply filter_In in I. destruct I as [I Q]. apply Z.eqb_eq in Q. split; [exact Q|]. now apply (Permutation_in _ PN). }
  exists (deeds contract ord z M (ord (z + 1) _ (by_owner (unpaired z bs)))). split; [|assert (PD : Permutation (deeds contract ord z M (ord (z + 1) _ (by_owner (unpaired z bs)))) (map (deed M) (mine nets))); [|split]].
  - apply (groups_acts contract pooled ord).
    + intros a es H CA. destruct (GI a es H) as [IA _]. apply in_map_iff in IA. destruct IA as (e & <- & IE). apply (Permutation_in _ PN) in IE. destruct (nets_road e IE) as (k & i & _ & _ & KT & LOC). destruct (spot_of _ _ _ LOC) as (b & s & B & S1 & _ & K). rewrite <- KT in CA. rewrite <- KT. subst k. exact (wf_pool _ _ _ _ WM b s B S1 CA).
    + intros a es e H I CA. destruct (GO a es e H I) as [_ N]. destruct (nets_road e N) as (k & i & -> & _). discriminate.
  - rewrite (deeds_perm contract ord ORD) by (intros a es e H I; apply (GO a es e H I)). apply Permutation_map. unfold TurnProofs3.mine. apply perm_filter. rewrite (perm_concat _ _ (Permutation_map snd (ORD (z + 1) _ _))). rewrite owner_perm. exact PN.
  - apply (Permutation_NoDup (Permutation_sym (Permutation_map _ PD))). apply (NoDup_map_inv k_hash). rewrite !map_map. replace (map (fun x => k_hash (t_key (snd (deed M x)))) (mine nets)) with (map e_key (mine nets)).
    + unfold TurnProofs3.mine. pose proof (pair_keys E shapes) as N. fold nets in N. clear - N. induction nets as [|e l IH]; [constructor|]. cbn in N. inversion_clear N as [|? ? X Y]. cbn. destruct (contract (e_owner e)); [|now apply IH]. cbn. constructor; [|now apply IH]. intros Q. apply X. apply in_map_iff in Q. destruct Q as (u & U & V). apply filter_In in V. apply in_map_iff. exists u. tauto.
    + apply map_ext_in. intros e I. apply filter_In in I. destruct (nets_road e (proj1 I)) as (k & i & A & B & _). unfold TurnProofs3.deed, TurnProofs3.road. rewrite A. cbn. congruence.
  - intros x. split.
    + intros H. apply (Permutation_in _ PD) in H. apply in_map_iff in H. destruct H as (e & <- & I). apply filter_In in I. exists e. tauto.
    + intros (e & I & C & ->). apply (Permutation_in _ (Permutation_sym PD)). apply in_map. apply filter_In. auto.
Qed.
Lemma handle_ok z add p : exists l, handle z add M p bs = acts add p l /\ NoDup (map (fun x => t_key (snd x)) l) /\
  (forall s t, In (s, t) l -> exists i, t_index t = Some i /\
     if s : bool then In (t_key t, i) (owed M) /\ (forall j, ~ In (t_key t, j) (owed R)) else In (t_key t, i) (owed R) /\ (forall j, ~ In (t_key t, j) (owed M))) /\
  (forall k i, ~ In k (map (fun x => t_key (snd x)) l) -> (In (k, i) (owed M) <-> In (k, i) (owed R))).
Proof.
  destruct (handle_acts z add p) as (l & HA & ND & IN). exists l. split; [exact HA|]. split; [exact ND|]. split.
  - intros s t H. apply IN in H. destruct H as (e & I & C & Q). unfold TurnProofs3.deed, TurnProofs3.road in Q. apply nets_in in I. destruct e as [a n u|a f]; cbn in I.
    + destruct (net_send _ _ _ I) as (k & i & A & B & T & LO & NT & NR). rewrite A in Q. injection Q as -> ->. cbn [is_send t_index t_key]. exists i. split; [reflexivity|]. cbn in C. split.
      * apply due_M. split; [apply loc_M; now left|]. split; [now rewrite T|now rewrite B].
      * intros j J. apply due_R in J. destruct J as (J & _). exact (NR _ _ J B).
    + destruct (net_recv _ _ I) as (k & i & A & B & T & LO & TB & NT). rewrite A in Q. injection Q as -> ->. cbn [is_send t_index t_key]. exists i. split; [reflexivity|]. cbn in C. split.
      * apply due_R. split; [exact LO|]. split; [now rewrite T|now rewrite B].
      * intros j J. apply due_M in J. destruct J as (_ & _ & J). apply J. rewrite B. apply taken_M. now left.
  - intros k i NK. rewrite due_M, due_R. split.
    + intros (LO & C & NT). assert (NR : ~ In (k_hash k) (taken R)) by (intros X; apply NT, taken_M; now right). assert (NB : ~ In (k_hash k) (taken bs)) by (intros X; apply NT, taken_M; now left). destruct (proj1 (loc_M _) LO) as [LB|LR]; [|auto]. exfalso. destruct (spot_of _ _ _ LB) as (b & s & B & S1 & SP & K). destruct (in_part_send _ _ _ M b s WM (in_bs b B) S1) as (a & n & P). assert (IE : In (ESend a n s) E) by (apply in_flat_map; eauto). assert (HK : k_hash k = s_hash s) by (rewrite K; reflexivity).
      assert (NE : net (cls E (e_key (ESend a n s))) = Some (ESend a n s)).
      { apply net_one; [apply cls_nodup|apply filter_In; split; [exact IE|apply Z.eqb_refl]|]. intros e' I'. apply filter_In in I'. destruct I' as [I' Q]. apply Z.eqb_eq in Q. destruct e' as [|a' f]; [reflexivity|]. exfalso. cbn in Q. apply NB. rewrite HK, <- Q. apply in_flat_map in I'. destruct I' as (b' & B' & P'). destruct (part_in _ _ _ M b' _ WM (in_bs b' B') P') as (n' & x' & subs' & ->). apply taken_in. eauto. }
      apply NK. apply in_map_iff. exists (deed M (ESend a n s)). split.
      * destruct (net_send a n s NE) as (k2 & i2 & A & B2 & _ & L2 & _). unfold TurnProofs3.deed, TurnProofs3.road. rewrite A. cbn. assert (X : (k2, i2) = (k, i)); [|congruence]. apply spot_one with (L := M); [exact (wf_hash _ _ _ _ WM)|apply loc_M; now left|exact LO|congruence].
      * apply IN. exists (ESend a n s). split; [now apply nets_in|]. split; [|reflexivity]. cbn. rewrite K in C. exact C.
    + intros (LR & C & NR). split; [apply loc_M; now right|]. split; [exact C|]. intros T. apply taken_M in T. destruct T as [TB|T]; [|contradiction]. apply taken_in in TB. destruct TB as (a & n & x & subs & TB). pose proof (in_part_recv _ _ _ M _ _ _ _ _ WM (in_bs _ TB)) as P. assert (IE : In (ERecv a (k_hash k)) E) by (apply in_flat_map; eauto).
      assert (NE : net (cls E (e_key (ERecv a (k_hash k)))) = Some (ERecv a (k_hash k))).
      { apply net_one; [apply cls_nodup|apply filter_In; split; [exact IE|apply Z.eqb_refl]|]. intros e' I'. apply filter_In in I'. destruct I' as [I' Q]. apply Z.eqb_eq in Q. destruct e' as [a' n' s|]; [|reflexivity]. exfalso. cbn in Q. apply in_flat_map in I'. destruct I' as (b' & B' & P'). pose proof (part_in _ _ _ M b' _ WM (in_bs b' B') P') as S1. cbn in S1. destruct (loc_hash _ _ _ LR) as (c & CR & HC). apply (apart_h (k_hash k) b' c B' CR); [rewrite <- Q; now apply hs_send|exact HC]. }
      destruct (net_recv a (k_hash k) NE) as (k2 & i2 & A & B2 & KT & L2 & _). assert (X : (k2, i2) = (k, i)) by (apply spot_one with (L := M); [exact (wf_hash _ _ _ _ WM)|apply loc_M; now right|apply loc_M; now right|exact B2]). injection X as -> ->. apply NK. apply in_map_iff. exists (deed M (ERecv a (k_hash k))). split.
      * unfold TurnProofs3.deed, TurnProofs3.road. now rewrite A.
      * apply IN. exists (ERecv a (k_hash k)). split; [now apply nets_in|]. split; [|reflexivity]. cbn. now rewrite <- KT.
Qed.
End Part.
End Turn.
