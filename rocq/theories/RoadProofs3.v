From Verif Require Import Lib RoadModel RoadSpec RoadProofs RoadProofs2.
From Coq Require Import Permutation.
Import ListNotations.

(** ** Blocks and their hashes *)
Lemma own_hash b : In (b_hash b) (hashes [b]).
Proof. destruct b as [a s|a h f subs]; now left. Qed.
Lemma hash_in L b : In b L -> In (b_hash b) (hashes L).
Proof. intros B. unfold hashes. apply in_flat_map. exists b. split; [exact B|]. pose proof (own_hash b) as X. unfold hashes in X. cbn [flat_map] in X. now rewrite app_nil_r in X. Qed.
Lemma nodup_split {A} (l r : list A) : NoDup (l ++ r) -> NoDup l /\ NoDup r /\ forall x, In x l -> ~ In x r.
Proof.
  induction l as [|y l IH]; cbn; intros N; [repeat split; [constructor|exact N|intros x []]|]. inversion_clear N as [|? ? P Q]. destruct (IH Q) as (A1 & A2 & A3). split; [constructor; [|exact A1]; intros X; apply P, in_or_app; now left|]. split; [exact A2|]. intros x [<-|X]; [intros Y; apply P, in_or_app; now right|now apply A3].
Qed.
Lemma nodup_join {A} (l r : list A) : NoDup l -> NoDup r -> (forall x, In x l -> ~ In x r) -> NoDup (l ++ r).
Proof.
  induction l as [|y l IH]; cbn; intros N M D; [exact M|]. inversion_clear N as [|? ? P Q]. constructor; [|apply IH; [exact Q|exact M|intros x X; apply D; now right]]. intros X. apply in_app_or in X. destruct X as [X|X]; [contradiction|]. exact (D y (or_introl eq_refl) X).
Qed.
Lemma hashes_cons b L : hashes (b :: L) = hashes [b] ++ hashes L. Proof. exact (hashes_app [b] L). Qed.
Lemma same_blk L b c : NoDup (hashes L) -> In b L -> In c L -> b_hash b = b_hash c -> b = c.
Proof.
  induction L as [|x L IH]; [intros _ []|]. rewrite hashes_cons. intros N B C H. apply nodup_split in N. destruct N as (_ & N & D). destruct B as [->|B], C as [->|C]; [reflexivity| | |now apply IH].
  - exfalso. apply (D (b_hash b) (own_hash b)). rewrite H. now apply hash_in.
  - exfalso. apply (D (b_hash c) (own_hash c)). rewrite <- H. now apply hash_in.
Qed.
Lemma blks_nodup L : NoDup (hashes L) -> NoDup L.
Proof.
  induction L as [|x L IH]; [constructor|]. rewrite hashes_cons. intros N. apply nodup_split in N. destruct N as (_ & N & D). constructor; [|now apply IH]. intros X. apply (D (b_hash x) (own_hash x)). now apply hash_in.
Qed.
Lemma perm_part {A} (q : A -> bool) l : Permutation l (filter q l ++ filter (fun x => negb (q x)) l).
Proof.
  induction l as [|x l IH]; [constructor|]. cbn. destruct (q x); cbn; [now apply perm_skip|]. etransitivity; [apply perm_skip; exact IH|]. apply Permutation_middle.
Qed.
Lemma closed_perm A B : Permutation A B -> closed A -> closed B.
Proof.
  intros P C h H. destruct (C h) as (s & S1 & S2); [eapply Permutation_in; [apply Permutation_sym, perm_flat; exact P|exact H]|]. exists s. split; [|exact S2]. eapply Permutation_in; [apply perm_flat; exact P|exact S1].
Qed.
Lemma opt_eq x y : (snd x = snd y) -> (snd x <> 0 -> fst x = fst y) -> opt x = opt y.
Proof. destruct x as [a b], y as [c d]. cbn. intros -> H. unfold opt. cbn. destruct (Z.eqb_spec d 0); [reflexivity|]. now rewrite H. Qed.

(** ** The blocks remembered *)
Definition shaped (c : cache) : Prop := Forall (fun e => fst e = (b_owner (snd e), b_hash (snd e))) c.
Lemma shaped_in c k b : shaped c -> In (k, b) c -> k = (b_owner b, b_hash b).
Proof. intros S X. unfold shaped in S. rewrite Forall_forall in S. exact (S _ X). Qed.
Lemma cached_nodup c : shaped c -> NoDup (hashes (map snd c)) -> NoDup (map fst c).
Proof.
  intros S N. assert (X : NoDup (map b_hash (map snd c))).
  { clear S. induction (map snd c) as [|b r IH]; [constructor|]. rewrite hashes_cons in N. apply nodup_split in N. destruct N as (_ & N & D). cbn. constructor; [|now apply IH]. intros Y. apply in_map_iff in Y. destruct Y as (b' & Y1 & Y2). apply (D (b_hash b) (own_hash b)). rewrite <- Y1. now apply hash_in. }
  clear N. induction c as [|[k b] r IH]; [constructor|]. cbn in X |- *. inversion_clear X as [|? ? P Q]. inversion_clear S as [|? ? S1 S2]. constructor; [|now apply IH]. intros Y. apply P. apply in_map_iff in Y. destruct Y as ([k' b'] & Y1 & Y2). cbn in *. subst k'. pose proof (shaped_in r _ _ S2 Y2) as Z. rewrite S1 in Z. injection Z as _ Z. rewrite Z. apply in_map. apply in_map_iff. now exists (k, b').
Qed.
Lemma get_hash c b : shaped c -> (forall x, In x (map snd c) -> b_hash x <> b_hash b) -> forall a, get keq c (a, b_hash b) = None.
Proof.
  intros S H a. apply (get_none _ keq_ok). intros X. apply in_map_iff in X. destruct X as ([k x] & X1 & X2). cbn in X1. subst k. pose proof (shaped_in c _ _ S X2) as Z. injection Z as _ Z. apply (H x); [apply in_map_iff; now exists ((a, b_hash b), x)|congruence].
Qed.
Lemma remember_new c b : shaped c -> (forall x, In x (map snd c) -> b_hash x <> b_hash b) -> shaped (remember c b) /\ map snd (remember c b) = b :: map snd c.
Proof.
  intros S H. unfold remember. pose proof (get_hash c b S H (b_owner b)) as G. rewrite G. unfold put. rewrite del_none by exact G. split; [constructor; [reflexivity|exact S]|reflexivity].
Qed.
Lemma remember_all : forall bs c, shaped c -> NoDup (hashes (map snd c ++ bs)) -> shaped (fold_left remember bs c) /\ Permutation (map snd (fold_left remember bs c)) (map snd c ++ bs).
Proof.
  induction bs as [|b bs IH]; intros c S N; cbn [fold_left]; [split; [exact S|now rewrite app_nil_r]|].
  assert (H : forall x, In x (map snd c) -> b_hash x <> b_hash b).
  { intros x X E. rewrite hashes_app in N. apply nodup_split in N. destruct N as (_ & _ & D). apply (D (b_hash x)); [now apply hash_in|]. rewrite E. apply hash_in. now left. }
  destruct (remember_new c b S H) as [S' E]. destruct (IH (remember c b) S') as [A B].
  - rewrite E. refine (Permutation_NoDup _ N). apply perm_flat. symmetry. apply Permutation_middle.
  - split; [exact A|]. rewrite B, E. cbn. apply Permutation_middle.
Qed.
Lemma del_shaped c k : shaped c -> shaped (del keq c k).
Proof. intros S. apply Forall_forall. intros e X. apply (in_del _ keq_ok) in X. unfold shaped in S. rewrite Forall_forall in S. apply S. tauto. Qed.
Lemma forget_one c b : shaped c -> (forall x, In x (map snd c) -> b_hash x = b_hash b -> x = b) -> map snd (forget c b) = filter (fun x => negb (b_hash b =? b_hash x)) (map snd c).
Proof.
  unfold forget. intros S H. induction c as [|[k x] r IH]; [reflexivity|]. inversion_clear S as [|? ? S1 S2]. cbn in S1. cbn [del map snd filter]. assert (H' : forall y, In y (map snd r) -> b_hash y = b_hash b -> y = b) by (intros y Y; apply H; now right). destruct (Z.eqb_spec (b_hash b) (b_hash x)) as [E|E]; cbn [negb].
  - assert (x = b) as -> by (apply H; [now left|congruence]). rewrite S1, (eqb_refl _ keq_ok). now apply IH.
  - rewrite (eqb_no _ keq_ok); [cbn [map snd]; now rewrite IH|]. rewrite S1. intros [= _ X]. congruence.
Qed.
Lemma forget_all : forall bs c, shaped c -> (forall x b, In x (map snd c) -> In b bs -> b_hash x = b_hash b -> x = b) -> shaped (fold_left forget bs c) /\ map snd (fold_left forget bs c) = without (map snd c) bs.
Proof.
  induction bs as [|b bs IH]; intros c S H; cbn [fold_left].
  - split; [exact S|]. unfold without. cbn. clear. induction (map snd c) as [|x r IH]; [reflexivity|]. cbn. now rewrite IH at 1.
  - assert (E : map snd (forget c b) = filter (fun x => negb (b_hash b =? b_hash x)) (map snd c)) by (apply forget_one; [exact S|intros x X; apply H; [exact X|now left]]). destruct (IH (forget c b)) as [A B].
    + now apply del_shaped.
    + intros x y X Y. apply H; [|now right]. rewrite E in X. apply filter_In in X. tauto.
    + split; [exact A|]. rewrite B, E. unfold without. clear. induction (map snd c) as [|x r IH]; [reflexivity|]. cbn. destruct (b_hash b =? b_hash x); cbn; [exact IH|]. destruct (existsb _ bs); cbn; [exact IH|now rewrite IH].
Qed.

Section Road.
Context (contract genesis : Z -> bool) (ord : forall A : Type, list A -> list A) (ORD : forall A l, Permutation (ord A l) l).
Notation parts := (parts contract genesis).
Notation flushed := (flushed contract genesis ord).
Notation wf := (wf contract genesis).

Record inv (w : world) : Prop := {
  v_wf : wf (chain_of w);
  v_closed : forall k, closed (concat (firstn k (w_done w)));
  v_store : stored (w_store w) (concat (w_done w));
  v_shape : shaped (w_cache w);
  v_cache : Permutation (map snd (w_cache w)) (w_open w) }.
Lemma wf_closed L : wf L -> closed L.
Proof. intros W h H. apply received_in in H. destruct H as (a & x & subs & B). destruct (wf_from _ _ L W a x h subs B) as (_ & _ & s & S1 & S2 & _). now exists s. Qed.
Lemma v_done w : inv w -> closed (concat (w_done w)).
Proof. intros V. pose proof (v_closed w V (length (w_done w))) as X. now rewrite firstn_all in X. Qed.
Lemma inv_new : inv (World [] [] [] []).
Proof.
  constructor; cbn.
  - constructor; cbn; try (intros; contradiction); [constructor|constructor|reflexivity].
  - intros k. rewrite firstn_nil. intros h [].
  - split; [constructor|]. reflexivity.
  - constructor.
  - constructor.
Qed.
Lemma inv_insert w b : inv w -> allowed contract genesis w (OBlock b) -> inv (insert w b).
Proof.
  intros V ((N & F & A & T) & Z). pose proof (v_wf w V) as W. assert (CE : chain_of (insert w b) = chain_of w ++ [b]) by (unfold chain_of; cbn; now rewrite app_assoc).
  assert (FR : forall x, In x (map snd (w_cache w)) -> b_hash x <> b_hash b).
  { intros x X E. apply (F (b_hash b) (own_hash b)). rewrite <- E. apply hash_in. apply in_or_app. right. exact (Permutation_in _ (v_cache w V) X). }
  destruct (remember_new (w_cache w) b (v_shape w V) FR) as [S E]. constructor; try exact S; try exact (v_closed w V); try exact (v_store w V).
  - rewrite CE. constructor.
    + rewrite hashes_app. apply nodup_join; [exact (wf_hash _ _ _ W)|exact N|]. intros x X Y. exact (F x Y X).
    + rewrite received_app. destruct b as [a s|a h f subs]; cbn; [rewrite app_nil_r; exact (wf_recv _ _ _ W)|]. apply nodup_join; [exact (wf_recv _ _ _ W)|repeat constructor; intros []|]. intros x X [<-|[]]. destruct T as (_ & _ & T & _). contradiction.
    + intros a h f subs B. apply in_app_or in B. rewrite sends_app. destruct B as [B|[->|[]]].
      * destruct (wf_from _ _ _ W a h f subs B) as (X & Y & s & S1 & S2 & S3). split; [exact X|]. split; [exact Y|]. exists s. split; [apply in_or_app; now left|auto].
      * destruct T as (X & Y & _ & s & S1 & S2 & S3). split; [exact X|]. split; [exact Y|]. exists s. split; [apply in_or_app; now left|auto].
    + intros s X. rewrite sends_app in X. apply in_app_or in X. destruct X as [X|X]; [exact (wf_amt _ _ _ W s X)|]. rewrite Forall_forall in A. now apply A.
    + exact Z.
  - cbn [insert w_cache w_open]. rewrite E. etransitivity; [apply perm_skip; exact (v_cache w V)|]. rewrite Permutation_app_comm. reflexivity.
Qed.
Lemma open_in w b : In b (w_open w) -> In b (chain_of w). Proof. intros B. apply in_or_app. now right. Qed.
Lemma cache_forget w bs : inv w -> incl bs (w_open w) -> shaped (fold_left forget bs (w_cache w)) /\ Permutation (map snd (fold_left forget bs (w_cache w))) (without (w_open w) bs).
Proof.
  intros V I. destruct (forget_all bs (w_cache w) (v_shape w V)) as [A B].
  - intros x b X Y. apply (same_blk (chain_of w)); [exact (wf_hash _ _ _ (v_wf w V))| |]; apply open_in; [exact (Permutation_in _ (v_cache w V) X)|now apply I].
  - split; [exact A|]. rewrite B. unfold without. apply perm_filter. exact (v_cache w V).
Qed.
Lemma inv_remove w bs : inv w -> allowed contract genesis w (ODelete bs) -> inv (remove w bs).
Proof.
  intros V [I C]. destruct (cache_forget w bs V I) as [S E]. constructor; try exact S; try exact E; try exact (v_closed w V); try exact (v_store w V). unfold chain_of. cbn [remove w_done w_open].
  apply (wf_perm contract genesis (chain_of w) _ (filter (fun x => negb (negb (existsb (fun c => b_hash c =? b_hash x) bs))) (w_open w)) (v_wf w V)); [|exact C]. unfold chain_of. rewrite <- app_assoc. apply Permutation_app_head. apply (perm_part (fun b => negb (existsb (fun c => b_hash c =? b_hash b) bs))).
Qed.
Lemma picked w bs : inv w -> NoDup bs -> incl bs (w_open w) -> Permutation (w_open w) (bs ++ without (w_open w) bs).
Proof.
  intros V N I. pose proof (wf_hash _ _ _ (v_wf w V)) as H. assert (NO : NoDup (w_open w)) by (apply blks_nodup in H; now apply nodup_split in H). apply NoDup_Permutation; [exact NO| |].
  - apply nodup_join; [exact N|unfold without; now apply NoDup_filter|]. intros x X Y. unfold without in Y. apply filter_In in Y. destruct Y as [_ Y]. apply negb_true_iff in Y. assert (T : existsb (fun c => b_hash c =? b_hash x) bs = true) by (apply existsb_exists; exists x; split; [exact X|apply Z.eqb_refl]). congruence.
  - intros x. rewrite in_app_iff. unfold without. rewrite filter_In. split; [|intros [X|[X _]]; [now apply I|exact X]]. intros X. destruct (existsb (fun c => b_hash c =? b_hash x) bs) eqn:T; [left|right; now split]. apply existsb_exists in T. destruct T as (c & C1 & C2). apply Z.eqb_eq in C2. rewrite <- (same_blk (chain_of w) c x H); [exact C1| | |exact C2]; apply open_in; [now apply I|exact X].
Qed.
(** What a part that is added or taken away counts for. *)
Lemma net_step p L D bs R a t : wf L -> Permutation L ((D ++ bs) ++ R) -> closed D -> closed (D ++ bs) ->
  sum p (of_token t (pending (D ++ bs) a)) = sum p (of_token t (pending D a)) + sum (ev p L a t) (flat_map parts bs).
Proof.
  intros W P C1 C2. rewrite <- (net_pending contract genesis p L a t (D ++ bs) R W P C2). rewrite <- app_assoc in P. rewrite <- (net_pending contract genesis p L a t D (bs ++ R) W P C1). now rewrite flat_map_app, sum_app.
Qed.
Lemma inv_snapshot w bs : inv w -> allowed contract genesis w (OSnapshot bs) -> inv (snapshot contract genesis ord w bs).
Proof.
  intros V (N & I & C). destruct (cache_forget w bs V I) as [S E]. pose proof (picked w bs V N I) as P. pose proof (v_wf w V) as W.
  assert (DE : concat (w_done w ++ [bs]) = concat (w_done w) ++ bs) by (rewrite concat_app; cbn; now rewrite app_nil_r).
  assert (PL : Permutation (chain_of w) ((concat (w_done w) ++ bs) ++ without (w_open w) bs)) by (unfold chain_of; rewrite <- app_assoc; now apply Permutation_app_head).
  assert (CL : chain_of (snapshot contract genesis ord w bs) = (concat (w_done w) ++ bs) ++ without (w_open w) bs) by (unfold chain_of; cbn [snapshot w_done w_open]; now rewrite DE).
  constructor; try exact S; try exact E.
  - rewrite CL. apply (wf_perm contract genesis (chain_of w) _ [] W); [now rewrite app_nil_r|]. apply (closed_perm _ _ PL). now apply wf_closed.
  - intros k. cbn [snapshot w_done]. destruct (Nat.le_gt_cases k (length (w_done w))) as [K|K].
    + rewrite firstn_app. replace (k - length (w_done w))%nat with O by lia. rewrite firstn_O, app_nil_r. exact (v_closed w V k).
    + rewrite firstn_all2 by (rewrite app_length; cbn; lia). rewrite DE. exact C.
  - cbn [snapshot w_store w_done]. rewrite DE. apply (stored_step contract genesis ord ORD 1 (chain_of w) (concat (w_done w)) bs _ (w_open w) (without (w_open w) bs) (concat (w_done w) ++ without (w_open w) bs)); [exact W|reflexivity|exact PL| | |exact (v_store w V)].
    + rewrite PL. rewrite (Permutation_app_comm (concat (w_done w)) bs). now rewrite app_assoc.
    + intros p a t. rewrite (net_step p (chain_of w) (concat (w_done w)) bs (without (w_open w) bs) a t W PL (v_done w V) C). lia.
Qed.
Lemma inv_rollback w k redo : inv w -> allowed contract genesis w (ORollback k redo) -> inv (rollback contract genesis ord w k redo).
Proof.
  intros V K. cbn [allowed] in K. pose proof (v_wf w V) as W. destruct (skipn k (w_done w)) as [|c rest] eqn:G; [exfalso; assert (X : length (skipn k (w_done w)) = O) by (now rewrite G); rewrite skipn_length in X; lia|].
  set (F := firstn k (w_done w)). assert (DN : w_done w = F ++ c :: rest) by (unfold F; rewrite <- G; symmetry; apply firstn_skipn).
  assert (LF : length F = k) by (unfold F; apply firstn_length_le; lia).
  set (P := concat F). assert (DE : concat (w_done w) = P ++ c ++ concat rest) by (rewrite DN, concat_app; reflexivity).
  assert (CP : closed P) by exact (v_closed w V k).
  assert (CPc : closed (P ++ c)).
  { pose proof (v_closed w V (S k)) as X. rewrite DN, firstn_app, LF in X. rewrite firstn_all2 in X by lia. replace (S k - k)%nat with 1%nat in X by lia. cbn [firstn] in X. rewrite concat_app in X. cbn in X. now rewrite app_nil_r in X. }
  assert (CD : closed (P ++ c ++ concat rest)) by (rewrite <- DE; exact (v_done w V)).
  assert (LE : chain_of w = P ++ c ++ concat rest ++ w_open w) by (unfold chain_of; rewrite DE, <- !app_assoc; reflexivity).
  assert (CF : forall j, closed (concat (firstn j F))) by (intros j; unfold F; rewrite firstn_firstn; apply (v_closed w V)).
  assert (WP : wf P) by (apply (wf_perm contract genesis (chain_of w) P (c ++ concat rest ++ w_open w) W); [rewrite LE; reflexivity|exact CP]).
  assert (WPc : wf (P ++ c)) by (apply (wf_perm contract genesis (chain_of w) (P ++ c) (concat rest ++ w_open w) W); [rewrite LE, <- app_assoc; reflexivity|exact CPc]).
  unfold rollback. rewrite G. fold F. unfold chain_of. cbn [w_done w_open tl]. fold P. fold (chain_of w). destruct redo.
  - assert (S1 : stored (flushed (-1) (chain_of w) (concat rest) (w_store w)) (P ++ c)).
    { apply (stored_step contract genesis ord ORD (-1) (chain_of w) (concat (w_done w)) (concat rest) (P ++ c) (w_open w) (concat rest ++ w_open w) (P ++ c ++ w_open w)); [exact W|reflexivity|rewrite LE, <- app_assoc; reflexivity| | |exact (v_store w V)].
      - rewrite LE. rewrite !app_assoc. apply Permutation_app_tail. rewrite <- !app_assoc. rewrite (Permutation_app_comm (concat rest)). rewrite <- !app_assoc. reflexivity.
      - intros p a t. rewrite DE. pose proof (net_step p (chain_of w) (P ++ c) (concat rest) (w_open w) a t W) as X. rewrite <- !app_assoc in X. rewrite X; [lia|rewrite LE; reflexivity|exact CPc|exact CD]. }
    assert (FF : filter (fresh (w_cache w)) c = c).
    { assert (FA : forall b, In b c -> fresh (w_cache w) b = true).
      { intros b B. unfold fresh. rewrite (get_hash (w_cache w) b (v_shape w V)); [reflexivity|]. intros x X E. pose proof (wf_hash _ _ _ W) as H. unfold chain_of in H. rewrite hashes_app in H. apply nodup_split in H. destruct H as (_ & _ & D). apply (D (b_hash b)); [apply hash_in; rewrite DE; apply in_or_app; right; apply in_or_app; now left|]. rewrite <- E. apply hash_in. exact (Permutation_in _ (v_cache w V) X). }
      clear - FA. induction c as [|b r IH]; [reflexivity|]. cbn. rewrite (FA b) by now left. now rewrite IH by (intros x X; apply FA; now right). }
    rewrite FF. destruct (remember_all c [] (Forall_nil _)) as [S2 E2].
    { pose proof (wf_hash _ _ _ WPc) as H. rewrite hashes_app in H. apply nodup_split in H. tauto. }
    constructor; cbn [w_done w_open w_store w_cache chain_of]; try exact S2; try exact CF.
    + unfold chain_of. cbn [w_done w_open]. fold P. exact WPc.
    + fold P. apply (stored_step contract genesis ord ORD (-1) (P ++ c) (P ++ c) c P [] c P); [exact WPc|now rewrite app_nil_r|reflexivity|apply Permutation_app_comm| |exact S1]. intros p a t. rewrite (net_step p (P ++ c) P c [] a t WPc); [lia|now rewrite app_nil_r|exact CP|exact CPc].
    + exact E2.
  - assert (S1 : stored (flushed (-1) (chain_of w) (concat (c :: rest)) (w_store w)) P).
    { apply (stored_step contract genesis ord ORD (-1) (chain_of w) (concat (w_done w)) (concat (c :: rest)) P (w_open w) (c ++ concat rest ++ w_open w) (P ++ w_open w)); [exact W|reflexivity|rewrite LE; reflexivity| | |exact (v_store w V)].
      - rewrite LE. cbn [concat]. rewrite !app_assoc. apply Permutation_app_tail. rewrite <- !app_assoc. rewrite (Permutation_app_comm P). rewrite <- !app_assoc. reflexivity.
      - intros p a t. rewrite DE. cbn [concat]. rewrite (net_step p (chain_of w) P (c ++ concat rest) (w_open w) a t W); [lia|rewrite LE, <- !app_assoc; reflexivity|exact CP|exact CD]. }
    cbn [filter fold_left]. constructor; cbn [w_done w_open w_store w_cache].
    + unfold chain_of. cbn [w_done w_open]. fold P. rewrite app_nil_r. exact WP.
    + exact CF.
    + fold P. rewrite app_nil_r. apply (stored_step contract genesis ord ORD (-1) P P [] P [] [] P); [exact WP|now rewrite app_nil_r|now rewrite app_nil_r|reflexivity| |exact S1]. intros p a t. cbn. lia.
    + constructor.
    + constructor.
Qed.
Lemma reach_inv w : reach contract genesis ord w -> inv w.
Proof.
  induction 1 as [|w o R IH A]; [exact inv_new|]. destruct o; cbn [step]; [now apply inv_insert|now apply inv_snapshot|now apply inv_remove|now apply inv_rollback].
Qed.
Lemma rebuild_stored w : inv w -> stored (rebuild contract genesis ord w) (concat (w_done w)).
Proof.
  intros V. pose proof (v_wf w V) as W. unfold rebuild. assert (X : forall tl hd st, w_done w = hd ++ tl -> stored st (concat hd) -> stored (fold_left (fun st bs => flushed 1 (chain_of w) bs st) tl st) (concat (w_done w))).
  { induction tl as [|bs tl IH]; intros hd st E S; cbn [fold_left]; [rewrite E, app_nil_r; exact S|]. apply (IH (hd ++ [bs])); [rewrite <- app_assoc; exact E|].
    assert (DE : concat (hd ++ [bs]) = concat hd ++ bs) by (rewrite concat_app; cbn; now rewrite app_nil_r). assert (LE : chain_of w = (concat hd ++ bs) ++ concat tl ++ w_open w) by (unfold chain_of; rewrite E, concat_app; cbn; rewrite <- !app_assoc; reflexivity).
    assert (C1 : closed (concat hd)) by (pose proof (v_closed w V (length hd)) as X; rewrite E, firstn_app, firstn_all, Nat.sub_diag, firstn_O, app_nil_r in X; exact X).
    assert (C2 : closed (concat hd ++ bs)) by (pose proof (v_closed w V (length (hd ++ [bs]))) as X; rewrite E in X; change (bs :: tl) with ([bs] ++ tl) in X; rewrite app_assoc, firstn_app, firstn_all, Nat.sub_diag, firstn_O, app_nil_r, DE in X; exact X).
    rewrite DE. apply (stored_step contract genesis ord ORD 1 (chain_of w) (concat hd) bs _ (bs ++ concat tl ++ w_open w) (concat tl ++ w_open w) (concat hd ++ concat tl ++ w_open w)); [exact W|rewrite LE, <- app_assoc; reflexivity|rewrite LE; reflexivity| | |exact S].
    - rewrite LE. rewrite (Permutation_app_comm (concat hd) bs), <- app_assoc. reflexivity.
    - intros p a t. rewrite (net_step p (chain_of w) (concat hd) bs (concat tl ++ w_open w) a t W); [lia|rewrite LE; reflexivity|exact C1|exact C2]. }
  apply (X (w_done w) [] []); [reflexivity|]. split; [constructor|reflexivity].
Qed.

(** ** The answer *)
Lemma add_open_spec : forall l m X, NoDup (map fst l) -> NoDup (map fst m) ->
  (forall t, get Z.eqb m t = opt (val (get Z.eqb m t))) ->
  (forall t, X t = (fst (val (get Z.eqb m t)) + fst (val (get Z.eqb l t)), snd (val (get Z.eqb m t)) + snd (val (get Z.eqb l t)))) ->
  (forall t, good (fst (X t)) (snd (X t))) ->
  exists m', add_open l m = Some m' /\ NoDup (map fst m') /\ forall t, get Z.eqb m' t = opt (X t).
Proof.
  induction l as [|[t0 [a n]] l IH]; intros m X NL NM O HX G; cbn [add_open].
  - exists m. split; [reflexivity|]. split; [exact NM|]. intros t. rewrite HX. cbn. rewrite O at 1. destruct (val (get Z.eqb m t)). cbn. now rewrite !Z.add_0_r.
  - cbn in NL. inversion_clear NL as [|? ? P Q]. pose proof (HX t0) as H0. cbn [get] in H0. rewrite Z.eqb_refl in H0. cbn [val fst snd] in H0. pose proof (G t0) as G0. rewrite H0 in G0. cbn [fst snd] in G0.
    assert (NO : get Z.eqb l t0 = None) by (apply (get_none _ zeq); exact P).
    change (match get Z.eqb m t0 with Some v => v | None => (0, 0) end) with (val (get Z.eqb m t0)). destruct (val (get Z.eqb m t0)) as [a0 n0] eqn:V. cbn [fst snd] in *. rewrite (good_conflict _ _ G0).
    assert (STEP : forall m1, NoDup (map fst m1) -> get Z.eqb m1 t0 = opt (a0 + a, n0 + n) -> (forall t, t <> t0 -> get Z.eqb m1 t = get Z.eqb m t) -> exists m', add_open l m1 = Some m' /\ NoDup (map fst m') /\ forall t, get Z.eqb m' t = opt (X t)).
    { intros m1 N1 G1 G2. assert (V1 : val (get Z.eqb m1 t0) = (a0 + a, n0 + n)) by (rewrite G1; apply val_opt; apply G0). apply IH; [exact Q|exact N1| | |exact G].
      - intros t. destruct (Z.eq_dec t t0) as [->|D]; [now rewrite V1, G1|]. rewrite G2 by exact D. apply O.
      - intros t. destruct (Z.eq_dec t t0) as [->|D]; [rewrite V1, NO, H0; cbn; now rewrite !Z.add_0_r|]. rewrite G2 by exact D. rewrite HX. cbn [get]. destruct (Z.eqb_spec t0 t); [congruence|reflexivity]. }
    destruct (Z.eqb_spec (n0 + n) 0) as [Z0|Z0].
    + apply STEP; [now apply nodup_del; [exact zeq|]|rewrite (get_del _ zeq), Z.eqb_refl; unfold opt; cbn; now rewrite Z0|]. intros t D. rewrite (get_del _ zeq). destruct (Z.eqb_spec t0 t); [congruence|reflexivity].
    + rewrite Z.mod_small by (destruct G0; lia). apply STEP; [now apply nodup_put; [exact zeq|]|rewrite (get_put _ zeq), Z.eqb_refl; unfold opt; cbn; destruct (Z.eqb_spec (n0 + n) 0); [contradiction|reflexivity]|]. intros t D. rewrite (get_put _ zeq). destruct (Z.eqb_spec t0 t); [congruence|reflexivity].
Qed.
Lemma entries_get st a t : get Z.eqb (entries st a) t = get keq st (a, t).
Proof.
  unfold entries. induction st as [|[[x y] v] r IH]; [reflexivity|]. cbn [filter fst snd get]. unfold keq at 1. cbn [fst snd]. destruct (Z.eqb_spec x a) as [->|N]; cbn [map fst snd get andb]; [|exact IH]. now rewrite IH.
Qed.
Lemma entries_nodup st a : NoDup (map fst st) -> NoDup (map fst (entries st a)).
Proof.
  unfold entries. induction st as [|[[x y] v] r IH]; cbn [map fst]; intros N; [constructor|]. inversion_clear N as [|? ? P Q]. cbn [filter fst]. destruct (Z.eqb_spec x a) as [->|D]; [|now apply IH]. cbn [map fst snd]. constructor; [|now apply IH]. intros X. apply P. rewrite map_map in X. cbn in X. apply in_map_iff in X. destruct X as ([[x' y'] v'] & X1 & X2). apply filter_In in X2. cbn in *. destruct X2 as [X2 X3]. apply Z.eqb_eq in X3. subst. apply in_map_iff. now exists ((a, y), v').
Qed.
Lemma total_spec m : (forall e, In e m -> 0 <= snd (snd e)) -> sum (fun e : Z * (Z * Z) => snd (snd e)) m < two64 -> total m = sum (fun e : Z * (Z * Z) => snd (snd e)) m.
Proof.
  unfold total. intros H B. enough (X : forall l x, 0 <= x -> (forall e, In e l -> 0 <= snd (snd e)) -> x + sum (fun e : Z * (Z * Z) => snd (snd e)) l < two64 -> fold_left (fun x e => (x + snd (snd e)) mod two64) l x = x + sum (fun e : Z * (Z * Z) => snd (snd e)) l) by (rewrite X; [reflexivity|lia|exact H|exact B]).
  clear. induction l as [|e l IH]; intros x X H B; cbn [fold_left]; [cbn; lia|]. rewrite sum_cons in B |- *. pose proof (H e (or_introl eq_refl)). assert (H' : forall e, In e l -> 0 <= snd (snd e)) by (intros y Y; apply H; now right). pose proof (sum_nonneg _ _ H'). rewrite Z.mod_small by lia. rewrite IH; [lia|lia|exact H'|lia].
Qed.
Lemma tokens_sum : forall m l, NoDup (map fst m) -> (forall t, get Z.eqb m t = summary (of_token t l)) -> sum (fun e : Z * (Z * Z) => snd (snd e)) m = zlen l.
Proof.
  induction m as [|[t v] m IH]; intros l N H.
  - destruct l as [|s r]; [reflexivity|]. exfalso. pose proof (H (s_tok s)) as X. cbn in X. rewrite Z.eqb_refl in X. discriminate.
  - cbn in N. inversion_clear N as [|? ? P Q]. rewrite sum_cons. cbn [snd]. rewrite (IH (filter (fun s => negb (s_tok s =? t)) l) Q).
    + pose proof (H t) as X. cbn in X. rewrite Z.eqb_refl in X. assert (V : snd v = zlen (of_token t l)) by (destruct (of_token t l) as [|s r]; [discriminate|]; cbn [summary] in X; injection X as ->; reflexivity). rewrite V. unfold of_token. pose proof (Permutation_length (perm_part (fun s => s_tok s =? t) l)) as Y. rewrite app_length in Y. unfold zlen. lia.
    + intros t'. pose proof (H t') as X. cbn in X. destruct (Z.eqb_spec t t') as [->|D].
      * assert (get Z.eqb m t' = None) as -> by (apply (get_none _ zeq); exact P). assert (Y : of_token t' (filter (fun s => negb (s_tok s =? t')) l) = []); [|now rewrite Y]. unfold of_token. clear. induction l as [|s r IH]; [reflexivity|]. cbn. destruct (s_tok s =? t') eqn:E; cbn; [exact IH|]. rewrite E. exact IH.
      * rewrite X. f_equal. unfold of_token. clear - D. induction l as [|s r IH]; [reflexivity|]. cbn. destruct (Z.eqb_spec (s_tok s) t'), (Z.eqb_spec (s_tok s) t); cbn; try congruence; destruct (Z.eqb_spec (s_tok s) t'); try congruence; now rewrite IH.
Qed.
(** No send to the account hides in an unconfirmed receive block. *)
Definition no_hidden (w : world) (a : Z) : Prop := forall x h f subs s, In (BRecv x h f subs) (w_open w) -> In s subs -> s_to s <> a.
Lemma info_spec w a : inv w -> no_hidden w a -> exists m, info ord w a = Some (m, zlen (pending (chain_of w) a)) /\ NoDup (map fst m) /\ forall t, get Z.eqb m t = summary (of_token t (pending (chain_of w) a)).
Proof.
  intros V H. pose proof (v_wf w V) as W. set (L := chain_of w) in *. set (mine := map (fun e => alone (snd e)) (filter (fun e => fst (fst e) =? a) (w_cache w))).
  assert (MS : forall p t, sum (tv p L t) (ord _ mine) = sum (ev p L a t) (flat_map parts (w_open w))).
  { intros p t. rewrite (sum_perm _ _ _ (ORD _ _)). unfold mine. rewrite sum_map, sum_filter. rewrite sum_flat. rewrite <- (sum_perm _ _ _ (v_cache w V)), sum_map. apply sum_ext. intros [k b] X. cbn [fst snd]. pose proof (shaped_in _ _ _ (v_shape w V) X) as K. rewrite K. cbn [fst].
    assert (B : In b (w_open w)) by (apply (Permutation_in _ (v_cache w V)), in_map_iff; now exists (k, b)). destruct b as [y s|y h f subs]; cbn [RoadModel.parts alone b_owner].
    - rewrite sum_cons. cbn [sum fold_right]. rewrite Z.add_0_r. reflexivity.
    - destruct (wf_from _ _ L W y h f subs (open_in w _ B)) as (G & _). rewrite G, sum_cons. unfold ev at 1. cbn [e_owner]. rewrite (sum_zero (ev p L a t)); [rewrite Z.add_0_r; reflexivity|]. intros e E. destruct (contract y); [|destruct E]. apply in_map_iff in E. destruct E as (s & <- & S1). unfold ev. cbn [e_owner]. destruct (Z.eqb_spec (s_to s) a) as [Q|Q]; [|reflexivity]. exfalso. exact (H y h f subs s B S1 Q). }
  destruct (aggregate_spec L (ord _ mine) []) as (u & U1 & U2 & U3).
  { intros x f X. apply (Permutation_in _ (ORD _ _)) in X. unfold mine in X. apply in_map_iff in X. destruct X as ([k b] & X1 & X2). apply filter_In in X2. destruct X2 as [X2 _]. assert (B : In b (w_open w)) by (apply (Permutation_in _ (v_cache w V)), in_map_iff; now exists (k, b)). cbn in X1. destruct b as [y s|y h g subs]; [discriminate|]. injection X1 as -> ->. destruct (wf_look _ _ L x h f subs W (open_in w _ B)) as (s & E & _). congruence. }
  { constructor. }
  set (D := concat (w_done w)). destruct (v_store w V) as [SN SG]. fold D in SG.
  assert (PG : forall t, good (fst (psum D a t)) (snd (psum D a t))) by (intros t; apply (psum_good contract genesis L D (w_open w) a t W); reflexivity).
  assert (VG : forall t, val (get Z.eqb (entries (w_store w) a) t) = psum D a t) by (intros t; rewrite entries_get, SG; pose proof (PG t); destruct (psum D a t); apply val_opt; apply H0).
  destruct (add_open_spec (ord _ u) (entries (w_store w) a) (fun t => psum L a t)) as (m & M1 & M2 & M3).
  { refine (Permutation_NoDup (Permutation_map fst (Permutation_sym (ORD _ _))) U2). }
  { now apply entries_nodup. }
  { intros t. rewrite VG, entries_get, SG. reflexivity. }
  { intros t. rewrite VG. rewrite (get_perm _ zeq u (ord _ u) t U2 (Permutation_sym (ORD _ _))), U3. cbn [get val fst snd]. rewrite !Z.add_0_l, !MS. unfold psum. cbn [fst snd].
    assert (NS : forall p, sum p (of_token t (pending L a)) = sum p (of_token t (pending D a)) + sum (ev p L a t) (flat_map parts (w_open w))).
    { intros p. change (pending L a) with (pending (D ++ w_open w) a). apply (net_step p L D (w_open w) [] a t W); [rewrite app_nil_r; reflexivity|exact (v_done w V)|exact (wf_closed L W)]. }
    now rewrite <- !NS. }
  { intros t. apply (psum_good contract genesis L L [] a t W). now rewrite app_nil_r. }
  exists m. unfold info. fold L. fold mine. rewrite U1, M1.
  assert (M4 : forall t, get Z.eqb m t = summary (of_token t (pending L a))) by (intros t; rewrite M3, summary_opt; reflexivity).
  split; [|split; [exact M2|exact M4]]. f_equal. f_equal. pose proof (tokens_sum m (pending L a) M2 M4) as TS. assert (PM : sum (fun e : Z * (Z * Z) => snd (snd e)) (ord _ m) = zlen (pending L a)) by (rewrite (sum_perm _ _ _ (ORD _ m)); exact TS). rewrite total_spec; [exact PM| |].
  - intros [t [x y]] X. apply (Permutation_in _ (ORD _ _)) in X. cbn. apply (in_get _ zeq) in X; [|exact M2]. rewrite M3 in X. unfold opt in X. pose proof (psum_good contract genesis L L [] a t W) as G. destruct (psum L a t) as [x' y'] eqn:E. cbn [fst snd] in *. destruct (y' =? 0); [discriminate|]. injection X as <- <-. apply G. now rewrite app_nil_r.
  - rewrite PM. pose proof (wf_size _ _ L W). unfold pending. pose proof (zlen_filter (fun s => (s_to s =? a) && negb (existsb (Z.eqb (s_hash s)) (received L))) (sends L)). lia.
Qed.
End Road.
