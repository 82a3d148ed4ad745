From Verif Require Import Lib.
From Verif Require RoadModel RoadProofs.
Import RoadProofs.
From Verif Require Import IdxModel IdxSpec.
From Coq Require Import Permutation Sorted.
Import ListNotations.

(** ** Batches *)
Lemma keq_spec x y : keq x y = true <-> x = y.
Proof.
  split.
  - destruct x, y; cbn; try discriminate; rewrite ?andb_true_iff, ?Z.eqb_eq; intuition congruence.
  - intros <-. destruct x; cbn; rewrite ?Z.eqb_refl; reflexivity.
Qed.
Lemma key_dec (x y : key) : {x = y} + {x <> y}.
Proof. decide equality; apply Z.eq_dec. Qed.
Lemma zeqb_spec x y : (x =? y) = true <-> x = y. Proof. apply Z.eqb_eq. Qed.
Definition effect (o : wop) : option val := match o with WPut _ v => Some v | WDel _ => None end.
Lemma get_apply1 d o k : get keq (apply1 d o) k = if keq (wkey o) k then effect o else get keq d k.
Proof. destruct o as [k0 v|k0]; cbn [apply1 wkey effect]; [apply (get_put _ keq_spec)|]. rewrite (get_del _ keq_spec). now destruct (keq k0 k). Qed.
Lemma keq_no x y : x <> y -> keq x y = false.
Proof. intros H. destruct (keq x y) eqn:E; [|reflexivity]. apply keq_spec in E. contradiction. Qed.
Lemma keq_refl x : keq x x = true. Proof. now apply keq_spec. Qed.
Lemma apply_app a b d : apply (a ++ b) d = apply b (apply a d).
Proof. unfold apply. apply fold_left_app. Qed.
Lemma get_out ops : forall d k, (forall o, In o ops -> wkey o <> k) -> get keq (apply ops d) k = get keq d k.
Proof.
  induction ops as [|o ops IH]; intros d k H; [reflexivity|]. change (apply (o :: ops) d) with (apply ops (apply1 d o)). rewrite IH by (intros; apply H; now right). rewrite get_apply1, keq_no; [reflexivity|]. apply H. now left.
Qed.
Lemma get_in_op ops : forall d o, In o ops -> (forall o', In o' ops -> wkey o' = wkey o -> effect o' = effect o) -> get keq (apply ops d) (wkey o) = effect o.
Proof.
  induction ops as [|p ops IH]; intros d o I H; [destruct I|]. change (apply (p :: ops) d) with (apply ops (apply1 d p)). destruct (in_dec key_dec (wkey o) (map wkey ops)) as [J|J].
  - apply in_map_iff in J. destruct J as (q & E & J). rewrite <- E. rewrite (IH _ q J). { apply H; [now right|exact E]. } intros o' O' E'. rewrite (H o' (or_intror O')) by congruence. symmetry. apply H; [now right|exact E].
  - rewrite get_out. { destruct I as [->|I]; [|destruct J; now apply in_map]. now rewrite get_apply1, keq_refl. } intros o' O' E. apply J. rewrite <- E. now apply in_map.
Qed.
(** The last word on a key *)
Lemma get_last ops d k : (exists l o r, ops = l ++ o :: r /\ wkey o = k /\ (forall o', In o' r -> wkey o' <> k) /\ get keq (apply ops d) k = effect o) \/ ((forall o, In o ops -> wkey o <> k) /\ get keq (apply ops d) k = get keq d k).
Proof.
  induction ops as [|o ops IH] using rev_ind; [right; split; [intros o []|reflexivity]|]. rewrite apply_app. change (apply [o] (apply ops d)) with (apply1 (apply ops d) o). rewrite get_apply1. destruct (key_dec (wkey o) k) as [E|E].
  - left. exists ops, o, []. split; [reflexivity|]. split; [exact E|]. split; [intros o' []|]. subst k. now rewrite keq_refl.
  - rewrite (keq_no _ _ E). destruct IH as [(l & q & r & -> & A & B & C)|[A B]].
    + left. exists l, q, (r ++ [o]). split; [now rewrite <- app_assoc|]. split; [exact A|]. split; [|exact C]. intros o' O'. apply in_app_or in O'. destruct O' as [O'|[<-|[]]]; auto.
    + right. split; [|exact B]. intros o' O'. apply in_app_or in O'. destruct O' as [O'|[<-|[]]]; auto.
Qed.
Lemma nodup_apply1 d o : NoDup (map fst d) -> NoDup (map fst (apply1 d o)).
Proof. intros N. destruct o; cbn [apply1]; [apply (nodup_put _ keq_spec); exact N|apply (nodup_del _ keq_spec); exact N]. Qed.
Lemma nodup_apply ops : forall d, NoDup (map fst d) -> NoDup (map fst (apply ops d)).
Proof. induction ops as [|o ops IH]; intros d N; [exact N|]. apply IH. now apply nodup_apply1. Qed.

(** ** What the index should hold *)
Definition bb (S0 : list seg) (U : list blk) : list blk := flat_map g_blocks S0 ++ U.
Definition proper (k : key) : Prop := match k with KAddr _ | KId _ => False | _ => True end.
Definition sent (bs : list blk) (s t : Z) : Prop := exists b x, In b bs /\ In x (sends b) /\ s_hash x = s /\ s_to x = t.
Definition fact (S0 : list seg) (U : list blk) (k : key) (v : val) : Prop :=
  match k, v with
  | KHash h, VAt a n => exists b, In b (bb S0 U) /\ In h (hashes b) /\ b_addr b = a /\ b_height b = n
  | KBlock a n, VHash h => exists b, In b U /\ b_addr b = a /\ b_height b = n /\ b_hash b = h
  | KBlock a n, VLoc h l => exists g b, In g S0 /\ In b (g_blocks g) /\ b_addr b = a /\ b_height b = n /\ b_hash b = h /\ g_locs g h = l
  | KRecv s, VOpen => (exists t, sent (bb S0 U) s t) /\ forall r, ~ received_at (bb S0 U) s r
  | KRecv s, VBy r => received_at (bb S0 U) s r
  | KRoad t s, VNil => sent (bb S0 U) s t /\ forall r, ~ received_at (bb S0 U) s r
  | KConf a n, VNum m => exists g, In g S0 /\ In (a, n) (sb_content (g_sb g)) /\ sb_height (g_sb g) = m
  | KSb h, VNum m => exists g, In g S0 /\ sb_hash (g_sb g) = h /\ sb_height (g_sb g) = m
  | KSbAt n, VLoc h l => exists g, In g S0 /\ sb_height (g_sb g) = n /\ sb_hash (g_sb g) = h /\ g_loc g = l
  | _, _ => False
  end.
Definition good (d : db) (S0 : list seg) (U : list blk) : Prop := forall k, proper k -> forall v, get keq d k = Some v <-> fact S0 U k v.

Definition later (b c : blk) : Prop := b_addr b = b_addr c -> b_height b < b_height c.
Definition taken (bs : list blk) : list Z := flat_map (fun b => match b with BRecv _ _ _ (Some f) _ => [f] | _ => [] end) bs.
Definition after (l : list blk) (b : blk) : Prop := match b with BRecv a _ _ (Some f) _ => sent l f a | _ => True end.
Record wf (S0 : list seg) (U : list blk) : Prop := {
  c_hash : NoDup (flat_map hashes (bb S0 U));
  c_high : forall b, In b (bb S0 U) -> 1 <= b_height b < max_u64;
  c_order : StronglySorted later (bb S0 U);
  c_from : forall l b r, bb S0 U = l ++ b :: r -> after l b;
  c_taken : NoDup (taken (bb S0 U));
  c_subs : forall a n h f subs, In (BRecv a n h f subs) (bb S0 U) -> Forall (fun s => s_create s = false) subs;
  c_sbs : StronglySorted (fun g g' => sb_hash (g_sb g) <> sb_hash (g_sb g') /\ sb_height (g_sb g) < sb_height (g_sb g')) S0;
  c_low : forall g, In g S0 -> 1 <= sb_height (g_sb g);
  c_once : forall g, In g S0 -> NoDup (map fst (sb_content (g_sb g)));
  c_named : forall g a n, In g S0 -> In (a, n) (sb_content (g_sb g)) -> exists b, In b (g_blocks g) /\ b_addr b = a /\ b_height b = n;
  c_under : forall g b, In g S0 -> In b (g_blocks g) -> exists n, In (b_addr b, n) (sb_content (g_sb g)) /\ b_height b <= n;
  c_none : forall a n h subs, In (BRecv a n h None subs) (bb S0 U) -> In (BRecv a n h None subs) (flat_map g_blocks (firstn 1 S0)) \/ S0 = [] /\ In (BRecv a n h None subs) U }.

(** ** Blocks of a chain *)
Lemma nd_app_ht {A} (l r : list A) x : NoDup (l ++ r) -> In x l -> In x r -> False.
Proof. induction l as [|y l IH]; [intros _ []|]. cbn. intros N. inversion_clear N as [|? ? X Y]. intros [->|H] R; [apply X, in_or_app; auto|now apply IH]. Qed.
Lemma nd_app_r {A} (l r : list A) : NoDup (l ++ r) -> NoDup r.
Proof. induction l as [|y l IH]; [trivial|]. cbn. intros N. inversion_clear N. auto. Qed.
Lemma hs_self b : In (b_hash b) (hashes b). Proof. destruct b; cbn; auto. Qed.
Lemma hs_send b x : In x (sends b) -> In (s_hash x) (hashes b).
Proof. destruct b; cbn; [intros [->|[]]; auto|]. intros H. right. now apply in_map. Qed.
Lemma same_block L h b c : NoDup (flat_map hashes L) -> In b L -> In c L -> In h (hashes b) -> In h (hashes c) -> b = c.
Proof.
  intros N. induction L as [|d L IH]; [intros []|]. cbn in N. intros [->|B] [->|C] HB HC; [reflexivity| | |].
  - exfalso. apply (nd_app_ht _ _ _ N HB). apply in_flat_map. eauto.
  - exfalso. apply (nd_app_ht _ _ _ N HC). apply in_flat_map. eauto.
  - apply IH; auto. now apply nd_app_r in N.
Qed.
Lemma block_nd L b : NoDup (flat_map hashes L) -> In b L -> NoDup (hashes b).
Proof. intros N. induction L as [|d L IH]; [intros []|]. cbn in N. intros [->|B]; [now apply nodup_app_l in N|]. apply IH; [now apply nd_app_r in N|exact B]. Qed.
Lemma same_send b x y : NoDup (hashes b) -> In x (sends b) -> In y (sends b) -> s_hash x = s_hash y -> x = y.
Proof.
  destruct b as [a n s|a n h f subs]; cbn.
  - intros _ [<-|[]] [<-|[]] _. reflexivity.
  - intros N. inversion_clear N as [|? ? _ N']. revert N'. induction subs as [|t l IH]; [intros _ []|]. cbn. intros N. inversion_clear N as [|? ? X Y]. intros [->|A] [->|B] E; [reflexivity| | |auto].
    + destruct X. rewrite E. now apply in_map.
    + destruct X. rewrite <- E. now apply in_map.
Qed.
Lemma send_not_self a n h f subs x : NoDup (hashes (BRecv a n h f subs)) -> In x subs -> s_hash x <> h.
Proof. cbn. intros N H E. inversion_clear N as [|? ? X _]. apply X. rewrite <- E. now apply in_map. Qed.
Lemma same_at L b c : StronglySorted later L -> In b L -> In c L -> b_addr b = b_addr c -> b_height b = b_height c -> b = c.
Proof.
  induction 1 as [|d L SS IH F]; [intros []|]. rewrite Forall_forall in F. intros [->|B] [->|C] A H; [reflexivity| | |auto].
  - specialize (F c C A). lia.
  - specialize (F b B (eq_sym A)). lia.
Qed.
Lemma sent_one L s t u : NoDup (flat_map hashes L) -> sent L s t -> sent L s u -> t = u.
Proof.
  intros N (b & x & B & X & E & T) (c & y & C & Y & E' & T'). assert (b = c) by (apply (same_block L s b c N B C); [rewrite <- E|rewrite <- E']; now apply hs_send). subst c. assert (x = y) by (apply (same_send b); auto; [now apply (block_nd L)|congruence]). congruence.
Qed.
Lemma taken_iff L f : In f (taken L) <-> exists r, received_at L f r.
Proof.
  unfold taken. rewrite in_flat_map. split.
  - intros (b & B & H). destruct b as [|a n h [g|] subs]; [destruct H| |destruct H]. destruct H as [H|[]]. subst g. exists h, a, n, subs. exact B.
  - intros (r & a & n & subs & H). exists (BRecv a n r (Some f) subs). split; [exact H|now left].
Qed.
Lemma taken_one L f r q : NoDup (flat_map hashes L) -> NoDup (taken L) -> received_at L f r -> received_at L f q -> r = q.
Proof.
  intros _ N (a & n & subs & H) (a' & n' & subs' & H'). induction L as [|b L IH]; [destruct H|]. cbn in N. destruct H as [->|H], H' as [E|H'].
  - congruence.
  - exfalso. cbn in N. inversion_clear N as [|? ? X _]. apply X. apply taken_iff. exists q, a', n', subs'. exact H'.
  - exfalso. subst b. cbn in N. inversion_clear N as [|? ? X _]. apply X. apply taken_iff. exists r, a, n, subs. exact H.
  - apply IH; auto. now apply nd_app_r in N.
Qed.
Lemma taken_sent S0 U f : wf S0 U -> In f (taken (bb S0 U)) -> exists a, sent (bb S0 U) f a.
Proof.
  intros W H. apply taken_iff in H. destruct H as (r & a & n & subs & H). apply in_split in H. destruct H as (l & r' & E). pose proof (c_from _ _ W _ _ _ E) as (b & x & B & Q). exists a, b, x. rewrite E. split; [apply in_or_app; now left|exact Q].
Qed.
Lemma recv_sent S0 U a n r f subs : wf S0 U -> In (BRecv a n r (Some f) subs) (bb S0 U) -> sent (bb S0 U) f a.
Proof.
  intros W H. apply in_split in H. destruct H as (l & r' & E). pose proof (c_from _ _ W _ _ _ E) as (b & x & B & Q). exists b, x. rewrite E. split; [apply in_or_app; now left|exact Q].
Qed.
Lemma sent_hash L s t : sent L s t -> exists b, In b L /\ In s (hashes b).
Proof. intros (b & x & B & X & <- & _). exists b. split; [exact B|now apply hs_send]. Qed.
Lemma bb_snoc S0 U b : bb S0 (U ++ [b]) = bb S0 U ++ [b].
Proof. unfold bb. now rewrite app_assoc. Qed.
Lemma fact_perm S0 U V k v : (forall b, In b U <-> In b V) -> fact S0 U k v -> fact S0 V k v.
Proof.
  intros E. assert (B : forall b, In b (bb S0 U) <-> In b (bb S0 V)) by (intros b; unfold bb; rewrite !in_app_iff, E; reflexivity).
  assert (SE : forall s t, sent (bb S0 U) s t <-> sent (bb S0 V) s t) by (intros s t; unfold sent; split; intros (b & x & I & Q); exists b, x; (split; [now apply B|exact Q])).
  assert (RE : forall s r, received_at (bb S0 U) s r <-> received_at (bb S0 V) s r) by (intros s r; unfold received_at; split; intros (a & n & subs & I); exists a, n, subs; now apply B).
  destruct k, v; cbn; try tauto.
  - intros (b & I & Q). exists b. split; [now apply B|exact Q].
  - intros (b & I & Q). exists b. split; [now apply E|exact Q].
  - intros ((t & Q) & R). split; [exists t; now apply SE|]. intros r X. apply (R r). now apply RE.
  - apply RE.
  - intros (Q & R). split; [now apply SE|]. intros r X. apply (R r). now apply RE.
Qed.
Lemma good_perm d S0 U V : (forall b, In b U <-> In b V) -> good d S0 U -> good d S0 V.
Proof. intros E G k P v. rewrite (G k P v). split; apply fact_perm; [exact E|]. intros b. symmetry. apply E. Qed.
