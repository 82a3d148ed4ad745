From Verif Require Import Lib AssetModel AssetProofs StakeModel StakeSpec.
Lemma stake_min_pos : 0 < stake_min. Proof. reflexivity. Qed.
Local Opaque stake_min.

Lemma keqb_eq a b : keqb a b = true <-> a = b.
Proof. unfold keqb. destruct a as [a1 a2], b as [b1 b2]. cbn. split; [intro H; f_equal; lia|intros [= -> ->]; lia]. Qed.
Lemma keqb_neq a b : keqb a b = false <-> a <> b.
Proof. rewrite <- keqb_eq. destruct (keqb a b); split; congruence. Qed.
Lemma klt_trans a b c : klt a b -> klt b c -> klt a c.
Proof. unfold klt, kltb. lia. Qed.
Lemma klt_irrefl a : ~ klt a a.
Proof. unfold klt, kltb. lia. Qed.
Lemma klt_key r x y : key r = key x -> klt r y <-> klt x y.
Proof. unfold klt. intros ->. tauto. Qed.

Lemma put_in r l : ordered l -> forall x, In x (put r l) <-> x = r \/ (In x l /\ key x <> key r).
Proof.
  induction l as [|y l IH]; intros O x; [cbn; intuition|]. destruct O as [F O]. cbn [put]. rewrite Forall_forall in F.
  destruct (kltb (key r) (key y)) eqn:E1.
  - cbn [In]. split; [intros [<-|H]; [auto|right; split; [exact H|]]|intros [->|[H _]]; auto].
    intro Q. assert (L : klt r x). { destruct H as [<-|H]; [exact E1|apply (klt_trans r y x); [exact E1|auto]]. } apply (klt_irrefl x). apply (klt_key r x x) in L; auto.
  - destruct (keqb (key r) (key y)) eqn:E2.
    + apply keqb_eq in E2. cbn [In]. split; [intros [<-|H]; [auto|]|intros [->|[[->|H] N]]; [auto|congruence|auto]].
      right. split; [auto|]. intro Q. apply (klt_irrefl x). apply (klt_key y x x); [congruence|auto].
    + apply keqb_neq in E2. cbn [In]. rewrite (IH O). split; [intros [<-|[->|[H N]]]; auto|]. intros [->|[[->|H] N]]; auto.
Qed.
Lemma put_ordered r l : ordered l -> ordered (put r l).
Proof.
  induction l as [|y l IH]; intros O; [cbn; auto|]. pose proof O as O'. destruct O as [F O]. cbn [put]. destruct (kltb (key r) (key y)) eqn:E1.
  - split; [constructor; [exact E1|]|exact O']. eapply Forall_impl; [|exact F]. intros x L. apply (klt_trans r y x); auto.
  - destruct (keqb (key r) (key y)) eqn:E2.
    + apply keqb_eq in E2. split; [|exact O]. eapply Forall_impl; [|exact F]. intros x L. apply (klt_key r y x); auto.
    + split; [|auto]. apply Forall_forall. intros x H. apply (put_in r l O) in H as [->|[H _]]; [|rewrite Forall_forall in F; auto].
      apply keqb_neq in E2. unfold klt, kltb in *. destruct (key r) as [a b], (key y) as [c d]. cbn in *. assert (~ (a = c /\ b = d)) by (intros [-> ->]; auto). lia.
Qed.
Lemma del_in k l x : In x (del k l) <-> In x l /\ key x <> k.
Proof. unfold del. rewrite filter_In, negb_true_iff, keqb_neq. split; intros [A B]; split; congruence. Qed.
Lemma del_ordered k l : ordered l -> ordered (del k l).
Proof.
  induction l as [|y l IH]; intros O; [cbn; auto|]. destruct O as [F O]. unfold del. cbn [filter]. fold (del k l). destruct (negb _); [|auto].
  split; [|auto]. rewrite Forall_forall in *. intros x H. apply del_in in H as [H _]. auto.
Qed.
Lemma ordered_key l r r' : ordered l -> In r l -> In r' l -> key r = key r' -> r = r'.
Proof.
  induction l as [|y l IH]; intros O A B K; [destruct A|]. destruct O as [F O]. rewrite Forall_forall in F. destruct A as [<-|A], B as [<-|B]; auto.
  - exfalso. apply (klt_irrefl y). specialize (F r' B). apply (klt_key y y r') in F; auto. unfold klt in *. congruence.
  - exfalso. apply (klt_irrefl y). specialize (F r A). unfold klt in *. congruence.
Qed.
Lemma get_in l k r : ordered l -> get k l = Some r <-> In r l /\ key r = k.
Proof.
  intro O. unfold get. split.
  - intro H. apply find_some in H as [A B]. apply keqb_eq in B. auto.
  - intros [A B]. destruct (find (fun r => keqb k (key r)) l) as [r'|] eqn:E.
    + apply find_some in E as [A' B']. apply keqb_eq in B'. f_equal. apply (ordered_key l); auto. congruence.
    + pose proof (find_none _ _ E r A) as X. cbn in X. apply keqb_neq in X. congruence.
Qed.
Lemma get_none l k : get k l = None <-> forall r, In r l -> key r <> k.
Proof.
  unfold get. split.
  - intros E r H Q. pose proof (find_none _ _ E r H) as X. cbn in X. apply keqb_neq in X. congruence.
  - intro H. destruct (find _ l) as [r|] eqn:E; [|reflexivity]. apply find_some in E as [A B]. apply keqb_eq in B. exfalso. eapply H; eauto.
Qed.

Definition val (f : srec -> bool) (r : srec) : Z := if f r then r_amount r else 0.
Lemma total_cons f r l : total f (r :: l) = val f r + total f l. Proof. reflexivity. Qed.
Lemma total_put_new f r l : ordered l -> (forall x, In x l -> key x <> key r) -> total f (put r l) = total f l + val f r.
Proof.
  induction l as [|y l IH]; intros O N; [cbn; unfold val; lia|]. destruct O as [F O]. cbn [put]. destruct (kltb (key r) (key y)); [rewrite !total_cons; lia|].
  destruct (keqb (key r) (key y)) eqn:E; [apply keqb_eq in E; exfalso; apply (N y); [now left|auto]|]. rewrite !total_cons, IH; [lia|exact O|intros x H; apply N; now right].
Qed.
Lemma total_put_old f r o l : ordered l -> In o l -> key o = key r -> total f (put r l) = total f l - val f o + val f r.
Proof.
  induction l as [|y l IH]; intros O H K; [destruct H|]. destruct O as [F O]. rewrite Forall_forall in F. cbn [put].
  destruct (kltb (key r) (key y)) eqn:E1.
  - exfalso. destruct H as [<-|H]; [apply (klt_irrefl y); unfold klt; congruence|]. specialize (F o H). unfold klt in F. apply (klt_irrefl o).
    apply (klt_trans o y o); [unfold klt; congruence|exact F].
  - destruct (keqb (key r) (key y)) eqn:E2.
    + apply keqb_eq in E2. destruct H as [<-|H]; [rewrite !total_cons; lia|]. exfalso. apply (klt_irrefl y). specialize (F o H). unfold klt in *. congruence.
    + apply keqb_neq in E2. destruct H as [<-|H]; [congruence|]. rewrite !total_cons, IH; auto. lia.
Qed.
Lemma del_absent k l : (forall x, In x l -> key x <> k) -> del k l = l.
Proof.
  induction l as [|y l IH]; intro H; [reflexivity|]. unfold del. cbn [filter]. fold (del k l). assert (key y <> k) by (apply H; now left).
  replace (keqb k (key y)) with false by (symmetry; apply keqb_neq; congruence). cbn. rewrite IH; [reflexivity|]. intros x X. apply H. now right.
Qed.
Lemma total_del f o l : ordered l -> In o l -> total f (del (key o) l) = total f l - val f o.
Proof.
  induction l as [|y l IH]; intros O H; [destruct H|]. destruct O as [F O]. rewrite Forall_forall in F. unfold del. cbn [filter]. fold (del (key o) l). destruct H as [<-|H].
  - replace (keqb (key y) (key y)) with true by (symmetry; now apply keqb_eq). cbn [negb]. rewrite del_absent; [rewrite total_cons; lia|].
    intros x X Q. specialize (F x X). apply (klt_irrefl y). unfold klt in *. congruence.
  - replace (keqb (key o) (key y)) with false; [cbn [negb]; rewrite !total_cons, IH; auto; lia|]. symmetry. apply keqb_neq. intro Q. specialize (F o H). apply (klt_irrefl y). unfold klt in *. congruence.
Qed.
Lemma total_nonneg f l : Forall (fun r => 0 <= r_amount r) l -> 0 <= total f l.
Proof. induction 1 as [|r l A B IH]; [cbn; lia|]. rewrite total_cons. unfold val. destruct (f r); lia. Qed.
Lemma total_le f l r : Forall (fun r => 0 <= r_amount r) l -> In r l -> val f r <= total f l.
Proof.
  induction 1 as [|y l A B IH]; intros H; [destruct H|]. rewrite total_cons. pose proof (total_nonneg f l B) as T. destruct H as [->|H]; [lia|]. specialize (IH H).
  assert (0 <= val f y) by (unfold val; destruct (f y); lia). lia.
Qed.
Lemma total_mono f g l : Forall (fun r => 0 <= r_amount r) l -> (forall r, f r = true -> g r = true) -> total f l <= total g l.
Proof.
  intros H G. induction H as [|y l A B IH]; [cbn; lia|]. rewrite !total_cons. unfold val. destruct (f y) eqn:E; [rewrite (G _ E); lia|]. destruct (g y); lia.
Qed.

(** the first match in key order *)
Lemma find_first st b d a i l r : ordered l -> find (matches st b d a i) l = Some r ->
  In r l /\ r_staker r = st /\ r_ben r = b /\ r_del r = d /\ r_daddr r = a /\ r_bid r = i /\
  forall x, In x l -> r_staker x = st -> r_ben x = b -> r_del x = d -> r_daddr x = a -> r_bid x = i -> r_index r <= r_index x.
Proof.
  intros O E. assert (M : forall x, matches st b d a i x = true <-> r_staker x = st /\ r_ben x = b /\ r_del x = d /\ r_daddr x = a /\ r_bid x = i).
  { intro x. unfold matches. rewrite !andb_true_iff, Bool.eqb_true_iff, !Z.eqb_eq. tauto. }
  pose proof (find_some _ _ E) as [I Q]. apply M in Q as (Q1 & Q2 & Q3 & Q4 & Q5). do 6 (split; [assumption|]).
  intros x X1 X2 X3 X4 X5 X6. assert (MX : matches st b d a i x = true) by (apply M; auto). clear - O E X1 MX X2 Q1.
  induction l as [|y l IH]; [destruct X1|]. destruct O as [F O]. rewrite Forall_forall in F. cbn [find] in E. destruct (matches st b d a i y) eqn:Y.
  - injection E as ->. destruct X1 as [<-|X1]; [lia|]. specialize (F x X1). unfold klt, kltb, key in F. cbn in F. lia.
  - destruct X1 as [<-|X1]; [congruence|]. auto.
Qed.
Lemma find_none' st b d a i l : find (matches st b d a i) l = None -> forall x, In x l -> r_staker x = st -> r_ben x = b -> r_del x = d -> r_daddr x = a -> r_bid x = i -> False.
Proof.
  intros E x X A B C D G. pose proof (find_none _ _ E x X) as Q. unfold matches in Q. rewrite A, B, C, D, G, !Z.eqb_refl, Bool.eqb_reflx in Q. discriminate.
Qed.
Lemma max_index_le st h l : 0 <= h -> Forall (fun r => 0 <= r_index r <= h) l -> 0 <= max_index st l <= h.
Proof.
  intros H F. unfold max_index. assert (G : forall m, 0 <= m <= h -> 0 <= fold_left (fun m r => if r_staker r =? st then Z.max m (r_index r) else m) l m <= h); [|apply G; lia].
  induction F as [|r l A B IH]; intros m M; cbn [fold_left]; [exact M|]. apply IH. destruct (_ =? _); lia.
Qed.
Lemma next_key_new st h l : 0 <= h -> Forall (fun r => 0 <= r_index r <= h) l -> next_key st (h + 1) l = (st, h + 1).
Proof. intros H F. unfold next_key. pose proof (max_index_le st h l H F). replace (max_index st l <? h + 1) with true by lia. reflexivity. Qed.

(** ** The invariant *)
Record sinv (used : list Z) (w : sworld) : Prop := mkSI {
  iv_order : ordered (recs w);
  iv_min : Forall (fun r => stake_min <= r_amount r) (recs w);
  iv_plain : forall r, In r (recs w) -> (r_del r = false -> r_daddr r = 0 /\ r_bid r = 0) /\ (r_del r = true -> r_id r = None);
  iv_first : forall r r', In r (recs w) -> In r' (recs w) -> r_staker r = r_staker r' -> r_ben r = r_ben r' -> r_del r = false -> r_del r' = false -> r_id r' = None -> r_index r' <= r_index r;
  iv_one : forall r r', In r (recs w) -> In r' (recs w) -> r_staker r = r_staker r' -> r_ben r = r_ben r' -> r_del r = true -> r_del r' = true -> r_daddr r = r_daddr r' -> r_bid r = r_bid r' -> r = r';
  iv_ben : forall b, s_ben (v_st w) b = if staked_for w b =? 0 then None else Some (staked_for w b);
  iv_id : forall r i, In r (recs w) -> r_id r = Some i -> s_ids (v_st w) i = Some (key r);
  iv_used : forall i k, s_ids (v_st w) i = Some k -> In i used /\ snd k <= v_height w /\ forall r, In r (recs w) -> key r = k -> r_del r = false;
  iv_bal : v_bal w = staked w;
  iv_out : 0 <= v_out w;
  iv_all : v_bal w + v_out w < two256;
  iv_now : 0 <= v_now w;
  iv_height : 0 <= v_height w;
  iv_index : Forall (fun r => 0 <= r_index r <= v_height w) (recs w) }.

Lemma start_inv w : stake_start w -> sinv [] w.
Proof.
  intros [A B C D E F G H I J K L]. assert (C' : forall r, In r (recs w) -> r_del r = false /\ r_daddr r = 0 /\ r_bid r = 0 /\ r_id r = None) by (apply Forall_forall; exact C).
  split; auto.
  - intros r X. destruct (C' r X) as (P1 & P2 & P3 & P4). split; intro; [auto|congruence].
  - intros r r' X Y S T _ _ _. rewrite (D r r' X Y S T). lia.
  - intros r i X Q. destruct (C' r X) as (P1 & P2 & P3 & P4). congruence.
  - intros i k Q. rewrite F in Q. discriminate.
Qed.

(** ben_add and ben_sub keep the credited amounts exact *)
Definition exact (f : Z -> option Z) (t : Z -> Z) : Prop := forall b, f b = if t b =? 0 then None else Some (t b).
Lemma ben_add_exact f t a x t' : exact f t -> 0 < x -> 0 <= t a -> t a + x < two256 -> (forall b, t' b = t b + if b =? a then x else 0) -> exact (ben_add f a x) t'.
Proof.
  intros E P N B T b. rewrite T. unfold ben_add, upd. destruct (b =? a) eqn:Q; [|rewrite Z.add_0_r; apply E]. apply Z.eqb_eq in Q. subst b. rewrite (E a).
  replace (t a + x =? 0) with false by lia. f_equal. rewrite pack_small; [|unfold is_word; destruct (t a =? 0) eqn:Z; lia]. destruct (t a =? 0) eqn:Z; lia.
Qed.
Lemma ben_sub_exact f t a x f' t' : exact f t -> 0 <= x -> t a < two256 -> ben_sub f a x = Some f' -> (forall b, t' b = t b - if b =? a then x else 0) -> exact f' t'.
Proof.
  intros E P N B T b. rewrite T. unfold ben_sub in B. rewrite (E a) in B. destruct (t a =? 0) eqn:Z0; [discriminate|]. destruct (t a <? x) eqn:L; [discriminate|]. injection B as <-. unfold upd.
  destruct (b =? a) eqn:Q; [|rewrite Z.sub_0_r; apply E]. apply Z.eqb_eq in Q. subst b. destruct (t a - x =? 0) eqn:Z1; [reflexivity|]. rewrite pack_small; [reflexivity|unfold is_word; lia].
Qed.
Lemma ben_sub_ok f t a x : exact f t -> 0 < x <= t a -> exists f', ben_sub f a x = Some f'.
Proof. intros E P. unfold ben_sub. rewrite (E a). replace (t a =? 0) with false by lia. replace (t a <? x) with false by lia. eauto. Qed.
Lemma amounts_pos w used : sinv used w -> Forall (fun r => 0 <= r_amount r) (recs w).
Proof. intro I. eapply Forall_impl; [|apply (iv_min _ _ I)]. intros r X. assert (0 < stake_min) by apply stake_min_pos. cbv beta in *. lia. Qed.
Lemma for_bounds used w b : sinv used w -> 0 <= staked_for w b <= v_bal w.
Proof.
  intro I. pose proof (amounts_pos _ _ I) as P. rewrite (iv_bal _ _ I). unfold staked_for, staked. split; [apply total_nonneg; exact P|apply total_mono; auto].
Qed.
Lemma for_rec used w r : sinv used w -> In r (recs w) -> stake_min <= r_amount r <= staked_for w (r_ben r).
Proof.
  intros I H. pose proof (amounts_pos _ _ I) as P. split; [pose proof (iv_min _ _ I) as M; rewrite Forall_forall in M; apply M; exact H|].
  pose proof (total_le (fun x => r_ben x =? r_ben r) _ _ P H) as T. unfold val in T. rewrite Z.eqb_refl in T. exact T.
Qed.
Lemma skip_inv used w hash now : sinv used w -> v_now w <= now -> sinv (hash :: used) (mkV (v_st w) (v_bal w) (v_out w) (v_height w + 1) now).
Proof.
  intros [A B C D E F G H I J K L M N] T. split; auto; cbn [v_now v_height]; try lia.
  - intros i k Q. destruct (H i k Q) as (X & Y & Z). split; [now right|]. split; [lia|exact Z].
  - eapply Forall_impl; [|exact N]. cbn. intros; lia.
Qed.
Lemma add_inv used w hash now r a ids' : sinv used w -> v_now w <= now -> ~ In hash used -> r_index r = v_height w + 1 -> r_amount r = a -> stake_min <= a <= v_out w ->
  (r_del r = false -> r_daddr r = 0 /\ r_bid r = 0) -> (r_del r = true -> r_id r = None) ->
  (r_del r = false -> r_id r = None -> forall x, In x (recs w) -> r_staker x = r_staker r -> r_ben x = r_ben r -> r_del x = false -> False) ->
  (r_del r = true -> forall x, In x (recs w) -> r_staker x = r_staker r -> r_ben x = r_ben r -> r_del x = true -> r_daddr x = r_daddr r -> r_bid x = r_bid r -> False) ->
  (r_id r = None /\ ids' = s_ids (v_st w) \/ r_id r = Some hash /\ ids' = upd (s_ids (v_st w)) hash (Some (key r))) ->
  sinv (hash :: used) (mkV (mkS (put r (recs w)) (ben_add (s_ben (v_st w)) (r_ben r) a) ids') (v_bal w + a) (v_out w - a) (v_height w + 1) now).
Proof.
  intros I T FR IX AM LE P1 P2 NF NO ID. pose proof I as [A B C D E F G H J K L M N O]. rewrite Forall_forall in O.
  assert (NK : forall x, In x (recs w) -> key x <> key r) by (intros x X Q; specialize (O x X); injection Q as Q1 Q2; lia).
  assert (PI : forall x, In x (put r (recs w)) <-> x = r \/ In x (recs w)) by (intro x; rewrite (put_in r _ A); split; [intros [|[]]; auto|intros [|X]; auto]).
  assert (TT : forall f, total f (put r (recs w)) = total f (recs w) + val f r) by (intro f; apply total_put_new; auto).
  assert (S0 : 0 < stake_min) by apply stake_min_pos.
  split; cbn [v_st v_bal v_out v_height v_now recs s_recs s_ben s_ids] in *; unfold recs in *; cbn [v_st s_recs]; try lia.
  - apply put_ordered, A.
  - rewrite Forall_forall in *. intros x X. apply PI in X as [->|X]; [lia|auto].
  - intros x X. apply PI in X as [->|X]; [auto|apply C; exact X].
  - intros x x' X X' S1 S2 S3 S4 S5. apply PI in X as [->|X]; apply PI in X' as [->|X'].
    + lia.
    + specialize (O x' X'). lia.
    + exfalso. eapply NF; eauto.
    + apply (D x x'); auto.
  - intros x x' X X' S1 S2 S3 S4 S5 S6. apply PI in X as [->|X]; apply PI in X' as [->|X']; auto; exfalso; [eapply (NO S3 x'); eauto|eapply (NO S4 x); eauto].
  - unfold staked_for, recs in *. cbn [v_st s_recs]. eapply ben_add_exact with (t := fun b => total (fun r => r_ben r =? b) (s_recs (v_st w))).
    + exact F.
    + lia.
    + apply (for_bounds used w (r_ben r) I).
    + pose proof (for_bounds used w (r_ben r) I) as X. unfold staked_for, recs in X. lia.
    + intro b. rewrite TT. unfold val. rewrite (Z.eqb_sym b). destruct (r_ben r =? b); lia.
  - intros x i X Q. destruct ID as [[Q1 ->]|[Q1 ->]].
    + apply PI in X as [->|X]; [congruence|auto].
    + unfold upd. apply PI in X as [->|X]; [rewrite Q1 in Q; injection Q as <-; now rewrite Z.eqb_refl|]. pose proof (G x i X Q) as Y. destruct (i =? hash) eqn:R; [|exact Y].
      apply Z.eqb_eq in R. subst i. exfalso. apply FR. apply (H _ _ Y).
  - intros i k Q. assert (Q' : (i = hash /\ k = key r /\ r_id r = Some hash) \/ s_ids (v_st w) i = Some k).
    { destruct ID as [[Q1 ->]|[Q1 ->]]; [auto|]. unfold upd in Q. destruct (i =? hash) eqn:R; [|auto]. apply Z.eqb_eq in R. injection Q as <-. auto. }
    destruct Q' as [(-> & -> & Q1)|Q'].
    + split; [now left|]. split; [unfold key; cbn; lia|]. intros x X KX. apply PI in X as [->|X]; [|exfalso; eapply NK; eauto]. destruct (r_del r); [rewrite (P2 eq_refl) in Q1; discriminate|reflexivity].
    + destruct (H i k Q') as (U & V & W). split; [now right|]. split; [lia|]. intros x X KX. apply PI in X as [->|X]; [|auto]. subst k. unfold key in V. cbn in V. lia.
  - unfold staked, recs. cbn [v_st s_recs]. rewrite TT. unfold staked, recs in J. rewrite J. unfold val. lia.
  - apply Forall_forall. intros x X. apply PI in X as [->|X]; [lia|]. specialize (O x X). lia.
Qed.
Lemma change_inv used w hash now o r p ben' : sinv used w -> v_now w <= now -> In o (recs w) ->
  key r = key o -> r_ben r = r_ben o -> r_del r = r_del o -> r_daddr r = r_daddr o -> r_bid r = r_bid o -> r_id r = None -> stake_min <= r_amount r -> r_amount r = r_amount o + p -> p <= v_out w ->
  (r_del o = false -> forall x, In x (recs w) -> r_staker x = r_staker o -> r_ben x = r_ben o -> r_del x = false -> r_index o <= r_index x) ->
  exact ben' (fun b => staked_for w b + if b =? r_ben o then p else 0) ->
  sinv (hash :: used) (mkV (mkS (put r (recs w)) ben' (s_ids (v_st w))) (v_bal w + p) (v_out w - p) (v_height w + 1) now).
Proof.
  intros I T IO KY SB SD SA SI IDN MI AM LE FI BE. pose proof I as [A B C D E F G H J K L M N O]. rewrite Forall_forall in O.
  assert (KY2 : r_staker r = r_staker o /\ r_index r = r_index o) by (injection KY; auto). destruct KY2 as [KS KX].
  assert (PI : forall x, In x (put r (recs w)) <-> x = r \/ In x (recs w) /\ x <> o).
  { intro x. rewrite (put_in r _ A). split; intros [Q|[Q1 Q2]]; auto; right; (split; [exact Q1|]); [intros ->; congruence|]. intro Q. apply Q2. apply (ordered_key (recs w)); auto; congruence. }
  assert (TT : forall f, total f (put r (recs w)) = total f (recs w) - val f o + val f r) by (intro f; apply total_put_old; auto).
  split; cbn [v_st v_bal v_out v_height v_now s_recs s_ben s_ids] in *; unfold recs in *; cbn [v_st s_recs]; try lia.
  - apply put_ordered, A.
  - rewrite Forall_forall in *. intros x X. apply PI in X as [->|[X _]]; [lia|auto].
  - intros x X. apply PI in X as [->|[X _]]; [|apply C; exact X]. split; intro Q; [|exact IDN]. rewrite SA, SI. apply (C o IO). congruence.
  - intros x x' X X' S1 S2 S3 S4 S5. apply PI in X as [->|[X _]]; apply PI in X' as [->|[X' NX']]; auto; try lia.
    + rewrite KX. apply (D o x'); auto; congruence.
    + rewrite KX. apply FI; auto; congruence.
  - intros x x' X X' S1 S2 S3 S4 S5 S6. apply PI in X as [->|[X NX]]; apply PI in X' as [->|[X' NX']]; auto; exfalso; [apply NX'|apply NX]; [symmetry|]; apply E; auto; congruence.
  - unfold staked_for, recs. cbn [v_st s_recs]. intro b. rewrite BE. unfold staked_for, recs. rewrite TT. unfold val. rewrite SB.
    replace (total (fun r0 => r_ben r0 =? b) (s_recs (v_st w)) - (if r_ben o =? b then r_amount o else 0) + (if r_ben o =? b then r_amount r else 0))
      with (total (fun r0 => r_ben r0 =? b) (s_recs (v_st w)) + (if b =? r_ben o then p else 0)); [reflexivity|]. rewrite (Z.eqb_sym b). destruct (r_ben o =? b); lia.
  - intros x i X Q. apply PI in X as [->|[X _]]; [congruence|auto].
  - intros i k Q. destruct (H i k Q) as (U & V & W). split; [now right|]. split; [lia|]. intros x X Q2. apply PI in X as [->|[X _]]; [|auto]. rewrite SD. apply W; [exact IO|congruence].
  - unfold staked, recs. cbn [v_st s_recs]. rewrite TT. unfold staked, recs in J. rewrite J. unfold val. lia.
  - apply Forall_forall. intros x X. apply PI in X as [->|[X _]]; [specialize (O o IO)|specialize (O x X)]; lia.
Qed.
Lemma remove_inv used w hash now o ben' ids' : sinv used w -> v_now w <= now -> In o (recs w) ->
  (ids' = s_ids (v_st w) \/ exists i, s_ids (v_st w) i = Some (key o) /\ ids' = upd (s_ids (v_st w)) i None) -> (r_id o = None \/ exists i, s_ids (v_st w) i = Some (key o) /\ ids' = upd (s_ids (v_st w)) i None) ->
  exact ben' (fun b => staked_for w b - if b =? r_ben o then r_amount o else 0) ->
  sinv (hash :: used) (mkV (mkS (del (key o) (recs w)) ben' ids') (v_bal w - r_amount o) (v_out w + r_amount o) (v_height w + 1) now).
Proof.
  intros I T IO IDS _ BE. pose proof I as [A B C D E F G H J K L M N O]. pose proof (for_rec _ _ _ I IO) as FR. assert (S0 : 0 < stake_min) by apply stake_min_pos.
  assert (PI : forall x, In x (del (key o) (recs w)) <-> In x (recs w) /\ key x <> key o) by (intro; apply del_in).
  assert (TT : forall f, total f (del (key o) (recs w)) = total f (recs w) - val f o) by (intro f; apply total_del; auto).
  assert (SUB : forall i k, ids' i = Some k -> s_ids (v_st w) i = Some k).
  { intros i k Q. destruct IDS as [->|(j & _ & ->)]; [exact Q|]. unfold upd in Q. destruct (i =? j); [discriminate|exact Q]. }
  split; cbn [v_st v_bal v_out v_height v_now s_recs s_ben s_ids] in *; unfold recs in *; cbn [v_st s_recs]; try lia.
  - apply del_ordered, A.
  - rewrite Forall_forall in *. intros x X. apply PI in X as [X _]. auto.
  - intros x X. apply PI in X as [X _]. apply C; exact X.
  - intros x x' X X'. apply PI in X as [X _]; apply PI in X' as [X' _]. apply D; auto.
  - intros x x' X X'. apply PI in X as [X _]; apply PI in X' as [X' _]. apply E; auto.
  - unfold staked_for, recs. cbn [v_st s_recs]. intro b. rewrite BE. unfold staked_for, recs. rewrite TT. unfold val.
    replace (if r_ben o =? b then r_amount o else 0) with (if b =? r_ben o then r_amount o else 0); [reflexivity|]. rewrite (Z.eqb_sym b). reflexivity.
  - intros x i X Q. apply PI in X as [X NX]. pose proof (G x i X Q) as Y. destruct IDS as [->|(j & Q1 & ->)]; [exact Y|]. unfold upd. destruct (i =? j) eqn:R; [|exact Y].
    apply Z.eqb_eq in R. subst. congruence.
  - intros i k Q. destruct (H i k (SUB _ _ Q)) as (U & V & W). split; [now right|]. split; [lia|]. intros x X. apply PI in X as [X _]. auto.
  - unfold staked, recs. cbn [v_st s_recs]. rewrite TT. unfold staked, recs in J. rewrite J. unfold val. reflexivity.
  - apply Forall_forall. intros x X. apply PI in X as [X _]. rewrite Forall_forall in O. specialize (O x X). lia.
Qed.
