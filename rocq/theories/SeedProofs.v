(** Proofs about random seeds. *)
From Coq Require Import ZArith List Bool Lia.
From Verif Require Import Lib VmModel WireModel SeedModel SeedSpec.
Import ListNotations.
Open Scope Z_scope.

(** ** The window *)
Lemma down_cons h t : t <= h -> down h t = h :: down (h - 1) t.
Proof.
  intro L. unfold down. replace (Z.to_nat (h - t + 1)) with (S (Z.to_nat (h - 1 - t + 1))) by lia.
  cbn [seq map]. f_equal; [lia|]. rewrite <- seq_shift, map_map. apply map_ext. intro i. lia.
Qed.
Lemma down_nil h t : h < t -> down h t = [].
Proof. intro L. unfold down. replace (Z.to_nat (h - t + 1)) with 0%nat by lia. reflexivity. Qed.
Lemma firstn_snoc {A} (l : list A) n x : nth_error l n = Some x -> firstn (S n) l = firstn n l ++ [x].
Proof.
  revert n. induction l as [|y l IH]; intros [|n] E; try discriminate.
  - cbn in E. injection E as ->. reflexivity.
  - cbn in E. change (firstn (S (S n)) (y :: l)) with (y :: firstn (S n) l). rewrite (IH _ E). reflexivity.
Qed.
Lemma skipn_snoc {A} (l : list A) n x : (n <= length l)%nat -> skipn n (l ++ [x]) = skipn n l ++ [x].
Proof. intro L. rewrite skipn_app. replace (n - length l)%nat with 0%nat by lia. reflexivity. Qed.
Lemma down_headers c t : 1 <= t -> forall n, (n <= length c)%nat ->
  map (header_at c) (down (Z.of_nat n) t) = map Some (rev (skipn (Z.to_nat (t - 1)) (firstn n c))).
Proof.
  intros T. induction n as [|n IH]; intro L.
  - rewrite down_nil by lia. cbn [firstn]. rewrite skipn_nil. reflexivity.
  - destruct (Z.le_gt_cases t (Z.of_nat (S n))) as [B|B].
    + rewrite down_cons by assumption. cbn [map]. replace (Z.of_nat (S n) - 1) with (Z.of_nat n) by lia. rewrite IH by lia.
      unfold header_at. destruct (Z.ltb_spec (Z.of_nat (S n)) 1); [lia|]. replace (Z.to_nat (Z.of_nat (S n) - 1)) with n by lia.
      destruct (nth_error c n) as [x|] eqn:E; [|apply nth_error_None in E; lia].
      rewrite (firstn_snoc c n x E), skipn_snoc, rev_app_distr by (rewrite firstn_length; lia). reflexivity.
    + rewrite down_nil by assumption. rewrite skipn_all2; [reflexivity|]. rewrite firstn_length. lia.
Qed.
Lemma window c h : 0 <= h <= zlen c -> map (header_at c) (down h (tail_height h)) = map Some (recent c h).
Proof.
  intro L. unfold zlen in L. pose proof (down_headers c (tail_height h) ltac:(unfold tail_height; destruct (600 <? h) eqn:?; lia) (Z.to_nat h) ltac:(lia)) as E.
  rewrite Z2Nat.id in E by lia. rewrite E. unfold recent, tail_height. destruct (Z.ltb_spec 600 h).
  - replace (h - 600 - 1) with (h - 601) by lia. reflexivity.
  - replace (Z.to_nat (1 - 1)) with 0%nat by lia. replace (Z.to_nat (h - 601)) with 0%nat by lia. reflexivity.
Qed.

(** ** Heights of hashes *)
Lemma height_from_spec c hash : forall h, height_from h c hash = 0 /\ ~ In hash (map hd_hash c) \/
  exists i x, nth_error c i = Some x /\ hd_hash x = hash /\ height_from h c hash = h + Z.of_nat i.
Proof.
  induction c as [|x c IH]; intro h; cbn [height_from map]; [left; auto|]. destruct (zlist_eqb (hd_hash x) hash) eqn:E.
  - apply zlist_eqb_eq in E. right. exists 0%nat, x. cbn. repeat split; auto. lia.
  - apply zlist_eqb_neq in E. destruct (IH (h + 1)) as [[A B]|(i & y & A & B & C)].
    + left. split; [assumption|]. cbn. tauto.
    + right. exists (S i), y. repeat split; auto. rewrite C. lia.
Qed.
Lemma height_of_at c i x : NoDup (map hd_hash c) -> nth_error c i = Some x -> height_of c (hd_hash x) = Z.of_nat i + 1.
Proof.
  intros N E. unfold height_of. destruct (height_from_spec c (hd_hash x) 1) as [[_ A]|(j & y & A & B & ->)].
  - exfalso. apply A. apply in_map. eapply nth_error_In; exact E.
  - assert (i = j); [|lia]. rewrite NoDup_nth_error in N. apply N.
    + rewrite map_length. apply nth_error_Some. congruence.
    + rewrite (map_nth_error hd_hash _ _ E), (map_nth_error hd_hash _ _ A). now rewrite B.
Qed.
Lemma height_of_none c hash : ~ In hash (map hd_hash c) -> height_of c hash = 0.
Proof.
  intro N. unfold height_of. destruct (height_from_spec c hash 1) as [[A _]|(j & y & A & B & _)]; [assumption|].
  exfalso. apply N. rewrite <- B. apply in_map. eapply nth_error_In; exact A.
Qed.

(** ** The random seed *)
(** Newest first, each block's predecessor follows it. *)
Fixpoint chained (l : list header) : Prop :=
  match l with
  | x :: ((y :: _) as r) => hd_prev x = hd_hash y /\ chained r
  | _ => True
  end.
Lemma chained_rev_snoc x : forall l, (forall y l', l = y :: l' -> hd_prev x = hd_hash y) -> chained l -> chained (x :: l).
Proof. intros l H C. destruct l as [|y l]; [exact I|]. cbn. split; [now apply (H y l)|exact C]. Qed.
Lemma linked_chained c : linked c -> forall n, chained (rev (firstn n c)).
Proof.
  intros [L _] n. induction n as [|n IH]; [exact I|]. destruct (nth_error c n) as [x|] eqn:E.
  - rewrite (firstn_snoc c n x E), rev_app_distr. cbn [rev app]. apply chained_rev_snoc; [|exact IH].
    intros y l' Y. destruct n as [|m]; [discriminate|]. destruct (nth_error c m) as [z|] eqn:Z.
    + rewrite (firstn_snoc c m z Z), rev_app_distr in Y. cbn in Y. injection Y as <- _. eapply L; eauto.
    + apply nth_error_None in Z. assert (nth_error c (S m) <> None) by congruence. apply nth_error_Some in H. lia.
  - apply nth_error_None in E. rewrite firstn_all2 in IH |- * by lia. exact IH.
Qed.
Lemma chained_app l : forall r, chained (l ++ r) -> chained l.
Proof.
  induction l as [|x l IH]; intros r C; [exact I|]. destruct l as [|y l]; [exact I|]. cbn in *. destruct C as [A B]. split; [assumption|]. apply (IH r B).
Qed.
Lemma recent_chained c h : linked c -> chained (recent c h).
Proof.
  intro L. unfold recent. pose proof (linked_chained c L (Z.to_nat h)) as C.
  rewrite <- (firstn_skipn (Z.to_nat (h - 601)) (firstn (Z.to_nat h) c)), rev_app_distr in C. now apply chained_app in C.
Qed.

Definition fresh (producers : list Z) (y : header) : bool := negb (existsb (Z.eqb (hd_producer y)) producers).
Lemma filter_filter {A} (f g : A -> bool) l : filter f (filter g l) = filter (fun x => f x && g x) l.
Proof. induction l as [|x l IH]; cbn; [reflexivity|]. destruct (g x) eqn:G; cbn; rewrite ?andb_true_r, ?andb_false_r; destruct (f x); cbn; rewrite ?IH; reflexivity. Qed.
Lemma firstn_S_pos {A} k (x : A) l : 0 < k -> firstn (Z.to_nat k) (x :: l) = x :: firstn (Z.to_nat (k - 1)) l.
Proof. intro P. replace (Z.to_nat k) with (S (Z.to_nat (k - 1))) by lia. reflexivity. Qed.
Lemma random_loop_spec c n hs : forall l count acc producers prev,
  map (header_at c) hs = map Some l -> chained l -> Forall (fun x => is_u64 (hd_seed x)) l ->
  (forall x r, l = x :: r -> forall p, prev = Some p -> p = hd_hash x) -> is_u64 acc ->
  random_loop c n hs count acc producers prev =
  wrap64 (acc + total (firstn (Z.to_nat (n - count)) (filter (fresh producers) (reveals l)))).
Proof.
  induction hs as [|h hs IH]; intros l count acc producers prev M C S P A; destruct l as [|x l]; try discriminate.
  - cbn. rewrite firstn_nil. cbn. rewrite Z.add_0_r. unfold wrap64, is_u64 in *. rewrite Z.mod_small; lia.
  - cbn [map] in M. injection M as M0 M. cbn [random_loop]. rewrite M0. apply Forall_cons_iff in S as [S0 S].
    assert (C' : chained l) by (destruct l; [exact I|cbn in C; tauto]).
    assert (P' : forall y r, l = y :: r -> forall p, Some (hd_prev x) = Some p -> p = hd_hash y).
    { intros y r -> p Q. injection Q as <-. cbn in C. tauto. }
    destruct (Z.ltb_spec count n) as [L|L]; cbn [negb].
    2:{ replace (Z.to_nat (n - count)) with 0%nat by lia. cbn. rewrite Z.add_0_r. unfold wrap64, is_u64 in *. rewrite Z.mod_small; lia. }
    assert (PV : match prev with Some p => negb (zlist_eqb (hd_hash x) p) | None => false end = false).
    { destruct prev as [p|]; [|reflexivity]. rewrite (P x l eq_refl p eq_refl), zlist_eqb_refl. reflexivity. }
    rewrite PV. unfold is_u64 in S0. cbn [reveals]. destruct (Z.leb_spec (hd_seed x) 0) as [Z0|Z0].
    + replace (hd_seed x) with 0 by lia. cbn [Z.eqb]. apply IH; auto.
    + destruct (Z.eqb_spec (hd_seed x) 0); [lia|]. cbn [filter]. unfold fresh at 1.
      destruct (existsb (Z.eqb (hd_producer x)) producers) eqn:X; cbn [negb].
      * rewrite (IH l) by auto. do 4 f_equal. rewrite filter_filter. apply filter_ext. intro y. unfold fresh.
        destruct (existsb (Z.eqb (hd_producer y)) producers) eqn:Y; [reflexivity|]. destruct (Z.eqb_spec (hd_producer y) (hd_producer x)) as [E|]; [|reflexivity].
        exfalso. rewrite E in Y. congruence.
      * rewrite (IH l); auto; [|unfold is_u64, wrap64; pose proof (Z.mod_pos_bound (acc + hd_seed x) two64 ltac:(reflexivity)); lia].
        rewrite firstn_S_pos by lia. cbn [total fold_right]. fold (total (firstn (Z.to_nat (n - count - 1)) (filter (fresh producers) (filter (fun y => negb (hd_producer y =? hd_producer x)) (reveals l))))).
        rewrite filter_filter. replace (n - (count + 1)) with (n - count - 1) by lia.
        rewrite (filter_ext (fresh (hd_producer x :: producers)) (fun y => fresh producers y && negb (hd_producer y =? hd_producer x))).
        -- unfold wrap64. rewrite Zplus_mod_idemp_l. f_equal. lia.
        -- intro y. unfold fresh. cbn [existsb]. rewrite negb_orb, andb_comm. reflexivity.
Qed.
Lemma filter_true {A} (l : list A) f : (forall x, f x = true) -> filter f l = l.
Proof. intro H. induction l as [|x l IH]; cbn; [reflexivity|]. now rewrite H, IH. Qed.
Lemma recent_seeds c h : seeds_ok c -> Forall (fun x => is_u64 (hd_seed x)) (recent c h).
Proof.
  intro S. unfold recent. apply Forall_rev. apply Forall_forall. intros x X. unfold seeds_ok in S. rewrite Forall_forall in S. apply S.
  assert (In x (firstn (Z.to_nat h) c)).
  { rewrite <- (firstn_skipn (Z.to_nat (h - 601)) (firstn (Z.to_nat h) c)). apply in_or_app. now right. }
  rewrite <- (firstn_skipn (Z.to_nat h) c). apply in_or_app. now left.
Qed.
Lemma random_at c n h : linked c -> seeds_ok c -> 0 <= h <= zlen c ->
  random_loop c n (down h (tail_height h)) 0 0 [] None = wrap64 (total (firstn (Z.to_nat n) (reveals (recent c h)))).
Proof.
  intros L S B. rewrite (random_loop_spec c n _ (recent c h)).
  - rewrite filter_true by reflexivity. rewrite Z.sub_0_r, Z.add_0_l. reflexivity.
  - now apply window.
  - now apply recent_chained.
  - now apply recent_seeds.
  - intros; discriminate.
  - unfold is_u64. rewrite <- Z.ltb_lt. vm_compute. intuition congruence.
Qed.

(** ** Commitments *)
Section Hash.
Context (H : list Z -> list Z).
(** The seeds collected from the newer blocks. *)
Definition collected (producer : Z) (newer : list header) : list Z :=
  rev (map hd_seed (filter (fun y => (hd_producer y =? producer) && match hd_commit y with Some _ => true | None => false end) newer)).
Lemma collected_opened producer newer x k : hd_producer x = producer ->
  existsb (fun s => zlist_eqb (seed_hash H s (hd_prev x) (hd_time x)) k) (collected producer newer) = true <-> opened H newer x k.
Proof.
  intro P. unfold collected, opened. rewrite existsb_exists. split.
  - intros (s & I & E). apply in_rev in I. apply in_map_iff in I as (y & <- & Y). apply filter_In in Y as [Y F].
    apply andb_true_iff in F as [F1 F2]. apply zlist_eqb_eq in E. exists y. repeat split; auto; [lia|]. destruct (hd_commit y); congruence.
  - intros (y & Y & Q & N & E). exists (hd_seed y). split; [|now apply zlist_eqb_eq]. apply -> in_rev. apply in_map. apply filter_In.
    split; [assumption|]. apply andb_true_iff. split; [lia|]. destruct (hd_commit y); congruence.
Qed.
Lemma collected_snoc producer newer x : collected producer (newer ++ [x]) =
  if (hd_producer x =? producer) && match hd_commit x with Some _ => true | None => false end
  then hd_seed x :: collected producer newer else collected producer newer.
Proof.
  unfold collected. rewrite filter_app. cbn [filter]. destruct ((hd_producer x =? producer) && _); rewrite map_app, rev_app_distr; reflexivity.
Qed.
Lemma unpublished_spec c producer before hs : forall newer l,
  map (header_at c) hs = map Some l ->
  (forall n1 y n2, newer = n1 ++ y :: n2 -> ~ open_at H producer before n1 y) ->
  match unpublished_loop H c producer before hs (collected producer newer) with
  | Some x => exists m older, l = m ++ x :: older /\ open_at H producer before (newer ++ m) x /\
      forall n1 y n2, newer ++ m = n1 ++ y :: n2 -> ~ open_at H producer before n1 y
  | None => forall n1 y n2, newer ++ l = n1 ++ y :: n2 -> ~ open_at H producer before n1 y
  end.
Proof.
  induction hs as [|h hs IH]; intros newer l M N; destruct l as [|x l]; try discriminate.
  - cbn. now rewrite app_nil_r.
  - cbn [map] in M. injection M as M0 M. cbn [unpublished_loop]. rewrite M0.
    assert (STEP : ~ open_at H producer before newer x ->
      match unpublished_loop H c producer before hs (collected producer (newer ++ [x])) with
      | Some z => exists m older, x :: l = m ++ z :: older /\ open_at H producer before (newer ++ m) z /\
          forall n1 y n2, newer ++ m = n1 ++ y :: n2 -> ~ open_at H producer before n1 y
      | None => forall n1 y n2, newer ++ x :: l = n1 ++ y :: n2 -> ~ open_at H producer before n1 y
      end).
    { intro NO. specialize (IH (newer ++ [x]) l M). assert (N' : forall n1 y n2, newer ++ [x] = n1 ++ y :: n2 -> ~ open_at H producer before n1 y).
      { intros n1 y n2 E. destruct n2 as [|z n2] using rev_ind.
        - apply app_inj_tail in E as [-> ->]. exact NO.
        - clear IHn2. rewrite app_comm_cons, app_assoc in E. apply app_inj_tail in E as [E _]. now apply (N n1 y n2). }
      specialize (IH N'). destruct (unpublished_loop _ _ _ _ _ _) as [z|].
      - destruct IH as (m & older & -> & O & F). exists (x :: m), older. split; [reflexivity|].
        rewrite <- app_assoc in O, F. cbn [app] in O, F. split; assumption.
      - rewrite <- app_assoc in IH. exact IH. }
    destruct (Z.eqb_spec (hd_producer x) producer) as [P|P]; cbn [negb].
    2:{ rewrite <- (collected_snoc producer newer x) || idtac.
        replace (collected producer newer) with (collected producer (newer ++ [x])).
        - apply STEP. unfold open_at. tauto.
        - rewrite collected_snoc. destruct (Z.eqb_spec (hd_producer x) producer); [congruence|reflexivity]. }
    destruct (hd_commit x) as [k|] eqn:K.
    2:{ replace (collected producer newer) with (collected producer (newer ++ [x])).
        - apply STEP. unfold open_at. intros (_ & _ & k & E & _). congruence.
        - rewrite collected_snoc, K, andb_false_r. reflexivity. }
    assert (CS : hd_seed x :: collected producer newer = collected producer (newer ++ [x])).
    { rewrite collected_snoc, K. destruct (Z.eqb_spec (hd_producer x) producer); [reflexivity|congruence]. }
    destruct (Z.ltb_spec (hd_time x) before) as [T|T]; cbn [negb].
    2:{ rewrite CS. apply STEP. unfold open_at. intros (_ & ? & _). lia. }
    destruct (existsb _ (collected producer newer)) eqn:X.
    + rewrite CS. apply STEP. intros (_ & _ & k' & E & O). assert (k' = k) by congruence. subst k'. apply O. now apply (collected_opened producer).
    + exists [], l. split; [reflexivity|]. rewrite app_nil_r. split; [|exact N].
      split; [assumption|]. split; [assumption|]. exists k. split; [assumption|]. intro O. apply (collected_opened producer newer x k P) in O. congruence.
Qed.
Lemma split_unique {A} (P : list A -> A -> Prop) l : forall x y n1 o1 n2 o2,
  l = n1 ++ x :: o1 -> l = n2 ++ y :: o2 -> P n1 x -> P n2 y ->
  (forall a z b, n1 = a ++ z :: b -> ~ P a z) -> (forall a z b, n2 = a ++ z :: b -> ~ P a z) -> x = y.
Proof.
  intros x y n1 o1 n2 o2 E1 E2 P1 P2 N1 N2. destruct (Nat.lt_trichotomy (length n1) (length n2)) as [L|[L|L]].
  - exfalso. rewrite E1 in E2. assert (exists b, n2 = n1 ++ x :: b) as [b ->].
    { clear -E2 L. revert n2 E2 L. induction n1 as [|a n1 IH]; intros [|a' n2] E L; cbn in *; try lia.
      - injection E as -> E. eauto.
      - injection E as -> E. destruct (IH n2 E ltac:(lia)) as [b ->]. eauto. }
    now apply (N2 n1 x b).
  - rewrite E1 in E2. clear -E2 L. revert n2 E2 L. induction n1 as [|a n1 IH]; intros [|a' n2] E L; cbn in *; try lia.
    + now injection E as -> _.
    + injection E as -> E. apply (IH n2 E). lia.
  - exfalso. rewrite E2 in E1. assert (exists b, n1 = n2 ++ y :: b) as [b ->].
    { clear -E1 L. revert n1 E1 L. induction n2 as [|a n2 IH]; intros [|a' n1] E L; cbn in *; try lia.
      - injection E as -> E. eauto.
      - injection E as -> E. destruct (IH n1 E ltac:(lia)) as [b ->]. eauto. }
    now apply (N1 n2 y b).
Qed.
Lemma last_unpublished_spec c producer before x : last_unpublished H c producer before = Some x <-> newest_open H c producer before x.
Proof.
  unfold last_unpublished, newest_open.
  pose proof (unpublished_spec c producer before (down (zlen c) (tail_height (zlen c))) [] (recent c (zlen c))
    (window c (zlen c) ltac:(unfold zlen; lia)) ltac:(intros [|? ?] ? ? E; discriminate)) as S.
  change (collected producer []) with (@nil Z) in S. destruct (unpublished_loop _ _ _ _ _ _) as [z|].
  - destruct S as (m & older & E & O & F). cbn [app] in O, F. split.
    + intro Q. injection Q as <-. exists m, older. auto.
    + intros (n2 & o2 & E2 & O2 & F2). f_equal. exact (split_unique (open_at H producer before) _ z x m older n2 o2 E E2 O O2 F F2).
  - split; [discriminate|]. intros (n2 & o2 & E2 & O2 & _). exfalso. exact (S n2 x o2 E2 O2).
Qed.
End Hash.
