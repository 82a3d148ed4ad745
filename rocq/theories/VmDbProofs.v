(** Proofs about unsaved storage and the merging iterator. *)
From Verif Require Import Lib VmDbModel VmDbSpec.
From Coq Require Import Sorted.

(** ** Order of byte strings *)
Lemma bltb_irrefl a : bltb a a = false.
Proof. induction a as [|x a IH]; cbn; [reflexivity|]. rewrite Z.ltb_irrefl. exact IH. Qed.
Lemma bltb_trans a : forall b c, bltb a b = true -> bltb b c = true -> bltb a c = true.
Proof.
  induction a as [|x a IH]; intros [|y b] [|z c]; cbn; try discriminate; auto.
  intros H1 H2. destruct (x <? y) eqn:E1; destruct (y <? z) eqn:E2; destruct (x <? z) eqn:E3; auto; try lia.
  - destruct (z <? y) eqn:E4; [discriminate|]. lia.
  - destruct (y <? x) eqn:E4; [discriminate|]. lia.
  - destruct (y <? x) eqn:E4; [discriminate|]. destruct (z <? y) eqn:E5; [discriminate|].
    destruct (z <? x) eqn:E6; [lia|]. eauto.
Qed.
Lemma bltb_total a : forall b, bltb a b = false -> bltb b a = false -> a = b.
Proof.
  induction a as [|x a IH]; intros [|y b]; cbn; try discriminate; auto.
  intros H1 H2. destruct (x <? y) eqn:E1; [discriminate|]. destruct (y <? x) eqn:E2; [discriminate|].
  f_equal; [lia|auto].
Qed.
Lemma bltb_asym a b : bltb a b = true -> bltb b a = false.
Proof.
  intro H. destruct (bltb b a) eqn:E; [|reflexivity].
  pose proof (bltb_trans _ _ _ H E). now rewrite bltb_irrefl in H0.
Qed.
Lemma bltb_nil_r a : bltb a [] = false.
Proof. destruct a; reflexivity. Qed.
Lemma bltb_nil_l a : a <> [] -> bltb [] a = true.
Proof. destruct a; [easy|reflexivity]. Qed.
Lemma bltb_app p : forall a b, bltb (p ++ a) (p ++ b) = bltb a b.
Proof. induction p as [|x p IH]; intros a b; cbn [app bltb]; [reflexivity|]. rewrite Z.ltb_irrefl. apply IH. Qed.
Lemma bltb_before a : forall b, bltb a b = true <-> before a b.
Proof.
  intros b. split.
  - revert b. induction a as [|x a IH]; intros [|y b]; cbn; try discriminate.
    + intros _. left. now exists y, b.
    + destruct (x <? y) eqn:E1.
      { intros _. right. exists [], x, y, a, b. repeat split; lia. }
      destruct (y <? x) eqn:E2; [discriminate|]. intro H. assert (x = y) by lia. subst y.
      destruct (IH _ H) as [(z & r & ->)|(p & u & w & ra & rb & -> & -> & L)].
      * left. now exists z, r.
      * right. exists (x :: p), u, w, ra, rb. auto.
  - intros [(x & r & ->)|(p & x & y & ra & rb & -> & -> & L)].
    + rewrite <- (app_nil_r a) at 1. now rewrite bltb_app.
    + rewrite bltb_app. cbn. replace (x <? y) with true by lia. reflexivity.
Qed.

(** ** Prefix ranges *)
Lemma limit_spec rp : forall k, bytes_ok (rev rp) -> bytes_ok k ->
  bltb k (rev rp) = false ->
  (match limit_of rp with Some l => bltb k l | None => true end = true <-> has_prefix (rev rp) k).
Proof.
  induction rp as [|c rp IH]; intros k Hp Hk Hge; cbn [limit_of].
  { split; auto. intros _. now exists k. }
  cbn [rev] in *. apply Forall_app in Hp as [Hp Hc]. inversion Hc as [|? ? Hc' _]; subst. unfold is_byte in Hc'.
  destruct (c <? 255) eqn:E.
  - cbn [rev]. set (p := rev rp) in *. split.
    + intro H. apply bltb_before in H as [(x & r & He)|(q & x & y & ra & rb & E1 & E2 & L)].
      * (* k is a proper prefix of p ++ [c+1], hence a prefix of p *)
        exfalso. assert (exists r', p = k ++ r') as [r' Hr'].
        { destruct (@exists_last _ (x :: r)) as (r0 & z & Hz); [discriminate|]. rewrite Hz in He.
          rewrite app_assoc in He. apply app_inj_tail in He as [He _]. eauto. }
        rewrite Hr', <- app_assoc in Hge. rewrite <- (app_nil_r k) in Hge at 1. rewrite bltb_app in Hge.
        destruct r'; cbn in Hge; discriminate.
      * destruct (@exists_last _ (y :: rb)) as (r0 & z & Hz); [discriminate|]. rewrite Hz in E2.
        rewrite app_assoc in E2. apply app_inj_tail in E2 as [E2 Ez]. subst z.
        destruct r0 as [|y' r0].
        { (* q = p, y = c+1 *)
          cbn in Hz. injection Hz as Hy Hrb. rewrite app_nil_r in E2. rewrite E1, E2 in *.
          rewrite bltb_app in Hge. cbn in Hge. destruct (x <? c) eqn:Ex; [discriminate|].
          assert (Hxc : x = c) by lia. rewrite Hxc. exists ra. now rewrite <- app_assoc. }
        { exfalso. cbn in Hz. injection Hz as Hy Hrb. rewrite <- Hy in E2. rewrite E1, E2 in Hge. rewrite <- app_assoc, bltb_app in Hge.
          cbn in Hge. replace (x <? y) with true in Hge by lia. discriminate. }
    + intros [r ->]. rewrite <- app_assoc, bltb_app. cbn. replace (c <? c + 1) with true by lia. reflexivity.
  - assert (c = 255) by lia. subst c.
    assert (Hge' : bltb k (rev rp) = false).
    { destruct (bltb k (rev rp)) eqn:B; [|reflexivity].
      rewrite (bltb_trans _ (rev rp) _ B) in Hge; [discriminate|].
      rewrite <- (app_nil_r (rev rp)) at 1. now rewrite bltb_app. }
    rewrite (IH k Hp Hk Hge'). split.
    + intros [r ->]. rewrite bltb_app in Hge. destruct r as [|x r]; [discriminate|].
      apply Forall_app in Hk as [_ Hk]. inversion Hk as [|? ? Hx _]; subst. unfold is_byte in Hx.
      cbn in Hge. destruct (x <? 255) eqn:Ex; [discriminate|]. assert (x = 255) by lia. subst x.
      exists r. now rewrite <- app_assoc.
    + intros [r ->]. exists ([255] ++ r). now rewrite app_assoc.
Qed.
Lemma in_range_prefix p k : bytes_ok p -> bytes_ok k -> in_range p k = true <-> has_prefix p k.
Proof.
  intros Hp Hk. unfold in_range. rewrite andb_true_iff, negb_true_iff.
  pose proof (limit_spec (rev p) k) as H. rewrite rev_involutive in H. split.
  - intros [H1 H2]. now apply H.
  - intros HP. assert (bltb k p = false).
    { destruct HP as [r ->]. rewrite <- (app_nil_r p) at 2. rewrite bltb_app. apply bltb_nil_r. }
    split; auto. now apply H.
Qed.

(** ** The stored form of keys *)
Lemma dec_enc k : zlen k <= 32 -> dec_key (enc_key k) = k.
Proof.
  intro H. unfold dec_key, enc_key, zlen in *.
  rewrite app_assoc, app_nth2; rewrite app_length, repeat_length; [|lia].
  replace (32 - (length k + (32 - length k)))%nat with O by lia. cbn [nth].
  rewrite <- app_assoc, Nat2Z.id, firstn_app, firstn_all, Nat.sub_diag. cbn. apply app_nil_r.
Qed.
Lemma enc_bytes_ok k : bytes_ok k -> zlen k <= 32 -> bytes_ok (enc_key k).
Proof.
  intros H L. unfold enc_key. apply Forall_app; split; [exact H|]. apply Forall_app; split.
  - apply Forall_forall. intros x Hx. apply repeat_spec in Hx. subst. unfold is_byte; lia.
  - constructor; [|constructor]. unfold is_byte. pose proof (zlen_nonneg k). lia.
Qed.
Lemma enc_inj a b : zlen a <= 32 -> zlen b <= 32 -> enc_key a = enc_key b -> a = b.
Proof. intros Ha Hb E. rewrite <- (dec_enc a Ha), <- (dec_enc b Hb). now rewrite E. Qed.

Lemma zero_pad_lt n : forall l t u, bytes_ok l -> (length l <= n)%nat -> t < u + zlen l ->
  l <> [] -> bltb (repeat 0 n ++ [t]) (l ++ repeat 0 (n - length l) ++ [u + zlen l]) = true.
Proof.
  induction n as [|n IH]; intros l t u Hl Hn Ht Hne; destruct l as [|x l];
    [now destruct Hne|exfalso; cbn [length] in Hn; lia|now destruct Hne|].
  inversion Hl as [|? ? Hx Hl']; subst. unfold is_byte in Hx. cbn [repeat app bltb length Nat.sub].
  destruct (0 <? x) eqn:E; [reflexivity|]. replace (x <? 0) with false by lia.
  cbn [length] in Hn. rewrite zlen_cons. replace (u + (1 + zlen l)) with (u + 1 + zlen l) by lia.
  destruct l as [|y l].
  - cbn [length app]. replace (n - 0)%nat with n by lia. rewrite bltb_app. rewrite zlen_cons in Ht. change (zlen (@nil Z)) with 0 in *. cbn [bltb].
    replace (t <? u + 1 + 0) with true by lia. reflexivity.
  - apply IH; auto; try lia; try discriminate. rewrite !zlen_cons in *. lia.
Qed.
Lemma enc_order_gen n : forall a b u, bytes_ok a -> bytes_ok b -> (length a <= n)%nat -> (length b <= n)%nat ->
  bltb a b = true ->
  bltb (a ++ repeat 0 (n - length a) ++ [u + zlen a]) (b ++ repeat 0 (n - length b) ++ [u + zlen b]) = true.
Proof.
  intros a. revert n. induction a as [|x a IH]; intros n b u Ha Hb La Lb H.
  - destruct b as [|y b]; [discriminate|]. cbn [app length]. replace (n - 0)%nat with n by lia.
    change (zlen (@nil Z)) with 0. apply (zero_pad_lt n (y :: b)); auto; try discriminate. rewrite zlen_cons. pose proof (zlen_nonneg b). lia.
  - destruct b as [|y b]; [discriminate|]. inversion Ha; inversion Hb; subst. cbn [length app bltb] in *.
    destruct (x <? y) eqn:E1; [reflexivity|]. destruct (y <? x) eqn:E2; [discriminate|].
    rewrite !zlen_cons. destruct n as [|n]; [lia|]. cbn [Nat.sub].
    replace (u + (1 + zlen a)) with (u + 1 + zlen a) by lia. replace (u + (1 + zlen b)) with (u + 1 + zlen b) by lia.
    apply IH; auto; lia.
Qed.
(** the stored form keeps the order of keys *)
Lemma enc_order a b : bytes_ok a -> bytes_ok b -> zlen a <= 32 -> zlen b <= 32 ->
  bltb (enc_key a) (enc_key b) = bltb a b.
Proof.
  intros Ha Hb La Lb. unfold zlen in La, Lb.
  assert (G : forall a b, bytes_ok a -> bytes_ok b -> (length a <= 32)%nat -> (length b <= 32)%nat ->
     bltb a b = true -> bltb (enc_key a) (enc_key b) = true).
  { intros a' b' H1 H2 H3 H4 H5. unfold enc_key. replace (zlen a') with (0 + zlen a') by lia.
    replace (zlen b') with (0 + zlen b') by lia. now apply enc_order_gen. }
  destruct (bltb a b) eqn:E.
  - apply G; auto; lia.
  - destruct (bltb b a) eqn:E2.
    + apply bltb_asym. apply G; auto; lia.
    + rewrite (bltb_total _ _ E E2). apply bltb_irrefl.
Qed.

Lemma app_split {A} (a : list A) : forall b p r, a ++ b = p ++ r ->
  (exists s, a = p ++ s) \/ (exists s, p = a ++ s /\ b = s ++ r).
Proof.
  induction a as [|x a IH]; intros b p r H.
  - right. now exists p.
  - destruct p as [|y p].
    + left. now exists (x :: a).
    + cbn in H. inversion H; subst. destruct (IH _ _ _ H2) as [[s ->]|(s & -> & ->)].
      * left. now exists s.
      * right. now exists s.
Qed.
(** which stored keys a prefix matches *)
Lemma enc_prefix p k : zlen p <= 32 -> zlen k <= 32 ->
  (forall n, p <> k ++ repeat 0 (S n)) -> has_prefix p (enc_key k) <-> has_prefix p k.
Proof.
  intros Lp Lk Hz. unfold enc_key. split.
  - intros [r H]. apply app_split in H as [[s Hs]|(s & Hp & Hs)]; [now exists s|].
    apply app_split in Hs as [[s' Hs']|(s' & Hs1 & Hs2)].
    + (* s is all zeros *)
      assert (Hall : s = repeat 0 (length s)).
      { clear - Hs'. revert Hs'. generalize (32 - length k)%nat as n. intros n H.
        assert (F : Forall (fun x => x = 0) (s ++ s')) by (rewrite <- H; apply Forall_forall; intros x Hx; now apply repeat_spec in Hx).
        apply Forall_app in F as [F _]. clear - F. induction F; cbn; [reflexivity|]. subst. now f_equal. }
      destruct (length s) as [|n] eqn:E.
      * destruct s; [|discriminate]. rewrite app_nil_r in Hp. subst. exists []. now rewrite app_nil_r.
      * exfalso. apply (Hz n). now rewrite Hp, Hall.
    + (* p is longer than 32 bytes unless s' is empty *)
      subst s p. destruct s' as [|z s'].
      * rewrite app_nil_r in *. destruct (32 - length k)%nat as [|n]; cbn [repeat] in *.
        { rewrite app_nil_r in *. exists []. now rewrite app_nil_r. }
        { exfalso. now apply (Hz n). }
      * exfalso. unfold zlen in *. rewrite !app_length, repeat_length in Lp. cbn [length] in Lp. lia.
  - intros [r ->]. exists (r ++ repeat 0 (32 - length (p ++ r)) ++ [zlen (p ++ r)]). now rewrite <- !app_assoc.
Qed.

(** ** Unsaved writes *)
Definition blt (x y : kv) : Prop := bltb (fst x) (fst y) = true.
Definition sorted (l : list kv) : Prop := StronglySorted blt l.
Lemma ascending_sorted l : ascending l <-> sorted l.
Proof.
  unfold ascending, sorted. split; induction 1; constructor; auto;
    eapply Forall_impl; [|eassumption| |eassumption]; intros y Hy; cbv beta in *; now apply bltb_before.
Qed.
Lemma mput_keys k v l k' : In k' (map fst (mput k v l)) <-> k' = k \/ In k' (map fst l).
Proof.
  induction l as [|[k1 v1] l IH]; cbn [mput map fst In].
  - intuition.
  - destruct (bltb k k1); [cbn; intuition|]. destruct (zlist_eqb k k1) eqn:E.
    + apply zlist_eqb_eq in E. subst. cbn. intuition.
    + cbn [map fst In]. rewrite IH. intuition.
Qed.
Lemma mput_sorted k v l : sorted l -> sorted (mput k v l).
Proof.
  unfold sorted. induction 1 as [|[k1 v1] l S IH F]; cbn [mput].
  - constructor; constructor.
  - destruct (bltb k k1) eqn:E1.
    + constructor; [constructor; auto|]. constructor; [exact E1|].
      eapply Forall_impl; [|exact F]. intros y Hy. unfold blt in *. cbn [fst] in *. eapply bltb_trans; eauto.
    + destruct (zlist_eqb k k1) eqn:E2.
      * apply zlist_eqb_eq in E2. subst. constructor; auto.
      * constructor; auto. apply Forall_forall. intros [k2 v2] Hy.
        assert (In k2 (map fst (mput k v l))) as Hk by (apply in_map_iff; now exists (k2, v2)).
        apply mput_keys in Hk as [->|Hk].
        { unfold blt; cbn [fst]. destruct (bltb k1 k) eqn:E3; [reflexivity|].
          apply zlist_eqb_neq in E2. now destruct E2; apply bltb_total. }
        { apply in_map_iff in Hk as ([k3 v3] & E & Hk). cbn in E. subst k3.
          rewrite Forall_forall in F. exact (F _ Hk). }
Qed.
Lemma mput_get k v l k' : sorted l -> mget k' (mput k v l) = if zlist_eqb k' k then Some v else mget k' l.
Proof.
  unfold sorted. induction 1 as [|[k1 v1] l S IH F]; cbn [mput mget].
  - destruct (zlist_eqb k' k); reflexivity.
  - destruct (bltb k k1) eqn:E1.
    + cbn [mget]. reflexivity.
    + destruct (zlist_eqb k k1) eqn:E2.
      * apply zlist_eqb_eq in E2. subst. cbn [mget]. destruct (zlist_eqb k' k1); reflexivity.
      * cbn [mget]. rewrite IH. destruct (zlist_eqb k' k1) eqn:E3; [|reflexivity].
        destruct (zlist_eqb k' k) eqn:E4; [|reflexivity].
        apply zlist_eqb_eq in E3, E4. apply zlist_eqb_neq in E2. congruence.
Qed.
Lemma mget_In k v l : sorted l -> mget k l = Some v <-> In (k, v) l.
Proof.
  unfold sorted. induction 1 as [|[k1 v1] l S IH F]; cbn [mget In]; [split; easy|].
  destruct (zlist_eqb k k1) eqn:E.
  - apply zlist_eqb_eq in E. subst. split.
    + intros [= ->]. auto.
    + intros [[= ->]|H]; [reflexivity|]. exfalso. rewrite Forall_forall in F. apply F in H.
      unfold blt in H; cbn in H. now rewrite bltb_irrefl in H.
  - rewrite IH. split; [auto|]. intros [[= -> ->]|H]; auto. now rewrite zlist_eqb_refl in E.
Qed.
Lemma mget_none k l : mget k l = None <-> ~ In k (map fst l).
Proof.
  induction l as [|[k1 v1] l IH]; cbn [mget map fst In]; [split; easy|].
  destruct (zlist_eqb k k1) eqn:E.
  - apply zlist_eqb_eq in E. subst. split; [discriminate|]. intros H; exfalso; auto.
  - rewrite IH. apply zlist_eqb_neq in E. intuition.
Qed.
Lemma bin_In k l : bin k l = true <-> In k l.
Proof.
  unfold bin. rewrite existsb_exists. split.
  - intros (x & H & E). apply zlist_eqb_eq in E. now subst.
  - intro H. exists k. split; auto. apply zlist_eqb_refl.
Qed.
Lemma bremove_In k l x : In x (bremove k l) <-> In x l /\ x <> k.
Proof.
  unfold bremove. rewrite filter_In, negb_true_iff, zlist_eqb_neq. intuition.
Qed.

(** what an execution has written, as a function of the key *)
Definition uval (u : unsaved) (k : bytes) : option bytes := mget k (u_storage u).
Definition u_ok (u : unsaved) : Prop :=
  sorted (u_storage u) /\ (forall k, In k (u_deleted u) <-> mget k (u_storage u) = Some [])
  /\ (u_dirty u = false -> u_cache u = u_storage u).
Lemma u_set_ok k v u : u_ok u -> u_ok (u_set k v u).
Proof.
  intros (S & D & C). split; [|split]; cbn [u_set u_storage u_deleted u_dirty u_cache].
  - now apply mput_sorted.
  - intro k'. rewrite mput_get by auto. destruct (zlist_eqb k' k) eqn:E.
    + apply zlist_eqb_eq in E. subst. destruct v; cbn [is_nil].
      * split; auto. intros _. now left.
      * rewrite bremove_In. split; [intuition congruence|discriminate].
    + apply zlist_eqb_neq in E. destruct v; cbn [is_nil In]; rewrite bremove_In, <- D; intuition congruence.
  - discriminate.
Qed.
Lemma u_get_val u k : u_ok u -> u_get k u = uval u k.
Proof.
  intros (S & D & C). unfold u_get, uval. destruct (mget k (u_storage u)) eqn:E; [reflexivity|].
  destruct (bin k (u_deleted u)) eqn:B; [|reflexivity]. apply bin_In, D in B. congruence.
Qed.
Lemma vstep_ok d o : u_ok (v_uns d) -> u_ok (v_uns (vstep d o)).
Proof.
  intro H. destruct o; cbn [vstep].
  - unfold v_set. destruct (32 <? zlen k); [exact H|]. now apply u_set_ok.
  - split; [constructor|]. split; [|easy]. cbn. intuition discriminate.
  - unfold v_unsaved, u_get_storage. destruct (u_dirty (v_uns d)) eqn:E; [|exact H].
    destruct H as (S & D & C). split; [exact S|]. split; [exact D|]. reflexivity.
  - destruct H as (S & D & C). repeat split; auto; apply D.
Qed.
Lemma vrun_ok d ops : u_ok (v_uns d) -> u_ok (v_uns (vrun d ops)).
Proof. unfold vrun. revert d. induction ops; cbn; intros d H; auto. apply IHops, vstep_ok, H. Qed.
Lemma start_ok c b : u_ok (v_uns (start c b)).
Proof. split; [constructor|]. split; [|easy]. cbn. intuition discriminate. Qed.
Lemma vstep_chain d o : v_chain (vstep d o) = v_chain d /\ v_chain_bal (vstep d o) = v_chain_bal d.
Proof.
  destruct o; cbn [vstep]; auto.
  - unfold v_set. destruct (32 <? zlen k); auto.
  - unfold v_unsaved. destruct (u_get_storage (v_uns d)); auto.
Qed.
Lemma vrun_chain d ops : v_chain (vrun d ops) = v_chain d /\ v_chain_bal (vrun d ops) = v_chain_bal d.
Proof.
  unfold vrun. revert d. induction ops; cbn; intros d; auto. destruct (vstep_chain d a) as [<- <-]. apply IHops.
Qed.
Lemma vrun_snoc d ops o : vrun d (ops ++ [o]) = vstep (vrun d ops) o.
Proof. unfold vrun. now rewrite fold_left_app. Qed.

Lemma uval_step d o k : u_ok (v_uns d) -> uval (v_uns (vstep d o)) k =
  match o with
  | VSet k' v => if (zlen k' <=? 32) && zlist_eqb k k' then Some v else uval (v_uns d) k
  | VReset => None
  | _ => uval (v_uns d) k
  end.
Proof.
  intros H. destruct o; cbn [vstep].
  - unfold v_set. destruct (32 <? zlen k0) eqn:E.
    + replace (zlen k0 <=? 32) with false by lia. reflexivity.
    + replace (zlen k0 <=? 32) with true by lia. cbn [andb v_uns]. unfold uval. cbn [u_set u_storage].
      apply mput_get. apply H.
  - reflexivity.
  - unfold v_unsaved, u_get_storage. destruct (u_dirty (v_uns d)); reflexivity.
  - reflexivity.
Qed.

(** the last write of an execution is what its buffer holds *)
Lemma uval_run c b ops k v : uval (v_uns (vrun (start c b) ops)) k = Some v <-> last_write ops k v /\ zlen k <= 32.
Proof.
  revert v. induction ops as [|o ops IH] using rev_ind; intro v.
  { cbn. split; [discriminate|]. intros [(pre & post & H & _) _]. now destruct pre. }
  rewrite vrun_snoc, uval_step by (apply vrun_ok, start_ok).
  assert (Snoc : forall pre w post, ops ++ [o] = pre ++ w :: post ->
            (post = [] /\ pre = ops /\ o = w) \/ exists post', post = post' ++ [o] /\ ops = pre ++ w :: post').
  { intros pre w post H. destruct post as [|z post'] using rev_ind.
    - apply app_inj_tail in H as [-> ->]. now left.
    - right. exists post'. clear IHpost'. change (pre ++ w :: post' ++ [z]) with (pre ++ (w :: post') ++ [z]) in H.
      rewrite app_assoc in H. apply app_inj_tail in H as [-> ->]. auto. }
  assert (Other : (o <> VReset) -> (forall w, o <> VSet k w) ->
            (last_write (ops ++ [o]) k v <-> last_write ops k v)).
  { intros N1 N2. split.
    - intros (pre & post & H & R & W). apply Snoc in H as [(-> & -> & ->)|(post' & -> & ->)].
      + exfalso. now apply (N2 v).
      + exists pre, post'. split; [reflexivity|]. split; [intro Q; apply R, in_or_app; auto|].
        intros v' Q. apply (W v'), in_or_app. auto.
    - intros (pre & post & -> & R & W). exists pre, (post ++ [o]). split; [now rewrite <- app_assoc|]. split.
      + intro Q. apply in_app_or in Q as [Q|[Q|[]]]; auto.
      + intros v' Q. apply in_app_or in Q as [Q|[Q|[]]]; [eapply W; eauto|eapply N2; eauto]. }
  destruct o as [k' v'| | |t a].
  - destruct (zlist_eqb k k') eqn:E.
    + apply zlist_eqb_eq in E. subst k'. destruct (zlen k <=? 32) eqn:L; cbn [andb].
      * split.
        { intros [= ->]. split; [|lia]. exists ops, []. split; [reflexivity|]. split; easy. }
        { intros [(pre & post & H & R & W) _]. apply Snoc in H as [(-> & -> & [= ->])|(post' & -> & _)]; [reflexivity|].
          exfalso. apply (W v'), in_or_app. right. now left. }
      * rewrite IH. split; intros [_ Q]; lia.
    + rewrite andb_false_r, IH, Other; [reflexivity|discriminate|].
      intros w [= -> ->]. now rewrite zlist_eqb_refl in E.
  - split; [discriminate|]. intros [(pre & post & H & R & W) _].
    apply Snoc in H as [(-> & -> & H)|(post' & -> & _)]; [discriminate|].
    exfalso. apply R, in_or_app. right. now left.
  - rewrite IH, Other; [reflexivity|discriminate|discriminate].
  - rewrite IH, Other; [reflexivity|discriminate|discriminate].
Qed.
Lemma not_written_none c b ops k : not_written ops k -> uval (v_uns (vrun (start c b) ops)) k = None.
Proof.
  intro H. destruct (uval _ k) as [v|] eqn:E; [|reflexivity]. exfalso.
  apply uval_run in E as [(pre & post & -> & R & _) _]. apply R. now apply (H pre post v).
Qed.

(** balances likewise *)
Lemma balance_run c b ops t a : zget t (u_balance (v_uns (vrun (start c b) ops))) = Some a <-> last_balance ops t a.
Proof.
  revert a. induction ops as [|o ops IH] using rev_ind; intro a.
  { cbn. split; [discriminate|]. intros (pre & post & H & _). now destruct pre. }
  rewrite vrun_snoc.
  assert (Snoc : forall pre w post, ops ++ [o] = pre ++ w :: post ->
            (post = [] /\ pre = ops /\ o = w) \/ exists post', post = post' ++ [o] /\ ops = pre ++ w :: post').
  { intros pre w post H. destruct post as [|z post'] using rev_ind.
    - apply app_inj_tail in H as [-> ->]. now left.
    - right. exists post'. clear IHpost'. change (pre ++ w :: post' ++ [z]) with (pre ++ (w :: post') ++ [z]) in H.
      rewrite app_assoc in H. apply app_inj_tail in H as [-> ->]. auto. }
  assert (Other : (o <> VReset) -> (forall w, o <> VSetBalance t w) ->
            (last_balance (ops ++ [o]) t a <-> last_balance ops t a)).
  { intros N1 N2. split.
    - intros (pre & post & H & R & W). apply Snoc in H as [(-> & -> & ->)|(post' & -> & ->)].
      + exfalso. now apply (N2 a).
      + exists pre, post'. split; [reflexivity|]. split; [intro Q; apply R, in_or_app; auto|].
        intros v' Q. apply (W v'), in_or_app. auto.
    - intros (pre & post & -> & R & W). exists pre, (post ++ [o]). split; [now rewrite <- app_assoc|]. split.
      + intro Q. apply in_app_or in Q as [Q|[Q|[]]]; auto.
      + intros v' Q. apply in_app_or in Q as [Q|[Q|[]]]; [eapply W; eauto|eapply N2; eauto]. }
  destruct o as [k' v'| | |t' a'].
  - assert (u_balance (v_uns (vstep (vrun (start c b) ops) (VSet k' v'))) = u_balance (v_uns (vrun (start c b) ops))) as ->.
    { cbn [vstep]. unfold v_set. destruct (32 <? zlen k'); reflexivity. }
    rewrite IH, Other; [reflexivity|discriminate|discriminate].
  - split; [discriminate|]. intros (pre & post & H & R & W).
    apply Snoc in H as [(-> & -> & H)|(post' & -> & _)]; [discriminate|].
    exfalso. apply R, in_or_app. right. now left.
  - assert (u_balance (v_uns (vstep (vrun (start c b) ops) VUnsaved)) = u_balance (v_uns (vrun (start c b) ops))) as ->.
    { cbn [vstep]. unfold v_unsaved, u_get_storage. destruct (u_dirty _); reflexivity. }
    rewrite IH, Other; [reflexivity|discriminate|discriminate].
  - cbn [vstep v_set_balance v_uns u_set_balance u_balance zget]. destruct (t =? t') eqn:E.
    + assert (t' = t) by lia. subst t'. split.
      * intros [= ->]. exists ops, []. split; [reflexivity|]. split; easy.
      * intros (pre & post & H & R & W). apply Snoc in H as [(-> & -> & [= ->])|(post' & -> & _)]; [reflexivity|].
        exfalso. apply (W a'), in_or_app. right. now left.
    + rewrite IH, Other; [reflexivity|discriminate|]. intros w [= -> ->]. lia.
Qed.
