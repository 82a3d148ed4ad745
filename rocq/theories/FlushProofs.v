From Verif Require Import Lib FlushModel FlushSpec.

(** ** What a batch does to a key *)
Fixpoint look (ops : list wop) (k : list Z) : option (option (list Z)) :=
  match ops with
  | [] => None
  | o :: r => match look r k with
              | Some x => Some x
              | None => if zlist_eqb k (wkey o) then Some (match o with WPut _ v => Some v | WDel _ => None end) else None
              end
  end.
Definition over (x : option (option (list Z))) (y : option (list Z)) : option (list Z) := match x with Some v => v | None => y end.
Lemma apply_look ops : forall d k, apply ops d k = over (look ops k) (d k).
Proof.
  induction ops as [|o r IH]; intros d k; [reflexivity|]. change (apply (o :: r) d k) with (apply r (apply1 d o) k). rewrite IH. cbn [look].
  destruct (look r k); [reflexivity|]. unfold apply1. cbn [over]. destruct (zlist_eqb k (wkey o)); reflexivity.
Qed.
Lemma apply_app a b d : apply (a ++ b) d = apply b (apply a d).
Proof. apply fold_left_app. Qed.
Lemma look_app a b k : look (a ++ b) k = match look b k with Some x => Some x | None => look a k end.
Proof. induction a as [|o a IH]; cbn [app look]; [now destruct (look b k)|]. rewrite IH. destruct (look b k); reflexivity. Qed.
Lemma look_touches b k : look b k <> None <-> touches b k.
Proof.
  induction b as [|o b IH]; cbn [look]; [split; [congruence|intros (o & [] & _)]|].
  destruct (look b k) as [x|] eqn:E.
  - split; [|congruence]. intros _. destruct (proj1 IH ltac:(congruence)) as (o' & H1 & H2). exists o'. split; [now right|auto].
  - destruct (zlist_eqb k (wkey o)) eqn:E2.
    + apply zlist_eqb_eq in E2. split; [|congruence]. intros _. exists o. split; [now left|auto].
    + split; [congruence|]. intros (o' & [<-|H1] & H2).
      * subst k. rewrite zlist_eqb_refl in E2. discriminate.
      * destruct (proj2 IH (ex_intro _ o' (conj H1 H2))). reflexivity.
Qed.
Lemma apart_look a b k : apart a b -> look a k = None \/ look b k = None.
Proof.
  intro H. destruct (look a k) eqn:E1; [|auto]. destruct (look b k) eqn:E2; [|auto]. exfalso.
  apply (H k); apply look_touches; congruence.
Qed.
Lemma unc_all_app a b : unc_all (a ++ b) = unc_all a ++ unc_all b.
Proof. unfold unc_all. now rewrite map_app, concat_app. Qed.
Lemma unc_all_cons e b : unc_all (e :: b) = snd e ++ unc_all b.
Proof. reflexivity. Qed.

(** ** The unconfirmed batches *)
Definition uniq (u : list (option Z * list wop)) : Prop := forall h a e b, u = a ++ e :: b -> is_hash h e = true ->
  Forall (fun x => is_hash h x = false) (a ++ b).
Lemma uniq_nil : uniq []. Proof. intros h [|] e b H; discriminate. Qed.
Lemma filter_false {A} (f : A -> bool) l : Forall (fun x => f x = true) l -> filter f l = l.
Proof. induction 1; cbn; [auto|]. now rewrite H, IHForall. Qed.
Lemma find_split {A} (f : A -> bool) l e : find f l = Some e -> exists a b, l = a ++ e :: b /\ f e = true.
Proof.
  induction l as [|x l IH]; [discriminate|]. cbn. destruct (f x) eqn:E.
  - intros [= ->]. exists [], l. auto.
  - intro H. destruct (IH H) as (a & b & -> & H2). exists (x :: a), b. auto.
Qed.
Lemma rm_split u h a e b : uniq u -> u = a ++ e :: b -> is_hash h e = true -> unc_rm h u = a ++ b.
Proof.
  intros U -> H. pose proof (U h a e b eq_refl H) as F. apply Forall_app in F as [F1 F2]. unfold unc_rm. rewrite filter_app. cbn [filter]. rewrite H. cbn [negb].
  rewrite !filter_false; [reflexivity| |]; eapply Forall_impl; eauto; cbn; intros x ->; reflexivity.
Qed.
Lemma filter_sub_split {A} (f : A -> bool) l a e b : filter f l = a ++ e :: b -> exists a' b', l = a' ++ e :: b' /\ a = filter f a' /\ b = filter f b'.
Proof.
  revert a. induction l as [|x l IH]; intros a H; [destruct a; discriminate|]. cbn in H. destruct (f x) eqn:E.
  - destruct a as [|y a]; injection H as E1 E2; [exists [], l; subst; auto|]. subst y. destruct (IH a E2) as (a' & b' & -> & -> & ->).
    exists (x :: a'), b'. cbn. rewrite E. auto.
  - destruct (IH a H) as (a' & b' & -> & -> & ->). exists (x :: a'), b'. cbn. rewrite E. auto.
Qed.
Lemma Forall_filter' {A} (P : A -> Prop) f l : Forall P l -> Forall P (filter f l).
Proof. induction 1; cbn; [constructor|]. destruct (f x); auto. Qed.
Lemma uniq_rm h u : uniq u -> uniq (unc_rm h u).
Proof.
  intros U h' a e b H He. apply filter_sub_split in H as (a' & b' & E & -> & ->). specialize (U h' a' e b' E He).
  apply Forall_app in U as [U1 U2]. apply Forall_app. split; now apply Forall_filter'.
Qed.
Lemma uniq_rms hs : forall u, uniq u -> uniq (fold_left (fun u h => unc_rm h u) hs u).
Proof. induction hs; cbn; auto using uniq_rm. Qed.
Definition orphan h (e : option Z * list wop) := if is_hash h e then (None, snd e) else e.
Lemma orphan_no h e : is_hash h (orphan h e) = false.
Proof. unfold orphan. destruct (is_hash h e) eqn:E; [reflexivity|exact E]. Qed.
Lemma orphan_hash h h' e : is_hash h' (orphan h e) = true -> orphan h e = e /\ is_hash h' e = true /\ h' <> h.
Proof.
  unfold orphan. destruct (is_hash h e) eqn:E; [cbn; discriminate|]. intro H. split; [auto|]. split; [auto|]. intros ->. congruence.
Qed.
Lemma map_split {A B} (f : A -> B) l a e b : map f l = a ++ e :: b -> exists a' e' b', l = a' ++ e' :: b' /\ a = map f a' /\ e = f e' /\ b = map f b'.
Proof.
  revert a. induction l as [|x l IH]; intros [|y a] H; try discriminate; injection H as E1 E2.
  - exists [], x, l. auto.
  - destruct (IH a E2) as (a' & e' & b' & -> & -> & -> & ->). exists (x :: a'), e', b'. subst y. auto.
Qed.
Lemma uniq_put h b u : uniq u -> uniq (unc_put h b u).
Proof.
  intros U h' a e r H He. unfold unc_put in H. fold (orphan h) in H. change (map (fun e => if is_hash h e then (None, snd e) else e) u) with (map (orphan h) u) in H.
  assert (HO : forall l, Forall (fun x => is_hash h x = false) (map (orphan h) l)) by (intro l; apply Forall_map, Forall_forall; intros; apply orphan_no).
  assert (HX : forall l, Forall (fun x => is_hash h' x = false) l -> Forall (fun x => is_hash h' x = false) (map (orphan h) l)).
  { intros l F. apply Forall_map. eapply Forall_impl; [|exact F]. cbn. intros x Hx. unfold orphan. destruct (is_hash h x); [reflexivity|exact Hx]. }
  destruct r as [|z r] using rev_ind.
  - apply app_inj_tail in H as [<- <-]. cbn in He. apply Z.eqb_eq in He. subst h'. rewrite app_nil_r. apply HO.
  - clear IHr. rewrite app_comm_cons, app_assoc in H. apply app_inj_tail in H as [H <-].
    apply map_split in H as (a' & e' & b' & -> & -> & -> & ->). destruct (orphan_hash _ _ _ He) as (E1 & E2 & E3). 
    specialize (U h' a' e' b' eq_refl E2). apply Forall_app in U as [U1 U2]. apply Forall_app. split; [auto|]. apply Forall_app. split; [auto|].
    repeat constructor. cbn. apply Z.eqb_neq. congruence.
Qed.
Lemma put_all h b u : unc_all (unc_put h b u) = unc_all u ++ b.
Proof.
  unfold unc_put. rewrite unc_all_app. cbn. rewrite app_nil_r. f_equal. unfold unc_all. rewrite map_map. f_equal. apply map_ext.
  intro e. now destruct (is_hash h e).
Qed.
(** confirming moves batches to the front *)
Lemma confirm_batches_ok hs : forall snap u snap' u' k, uniq u -> confirm_batches hs snap u = Some (snap', u') -> keeps_order hs u ->
  uniq u' /\ snap' = snap ++ batches hs u /\ look (unc_all u) k = look (batches hs u ++ unc_all u') k.
Proof.
  induction hs as [|h hs IH]; intros snap u snap' u' k U H K; cbn [confirm_batches batches keeps_order] in *.
  - injection H as <- <-. rewrite app_nil_r. cbn [app]. auto.
  - destruct K as [K1 K2]. destruct (unc_get h u) as [b|] eqn:G; [|discriminate]. unfold unc_get in G.
    destruct (find (is_hash h) u) as [e|] eqn:F; [|discriminate]. injection G as <-. apply find_split in F as (a & r & E & He).
    destruct (IH _ _ _ _ k (uniq_rm h u U) H K2) as (A & -> & C). split; [exact A|]. split; [now rewrite app_assoc|].
    pose proof (K1 a e r E He) as AP. rewrite (rm_split u h a e r U E He) in C at 1. rewrite <- app_assoc, look_app, <- C, E.
    rewrite !unc_all_app, unc_all_cons, !look_app. destruct (look (unc_all r) k); [reflexivity|].
    destruct (apart_look _ _ k AP) as [->| ->]; [destruct (look (snd e) k); reflexivity|]. destruct (look (unc_all a) k); reflexivity.
Qed.

(** ** Stores *)
Record sinv (s : store) (p : sphase) (r c d : kv) : Prop := mkSinv {
  si_get : forall k, get s k = r k;
  si_conf : forall k, apply (flushing s ++ st_snap s) (st_disk s) k = c k;
  si_ref : forall k, apply (unc_all (st_unc s)) c k = r k;
  si_keys : forall k, look (st_mem s) k = None -> look (flushing s) k = None /\ look (st_snap s) k = None /\ look (unc_all (st_unc s)) k = None;
  si_uniq : uniq (st_unc s);
  si_disk : forall k, st_disk s k = d k;
  si_phase : match p with
             | SIdle => st_flush s = None
             | SPrep t => exists f, st_flush s = Some f /\ forall k, apply f (st_disk s) k = t k
             | SDone t => exists f, st_flush s = Some f /\ forall k, apply f (st_disk s) k = t k /\ st_disk s k = t k
             end }.
Ltac lk := rewrite ?apply_look, ?look_app in *.
Lemma over_over x y z : over x (over y z) = over (match x with Some v => Some v | None => y end) z.
Proof. destruct x; reflexivity. Qed.
Lemma sreach_inv s p r c d : sreach s p r c d -> sinv s p r c d.
Proof.
  induction 1 as [d|s p r c d b _ IH A|s p r c d h b _ IH|s p r c d b hs s' _ IH W K A|s p r c d b hs _ IH U|s p r c d b _ IH|s r c d s' _ IH P|s t r c d _ IH|s t r c d _ IH|s t r c d _ IH|s p r c d _ IH].
  - split; try reflexivity; try (intros; cbn; auto). apply uniq_nil.
  - destruct IH as [G C R Ky Un Dk Ph]. split; cbn [write_direct st_disk st_mem st_snap st_flush st_unc flushing]; auto; intro k; specialize (G k); specialize (C k); specialize (R k); specialize (Ky k).
    + unfold get in *. cbn [write_direct st_disk st_mem]. rewrite apply_app. lk. now rewrite G.
    + unfold flushing in *. cbn [write_direct write_block st_flush] in *. rewrite app_assoc, apply_app. rewrite (apply_look b). now rewrite C, <- apply_look.
    + rewrite !apply_look in *. rewrite <- R. destruct (apart_look _ _ k A) as [->|E]; [reflexivity|]. rewrite E. reflexivity.
    + unfold flushing in *. cbn [write_direct write_block st_flush] in *. rewrite !look_app. destruct (look b k); [discriminate|]. intro E. auto.
  - destruct IH as [G C R Ky Un Dk Ph]. split; cbn [write_block st_disk st_mem st_snap st_flush st_unc flushing]; auto; try (intro k; specialize (G k); specialize (C k); specialize (R k); specialize (Ky k)).
    + unfold get in *. cbn [write_block st_disk st_mem]. rewrite apply_app. lk. now rewrite G.
    + rewrite put_all, apply_app, !(apply_look b), R. reflexivity.
    + rewrite put_all, !look_app. unfold flushing in *. cbn [write_direct write_block st_flush] in *. destruct (look b k); [discriminate|]. intro E. auto.
    + now apply uniq_put.
  - destruct IH as [G C R Ky Un Dk Ph]. unfold write_snapshot in W. destruct (confirm_batches hs (st_snap s) (st_unc s)) as [[sn u]|] eqn:E; [|discriminate].
    injection W as <-. cbn [st_unc] in A.
    split; cbn [st_disk st_mem st_snap st_flush st_unc]; auto; try (intro k; specialize (G k); specialize (C k); specialize (R k); specialize (Ky k);
      destruct (confirm_batches_ok _ _ _ _ _ k Un E K) as (_ & -> & L)); unfold flushing in *; cbn [write_direct write_block st_flush] in *.
    + unfold get in *. cbn [st_disk st_mem]. rewrite apply_app. lk. now rewrite G.
    + rewrite !app_assoc, !apply_app, !(apply_look b), !(apply_look (batches _ _)). rewrite apply_app in C. now rewrite C.
    + rewrite !apply_look in *. rewrite <- R, L, look_app, !over_over. destruct (apart_look _ _ k A) as [->| ->]; [reflexivity|].
      destruct (look (unc_all u) k); reflexivity.
    + rewrite !look_app in *. destruct (look b k); [discriminate|]. intro E2. destruct (Ky E2) as (K1 & K2 & K3).
      rewrite K3 in L. destruct (look (unc_all u) k); [discriminate|]. rewrite <- L. auto.
    + exact (proj1 (confirm_batches_ok _ _ _ _ _ [] Un E K)).
  - destruct IH as [G C R Ky Un Dk Ph]. split; cbn [rollback_blocks st_disk st_mem st_snap st_flush st_unc]; unfold flushing in *; cbn [rollback_blocks st_flush] in *; auto; try (intro k; specialize (G k); specialize (C k); specialize (R k); specialize (Ky k)).
    + unfold get in *. cbn [rollback_blocks st_disk st_mem]. rewrite apply_app. lk. now rewrite G.
    + rewrite look_app. destruct (look b k); [discriminate|]. intro E. destruct (Ky E) as (K1 & K2 & K3). split; [auto|]. split; [auto|].
      clear -K3. revert K3. generalize (st_unc s). induction hs as [|h hs IH]; intros u Hu; cbn [fold_left]; [exact Hu|]. apply IH.
      destruct (look (unc_all (unc_rm h u)) k) eqn:E; [|reflexivity]. exfalso.
      assert (T : touches (unc_all (unc_rm h u)) k) by (apply look_touches; congruence). destruct T as (wo & T1 & T2).
      assert (touches (unc_all u) k) as T. { exists wo. split; [|auto]. unfold unc_all in *. apply in_concat in T1 as (l & L1 & L2). apply in_concat. exists l. split; [|auto].
        apply in_map_iff in L1 as (e & <- & L1). apply in_map. unfold unc_rm in L1. now apply filter_In in L1. }
      apply look_touches in T. congruence.
    + now apply uniq_rms.
  - destruct IH as [G C R Ky Un Dk Ph]. split; cbn [rollback_snapshot st_disk st_mem st_snap st_flush st_unc]; unfold flushing in *; cbn [rollback_snapshot st_flush] in *; auto; try (intro k; specialize (G k); specialize (C k); specialize (R k); specialize (Ky k)).
    + unfold get in *. cbn [rollback_snapshot st_disk st_mem]. rewrite apply_app. lk. now rewrite G.
    + rewrite !app_assoc, !apply_app, !(apply_look b), (apply_look (unc_all _)). rewrite apply_app in C. rewrite C, <- apply_look, R. reflexivity.
    + rewrite !look_app. destruct (look b k); [discriminate|]. intro E. destruct (Ky E) as (K1 & K2 & K3). now rewrite K2, K3.
    + apply uniq_nil.
  - destruct IH as [G C R Ky Un Dk Ph]. unfold prepare in P. rewrite Ph in P. injection P as <-. unfold flushing in *. rewrite Ph in *.
    split; cbn [st_disk st_mem st_snap st_flush st_unc flushing]; auto.
    + intro k. rewrite app_nil_r. apply (C k).
    + intros k E. destruct (Ky k E) as (_ & K2 & K3). auto.
    + exists (st_snap s). split; [reflexivity|]. exact C.
  - destruct IH as [G C R Ky Un Dk (f & Ph & _)]. unfold flushing in *. split; cbn [cancel st_disk st_mem st_snap st_flush st_unc flushing]; auto.
    intros k E. destruct (Ky k E) as (K1 & K2 & K3). unfold flushing. now rewrite look_app, K1, K2.
  - destruct IH as [G C R Ky Un Dk (f & Ph & T)]. unfold flushing in *. rewrite Ph in *.
    split; cbn [commit st_disk st_mem st_snap st_flush st_unc flushing]; auto; unfold flushing; cbn [commit st_flush]; rewrite ?Ph; auto.
    + intro k. specialize (G k). unfold get in *. cbn [commit st_mem st_disk]. unfold flushing. rewrite Ph. rewrite apply_look in *.
      destruct (look (st_mem s) k) eqn:E; [exact G|]. destruct (Ky k E) as (K1 & _ & _). rewrite apply_look, K1. exact G.
    + intro k. rewrite <- (C k). rewrite !apply_app, !(apply_look (st_snap s)), !(apply_look f). destruct (look f k); reflexivity.
    + exists f. split; [reflexivity|]. intro k. rewrite <- (T k). split; [|reflexivity]. rewrite !(apply_look f). destruct (look f k); reflexivity.
  - destruct IH as [G C R Ky Un Dk (f & Ph & T)]. unfold flushing in *. rewrite Ph in *.
    assert (C' : forall k, apply (st_snap s) (st_disk s) k = c k).
    { intro k. rewrite <- (C k). rewrite apply_app, !(apply_look (st_snap s)). destruct (T k) as [T1 T2]. now rewrite T1, T2. }
    split; cbn [after_commit st_disk st_mem st_snap st_flush st_unc flushing]; auto.
    + intro k. unfold get. cbn [after_commit st_mem st_disk]. rewrite apply_app, apply_look, (C' k), <- apply_look. apply R.
    + intros k E. rewrite look_app in E. destruct (look (unc_all (st_unc s)) k); [discriminate|]. auto.
  - destruct IH as [G C R Ky Un Dk Ph]. split; unfold restart, open_store, get, flushing; cbn [st_disk st_mem st_snap st_flush st_unc app apply fold_left]; auto; try apply Dk. apply uniq_nil.
Qed.

(** ** Dump and Load *)
Lemma uvarint_put fuel : forall x i acc rest, (0 <= x < 128 ^ (1 + Z.of_nat fuel)) -> (fuel + i = 9)%nat ->
  (0 <= x * 128 ^ Z.of_nat i < 2 ^ 64) ->
  uvarint (S fuel) i acc (put_uvarint fuel x ++ rest) = Some (acc + x * 128 ^ Z.of_nat i, rest).
Proof.
  induction fuel as [|f IH]; intros x i acc rest Hx Hi Hb; cbn [put_uvarint].
  - cbn [app uvarint]. replace i with 9%nat in * by lia. change (128 ^ Z.of_nat 9) with 9223372036854775808 in *.
    destruct (x <? 128) eqn:E; [|lia]. destruct (1 <? x) eqn:E1; [lia|]. reflexivity.
  - destruct (x <? 128) eqn:E.
    + cbn [app uvarint]. rewrite E. replace (i =? 9)%nat with false by (symmetry; apply Nat.eqb_neq; lia). reflexivity.
    + cbn [app]. change (uvarint (S (S f)) i acc (x mod 128 + 128 :: put_uvarint f (x / 128) ++ rest)) with
        (if x mod 128 + 128 <? 128 then if (i =? 9)%nat && (1 <? x mod 128 + 128) then None else Some (acc + (x mod 128 + 128) * 128 ^ Z.of_nat i, put_uvarint f (x / 128) ++ rest)
         else uvarint (S f) (S i) (acc + (x mod 128 + 128 - 128) * 128 ^ Z.of_nat i) (put_uvarint f (x / 128) ++ rest)).
      assert (Hm : 0 <= x mod 128 < 128) by (apply Z.mod_pos_bound; lia). replace (x mod 128 + 128 <? 128) with false by lia.
      assert (ED : x = 128 * (x / 128) + x mod 128) by (apply Z.div_mod; lia).
      assert (EP : 128 ^ Z.of_nat (S i) = 128 * 128 ^ Z.of_nat i) by (rewrite Nat2Z.inj_succ, Z.pow_succ_r by lia; reflexivity).
      assert (PP : 0 < 128 ^ Z.of_nat i) by (apply Z.pow_pos_nonneg; lia).
      rewrite IH.
      * f_equal. f_equal. rewrite EP. rewrite ED at 3. generalize (x / 128), (x mod 128), (128 ^ Z.of_nat i). intros. ring.
      * replace (1 + Z.of_nat (S f)) with (Z.succ (1 + Z.of_nat f)) in Hx by lia. rewrite Z.pow_succ_r in Hx by lia.
        split; [apply Z.div_pos; lia|]. apply Z.div_lt_upper_bound; lia.
      * lia.
      * rewrite EP. split; [apply Z.mul_nonneg_nonneg; [apply Z.div_pos; lia|lia]|].
        assert (x / 128 * (128 * 128 ^ Z.of_nat i) <= x * 128 ^ Z.of_nat i); [|lia].
        replace (x / 128 * (128 * 128 ^ Z.of_nat i)) with ((128 * (x / 128)) * 128 ^ Z.of_nat i) by ring. apply Z.mul_le_mono_nonneg_r; lia.
Qed.
Lemma take_slice_ok k rest : zlen k < 2 ^ 64 -> take_slice (uvarint_bytes (zlen k) ++ k ++ rest) = Some (k, rest).
Proof.
  intro H. unfold take_slice, uvarint_bytes. pose proof (zlen_nonneg k). rewrite (uvarint_put 9 (zlen k) 0 0 (k ++ rest)); [|split; [lia|]|reflexivity|].
  - rewrite Z.mul_1_r, Z.add_0_l. rewrite zlen_app. pose proof (zlen_nonneg rest). replace (zlen k + zlen rest <? zlen k) with false by lia.
    unfold zlen. rewrite Nat2Z.id, firstn_app, Nat.sub_diag, firstn_all, firstn_O, app_nil_r, skipn_app, Nat.sub_diag, skipn_all, skipn_O. reflexivity.
  - eapply Z.lt_trans; [exact H|]. reflexivity.
  - cbn [Z.of_nat]. rewrite Z.mul_1_r. lia.
Qed.
Definition op_ok (o : wop) : Prop := match o with WPut k v => zlen k < 2 ^ 64 /\ zlen v < 2 ^ 64 | WDel k => zlen k < 2 ^ 64 end.
Lemma decode_dump ops : Forall op_ok ops -> forall fuel, (length (dump ops) <= fuel)%nat -> decode fuel (dump ops) = Some ops.
Proof.
  induction 1 as [|o ops Ho _ IH]; intros fuel Hf; [destruct fuel; reflexivity|]. unfold dump in *. cbn [map concat] in *.
  destruct o as [k v|k]; cbn [enc_op app length] in *; rewrite <- ?app_assoc in *.
  - destruct fuel as [|f]; [lia|]. destruct Ho as [H1 H2]. cbn [decode]. change (1 <? 1) with false. cbv iota.
    rewrite take_slice_ok by exact H1. change (1 =? 1) with true. cbv iota. rewrite take_slice_ok by exact H2. rewrite IH; [reflexivity|]. rewrite ?app_length in Hf. lia.
  - destruct fuel as [|f]; [lia|]. cbn [decode]. change (1 <? 0) with false. cbv iota.
    rewrite take_slice_ok by exact Ho. change (0 =? 1) with false. cbv iota. rewrite IH; [reflexivity|]. rewrite ?app_length in Hf. lia.
Qed.
