From Verif Require Import Lib QuotaModel QuotaWinModel QuotaWinSpec QuotaWinProofs.
From Coq Require Import Permutation.

Definition inv (c : qchain) : Prop := exists g pre mid es bk,
  qc_snaps c = g :: pre ++ mid /\ ql_list (qc_list c) = es ++ [bk] /\ Forall2 repr es mid /\ repr bk (qc_pend c) /\
  (pre = [] \/ (74 <= length mid)%nat) /\ (length es <= 599)%nat /\ well (qc_list c) qzero.

Lemma Forall2_length {A B} (P : A -> B -> Prop) x y : Forall2 P x y -> length x = length y.
Proof. induction 1; cbn; auto. Qed.
Lemma last_app1 {A} (l : list A) x d : last (l ++ [x]) d = x.
Proof. induction l as [|y l IH]; [reflexivity|]. cbn [app]. destruct (l ++ [x]) eqn:E; [destruct l; discriminate|]. rewrite <- E in *. cbn. rewrite E in *. exact IH. Qed.
Lemma removelast_app1 {A} (l : list A) x : removelast (l ++ [x]) = l.
Proof. rewrite removelast_app by discriminate. cbn. apply app_nil_r. Qed.
Lemma lastn75 {A} (es : list A) x : lastn 75 (es ++ [x]) = lastn 74 es ++ [x].
Proof. rewrite lastn_app by (cbn; lia). reflexivity. Qed.
Lemma tot_back es x : tot (lastn 75 (es ++ [x])) = qplus (tot (lastn 74 es)) (sume x).
Proof. rewrite lastn75, tot_app. cbn [tot fold_right]. now rewrite qplus_0_r. Qed.
Lemma well_back es bk p g x : well (mkQl (es ++ [bk]) p g) x <->
  p = PAt (Nat.min 75 (S (length es))) /\ g = qplus (qplus (tot (lastn 74 es)) (sume bk)) x.
Proof.
  unfold well. cbn [ql_list ql_start ql_global]. rewrite tot_back, app_length. cbn [length]. replace (length es + 1)%nat with (S (length es)) by lia.
  split; [intros (_ & -> & ->); auto|]. intros (-> & ->). split; [destruct es; discriminate|auto].
Qed.
Lemma ql_eta s : s = mkQl (ql_list s) (ql_start s) (ql_global s). Proof. now destruct s. Qed.

Lemma total_one b : total [b] = info b.
Proof. unfold info. cbn [total]. cbv zeta. cbn [qi_count qi_total qi_used]. f_equal; lia. Qed.

(** ** Adding and taking blocks *)
(** a list whose back stands for [bs] *)
Definition at_back (es : list elem) (bs : list qblk) (x : qinfo) (s : qlist) : Prop :=
  exists bk, ql_list s = es ++ [bk] /\ repr bk bs /\ well s x.
Lemma at_back_perm es bs bs' x s : Permutation bs bs' -> at_back es bs x s -> at_back es bs' x s.
Proof. intros P (bk & H1 & H2 & H3). exists bk. split; [auto|]. split; [eapply repr_perm; eauto|auto]. Qed.
Lemma add_back es bs x s b : at_back es bs x s -> at_back es (bs ++ [b]) x (ql_add s b).
Proof.
  intros (bk & H1 & H2 & H3). exists (e_add bk b). unfold ql_add, set_back, back. rewrite H1, removelast_app1, last_app1. cbn [ql_list].
  split; [reflexivity|]. pose proof (repr_add _ _ b H2) as R. split; [exact R|].
  rewrite (ql_eta s), H1 in H3. apply well_back in H3 as [Hp Hg]. apply well_back. split; [exact Hp|]. rewrite Hg.
  rewrite (repr_total _ _ R), (repr_total _ _ H2), total_app, total_one.
  generalize (tot (lastn 74 es)), (total bs), (info b). intros. qsolve.
Qed.
Lemma adds_back es x bs : forall pre s, at_back es pre x s -> at_back es (pre ++ bs) x (fold_left ql_add bs s).
Proof.
  induction bs as [|b bs IH]; intros pre s H; cbn [fold_left]; [now rewrite app_nil_r|].
  replace (pre ++ b :: bs) with ((pre ++ [b]) ++ bs) by (rewrite <- app_assoc; reflexivity). apply IH. now apply add_back.
Qed.
Lemma sub_back es bs x s b rest : Permutation bs (b :: rest) -> at_back es bs x s -> at_back es rest x (ql_sub s b).
Proof.
  intros P (bk & H1 & H2 & H3). exists (e_sub bk b). unfold ql_sub, set_back, back. rewrite H1, removelast_app1, last_app1. cbn [ql_list].
  split; [reflexivity|]. pose proof (repr_sub _ _ _ _ H2 P) as R. split; [exact R|].
  rewrite (ql_eta s), H1 in H3. apply well_back in H3 as [Hp Hg]. apply well_back. split; [exact Hp|]. rewrite Hg.
  rewrite (repr_total _ _ R), (repr_total _ _ H2), (total_perm _ _ P). change (b :: rest) with ([b] ++ rest). rewrite total_app, total_one.
  generalize (tot (lastn 74 es)), (total rest), (info b). intros. qsolve.
Qed.
Lemma subs_back es x bs : forall all rest s, Permutation all (bs ++ rest) -> at_back es all x s -> at_back es rest x (fold_left ql_sub bs s).
Proof.
  induction bs as [|b bs IH]; intros all rest s P H; cbn [fold_left app] in *; [eapply at_back_perm; eauto|].
  apply (IH (bs ++ rest)); [apply Permutation_refl|]. eapply sub_back; eauto.
Qed.

(** ** A snapshot *)
Lemma confirm_ok bs : forall cur bk pre rest all, repr cur pre -> repr bk all -> Permutation all (bs ++ rest) ->
  exists cur' bk', confirm bs cur bk = Some (cur', bk') /\ repr cur' (pre ++ bs) /\ repr bk' rest.
Proof.
  induction bs as [|b bs IH]; intros cur bk pre rest all R1 R2 P; cbn [confirm app] in *.
  - exists cur, bk. rewrite app_nil_r. split; [reflexivity|]. split; [auto|eapply repr_perm; eauto].
  - destruct (repr_present _ _ _ _ R2 P) as [q G]. rewrite G.
    destruct (IH (e_add cur b) (if qi_count q <=? 1 then edel bk (b_addr b) else eset bk (b_addr b) (qminus q (info b))) (pre ++ [b]) rest (bs ++ rest)) as (c' & b' & E & A & B).
    + now apply repr_add.
    + eapply repr_take; eauto.
    + apply Permutation_refl.
    + exists c', b'. split; [exact E|]. rewrite <- app_assoc in A. auto.
Qed.
Lemma capped_split (es : list elem) e : es <> [] -> exists dr es', capped (es ++ [e]) = es' ++ [e] /\ es = dr ++ es' /\
  (dr = [] /\ (length es <= 599)%nat \/ length dr = 1%nat /\ (600 <= length es)%nat).
Proof.
  intro Hn. unfold capped. rewrite app_length. cbn [length]. destruct (600 <? length es + 1)%nat eqn:E.
  - apply Nat.ltb_lt in E. destruct es as [|x es]; [congruence|]. exists [x], es. cbn [tl app]. split; [reflexivity|]. split; [reflexivity|]. right. split; [reflexivity|lia].
  - apply Nat.ltb_ge in E. exists [], es. cbn [app]. split; [reflexivity|]. split; [reflexivity|]. left. split; [reflexivity|lia].
Qed.
Lemma forall2_split {A B} (P : A -> B -> Prop) x y l : Forall2 P (x ++ y) l -> exists a b, l = a ++ b /\ Forall2 P x a /\ Forall2 P y b.
Proof. intro H. apply Forall2_app_inv_l in H as (a & b & H1 & H2 & ->). eauto. Qed.
Lemma new_next_ok s es all confirmed rest : at_back es all qzero s -> (length es <= 599)%nat -> Permutation all (confirmed ++ rest) ->
  exists s' dr es' cur, new_next s confirmed = Some s' /\ es ++ [cur] = dr ++ es' /\ repr cur confirmed /\ es' <> [] /\
  (dr = [] /\ (length es' <= 599)%nat \/ length dr = 1%nat /\ length es' = 599%nat) /\ at_back es' rest qzero s'.
Proof.
  intros (bk & H1 & H2 & H3) HL P. unfold new_next, back. rewrite H1, last_app1.
  destruct (confirm_ok confirmed [] bk [] rest all repr_nil H2 P) as (cur & bk' & E & R1 & R2). rewrite E. cbn [app] in R1.
  unfold set_back. rewrite H1, removelast_app1.
  assert (W : well (mkQl (es ++ [cur]) (ql_start s) (ql_global s)) (sume bk')).
  { rewrite (ql_eta s), H1 in H3. apply well_back in H3 as [Hp Hg]. apply well_back. split; [exact Hp|]. rewrite Hg.
    rewrite (repr_total _ _ R1), (repr_total _ _ R2), (repr_total _ _ H2), (total_perm _ _ P), total_app.
    generalize (tot (lastn 74 es)), (total confirmed), (total rest). intros. qsolve. }
  destruct (move_next_well _ _ bk' W) as (M1 & M2 & M3); [cbn [ql_list]; rewrite app_length; cbn; lia|]. cbn [ql_list] in *.
  destruct (capped_split (es ++ [cur]) bk') as (dr & es' & C1 & C2 & C3); [destruct es; discriminate|].
  rewrite C1 in *. assert (LE : length (es ++ [cur]) = S (length es)) by (rewrite app_length; cbn; lia). rewrite LE in C3.
  assert (LD : (length dr + length es' = S (length es))%nat) by (rewrite <- LE, C2, app_length; lia).
  eexists _, dr, es', cur. split; [reflexivity|]. split; [exact C2|]. split; [exact R1|].
  split; [destruct es'; [cbn in *; destruct C3 as [[-> ?]|[? ?]]; cbn in *; lia|discriminate]|].
  split; [destruct C3 as [[-> C3]|[C3 C4]]; [left; split; [reflexivity|cbn in LD; lia]|right; split; [auto|lia]]|].
  exists bk'. split; [exact M1|]. split; [exact R2|]. rewrite (ql_eta (move_next _ _)), M1, M2, M3. apply well_back.
  rewrite app_length. cbn [length]. split; [f_equal; lia|]. rewrite tot_back.
  generalize (tot (lastn 74 es')), (sume bk'). intros. qsolve.
Qed.
Lemma reset_back es all rest s : es <> [] -> at_back es all qzero s -> at_back es rest qzero (ql_reset s rest).
Proof.
  intros Hn (bk & H1 & H2 & H3). exists (item rest). pose proof (repr_item rest) as R.
  rewrite (ql_eta s), H1 in H3. apply well_back in H3 as [Hp Hg].
  unfold ql_reset, rm_back, back. rewrite H1, removelast_app1, last_app1. cbn [ql_list ql_start]. split; [reflexivity|]. split; [exact R|].
  assert (HP : exists w, Nat.min 75 (S (length es)) = S (S w)).
  { destruct es as [|e es]; [congruence|]. exists (Nat.min 73 (length es)). cbn [length]. lia. }
  destruct HP as [w Hw]. rewrite Hp, Hw. apply well_back. split; [now rewrite Hw|]. rewrite Hg. unfold aggregate. rewrite !fold_plus, !qplus_0_l.
  generalize (tot (lastn 74 es)), (sume bk), (sume (item rest)). intros. qsolve.
Qed.

(** ** Building *)
Lemma build_full s snaps : (75 <= length (ql_list s))%nat -> build s snaps = finish s.
Proof. intro H. unfold build, used_height. replace (75 <=? length (ql_list s))%nat with true by (symmetry; now apply Nat.leb_le). reflexivity. Qed.
Lemma tl_skipn {A} n (l : list A) : tl (skipn n l) = skipn n (tl l).
Proof. revert l. induction n as [|n IH]; intros [|x l]; cbn; [reflexivity..|]. rewrite IH. destruct l; [now rewrite skipn_nil|]. destruct n; reflexivity. Qed.
Lemma item_repr (l : list (list qblk)) : Forall2 repr (map item l) l.
Proof. induction l; cbn; constructor; auto using repr_item. Qed.
(** from nothing, the list holds the last 599 snapshots *)
Lemma build_empty s g snaps : ql_list s = [] -> exists pre mid, snaps = pre ++ mid /\ (pre = [] \/ length mid = 599%nat) /\ (length mid <= 599)%nat /\
  (snaps <> [] -> mid <> []) /\
  build s (g :: snaps) = finish (mkQl (map item mid) (ql_start s) (ql_global s)).
Proof.
  intro H. unfold build, used_height, list_max. rewrite H. cbn [length]. cbv zeta. cbn [Nat.leb]. rewrite !Nat.sub_0_r.
  exists (firstn (length snaps - 599) snaps), (skipn (length snaps - 599) snaps).
  split; [symmetry; apply firstn_skipn|]. rewrite skipn_length. split; [|split; [lia|split]].
  - destruct (Nat.le_gt_cases (length snaps) 599); [left|right; lia]. replace (length snaps - 599)%nat with 0%nat by lia. reflexivity.
  - intros Hn E. apply (f_equal (@length _)) in E. rewrite skipn_length in E. destruct snaps; [congruence|cbn [length] in E; lia].
  - f_equal. f_equal. f_equal. destruct (600 <? S (length snaps) + 1)%nat eqn:E.
    + apply Nat.ltb_lt in E. rewrite tl_skipn. cbn [tl]. f_equal. lia.
    + apply Nat.ltb_ge in E. replace (length snaps - 599)%nat with 0%nat by lia. reflexivity.
Qed.
(** a start: everything is on disk *)
Lemma fresh_back s g snaps : ql_list s = [] -> (snaps <> [] \/ (ql_start s = PNil /\ ql_global s = qzero)) ->
  exists pre mid es, snaps = pre ++ mid /\ (pre = [] \/ (74 <= length mid)%nat) /\ Forall2 repr es mid /\ (length es <= 599)%nat /\
  at_back es [] qzero (move_next (build s (g :: snaps)) []).
Proof.
  intros H HS. destruct (build_empty s g snaps H) as (pre & mid & E & P1 & P2 & P3 & B). rewrite B.
  exists pre, mid, (map item mid). split; [exact E|]. split; [destruct P1; [auto|right; lia]|]. split; [apply item_repr|].
  rewrite map_length. split; [exact P2|]. exists []. destruct mid as [|m mid].
  - destruct HS as [HS|[HS1 HS2]]; [exfalso; apply (P3 HS); reflexivity|]. cbn [map finish ql_list]. unfold move_next. cbn [ql_list ql_start ql_global].
    rewrite HS1, HS2. cbn. split; [reflexivity|]. split; [apply repr_nil|]. split; [discriminate|]. split; reflexivity.
  - destruct (finish_well (mkQl (map item (m :: mid)) (ql_start s) (ql_global s))) as [F1 F2]; [discriminate|]. cbn [ql_list] in F1.
    destruct (move_next_well _ _ [] F2) as (M1 & M2 & M3); [rewrite F1, map_length; lia|]. rewrite F1 in *.
    unfold capped in *. rewrite app_length, map_length in *. cbn [length] in P2, M1, M2, M3.
    replace (600 <? S (length mid) + 1)%nat with false in * by (symmetry; apply Nat.ltb_ge; lia).
    split; [exact M1|]. split; [apply repr_nil|]. rewrite (ql_eta (move_next _ _)), M1, M2, M3. apply well_back.
    rewrite app_length, map_length. cbn [length]. split; [f_equal; lia|]. rewrite tot_back.
    change (sume []) with qzero. generalize (tot (lastn 74 (map item (m :: mid)))). intros. qsolve.
Qed.
Lemma rm_backs_list n : forall s, ql_list (rm_backs n s) = firstn (length (ql_list s) - n) (ql_list s).
Proof.
  induction n as [|n IH]; intro s; cbn [rm_backs]; [now rewrite Nat.sub_0_r, firstn_all|].
  destruct (ql_list s) as [|e l] eqn:E; [now rewrite E|].
  rewrite IH. cbn [rm_back ql_list]. rewrite E. destruct (@exists_last _ (e :: l) ltac:(discriminate)) as (l' & x & ->).
  rewrite removelast_app1, app_length. cbn [length]. replace (length l' + 1 - S n)%nat with (length l' - n)%nat by lia.
  rewrite firstn_app. replace (length l' - n - length l')%nat with 0%nat by lia. now rewrite firstn_O, app_nil_r.
Qed.
Lemma repr_empty bk bs : repr bk bs -> (bk = [] <-> bs = []).
Proof.
  intros [_ H]. split; intros ->.
  - destruct bs as [|b bs]; [reflexivity|]. specialize (H (b_addr b)). rewrite has_cons, Z.eqb_refl in H. discriminate.
  - destruct bk as [|[k q] bk]; [reflexivity|]. specialize (H k). cbn [eget has existsb] in H. rewrite Z.eqb_refl in H. discriminate.
Qed.
(** a rollback removes the back and one element for each deleted snapshot *)
Lemma rollback_list s es bk pend d snaps : ql_list s = es ++ [bk] -> repr bk pend -> (length es <= 599)%nat -> (1 <= d)%nat ->
  exists s2, ql_list s2 = firstn (length es - d) es /\
  ql_rollback s (match pend with [] => d | _ => S d end) snaps = move_next (build s2 snaps) [].
Proof.
  intros H R HL Hd. unfold ql_rollback, back.
  assert (ND : forall (X : Type) (a b : X), match ql_list s with [] => a | _ => b end = b) by (intros; rewrite H; destruct es; reflexivity).
  rewrite ND, H, last_app1.
  pose proof (repr_empty _ _ R) as RE. eexists. split; [|reflexivity]. rewrite rm_backs_list.
  destruct pend as [|b pend].
  - rewrite (proj2 RE eq_refl) in *. cbn [rm_back ql_list]. rewrite H, removelast_app1.
    destruct (list_max <=? d)%nat eqn:E; [|reflexivity]. apply Nat.leb_le in E. unfold list_max in E. f_equal. lia.
  - destruct bk as [|kv bk]; [pose proof (proj1 RE eq_refl); discriminate|].
    rewrite H, app_length. cbn [length].
    destruct (list_max <=? S d)%nat eqn:E.
    + apply Nat.leb_le in E. unfold list_max in E. replace (length es + 1 - (length es + 1))%nat with 0%nat by lia.
      replace (length es - d)%nat with 0%nat by lia. reflexivity.
    + replace (length es + 1 - S d)%nat with (length es - d)%nat by lia. rewrite firstn_app.
      replace (length es - d - length es)%nat with 0%nat by lia. now rewrite firstn_O, app_nil_r.
Qed.
Lemma full_back s es : ql_list s = es -> (75 <= length es <= 599)%nat -> forall snaps, at_back es [] qzero (move_next (build s snaps) []).
Proof.
  intros H HL snaps. rewrite build_full by (rewrite H; lia).
  destruct (finish_well s) as [F1 F2]; [rewrite H; destruct es; [cbn in HL; lia|discriminate]|].
  destruct (move_next_well _ _ [] F2) as (M1 & M2 & M3); [rewrite F1, H; lia|]. rewrite F1, H in *. exists [].
  unfold capped in *. rewrite app_length in *. cbn [length] in M1, M2, M3.
  replace (600 <? length es + 1)%nat with false in * by (symmetry; apply Nat.ltb_ge; lia).
  split; [exact M1|]. split; [apply repr_nil|]. rewrite (ql_eta (move_next _ _)), M1, M2, M3. apply well_back.
  rewrite app_length. cbn [length]. split; [f_equal; lia|]. rewrite tot_back. change (sume []) with qzero. generalize (tot (lastn 74 es)). intros. qsolve.
Qed.

(** ** Every history *)
Lemma inv_intro c g pre mid es pend : qc_snaps c = g :: pre ++ mid -> Forall2 repr es mid -> (pre = [] \/ (74 <= length mid)%nat) ->
  (length es <= 599)%nat -> qc_pend c = pend -> at_back es pend qzero (qc_list c) -> inv c.
Proof. intros A B C D E (bk & F1 & F2 & F3). exists g, pre, mid, es, bk. rewrite E. auto 10. Qed.
Lemma reach_inv c : reach c -> inv c.
Proof.
  induction 1 as [snaps Hs|c b _ IH|c bs rest _ IH P|c cf iv rest c' _ IH P HS|c d keep _ IH Hd HC].
  - destruct snaps as [|g snaps]; [congruence|]. destruct (fresh_back ql_empty g snaps eq_refl (or_intror (conj eq_refl eq_refl))) as (pre & mid & es & E & A & B & C & D).
    apply (inv_intro _ g pre mid es []); auto. cbn. now rewrite E.
  - destruct IH as (g & pre & mid & es & bk & H1 & H2 & H3 & H4 & H5 & H6 & H7).
    apply (inv_intro _ g pre mid es (qc_pend c ++ [b])); auto. cbn [qc_insert qc_list]. apply add_back. exists bk. auto.
  - destruct IH as (g & pre & mid & es & bk & H1 & H2 & H3 & H4 & H5 & H6 & H7).
    apply (inv_intro _ g pre mid es rest); auto. cbn [qc_delete qc_list]. apply (subs_back es qzero bs (qc_pend c)); auto. exists bk. auto.
  - destruct IH as (g & pre & mid & es & bk & H1 & H2 & H3 & H4 & H5 & H6 & H7). unfold qc_snapshot in HS.
    destruct (new_next_ok (qc_list c) es (qc_pend c) cf (iv ++ rest)) as (s' & dr & es' & cur & E & A & B & C & D & F); auto; [exists bk; auto|].
    rewrite E in HS. injection HS as <-.
    assert (F2 : Forall2 repr (dr ++ es') (mid ++ [cf])) by (rewrite <- A; apply Forall2_app; auto).
    apply forall2_split in F2 as (m1 & m2 & M0 & M1 & M2).
    apply (inv_intro _ g (pre ++ m1) m2 es' rest); auto.
    + cbn [qc_snaps]. rewrite H1. cbn [app]. rewrite <- !app_assoc, M0. reflexivity.
    + apply Forall2_length in M1, M2. apply Forall2_length in H3. destruct D as [[-> D]|[D1 D2]].
      * destruct m1; [|discriminate]. cbn [app] in *. rewrite app_nil_r. destruct H5; [auto|right]. subst m2. rewrite app_length. lia.
      * right. lia.
    + destruct D as [[_ D]|[_ D]]; lia.
    + cbn [qc_list]. apply (reset_back es' rest); auto. apply (subs_back es' qzero iv (iv ++ rest)); auto.
  - destruct IH as (g & pre & mid & es & bk & H1 & H2 & H3 & H4 & H5 & H6 & H7). unfold held in HC. rewrite H2, app_length in HC. cbn [length] in HC.
    replace (length es + 1 - 1)%nat with (length es) in HC by lia. unfold qc_rollback.
    assert (LS : length (qc_snaps c) = S (length pre + length mid)) by (rewrite H1; cbn [length]; now rewrite app_length). rewrite LS in *.
    pose proof (Forall2_length _ _ _ H3) as LE.
    destruct (rollback_list (qc_list c) es bk (qc_pend c) d (firstn (S (length pre + length mid) - d) (qc_snaps c)) H2 H4 H6 ltac:(lia)) as (s2 & S1 & S2).
    set (p := if keep then nth (S (length pre + length mid) - d) (qc_snaps c) [] else []). rewrite S2. clear S2.
    destruct HC as [HC|[HC1 HC2]].
    + apply (inv_intro _ g pre (firstn (length mid - d) mid) (firstn (length es - d) es) p); cbn [qc_snaps qc_pend qc_list].
      * rewrite H1. replace (S (length pre + length mid) - d)%nat with (S (length pre + (length mid - d))) by lia. cbn [firstn].
        f_equal. rewrite firstn_app_2. reflexivity.
      * rewrite LE. clear -H3. generalize (length mid - d)%nat. intro n. revert n. induction H3; intros [|n]; cbn; constructor; auto.
      * right. rewrite firstn_length. lia.
      * rewrite firstn_length. lia.
      * reflexivity.
      * change p with ([] ++ p) at 1. apply adds_back. apply full_back; [exact S1|rewrite firstn_length; lia].
    + assert (S0 : ql_list s2 = []) by (rewrite S1; replace (length es - d)%nat with 0%nat by lia; reflexivity).
      set (m := (S (length pre + length mid) - d)%nat) in *.
      assert (FS : firstn m (qc_snaps c) = g :: firstn (m - 1) (pre ++ mid)).
      { rewrite H1. destruct m as [|m'] eqn:EM; [lia|]. cbn [firstn]. now rewrite Nat.sub_succ, Nat.sub_0_r. }
      rewrite FS. destruct (fresh_back s2 g (firstn (m - 1) (pre ++ mid)) S0) as (pre' & mid' & es' & E & A & B & C & D).
      { left. intro E. apply (f_equal (@length _)) in E. rewrite firstn_length, app_length in E. cbn [length] in E. lia. }
      apply (inv_intro _ g pre' mid' es' p); cbn [qc_snaps qc_pend qc_list]; auto.
      * now rewrite E.
      * change p with ([] ++ p) at 1. apply adds_back. exact D.
Qed.
Lemma repr_window es mid a : Forall2 repr es mid -> map (fun e => or_zero (eget e a)) es = map (use_of a) mid.
Proof. induction 1; cbn; [reflexivity|]. f_equal; auto. now apply repr_zero. Qed.
Lemma repr_tot es mid : Forall2 repr es mid -> tot es = total (concat mid).
Proof. induction 1; cbn [tot fold_right concat]; [reflexivity|]. fold (tot l). rewrite total_app, IHForall2. f_equal. now apply repr_total. Qed.
Lemma forall2_skipn {A B} (P : A -> B -> Prop) n : forall x y, Forall2 P x y -> Forall2 P (skipn n x) (skipn n y).
Proof. induction n; intros x y H; [exact H|]. destruct H; cbn; [constructor|]. auto. Qed.
Lemma forall2_lastn {A B} (P : A -> B -> Prop) n x y : Forall2 P x y -> Forall2 P (lastn n x) (lastn n y).
Proof. intro H. unfold lastn. rewrite (Forall2_length _ _ _ H). now apply forall2_skipn. Qed.
Lemma inv_window c : inv c ->
  (forall a, used_list (qc_list c) a = window_spec (qc_snaps c) (qc_pend c) a) /\ global_quota (qc_list c) = global_spec (qc_snaps c).
Proof.
  intros (g & pre & mid & es & bk & H1 & H2 & H3 & H4 & H5 & H6 & H7).
  assert (EL : lastn 74 (tl (qc_snaps c)) = lastn 74 mid).
  { rewrite H1. cbn [tl]. destruct H5 as [->|H5]; [reflexivity|]. now apply lastn_app_ge. }
  pose proof (forall2_lastn repr 74 _ _ H3) as F. split.
  - intro a. unfold used_list, window_spec. rewrite (well_window _ _ H7), H2, lastn75, EL, map_app. cbn [map].
    now rewrite (repr_window _ _ a F), (repr_zero _ _ a H4).
  - unfold global_quota, global_spec, back. rewrite H2, last_app1, fold_minus, EL. rewrite (ql_eta (qc_list c)), H2 in H7.
    apply well_back in H7 as [_ ->]. rewrite <- (repr_tot _ _ F). generalize (tot (lastn 74 es)), (sume bk). intros. qsolve.
Qed.
