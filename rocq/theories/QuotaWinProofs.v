From Verif Require Import Lib QuotaModel QuotaWinModel QuotaWinSpec.
From Coq Require Import Permutation.

Ltac qsolve := repeat match goal with q : qinfo |- _ => destruct q end; unfold qplus, qminus, qzero, info in *; cbn [qi_count qi_total qi_used] in *; f_equal; lia.
Lemma qplus_assoc a b c : qplus a (qplus b c) = qplus (qplus a b) c. Proof. qsolve. Qed.
Lemma qplus_comm a b : qplus a b = qplus b a. Proof. qsolve. Qed.
Lemma qplus_0_l a : qplus qzero a = a. Proof. qsolve. Qed.
Lemma qplus_0_r a : qplus a qzero = a. Proof. qsolve. Qed.
Lemma qminus_plus a b : qminus (qplus a b) b = a. Proof. qsolve. Qed.
Lemma qminus_plus_l a b : qminus (qplus b a) b = a. Proof. qsolve. Qed.
Lemma qminus_minus a b c : qminus (qminus a b) c = qminus a (qplus b c). Proof. qsolve. Qed.

(** ** Elements *)
Lemma eget_eset e a v k : eget (eset e a v) k = if a =? k then Some v else eget e k.
Proof.
  induction e as [|[x q] e IH]; cbn [eset eget]; [reflexivity|].
  destruct (x =? a) eqn:E; cbn [eget].
  - assert (x = a) by lia. subst. destruct (a =? k); reflexivity.
  - rewrite IH. destruct (x =? k) eqn:E2; [|reflexivity]. destruct (a =? k) eqn:E3; [lia|reflexivity].
Qed.
Lemma eget_none e a : ~ In a (map fst e) -> eget e a = None.
Proof.
  induction e as [|[x q] e IH]; cbn; [reflexivity|]. intro H. destruct (x =? a) eqn:E; [exfalso; apply H; left; lia|]. apply IH. tauto.
Qed.
Lemma eget_in e a : eget e a <> None -> In a (map fst e).
Proof. induction e as [|[x q] e IH]; cbn; [tauto|]. destruct (x =? a) eqn:E; [left; lia|]. intro. right. auto. Qed.
Lemma eset_keys e a v : map fst (eset e a v) = map fst e \/ (map fst (eset e a v) = map fst e ++ [a] /\ ~ In a (map fst e)).
Proof.
  induction e as [|[x q] e IH]; cbn [eset map app]; [right; split; [reflexivity|intros []]|].
  destruct (x =? a) eqn:E; cbn [map fst]; [now left|]. destruct IH as [->|[-> H]]; [now left|right]. split; [reflexivity|].
  cbn. intros [?|?]; [lia|tauto].
Qed.
Lemma eset_nodup e a v : NoDup (map fst e) -> NoDup (map fst (eset e a v)).
Proof.
  intro H. destruct (eset_keys e a v) as [->|[-> Hn]]; [exact H|].
  apply (Permutation_NoDup (l := a :: map fst e)); [apply Permutation_cons_append|]. now constructor.
Qed.
Lemma edel_nodup e a : NoDup (map fst e) -> NoDup (map fst (edel e a)).
Proof.
  induction e as [|[x q] e IH]; cbn; [constructor|]. intro H. inversion H as [|? ? H1 H2]; subst. destruct (negb (x =? a)); cbn; [|auto].
  constructor; [|auto]. intro Hin. apply H1. apply in_map_iff in Hin as ([y r] & E & Hy). apply filter_In in Hy as [Hy _].
  apply in_map_iff. exists (y, r). auto.
Qed.
Lemma eget_edel e a k : eget (edel e a) k = if a =? k then None else eget e k.
Proof.
  induction e as [|[x q] e IH]; cbn [edel filter eget fst]; [now destruct (a =? k)|].
  fold (edel e a). destruct (x =? a) eqn:E; cbn [negb].
  - rewrite IH. destruct (a =? k) eqn:E2; [reflexivity|]. destruct (x =? k) eqn:E3; [lia|reflexivity].
  - cbn [eget]. rewrite IH. destruct (x =? k) eqn:E3; [|reflexivity]. destruct (a =? k) eqn:E2; [lia|reflexivity].
Qed.

(** ** What an element stands for *)
Definition has (a : Z) (bs : list qblk) : bool := existsb (fun b => b_addr b =? a) bs.
Definition repr (e : elem) (bs : list qblk) : Prop :=
  NoDup (map fst e) /\ forall a, eget e a = if has a bs then Some (use_of a bs) else None.
Lemma use_app a x y : use_of a (x ++ y) = qplus (use_of a x) (use_of a y).
Proof. induction x as [|b x IH]; cbn [app use_of]; [now rewrite qplus_0_l|]. cbv zeta. rewrite IH. destruct (b_addr b =? a); qsolve. Qed.
Lemma total_app x y : total (x ++ y) = qplus (total x) (total y).
Proof. induction x as [|b x IH]; cbn [app total]; [now rewrite qplus_0_l|]. cbv zeta. rewrite IH. qsolve. Qed.
Lemma has_app a x y : has a (x ++ y) = has a x || has a y.
Proof. apply existsb_app. Qed.
Lemma use_perm a x y : Permutation x y -> use_of a x = use_of a y.
Proof.
  induction 1; cbn [use_of]; [reflexivity|now rewrite IHPermutation| |congruence]. cbv zeta.
  destruct (b_addr y =? a), (b_addr x =? a); qsolve.
Qed.
Lemma total_perm x y : Permutation x y -> total x = total y.
Proof. induction 1; cbn [total]; [reflexivity|now rewrite IHPermutation| |congruence]. cbv zeta. qsolve. Qed.
Lemma has_perm a x y : Permutation x y -> has a x = has a y.
Proof.
  intro H. destruct (has a x) eqn:E, (has a y) eqn:F; try reflexivity.
  - apply existsb_exists in E as (b & Hb & Hk). apply (Permutation_in _ H) in Hb. assert (has a y = true) by (apply existsb_exists; eauto). congruence.
  - apply existsb_exists in F as (b & Hb & Hk). apply (Permutation_in _ (Permutation_sym H)) in Hb. assert (has a x = true) by (apply existsb_exists; eauto). congruence.
Qed.
Lemma use_not_has a x : has a x = false -> use_of a x = qzero.
Proof. induction x as [|b x IH]; cbn [has existsb use_of]; [reflexivity|]. destruct (b_addr b =? a); cbn [orb]; [discriminate|exact IH]. Qed.
Lemma count_has a x : 0 <= qi_count (use_of a x) /\ (has a x = true -> 1 <= qi_count (use_of a x)).
Proof.
  induction x as [|b x [I1 I2]]; cbn [has existsb use_of]; [split; [cbn; lia|discriminate]|]. fold (has a x). cbv zeta.
  destruct (b_addr b =? a); cbn [orb qi_count]; [split; [lia|intro; lia]|auto].
Qed.
Lemma count_zero a x : qi_count (use_of a x) <= 0 -> has a x = false.
Proof. intro H. destruct (has a x) eqn:E; [|reflexivity]. apply count_has in E. lia. Qed.
Lemma repr_perm e x y : Permutation x y -> repr e x -> repr e y.
Proof. intros P [H1 H2]. split; [exact H1|]. intro a. rewrite H2, (has_perm a _ _ P), (use_perm a _ _ P). reflexivity. Qed.
Lemma repr_nil : repr [] []. Proof. split; [constructor|reflexivity]. Qed.
Lemma repr_zero e bs a : repr e bs -> or_zero (eget e a) = use_of a bs.
Proof. intros [_ H]. rewrite H. destruct (has a bs) eqn:E; cbn [or_zero]; [reflexivity|]. now rewrite use_not_has. Qed.
Lemma repr_add e bs b : repr e bs -> repr (e_add e b) (bs ++ [b]).
Proof.
  intros R. pose proof R as [H1 H2]. split; [now apply eset_nodup|]. intro a. unfold e_add. rewrite eget_eset, has_app, use_app.
  cbn [has existsb use_of]. rewrite orb_false_r. cbv zeta. destruct (b_addr b =? a) eqn:E.
  - rewrite orb_true_r. f_equal. rewrite (repr_zero e bs) by exact R. assert (b_addr b = a) by lia. subst a. generalize (use_of (b_addr b) bs). intro. qsolve.
  - rewrite orb_false_r, H2. destruct (has a bs); [f_equal; now rewrite qplus_0_r|reflexivity].
Qed.
Lemma repr_item bs : repr (item bs) bs.
Proof.
  unfold item. assert (G : forall bs e pre, repr e pre -> repr (fold_left e_add bs e) (pre ++ bs)).
  { clear. induction bs as [|b bs IH]; intros e pre H; cbn [fold_left]; [now rewrite app_nil_r|].
    replace (pre ++ b :: bs) with ((pre ++ [b]) ++ bs) by (rewrite <- app_assoc; reflexivity). apply IH. now apply repr_add. }
  apply (G bs [] []), repr_nil.
Qed.
(** taking a block out *)
Lemma use_cons b r : use_of (b_addr b) (b :: r) = qplus (info b) (use_of (b_addr b) r).
Proof. cbn [use_of]. rewrite Z.eqb_refl. reflexivity. Qed.
Lemma repr_take e bs b rest q : repr e bs -> Permutation bs (b :: rest) -> eget e (b_addr b) = Some q ->
  repr (if qi_count q <=? 1 then edel e (b_addr b) else eset e (b_addr b) (qminus q (info b))) rest.
Proof.
  intros R P G. apply (repr_perm _ _ _ P) in R. destruct R as [H1 H2]. pose proof (H2 (b_addr b)) as HB. rewrite G in HB.
  assert (HQ : q = qplus (info b) (use_of (b_addr b) rest)).
  { rewrite <- use_cons. cbn [has existsb] in HB. rewrite Z.eqb_refl in HB. cbn [orb] in HB. congruence. }
  clear HB. rename HQ into HB.
  destruct (qi_count q <=? 1) eqn:E.
  - assert (N : has (b_addr b) rest = false). { apply count_zero. rewrite HB in E. unfold qplus in E. cbn [qi_count info] in E. lia. }
    split; [now apply edel_nodup|]. intro a. rewrite eget_edel. destruct (b_addr b =? a) eqn:EA.
    + assert (b_addr b = a) by lia. subst a. now rewrite N.
    + rewrite H2. cbn [has existsb use_of]. rewrite EA. reflexivity.
  - assert (N : has (b_addr b) rest = true).
    { destruct (has (b_addr b) rest) eqn:EH; [reflexivity|]. apply use_not_has in EH. rewrite EH in HB. rewrite HB in E. cbn in E. lia. }
    split; [now apply eset_nodup|]. intro a. rewrite eget_eset. destruct (b_addr b =? a) eqn:EA.
    + assert (b_addr b = a) by lia. subst a. rewrite N. f_equal. rewrite HB. generalize (use_of (b_addr b) rest). intro. qsolve.
    + rewrite H2. cbn [has existsb use_of]. rewrite EA. reflexivity.
Qed.
Lemma repr_present e bs b rest : repr e bs -> Permutation bs (b :: rest) -> exists q, eget e (b_addr b) = Some q.
Proof.
  intros R P. apply (repr_perm _ _ _ P) in R. destruct R as [_ H]. rewrite H. cbn [has existsb]. rewrite Z.eqb_refl. cbn [orb]. eauto.
Qed.
Lemma repr_sub e bs b rest : repr e bs -> Permutation bs (b :: rest) -> repr (e_sub e b) rest.
Proof. intros R P. destruct (repr_present _ _ _ _ R P) as [q G]. unfold e_sub. rewrite G. eapply repr_take; eauto. Qed.

Definition sume (e : elem) : qinfo := fold_right (fun kv a => qplus (snd kv) a) qzero e.
Lemma fold_plus e : forall acc, fold_left (fun acc kv => qplus acc (snd kv)) e acc = qplus acc (sume e).
Proof. induction e as [|kv e IH]; intro acc; cbn [fold_left sume fold_right]; [now rewrite qplus_0_r|]. rewrite IH. fold (sume e). now rewrite qplus_assoc. Qed.
Lemma fold_minus (e : elem) : forall acc, fold_left (fun acc kv => qminus acc (snd kv)) e acc = qminus acc (sume e).
Proof. induction e as [|kv e IH]; intro acc; cbn [fold_left sume fold_right]; [destruct acc; qsolve|]. rewrite IH. fold (sume e). now rewrite qminus_minus. Qed.
Lemma total_split k bs : total bs = qplus (use_of k bs) (total (filter (fun b => negb (b_addr b =? k)) bs)).
Proof.
  induction bs as [|b bs IH]; [reflexivity|]. cbn [total use_of filter]. cbv zeta. rewrite IH.
  destruct (b_addr b =? k); cbn [negb total]; cbv zeta; generalize (use_of k bs), (total (filter (fun b0 => negb (b_addr b0 =? k)) bs)); intros; qsolve.
Qed.
Lemma has_cons a b bs : has a (b :: bs) = (b_addr b =? a) || has a bs. Proof. reflexivity. Qed.
Lemma has_filter a k bs : has a (filter (fun b => negb (b_addr b =? k)) bs) = (has a bs && negb (k =? a))%bool.
Proof.
  induction bs as [|b bs IH]; [reflexivity|]. cbn [filter]. rewrite has_cons.
  destruct (b_addr b =? k) eqn:E; cbn [negb]; rewrite ?has_cons, IH; destruct (b_addr b =? a) eqn:F; cbn [orb]; try reflexivity.
  - replace (k =? a) with true by lia. cbn. now rewrite andb_false_r.
  - replace (k =? a) with false by lia. reflexivity.
Qed.
Lemma use_filter a k bs : a <> k -> use_of a (filter (fun b => negb (b_addr b =? k)) bs) = use_of a bs.
Proof.
  intro H. induction bs as [|b bs IH]; [reflexivity|]. cbn [filter use_of]. destruct (b_addr b =? k) eqn:E; cbn [negb use_of]; rewrite IH; [|reflexivity].
  destruct (b_addr b =? a) eqn:F; [lia|reflexivity].
Qed.
Lemma repr_total e : forall bs, repr e bs -> sume e = total bs.
Proof.
  induction e as [|[k q] e IH]; intros bs [H1 H2].
  - destruct bs as [|b bs]; [reflexivity|]. specialize (H2 (b_addr b)). cbn in H2. rewrite Z.eqb_refl in H2. discriminate.
  - cbn [sume fold_right snd]. fold (sume e). rewrite (total_split k bs). cbn [map fst] in H1. inversion H1 as [|? ? N1 N2]; subst.
    pose proof (H2 k) as Hk. cbn [eget] in Hk. rewrite Z.eqb_refl in Hk. destruct (has k bs) eqn:EH; [|discriminate]. injection Hk as ->.
    f_equal. apply IH. split; [exact N2|]. intro a. rewrite has_filter. specialize (H2 a). cbn [eget] in H2. destruct (k =? a) eqn:E.
    + assert (k = a) by lia. subst a. rewrite andb_false_r. now apply eget_none.
    + rewrite andb_true_r, H2. destruct (has a bs); [|reflexivity]. now rewrite use_filter by lia.
Qed.

(** ** Lists *)
Definition tot (l : list elem) : qinfo := fold_right (fun e a => qplus (sume e) a) qzero l.
Lemma tot_app x y : tot (x ++ y) = qplus (tot x) (tot y).
Proof. induction x as [|e x IH]; cbn [app tot fold_right]; [now rewrite qplus_0_l|]. fold (tot (x ++ y)) (tot x). rewrite IH. apply qplus_assoc. Qed.
Lemma lastn_all {A} n (l : list A) : (length l <= n)%nat -> lastn n l = l.
Proof. intro H. unfold lastn. replace (length l - n)%nat with 0%nat by lia. reflexivity. Qed.
Lemma lastn_app {A} n (x y : list A) : (length y <= n)%nat -> lastn n (x ++ y) = lastn (n - length y) x ++ y.
Proof.
  intro H. unfold lastn. rewrite app_length, skipn_app. replace (length x + length y - n)%nat with (length x - (n - length y))%nat by lia.
  f_equal. replace (length x - (n - length y) - length x)%nat with 0%nat by lia. reflexivity.
Qed.
Lemma lastn_app_ge {A} n (x y : list A) : (n <= length y)%nat -> lastn n (x ++ y) = lastn n y.
Proof.
  intro H. unfold lastn. rewrite app_length, skipn_app. replace (skipn _ x) with (@nil A).
  - cbn. f_equal. lia.
  - symmetry. apply skipn_all2. lia.
Qed.
Lemma lastn_S {A} n (l : list A) d : (n < length l)%nat -> lastn (S n) l = nth (length l - S n) l d :: lastn n l.
Proof.
  intro H. unfold lastn. replace (length l - n)%nat with (S (length l - S n)) by lia.
  assert (G : forall i (l : list A), (i < length l)%nat -> skipn i l = nth i l d :: skipn (S i) l).
  { clear. induction i as [|i IH]; intros [|x l] H; cbn in *; try lia; [reflexivity|]. apply IH. lia. }
  apply G. lia.
Qed.
Lemma lastn_tl {A} n (l : list A) : (n < length l)%nat -> lastn n (tl l) = lastn n l.
Proof. destruct l as [|x l]; [reflexivity|]. intro H. cbn [tl]. change (x :: l) with ([x] ++ l). symmetry. apply lastn_app_ge. cbn in H. lia. Qed.
Lemma lastn_length {A} n (l : list A) : length (lastn n l) = Nat.min n (length l).
Proof. unfold lastn. rewrite skipn_length. lia. Qed.
Lemma fold_window l : forall acc, fold_left (fun acc e => fold_left (fun acc kv => qplus acc (snd kv)) e acc) l acc = qplus acc (tot l).
Proof. induction l as [|e l IH]; intro acc; cbn [fold_left tot fold_right]; [now rewrite qplus_0_r|]. fold (tot l). rewrite fold_plus, IH. now rewrite qplus_assoc. Qed.

(** the window of the list is the last 75 elements, and the global sum is that of the window plus [x] *)
Definition well (s : qlist) (x : qinfo) : Prop :=
  ql_list s <> [] /\ ql_start s = PAt (Nat.min 75 (length (ql_list s))) /\ ql_global s = qplus (tot (lastn 75 (ql_list s))) x.
Lemma min_skip {A} n (l : list A) : skipn (length l - Nat.min n (length l)) l = lastn n l.
Proof. unfold lastn. f_equal. lia. Qed.
Lemma well_window s x : well s x -> window s = lastn 75 (ql_list s).
Proof. intros (_ & H & _). unfold window. rewrite H. apply min_skip. Qed.
Definition capped (l : list elem) : list elem := if (600 <? length l)%nat then tl l else l.
Lemma move_next_well s x e : well s x -> (length (ql_list s) <= 600)%nat ->
  ql_list (move_next s e) = capped (ql_list s ++ [e]) /\ ql_start (move_next s e) = PAt (Nat.min 75 (length (capped (ql_list s ++ [e])))) /\
  ql_global (move_next s e) = qplus (qminus (tot (lastn 75 (capped (ql_list s ++ [e])))) (sume e)) x.
Proof.
  intros (H1 & H2 & H3) HL. unfold move_next. rewrite H2. cbv zeta.
  assert (EL : length (ql_list s ++ [e]) = S (length (ql_list s))) by (rewrite app_length; cbn; lia). rewrite EL.
  unfold used_height, list_max, capped. rewrite EL.
  assert (L0 : (1 <= length (ql_list s))%nat) by (destruct (ql_list s); [congruence|cbn; lia]).
  destruct (S (length (ql_list s)) <=? 75)%nat eqn:E.
  - apply Nat.leb_le in E. replace (600 <? S (length (ql_list s)))%nat with false by (symmetry; apply Nat.ltb_ge; lia).
    cbn [ql_list ql_start ql_global]. split; [reflexivity|]. split; [f_equal; lia|]. rewrite H3, !lastn_all by lia. rewrite tot_app.
    cbn [tot fold_right]. generalize (tot (ql_list s)), (sume e). intros. qsolve.
  - apply Nat.leb_gt in E. replace (Nat.min 75 (length (ql_list s))) with 75%nat by lia. cbn [start_value]. rewrite EL.
    assert (SV : tot (lastn 75 (ql_list s ++ [e])) = qminus (qplus (tot (lastn 75 (ql_list s))) (sume e)) (sume (nth (S (length (ql_list s)) - 76) (ql_list s ++ [e]) []))).
    { replace (S (length (ql_list s)) - 76)%nat with (length (ql_list s) - 75)%nat by lia. rewrite app_nth1 by lia.
      rewrite (lastn_S 74 (ql_list s) []) by lia. rewrite lastn_app by (cbn; lia). change (75 - length [e])%nat with 74%nat.
      rewrite tot_app. cbn [tot fold_right]. fold (tot (lastn 74 (ql_list s))). generalize (tot (lastn 74 (ql_list s))), (sume e), (sume (nth (length (ql_list s) - 75) (ql_list s) [])). intros. qsolve. }
    rewrite fold_minus, H3.
    destruct (600 <? S (length (ql_list s)))%nat eqn:E6; cbn [ql_list ql_start ql_global].
    + apply Nat.ltb_lt in E6. replace (75 =? S (length (ql_list s)))%nat with false by (symmetry; apply Nat.eqb_neq; lia).
      assert (LT : length (tl (ql_list s ++ [e])) = length (ql_list s)) by (destruct (ql_list s); [congruence|cbn; rewrite app_length; cbn; lia]).
      rewrite LT. rewrite lastn_tl by lia. split; [reflexivity|]. split; [f_equal; lia|]. rewrite SV.
      generalize (tot (lastn 75 (ql_list s))), (sume e), (sume (nth (S (length (ql_list s)) - 76) (ql_list s ++ [e]) [])). intros. qsolve.
    + rewrite EL. split; [reflexivity|]. split; [f_equal; lia|]. rewrite SV.
      generalize (tot (lastn 75 (ql_list s))), (sume e), (sume (nth (S (length (ql_list s)) - 76) (ql_list s ++ [e]) [])). intros. qsolve.
Qed.
Lemma finish_well s : ql_list s <> [] -> ql_list (finish s) = ql_list s /\ well (finish s) qzero.
Proof.
  intro H. unfold finish. destruct (ql_list s) as [|e l] eqn:E; [congruence|]. cbn [ql_list]. split; [reflexivity|].
  split; [discriminate|]. split; [reflexivity|]. cbn [ql_global ql_list]. rewrite fold_window, qplus_0_l, qplus_0_r.
  f_equal. unfold window. cbn [ql_start ql_list]. apply min_skip.
Qed.
