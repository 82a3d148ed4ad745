From Coq Require Import ZArith List Bool Lia Permutation Sorted.
From Verif Require Import Lib WireModel WireSpec WireProofs WireProofs2 WireProofs3.
From Verif Require ElectProofs TextProofs.
Import ListNotations.
Open Scope Z_scope.

Lemma zlen_be_bytes n x : zlen (be_bytes n x) = Z.of_nat n.
Proof. unfold zlen. rewrite be_bytes_length. reflexivity. Qed.

(** * Order and sorting *)
Lemma blt_irrefl a : blt a a = false.
Proof. induction a as [|x a IH]; cbn [blt]; [reflexivity|]. rewrite Z.ltb_irrefl, Z.eqb_refl. exact IH. Qed.
Lemma blt_asym a : forall b, blt a b = true -> blt b a = false.
Proof.
  induction a as [|x a IH]; intros [|y b] E; cbn [blt] in *; try reflexivity; try discriminate.
  destruct (Z.ltb_spec x y), (Z.ltb_spec y x), (Z.eqb_spec x y), (Z.eqb_spec y x); try lia; auto; discriminate.
Qed.
Lemma blt_total a : forall b, blt a b = false -> blt b a = false -> a = b.
Proof.
  induction a as [|x a IH]; intros [|y b] E F; cbn [blt] in *; try reflexivity; try discriminate.
  destruct (Z.ltb_spec x y), (Z.ltb_spec y x), (Z.eqb_spec x y), (Z.eqb_spec y x); try lia; try discriminate.
  subst. f_equal. auto.
Qed.
Lemma blt_neg_trans a : forall b c, blt a b = false -> blt b c = false -> blt a c = false.
Proof.
  induction a as [|x a IH]; intros [|y b] [|z c] E F; cbn [blt] in *; try reflexivity; try discriminate.
  destruct (Z.ltb_spec x y), (Z.ltb_spec y z), (Z.ltb_spec x z), (Z.eqb_spec x y), (Z.eqb_spec y z), (Z.eqb_spec x z); try lia; try discriminate; try reflexivity.
  subst. eauto.
Qed.
Lemma insert_perm {A} (before : A -> A -> bool) x l : Permutation (insert before x l) (x :: l).
Proof.
  induction l as [|y l IH]; cbn [insert]; [reflexivity|]. destruct (before x y); [reflexivity|].
  rewrite IH. apply perm_swap.
Qed.
Lemma sort_perm {A} (before : A -> A -> bool) l : Permutation (sort before l) l.
Proof. induction l as [|x l IH]; [reflexivity|]. cbn [sort fold_right]. fold (sort before l). rewrite insert_perm, IH. reflexivity. Qed.
Lemma insert_sorted {A} (before : A -> A -> bool) :
  (forall x y, before x y = true -> before y x = false) ->
  (forall x y z, before x y = false -> before y z = false -> before x z = false) ->
  forall x l, StronglySorted (fun x y => before y x = false) l -> StronglySorted (fun x y => before y x = false) (insert before x l).
Proof.
  intros AS NT x l S. induction S as [|y l S IH F]; cbn [insert]; [constructor; constructor|].
  destruct (before x y) eqn:E.
  - constructor; [constructor; assumption|]. constructor; [apply AS; assumption|].
    apply Forall_forall. intros z Z. pose proof (proj1 (Forall_forall _ _) F z Z) as G. cbv beta in G. eapply NT; [exact G|]. apply AS. exact E.
  - constructor; [exact IH|]. apply Forall_forall. intros z Z. apply (Permutation_in _ (insert_perm before x l)) in Z.
    destruct Z as [<- |Z]; [exact E|]. exact (proj1 (Forall_forall _ _) F z Z).
Qed.
Lemma sort_sorted {A} (before : A -> A -> bool) :
  (forall x y, before x y = true -> before y x = false) ->
  (forall x y z, before x y = false -> before y z = false -> before x z = false) ->
  forall l, StronglySorted (fun x y => before y x = false) (sort before l).
Proof. intros AS NT. induction l as [|x l IH]; [constructor|]. cbn [sort fold_right]. apply insert_sorted; assumption. Qed.

Definition down (x y : list Z * (list Z * Z)) : bool := blt (fst y) (fst x).
Lemma down_sorted l : StronglySorted (fun x y => down y x = false) (sort down l).
Proof. apply sort_sorted; unfold down; [intros x y; apply blt_asym|]. intros x y z E F. eapply blt_neg_trans; eassumption. Qed.
Lemma content_order_free a b : NoDup (map fst a) -> Permutation a b -> sort down a = sort down b.
Proof.
  intros N P. apply (ElectProofs.sorted_unique (fun x y => down y x = false)); [|apply down_sorted|apply down_sorted|].
  - intros x y X Y E F. apply (Permutation_in _ (sort_perm down a)) in X. apply (Permutation_in _ (sort_perm down a)) in Y.
    apply (ElectProofs.nodup_map_in fst a); auto. unfold down in E, F. apply blt_total; assumption.
  - rewrite !sort_perm. exact P.
Qed.
Lemma bytes_sort_free a b : Permutation a b -> sort blt a = sort blt b.
Proof.
  intros P. apply (ElectProofs.sorted_unique (fun x y => blt y x = false)).
  - intros x y _ _ E F. apply blt_total; assumption.
  - apply sort_sorted; [intros x y; apply blt_asym|]. intros x y z E F. eapply blt_neg_trans; eassumption.
  - apply sort_sorted; [intros x y; apply blt_asym|]. intros x y z E F. eapply blt_neg_trans; eassumption.
  - rewrite !sort_perm. exact P.
Qed.

(** * Content *)
Lemma first_exact {A} n (a b : list A) : length a = n -> firstn n (a ++ b) = a.
Proof. intros <-. rewrite firstn_app, Nat.sub_diag, firstn_all. apply app_nil_r. Qed.
Lemma rest_exact {A} n (a b : list A) : length a = n -> skipn n (a ++ b) = b.
Proof. intros <-. rewrite skipn_app, Nat.sub_diag, skipn_all. reflexivity. Qed.
Lemma item_len x : item_ok x -> zlen (item_bytes x) = 61.
Proof. intros [[A _] [[B _] C]]. unfold item_bytes. rewrite !zlen_app, A, B, zlen_be_bytes. reflexivity. Qed.
Lemma item_len_nat x : item_ok x -> length (item_bytes x) = 61%nat.
Proof. intros O. pose proof (item_len x O). unfold zlen in *. lia. Qed.
Lemma item_read x r : item_ok x ->
  firstn 21 (item_bytes x ++ r) = fst x /\ firstn 32 (skipn 21 (item_bytes x ++ r)) = fst (snd x) /\
  be_val (firstn 8 (skipn 53 (item_bytes x ++ r))) = snd (snd x) /\ skipn 61 (item_bytes x ++ r) = r.
Proof.
  intros O. pose proof (item_len_nat x O) as L. destruct O as [[A _] [[B _] C]]. destruct x as [k [h n]]. cbn [fst snd] in *.
  unfold item_bytes in *. cbn [fst snd] in *. unfold zlen in *.
  assert (LK : length k = 21%nat) by lia. assert (LH : length h = 32%nat) by lia. pose proof (be_bytes_length 8 n) as L8.
  split; [|split; [|split]].
  - rewrite <- app_assoc. apply first_exact. exact LK.
  - rewrite <- !app_assoc. rewrite (rest_exact 21) by exact LK. apply first_exact. exact LH.
  - replace ((k ++ h ++ be_bytes 8 n) ++ r) with ((k ++ h) ++ be_bytes 8 n ++ r) by (rewrite <- !app_assoc; reflexivity).
    rewrite (rest_exact 53) by (rewrite app_length; lia). rewrite first_exact by exact L8. apply be_val_bytes. exact C.
  - apply rest_exact. exact L.
Qed.
Lemma put_item_new k v sc : ~ In k (map fst sc) -> put_item k v sc = sc ++ [(k, v)].
Proof.
  induction sc as [|[k' v'] sc IH]; intros N; [reflexivity|]. cbn [put_item]. cbn [map fst] in N.
  destruct (zlist_eqb k k') eqn:E; [apply zlist_eqb_eq in E; subst; exfalso; apply N; left; reflexivity|].
  cbn [app]. f_equal. apply IH. intros C. apply N. right. exact C.
Qed.
Lemma read_items_ok l : forall fuel sc, Forall item_ok l -> NoDup (map fst (sc ++ l)) -> (length l <= fuel)%nat ->
  read_items fuel (concat (map item_bytes l)) sc = Some (sc ++ l).
Proof.
  induction l as [|x l IH]; intros fuel sc O N F.
  - cbn [map concat]. rewrite app_nil_r. destruct fuel; reflexivity.
  - inversion O as [|? ? O1 O2]; subst. cbn [map concat]. destruct fuel as [|fuel]; [cbn in F; lia|].
    destruct (item_read x (concat (map item_bytes l)) O1) as (R1 & R2 & R3 & R4).
    pose proof (item_len_nat x O1) as L. destruct (item_bytes x) as [|b r] eqn:E; [discriminate L|].
    cbn [read_items app]. change (b :: r ++ concat (map item_bytes l)) with ((b :: r) ++ concat (map item_bytes l)).
    rewrite <- E in *. rewrite R1, R2, R3, R4. destruct x as [k [h n]]. cbn [fst snd] in *.
    rewrite map_app in N. cbn [map fst] in N.
    rewrite put_item_new.
    + rewrite IH; [rewrite <- app_assoc; reflexivity|assumption| |cbn in F; lia]. rewrite <- app_assoc. cbn [app]. rewrite map_app. exact N.
    + apply NoDup_remove_2 in N. intros C. apply N. apply in_or_app. left. exact C.
Qed.
Lemma concat_len_items l : Forall item_ok l -> zlen (concat (map item_bytes l)) = 61 * zlen l.
Proof.
  induction 1 as [|x l O _ IH]; [reflexivity|]. cbn [map concat]. rewrite zlen_app, IH, (item_len x O), zlen_cons. lia.
Qed.
Lemma content_fix sc : content_ok sc -> NoDup (map fst (sort down sc)) /\ Forall item_ok (sort down sc).
Proof.
  intros [N F]. split.
  - eapply Permutation_NoDup; [|exact N]. apply Permutation_map. symmetry. apply sort_perm.
  - apply Forall_forall. intros x X. apply (proj1 (Forall_forall _ _) F). apply (Permutation_in _ (sort_perm down sc)). exact X.
Qed.
Lemma content_round_trip sc : content_ok sc -> parse_content (content_bytes sc) = Some (sort down sc).
Proof.
  intros O. destruct (content_fix sc O) as [N F]. unfold parse_content, content_bytes. fold down. rewrite concat_len_items by assumption.
  replace (61 * zlen (sort down sc) mod 61) with 0 by (rewrite Z.mul_comm, Z.mod_mul by lia; reflexivity). cbn [Z.eqb].
  rewrite read_items_ok; [reflexivity|assumption|exact N|].
  pose proof (concat_len_items _ F) as L. unfold zlen in L. lia.
Qed.
Lemma put_item_ok k v sc : content_ok sc -> item_ok (k, v) -> content_ok (put_item k v sc).
Proof.
  intros [N F] O. split.
  - assert (K : forall sc, map fst (put_item k v sc) = map fst sc \/ (map fst (put_item k v sc) = map fst sc ++ [k] /\ ~ In k (map fst sc))).
    { clear. induction sc as [|[k' v'] sc IH]; cbn [put_item]; [right; split; [reflexivity|tauto]|].
      destruct (zlist_eqb k k') eqn:E; [left; reflexivity|]. cbn [map fst app]. destruct IH as [->|[-> NI]]; [left; reflexivity|right].
      split; [reflexivity|]. intros [C|C]; [subst; rewrite zlist_eqb_refl in E; discriminate|auto]. }
    destruct (K sc) as [->|[-> NI]]; [assumption|]. apply NoDup_rev in N. rewrite <- (rev_involutive (map fst sc ++ [k])). apply NoDup_rev. rewrite rev_app_distr. cbn [rev app].
    constructor; [|assumption]. intros C. apply in_rev in C. contradiction.
  - clear N. induction F as [|[k' v'] sc O' F IH]; cbn [put_item]; [constructor; [assumption|constructor]|].
    destruct (zlist_eqb k k') eqn:E; [|constructor; assumption]. apply zlist_eqb_eq in E. subst k'. constructor; assumption.
Qed.

Lemma read_items_fine fuel : forall l sc sc', bytes_ok l -> zlen l mod 61 = 0 -> content_ok sc -> read_items fuel l sc = Some sc' -> content_ok sc'.
Proof.
  induction fuel as [|fuel IH]; intros l sc sc' B M O E; destruct l as [|b l]; cbn [read_items] in E;
    [apply some_inj' in E; subst; assumption|discriminate|apply some_inj' in E; subst; assumption|].
  set (m := b :: l) in *.
  assert (L : 61 <= zlen m) by (pose proof (zlen_nonneg l); assert (zlen m = 1 + zlen l) by apply zlen_cons; lia).
  apply IH in E; [assumption|apply bytes_skipn; assumption| |].
  - unfold zlen in *. rewrite skipn_length. replace (Z.of_nat (length m - 61)) with (Z.of_nat (length m) - 61) by lia. lia.
  - apply put_item_ok; [assumption|]. unfold zlen in L. split; [|split]; cbn [fst snd].
    + split; [unfold zlen; rewrite firstn_length; lia|apply bytes_firstn; assumption].
    + split; [unfold zlen; rewrite firstn_length, skipn_length; lia|apply bytes_firstn, bytes_skipn; assumption].
    + assert (BB : bytes_ok (firstn 8 (skipn 53 m))) by (apply bytes_firstn, bytes_skipn; assumption).
      pose proof (be_val_range _ BB) as R. unfold zlen in R. rewrite firstn_length, skipn_length in R.
      replace (Nat.min 8 (length m - 53)) with 8%nat in R by lia. exact R.
Qed.
Lemma parse_content_ok l sc : bytes_ok l -> parse_content l = Some sc -> content_ok sc.
Proof.
  unfold parse_content. intros B E. destruct (Z.eqb_spec (zlen l mod 61) 0) as [M|M]; [|discriminate].
  eapply read_items_fine; [exact B|exact M| |exact E]. split; constructor.
Qed.

(** * Snapshot blocks *)
Definition snap_fields (s : snap) : fields :=
  fbytes 1 (s_hash s) ++ fbytes 2 (s_prev s) ++ fvar 3 (s_height s) ++ fbytes 4 (s_key s)
  ++ fbytes 5 (s_sig s) ++ fvar 6 (wrap64 (s_time s)) ++ fvar 7 (s_seed s)
  ++ fbytes 8 (obytes (s_seedhash s)) ++ fbytes 9 (content_bytes (s_content s)) ++ fvar 10 (s_version s) ++ [].
Lemma snap_enc s : snap_serialize s = enc (snap_fields s).
Proof. unfold snap_serialize, snap_fields. rewrite app_nil_r, !put_var_enc, !put_bytes_enc, <- !enc_app. reflexivity. Qed.
Lemma snap_shape s : snap_ok s -> Forall shape_ok (snap_fields s).
Proof.
  intros [A B HT C D T S SH CO V]. unfold snap_fields. rewrite app_nil_r.
  assert (0 <= s_version s < 2 ^ 64) by lia. assert (0 <= wrap64 (s_time s) < 2 ^ 64) by (unfold wrap64, two64; apply Z.mod_pos_bound; lia). shapes.
Qed.
Lemma snap_reads s :
  get_bytes 1 [] (snap_fields s) = s_hash s /\ get_bytes 2 [] (snap_fields s) = s_prev s /\ get_var 3 0 (snap_fields s) = s_height s /\
  get_bytes 4 [] (snap_fields s) = s_key s /\ get_bytes 5 [] (snap_fields s) = s_sig s /\ get_var 6 0 (snap_fields s) = wrap64 (s_time s) /\
  get_var 7 0 (snap_fields s) = s_seed s /\ get_bytes 8 [] (snap_fields s) = obytes (s_seedhash s) /\
  get_bytes 9 [] (snap_fields s) = content_bytes (s_content s) /\ get_var 10 0 (snap_fields s) = s_version s.
Proof. unfold snap_fields. repeat match goal with |- _ /\ _ => split end; reading. Qed.
Lemma content_bytes_nil sc : content_ok sc -> content_bytes sc = [] -> sc = [].
Proof.
  intros O E. destruct (content_fix sc O) as [_ F]. pose proof (concat_len_items _ F) as L. unfold content_bytes in E. fold down in E. rewrite E in L.
  rewrite zlen_nil in L. assert (Z0 : zlen (sort down sc) = 0) by lia. pose proof (sort_perm down sc) as P.
  destruct (sort down sc) as [|x r]; [apply Permutation_nil in P; exact P|]. rewrite zlen_cons in Z0. pose proof (zlen_nonneg r). lia.
Qed.
Lemma snap_round s : snap_ok s -> zlen (snap_serialize s) < 2 ^ 64 ->
  exists s', snap_deserialize (snap_serialize s) = Some s' /\ same_snap s' s.
Proof.
  intros O L. rewrite snap_enc in *. unfold snap_deserialize.
  rewrite parse_enc by (apply fields_ok_from_len; [apply snap_shape; assumption|assumption]).
  destruct (snap_reads s) as (R1 & R2 & R3 & R4 & R5 & R6 & R7 & R8 & R9 & R10). rewrite R1, R2, R3, R4, R5, R6, R7, R8, R9, R10.
  clear R1 R2 R3 R4 R5 R6 R7 R8 R9 R10. destruct O as [[A _] [B _] HT C D T S SH CO V].
  rewrite !exact_sized by assumption.
  assert (E8 : match obytes (s_seedhash s) with [] => Some None | b => match exact 32 b with Some x => Some (Some x) | None => None end end = Some (s_seedhash s)).
  { destruct (s_seedhash s) as [x|]; [|reflexivity]. destruct (SH x eq_refl) as [LX _]. cbn [obytes].
    destruct x as [|c x]; [discriminate LX|]. rewrite exact_sized by assumption. reflexivity. }
  rewrite E8. clear E8.
  assert (E9 : match content_bytes (s_content s) with [] => Some [] | b => parse_content b end = Some (sort down (s_content s))).
  { destruct (content_bytes (s_content s)) as [|c r] eqn:E; [apply content_bytes_nil in E; [|assumption]; rewrite E; reflexivity|].
    rewrite <- E. apply content_round_trip. assumption. }
  rewrite E9. eexists. split; [reflexivity|]. unfold same_snap. cbn [s_hash s_prev s_height s_key s_sig s_time s_seed s_seedhash s_version s_content].
  assert (TT : int64 (wrap64 (s_time s)) = s_time s) by (unfold int64, wrap64, two64; lia). rewrite TT.
  rewrite Z.mod_small by lia. repeat split; try reflexivity. apply sort_perm.
Qed.
Lemma snap_accepted l s : bytes_ok l -> snap_deserialize l = Some s -> snap_ok s.
Proof.
  unfold snap_deserialize. intros B E. destruct (parse l) as [fs|] eqn:P; [|discriminate]. apply parse_ok in P; [|assumption].
  assert (BV : forall n, 0 <= get_var n 0 fs < 2 ^ 64) by (intros n; apply get_var_ok; [assumption|lia]).
  assert (BB : forall n, bytes_ok (get_bytes n [] fs)) by (intros n; apply get_bytes_ok; [assumption|constructor]).
  destruct (exact 32 (get_bytes 1 [] fs)) as [h|] eqn:H1; [|discriminate]. apply exact_some in H1. destruct H1 as [-> H1].
  destruct (exact 32 (get_bytes 2 [] fs)) as [h|] eqn:H2; [|discriminate]. apply exact_some in H2. destruct H2 as [-> H2].
  assert (exists sh, match get_bytes 8 [] fs with [] => Some None | l => match exact 32 l with Some x => Some (Some x) | None => None end end = Some sh /\
     (forall x, sh = Some x -> sized 32 x)) as (sh & LG & S8).
  { pose proof (BB 8) as B15. destruct (get_bytes 8 [] fs) as [|c r]; [exists None; split; [reflexivity|discriminate]|].
    destruct (exact 32 (c :: r)) as [x|] eqn:X; [|discriminate]. apply exact_some in X. destruct X as [-> X].
    eexists. split; [reflexivity|]. intros x Q. apply some_inj' in Q. subst x. split; auto. }
  rewrite LG in E. clear LG.
  assert (exists sc, match get_bytes 9 [] fs with [] => Some [] | b => parse_content b end = Some sc /\ content_ok sc) as (sc & C1 & C2).
  { pose proof (BB 9) as B9. destruct (get_bytes 9 [] fs) as [|c r]; [exists []; split; [reflexivity|split; constructor]|].
    destruct (parse_content (c :: r)) as [sc|] eqn:PC; [|discriminate]. exists sc. split; [reflexivity|]. eapply parse_content_ok; eassumption. }
  rewrite C1 in E. apply some_inj' in E. subst s.
  constructor; cbn [s_hash s_prev s_height s_key s_sig s_time s_seed s_seedhash s_version s_content]; auto.
  - split; auto.
  - split; auto.
  - unfold int64. pose proof (Z.mod_pos_bound (get_var 6 0 fs + 2 ^ 63) (2 ^ 64)). lia.
  - apply Z.mod_pos_bound. lia.
Qed.

(** * The other records *)
Lemma meta_round m : meta_ok m -> meta_deserialize (meta_serialize m) = Some m.
Proof.
  intros ([G _] & C & [K _] & R & S). destruct m as [g c k r s]. unfold meta_serialize, meta_deserialize. cbn [c_gid c_confirm c_create c_ratio c_seedconf] in *.
  unfold zlen in *. assert (LG : length g = 10%nat) by lia. assert (LK : length k = 32%nat) by lia.
  rewrite !app_length, LG, LK. cbn [length Nat.add]. change (Z.of_nat 45 <? 44) with false. change (Z.of_nat 45 <=? 44) with false. cbv iota.
  do 11 (destruct g as [|? g]; [try discriminate LG|]); [|discriminate LG].
  do 33 (destruct k as [|? k]; [try discriminate LK|]); [|discriminate LK]. reflexivity.
Qed.
Lemma hh_round h n : sized 32 h -> 0 <= n < 2 ^ 64 -> hh_deserialize (hh_serialize (h, n)) = Some (h, n).
Proof.
  intros [L B] N. unfold hh_serialize, hh_deserialize. cbn [fst snd]. rewrite put_bytes_enc, put_var_enc, <- enc_app.
  rewrite <- (app_nil_r (fvar 2 n)).
  rewrite parse_enc by (rewrite app_nil_r; apply Forall_app; split; [apply fbytes_ok; lia|apply fvar_ok; lia]).
  rewrite bytes_hit, bytes_var, var_bytes, var_hit, zero_or. cbn [get_bytes get_var]. rewrite exact_sized by assumption. reflexivity.
Qed.
Lemma log_round x : log_ok x -> zlen (log_bytes x) < 2 ^ 64 -> parse_log (log_bytes x) = Some x.
Proof.
  intros [T D] L. unfold parse_log.
  assert (E : log_bytes x = enc (fmsgs 1 (fst x) ++ fbytes 2 (snd x) ++ [])) by (unfold log_bytes; rewrite app_nil_r, put_msgs_enc, put_bytes_enc, <- enc_app; reflexivity).
  rewrite E in *. rewrite parse_enc.
  - rewrite get_all_app, get_all_fmsgs, get_all_app, get_all_fbytes by reflexivity. cbn [get_all app]. rewrite app_nil_r.
    rewrite bytes_msgs by reflexivity. rewrite bytes_hit. cbn [get_bytes]. destruct x as [ts d]. cbn [fst snd] in *. do 2 f_equal.
    clear E L. induction T as [|t ts [S _] T IH]; [reflexivity|]. cbn [map]. rewrite exact_sized, IH by assumption. reflexivity.
  - apply fields_ok_from_len; [|assumption]. rewrite app_nil_r. apply Forall_app. split; [apply fmsgs_shape; lia|apply fbytes_shape; lia].
Qed.
Lemma logs_round l : Forall log_ok l -> zlen (logs_serialize l) < 2 ^ 64 -> logs_deserialize (logs_serialize l) = Some l.
Proof.
  intros O L. unfold logs_deserialize.
  assert (E : logs_serialize l = enc (fmsgs 1 (map log_bytes l))) by (unfold logs_serialize; rewrite <- put_msgs_enc, map_map; reflexivity).
  rewrite E in *. rewrite parse_enc by (apply fields_ok_from_len; [apply fmsgs_shape; lia|assumption]). rewrite get_all_fmsgs.
  assert (LX : Forall (fun x => zlen (log_bytes x) < 2 ^ 64) l).
  { apply Forall_forall. intros x X. assert (I : In (1, PBytes (log_bytes x)) (fmsgs 1 (map log_bytes l))) by (unfold fmsgs; apply in_map_iff; exists (log_bytes x); split; [reflexivity|apply in_map; exact X]).
    pose proof (in_enc_len _ _ _ I). lia. }
  clear E L. induction O as [|x l O1 O IH]; [reflexivity|]. inversion LX; subst. cbn [map all_some]. rewrite log_round by assumption. rewrite IH by assumption. reflexivity.
Qed.
