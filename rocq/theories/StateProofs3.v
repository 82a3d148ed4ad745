(** The redo log: what it holds and how it is split. *)
Require Import Coq.Lists.List Coq.ZArith.ZArith Coq.Bool.Bool Coq.micromega.Lia Coq.Sorting.Permutation.
Require Import Verif.Lib Verif.StateModel Verif.StateSpec Verif.StateProofs Verif.StateProofs2.
Import ListNotations.
Local Open Scope Z_scope.

Lemma zget_filter {V} (q : Z -> bool) (m : list (Z * V)) k : zget (filter (fun p => q (fst p)) m) k = if q k then zget m k else None.
Proof.
  induction m as [|[x v] r IH]; [now destruct (q k)|]. cbn [filter fst zget]. destruct (q x) eqn:Q; cbn [zget].
  - rewrite IH. destruct (Z.eqb_spec x k) as [->|]; [now rewrite Q|reflexivity].
  - rewrite IH. destruct (Z.eqb_spec x k) as [->|]; [now rewrite Q|reflexivity].
Qed.
Lemma set_current_get c h l : exists cut, cut < h /\ forall x, zget (set_current c h l) x = if x =? h then Some l else if x <=? cut then None else zget c x.
Proof.
  unfold set_current. destruct ((12 <? zlen (zset c h l)) && (12 <? h)).
  - exists (h - 12). split; [lia|]. intro x. rewrite (zget_filter (fun x => h - 12 <? x)). rewrite zget_zset, (Z.eqb_sym h x).
    destruct (Z.eqb_spec x h) as [->|]; [destruct (Z.ltb_spec (h - 12) h); [reflexivity|lia]|]. destruct (Z.ltb_spec (h - 12) x), (Z.leb_spec x (h - 12)); try reflexivity; lia.
  - destruct (Z.lt_ge_cases h 1).
    + (* nothing is dropped *)
      assert (L : exists low, low < h /\ forall x, zget c x <> None -> low < x).
      { exists (Z.min (h - 1) (fold_right Z.min 0 (map fst c) - 1)). split; [lia|]. intros x N.
        assert (X : fold_right Z.min 0 (map fst c) <= x); [|lia].
        destruct (zget c x) as [v|] eqn:E; [|congruence]. apply zget_in in E. apply (in_map fst) in E. cbn in E. induction (map fst c) as [|y r IH]; [destruct E|].
        cbn. destruct E as [->|E]; [lia|]. specialize (IH E). lia. }
      destruct L as (low & L1 & L2). exists low. split; [assumption|]. intro x. rewrite zget_zset, (Z.eqb_sym h x). destruct (x =? h); [reflexivity|].
      destruct (Z.leb_spec x low); [|reflexivity]. destruct (zget c x) eqn:E; [|reflexivity]. pose proof (L2 x ltac:(congruence)). lia.
    + assert (L : exists low, low < h /\ forall x, zget c x <> None -> low < x).
      { exists (Z.min (h - 1) (fold_right Z.min 0 (map fst c) - 1)). split; [lia|]. intros x N.
        assert (X : fold_right Z.min 0 (map fst c) <= x); [|lia].
        destruct (zget c x) as [v|] eqn:E; [|congruence]. apply zget_in in E. apply (in_map fst) in E. cbn in E. induction (map fst c) as [|y r IH]; [destruct E|].
        cbn. destruct E as [->|E]; [lia|]. specialize (IH E). lia. }
      destruct L as (low & L1 & L2). exists low. split; [assumption|]. intro x. rewrite zget_zset, (Z.eqb_sym h x). destruct (x =? h); [reflexivity|].
      destruct (Z.leb_spec x low); [|reflexivity]. destruct (zget c x) eqn:E; [|reflexivity]. pose proof (L2 x ltac:(congruence)). lia.
Qed.
Lemma zget_fold_del {V} hs : forall (c : list (Z * V)) x, zget (fold_left zdel hs c) x = if existsb (Z.eqb x) hs then None else zget c x.
Proof.
  induction hs as [|h r IH]; intros c x; [reflexivity|]. cbn [fold_left existsb]. rewrite IH, zget_zdel, (Z.eqb_sym h x).
  destruct (x =? h); cbn; [now destruct (existsb (Z.eqb x) r)|reflexivity].
Qed.

Section Redo.
Context (logs_kept : Z -> bool).
Notation items := (map (item_of logs_kept)).
Definition logs_ok (l : slog) (bs : list ablock) : Prop :=
  NoDup (map fst l) /\ forall a, log_of l a = items (filter (from a) bs).
Lemma logs_nil : logs_ok [] []. Proof. split; [constructor|reflexivity]. Qed.
Lemma logs_same l bs bs' : same bs bs' -> logs_ok l bs -> logs_ok l bs'.
Proof. intros S [N L]. split; [assumption|]. intro a. now rewrite L, (S a). Qed.
Lemma logs_in l bs a is : logs_ok l bs -> In (a, is) l -> is = items (filter (from a) bs).
Proof. intros [N L] I. rewrite <- L. unfold log_of. now rewrite (zget_nodup l a is N I). Qed.
Lemma logs_has l bs a : logs_ok l bs -> filter (from a) bs <> [] -> In (a, items (filter (from a) bs)) l.
Proof.
  intros [N L] X. specialize (L a). unfold log_of in L. destruct (zget l a) as [is|] eqn:E; [subst; now apply zget_in|]. destruct (filter (from a) bs); [congruence|discriminate].
Qed.
Lemma item_height b : it_height (item_of logs_kept b) = ab_height b. Proof. reflexivity. Qed.

(** confirmed_part keeps what lies at or below the height. *)
Lemma drop_above_all h l r : (forall i, In i l -> h < it_height i) -> drop_above h (l ++ r) = drop_above h r.
Proof.
  induction l as [|i l IH]; [reflexivity|]. intro A. cbn [app drop_above]. pose proof (A i ltac:(now left)). destruct (Z.leb_spec (it_height i) h); [lia|]. apply IH. intros; apply A; now right.
Qed.
Lemma confirmed_exact h l x r : it_height x <= h -> (forall i, In i r -> h < it_height i) -> confirmed_part h ((l ++ [x]) ++ r) = l ++ [x].
Proof.
  intros X A. unfold confirmed_part. rewrite rev_app_distr, drop_above_all; [|intros i I; apply A; now apply in_rev].
  rewrite rev_app_distr. cbn [rev app drop_above]. destruct (Z.leb_spec (it_height x) h); [|lia]. cbn [rev]. now rewrite rev_involutive.
Qed.
(** Heights in a list of blocks of one account rise by one. *)
Lemma heights_rise l m a i j x y : wf_live l -> (exists p q, filter (from a) l = p ++ m ++ q) ->
  nth_error m i = Some x -> nth_error m j = Some y -> ab_height y - ab_height x = Z.of_nat j - Z.of_nat i.
Proof.
  intros W (p & q & E) X Y.
  assert (G : forall k z, nth_error m k = Some z -> ab_height z = Z.of_nat (length p + k) + 1).
  { intros k z Hz. apply (wl_height l W a). rewrite E, nth_error_app2, Nat.add_comm, Nat.add_sub by lia. rewrite nth_error_app1; [assumption|]. apply nth_error_Some. congruence. }
  rewrite (G _ _ X), (G _ _ Y). lia.
Qed.


Lemma items_app l m : items (l ++ m) = items l ++ items m. Proof. apply map_app. Qed.
Lemma filter_rev {A} (f : A -> bool) l : filter f (rev l) = rev (filter f l).
Proof. induction l as [|x r IH]; [reflexivity|]. cbn [rev filter]. rewrite filter_app, IH. cbn [filter]. destruct (f x); [reflexivity|apply app_nil_r]. Qed.
Lemma filter_nil_addr a (l : list ablock) : filter (from a) l = [] <-> ~ In a (map ab_addr l).
Proof.
  split.
  - intros E I. apply in_map_iff in I. destruct I as (b & <- & I). apply in_from in I. rewrite E in I. destruct I.
  - intro N. destruct (filter (from a) l) as [|b r] eqn:E; [reflexivity|]. exfalso. assert (I : In b (filter (from a) l)) by (rewrite E; now left).
    apply filter_In in I. destruct I as [I F]. apply N. apply in_map_iff. exists b. split; [now apply Z.eqb_eq|assumption].
Qed.
Lemma above_rise pre unc a p x q y : wf_live (pre ++ unc) -> filter (from a) unc = p ++ x :: q -> In y q -> ab_height x < ab_height y.
Proof.
  intros W E I. apply In_nth_error in I. destruct I as [j J].
  assert (H : ab_height y - ab_height x = Z.of_nat (S j) - Z.of_nat 0); [|lia].
  apply (heights_rise (pre ++ unc) (x :: q) a); [assumption| |reflexivity|exact J].
  exists (filter (from a) pre ++ p), []. rewrite filter_app, E, app_nil_r, <- app_assoc. reflexivity.
Qed.
Lemma below_rise pre unc a p x q y : wf_live (pre ++ unc) -> filter (from a) unc = p ++ x :: q -> In y p -> ab_height y < ab_height x.
Proof.
  intros W E I. destruct (in_split _ _ I) as (p1 & p2 & ->). apply (above_rise pre unc a p1 y (p2 ++ x :: q)); [assumption| |apply in_or_app; right; now left].
  rewrite E, <- app_assoc. reflexivity.
Qed.
Lemma skipn_len {A} (l m : list A) : skipn (length l) (l ++ m) = m.
Proof. induction l; [reflexivity|assumption]. Qed.
Lemma in_addr_from a (l : list ablock) : In a (map ab_addr l) -> exists b r, filter (from a) l = b :: r.
Proof. intro I. destruct (filter (from a) l) as [|b r] eqn:E; [|eauto]. apply filter_nil_addr in E. contradiction. Qed.

(** * InsertSnapshotBlock *)
Lemma split_ok pre unc conf rest : wf_live (pre ++ unc) -> splits unc conf rest ->
  forall next, logs_ok next unc ->
  exists cur next', split_log (rev conf) [] next = Some (cur, next') /\ logs_ok cur conf /\ logs_ok next' rest.
Proof.
  intros W S next0 L0.
  assert (G : forall todo done cur next, rev conf = done ++ todo -> NoDup (map fst cur) -> NoDup (map fst next) ->
    (forall a, In a (map ab_addr done) -> zget cur a <> None /\ log_of cur a = items (filter (from a) conf) /\ log_of next a = items (filter (from a) rest)) ->
    (forall a, ~ In a (map ab_addr done) -> zget cur a = None /\ log_of next a = items (filter (from a) unc)) ->
    exists cur' next', split_log todo cur next = Some (cur', next') /\ logs_ok cur' conf /\ logs_ok next' rest).
  { induction todo as [|b r IH]; intros done cur next E N1 N2 A1 A2.
    - exists cur, next. split; [reflexivity|]. rewrite app_nil_r in E.
      assert (P : forall a, log_of cur a = items (filter (from a) conf) /\ log_of next a = items (filter (from a) rest)).
      { intro a. destruct (in_dec Z.eq_dec a (map ab_addr done)) as [I|I]; [apply A1 in I; tauto|]. destruct (A2 a I) as [C1 C2].
        assert (X : filter (from a) conf = []).
        { apply filter_nil_addr. intro J. apply I. rewrite <- E, map_rev. now apply -> in_rev. }
        rewrite C2, (S a), X. split; [|reflexivity]. unfold log_of. now rewrite C1. }
      split; (split; [assumption|intro a; apply P]).
    - cbn [split_log]. destruct (in_dec Z.eq_dec (ab_addr b) (map ab_addr done)) as [I|I].
      + destruct (zget cur (ab_addr b)) eqn:Z; [|apply A1 in I; tauto].
        apply (IH (done ++ [b])); auto.
        * rewrite E, <- app_assoc. reflexivity.
        * intros a J. apply A1. rewrite map_app in J. apply in_app_or in J. destruct J as [J|[<-|[]]]; assumption.
        * intros a J. apply A2. intro K. apply J. rewrite map_app. apply in_or_app. now left.
      + destruct (A2 _ I) as [C1 C2]. rewrite C1.
        set (a := ab_addr b) in *.
        assert (F : filter (from a) conf = rev (filter (from a) r) ++ [b]).
        { rewrite <- (rev_involutive conf), E, rev_app_distr, filter_app. cbn [rev]. rewrite filter_app. cbn [filter]. unfold a at 2. rewrite from_self. rewrite !filter_rev.
          rewrite (proj2 (filter_nil_addr a done) I). cbn [rev]. now rewrite app_nil_r. }
        assert (U : items (filter (from a) unc) = (items (rev (filter (from a) r)) ++ [item_of logs_kept b]) ++ items (filter (from a) rest)).
        { rewrite (S a), items_app, F, items_app. reflexivity. }
        assert (UB : filter (from a) unc = rev (filter (from a) r) ++ b :: filter (from a) rest) by (rewrite (S a), F, <- app_assoc; reflexivity).
        destruct (zget next a) as [l|] eqn:Z.
        2:{ exfalso. unfold log_of in C2. rewrite Z, U in C2. destruct (items (rev (filter (from a) r))); discriminate. }
        assert (L : l = items (filter (from a) unc)) by (unfold log_of in C2; now rewrite Z in C2).
        assert (P : confirmed_part (ab_height b) l = items (filter (from a) conf)).
        { rewrite L, U, confirmed_exact; [rewrite F, items_app; reflexivity|cbn; lia|].
          intros i J. apply in_map_iff in J. destruct J as (y & <- & J). cbn. apply (above_rise pre unc a (rev (filter (from a) r)) b (filter (from a) rest)); assumption. }
        rewrite P. destruct (items (filter (from a) conf)) as [|i0 p0] eqn:Q; [rewrite F, items_app in Q; destruct (items (rev (filter (from a) r))); discriminate|].
        rewrite <- Q.
        set (next' := if (length l <=? length (items (filter (from a) conf)))%nat then zdel next a else zset next a (skipn (length (items (filter (from a) conf))) l)).
        assert (LN : forall x, log_of next' x = if a =? x then items (filter (from a) rest) else log_of next x).
        { intro x. unfold next'. rewrite L, (S a), items_app, app_length, skipn_len. destruct (Nat.leb_spec (length (items (filter (from a) conf)) + length (items (filter (from a) rest))) (length (items (filter (from a) conf)))) as [B|B].
          - rewrite log_of_zdel. destruct (a =? x); [|reflexivity]. destruct (items (filter (from a) rest)); [reflexivity|cbn in B; lia].
          - apply log_of_zset. }
        apply (IH (done ++ [b])).
        * rewrite E, <- app_assoc. reflexivity.
        * now apply zset_nodup.
        * unfold next'. destruct (_ <=? _)%nat; [now apply zdel_nodup|now apply zset_nodup].
        * intros x J. rewrite zget_zset, log_of_zset, LN. destruct (Z.eqb_spec a x) as [<-|NE]; [split; [discriminate|now split]|].
          apply A1. rewrite map_app in J. apply in_app_or in J. destruct J as [J|[<-|[]]]; [assumption|now destruct NE].
        * intros x J. rewrite zget_zset, LN. rewrite map_app in J. destruct (Z.eqb_spec a x) as [<-|NE]; [exfalso; apply J; apply in_or_app; right; now left|].
          apply A2. intro K. apply J. apply in_or_app. now left. }
  apply (G (rev conf) [] [] next0); [reflexivity|constructor|apply L0|intros a []|]. intros a _. split; [reflexivity|apply L0].
Qed.
(** * RollbackAccountBlocks *)
Lemma delete_log_ok pre unc bs rest next b a : wf_live (pre ++ unc) -> splits unc rest bs -> NoDup (map fst next) ->
  log_of next a = items (filter (from a) unc) -> (exists r, filter (from a) bs = b :: r) ->
  exists next', delete_redo_log next a (ab_height b) = (items (filter (from a) bs), next') /\ NoDup (map fst next') /\
    (forall x, log_of next' x = if a =? x then items (filter (from a) rest) else log_of next x).
Proof.
  intros W S N L [r F]. unfold delete_redo_log, log_of in *.
  assert (U : filter (from a) unc = filter (from a) rest ++ b :: r) by (now rewrite (S a), F).
  rewrite U, items_app in L. cbn [map] in L.
  destruct (zget next a) as [is|] eqn:Z; [|destruct (items (filter (from a) rest)); discriminate].
  subst is. destruct (list_eq_dec Z.eq_dec (map it_height (items (filter (from a) rest))) []) as [E|E].
  - (* everything of the account goes *)
    destruct (filter (from a) rest) as [|x y] eqn:R; [|discriminate]. cbn [map app]. cbn [item_of it_height]. rewrite Z.leb_refl. rewrite F. cbn [map].
    exists (zdel next a). split; [reflexivity|]. split; [now apply zdel_nodup|]. intro x. rewrite zget_zdel. destruct (a =? x); reflexivity.
  - destruct (@exists_last _ (filter (from a) rest)) as (m & x & R); [intro X; rewrite X in E; now apply E|].
    assert (HB : forall y, In y (filter (from a) rest) -> ab_height y < ab_height b).
    { intros y I. apply (below_rise pre unc a (filter (from a) rest) b r); assumption. }
    assert (HA : forall y, In y (b :: r) -> ab_height b <= ab_height y).
    { intros y [->|I]; [lia|]. pose proof (above_rise pre unc a (filter (from a) rest) b r y W U I). lia. }
    destruct (items (filter (from a) rest) ++ item_of logs_kept b :: items r) as [|i0 q0] eqn:Q; [destruct (items (filter (from a) rest)); discriminate|].
    assert (I0 : it_height i0 < ab_height b).
    { destruct (filter (from a) rest) as [|y l] eqn:Y; [destruct m; discriminate|]. cbn [map app] in Q. injection Q as <- _. cbn. apply HB. now left. }
    destruct (Z.leb_spec (ab_height b) (it_height i0)); [lia|].
    assert (LA : In (last (i0 :: q0) i0) (items (b :: r))).
    { rewrite <- Q. clear. assert (G : forall (l m : list item) d, m <> [] -> In (last (l ++ m) d) m).
      { induction l as [|z l IH]; intros m d M.
        - cbn. destruct (exists_last M) as (m' & y & ->). rewrite last_last. apply in_or_app. right. now left.
        - cbn [app]. destruct (l ++ m) eqn:X; [destruct l; [now subst|discriminate]|]. rewrite <- X.
          change (last (z :: l ++ m) d) with (match l ++ m with [] => z | _ => last (l ++ m) d end). rewrite X, <- X. now apply IH. }
      apply G. discriminate. }
    apply in_map_iff in LA. destruct LA as (y & LY & IY). pose proof (HA y IY) as HY. rewrite <- LY. cbn [item_of it_height].
    destruct (Z.ltb_spec (ab_height y) (ab_height b)); [lia|].
    assert (K : confirmed_part (ab_height b - 1) (i0 :: q0) = items (filter (from a) rest)).
    { rewrite <- Q, R, items_app. cbn [map]. change (item_of logs_kept b :: items r) with (items (b :: r)). apply confirmed_exact.
      - cbn. assert (ab_height x < ab_height b); [|lia]. apply HB. rewrite R. apply in_or_app. right. now left.
      - intros i J. apply in_map_iff in J. destruct J as (z & <- & J). cbn. pose proof (HA z J). lia. }
    rewrite K. rewrite <- Q, skipn_len, F. cbn [map].
    eexists. split; [reflexivity|]. split.
    + destruct (items (filter (from a) rest)); [now apply zdel_nodup|now apply zset_nodup].
    + intro z. destruct (items (filter (from a) rest)) eqn:V; [rewrite zget_zdel; now destruct (a =? z)|]. rewrite zget_zset. now destruct (a =? z).
Qed.
Lemma take_ok pre unc rest bs : wf_live (pre ++ unc) -> splits unc rest bs ->
  forall next, logs_ok next unc ->
  exists next' taken, take_logs bs next [] = (next', taken) /\ logs_ok next' rest /\ logs_ok taken bs /\ (forall a, In a (map fst taken) <-> In a (map ab_addr bs)).
Proof.
  intros W S next0 L0.
  assert (G : forall todo done taken next, bs = done ++ todo -> NoDup (map fst taken) -> NoDup (map fst next) ->
    (forall a, In a (map ab_addr done) -> zget taken a <> None /\ log_of taken a = items (filter (from a) bs) /\ log_of next a = items (filter (from a) rest)) ->
    (forall a, ~ In a (map ab_addr done) -> zget taken a = None /\ log_of next a = items (filter (from a) unc)) ->
    exists next' taken', take_logs todo next taken = (next', taken') /\ logs_ok next' rest /\ logs_ok taken' bs /\ (forall a, In a (map fst taken') <-> In a (map ab_addr bs))).
  { induction todo as [|b r IH]; intros done taken next E N1 N2 A1 A2.
    - exists next, taken. split; [reflexivity|]. rewrite app_nil_r in E. subst done.
      assert (P : forall a, log_of taken a = items (filter (from a) bs) /\ log_of next a = items (filter (from a) rest) /\ (In a (map fst taken) <-> In a (map ab_addr bs))).
      { intro a. destruct (in_dec Z.eq_dec a (map ab_addr bs)) as [I|I].
        - destruct (A1 a I) as (C0 & C1 & C2). repeat split; auto. intros _. destruct (in_dec Z.eq_dec a (map fst taken)) as [J|J]; [assumption|]. apply zget_none in J. congruence.
        - destruct (A2 a I) as [C1 C2].
          assert (X : filter (from a) bs = []) by (now apply filter_nil_addr). rewrite C2, (S a), X, app_nil_r. split; [unfold log_of; now rewrite C1|]. split; [reflexivity|].
          apply zget_none in C1. tauto. }
      split; [split; [assumption|intro a; apply P]|]. split; [split; [assumption|intro a; apply P]|]. intro a. apply P.
    - cbn [take_logs]. destruct (in_dec Z.eq_dec (ab_addr b) (map ab_addr done)) as [I|I].
      + destruct (zget taken (ab_addr b)) eqn:Z; [|apply A1 in I; tauto].
        apply (IH (done ++ [b])); auto.
        * rewrite E, <- app_assoc. reflexivity.
        * intros a J. apply A1. rewrite map_app in J. apply in_app_or in J. destruct J as [J|[<-|[]]]; assumption.
        * intros a J. apply A2. intro K. apply J. rewrite map_app. apply in_or_app. now left.
      + destruct (A2 _ I) as [C1 C2]. rewrite C1. set (a := ab_addr b) in *.
        destruct (delete_log_ok pre unc bs rest next b a W S N2 C2) as (next' & D & N3 & LN).
        { exists (filter (from a) r). rewrite E, filter_app. rewrite (proj2 (filter_nil_addr a done) I). cbn [app filter]. unfold a at 1. now rewrite from_self. }
        rewrite D. apply (IH (done ++ [b])).
        * rewrite E, <- app_assoc. reflexivity.
        * now apply zset_nodup.
        * assumption.
        * intros x J. rewrite zget_zset, log_of_zset, LN. destruct (Z.eqb_spec a x) as [<-|NE]; [split; [discriminate|now split]|].
          apply A1. rewrite map_app in J. apply in_app_or in J. destruct J as [J|[<-|[]]]; [assumption|now destruct NE].
        * intros x J. rewrite zget_zset, LN. rewrite map_app in J. destruct (Z.eqb_spec a x) as [<-|NE]; [exfalso; apply J; apply in_or_app; right; now left|].
          apply A2. intro K. apply J. apply in_or_app. now left. }
  apply (G bs [] [] next0); [reflexivity|constructor|apply L0|intros a []|]. intros a _. split; [reflexivity|apply L0].
Qed.
End Redo.
