(** Rolling the index back. *)
From Verif Require Import Lib ChainModel ChainSpec ChainProofs.
From Coq Require Import Permutation.

Definition all_sends (l : list blk) := flat_map sends_of l.
Definition roadb (P : list blk) (a h : Z) : bool :=
  existsb (fun b => zin h (receives b) && (k_addr b =? a)) P && negb (zin h (map fst (all_sends P))).

Definition J (s0 : store) (P : list blk) (s : store) (m : list (Z * Z)) : Prop :=
  (forall h, get s (KHash h) = if zin h (all_hashes P) then None else get s0 (KHash h)) /\
  (forall a n, get s (KHeight a n) = if pin (a, n) (map place P) then None else get s0 (KHeight a n)) /\
  (forall h, get s (KRecv h) = if zin h (all_receives P)
     then (if zin h (map fst (all_sends P)) then None else Some VUnreceived) else get s0 (KRecv h)) /\
  (forall a h, get s (KRoad a h) = if roadb P a h then Some VEmpty else get s0 (KRoad a h)) /\
  (forall h t, In (h, t) m <-> In (h, t) (all_sends P) /\ ~ In h (all_receives P)).

Definition plain (b : blk) : Prop := k_kind b <> Genesis /\ (is_send b = true -> k_subs b = []).
Definition step_ok (P : list blk) (b : blk) : Prop :=
  (forall h t, In (h, t) (sends_of b) -> ~ In h (all_receives P) /\ ~ In h (map fst (all_sends P))) /\
  (forall h, In h (receives b) -> ~ In h (all_receives P) /\ ~ In h (hashes_of b)) /\
  NoDup (hashes_of b) /\ plain b.

Lemma in_mdel : forall m h x t, In (x, t) (mdel m h) <-> In (x, t) m /\ x <> h.
Proof.
  intros; unfold mdel; rewrite filter_In; cbn [fst]. rewrite negb_true_iff, Z.eqb_neq. tauto.
Qed.
Lemma in_mput : forall m h a x t, In (x, t) (mput m h a) <-> (x = h /\ t = a) \/ (In (x, t) m /\ x <> h).
Proof.
  intros; unfold mput; cbn [In]; rewrite in_mdel. split.
  - intros [[= <- <-]|H]; auto.
  - intros [[-> ->]|H]; auto.
Qed.
Lemma mhas_In : forall m h, mhas m h = true <-> exists t, In (h, t) m.
Proof.
  intros; unfold mhas; rewrite existsb_exists. split.
  - intros ([x t] & H & E). cbn [fst] in E. apply Z.eqb_eq in E; subst; eauto.
  - intros (t & H). exists (h, t). cbn [fst]. rewrite Z.eqb_refl; auto.
Qed.

Lemma get_delete_subs : forall l s m k, get (fst (delete_subs (s, m) l)) k =
  match k with KHash h => if zin h (map fst l) then None else get s k | _ => get s k end.
Proof.
  induction l as [|[h0 t0] l IH]; intros s m k.
  - destruct k; reflexivity.
  - unfold delete_subs; cbn [fold_left fst snd].
    change (fold_left _ l ?sm) with (delete_subs sm l). rewrite IH.
    destruct k; rewrite get_del; cbn [key_eqb map fst]; auto.
    unfold zin; cbn [existsb]. destruct (h =? h0), (existsb (Z.eqb h) (map fst l)); reflexivity.
Qed.
Lemma in_delete_subs : forall l s m x t, NoDup (map fst l) ->
  (In (x, t) (snd (delete_subs (s, m) l)) <-> In (x, t) l \/ (In (x, t) m /\ ~ In x (map fst l))).
Proof.
  induction l as [|[h0 t0] l IH]; intros s m x t N.
  - cbn. tauto.
  - unfold delete_subs; cbn [fold_left fst snd].
    change (fold_left _ l ?sm) with (delete_subs sm l).
    cbn [map fst] in N. apply NoDup_cons_iff in N as [N1 N2]. rewrite IH by auto.
    rewrite in_mput. cbn [In map fst]. split.
    + intros [H|[[[-> ->]|[H D]] H']]; [auto|auto|].
      right; split; auto. intros [E|E]; [congruence|auto].
    + intros [[[= <- <-]|H]|[H D]]; [right; auto|auto|].
      right. split; [right; split; auto; intros ->; apply D; auto|]. intros E; apply D; auto.
Qed.

Lemma all_app : forall P b, all_hashes (P ++ [b]) = all_hashes P ++ hashes_of b /\
  all_receives (P ++ [b]) = all_receives P ++ receives b /\ all_sends (P ++ [b]) = all_sends P ++ sends_of b.
Proof.
  intros; unfold all_hashes, all_receives, all_sends; rewrite !flat_map_app'; cbn [flat_map]; rewrite !app_nil_r; auto.
Qed.
Lemma flat_sends : forall P b, all_sends (P ++ [b]) = all_sends P ++ sends_of b.
Proof. intros; apply all_app. Qed.
Lemma zin_app : forall x l l', zin x (l ++ l') = zin x l || zin x l'.
Proof. intros; unfold zin; apply existsb_app. Qed.
Lemma pin_app : forall x l l', pin x (l ++ l') = pin x l || pin x l'.
Proof. intros; unfold pin; apply existsb_app. Qed.

Lemma J_step : forall s0 P s m b, J s0 P s m -> step_ok P b ->
  J s0 (P ++ [b]) (fst (delete_block (s, m) b)) (snd (delete_block (s, m) b)).
Proof.
  intros s0 P s m b (JH & JN & JR & JO & JM) (S1 & S2 & ND & NG & PL).
  destruct (all_app P b) as (A1 & A2 & A3).
  unfold J. rewrite A1, A2, A3.
  unfold delete_block, is_send, sends_of, receives, hashes_of in *.
  destruct (k_kind b) as [t0|f e|] eqn:K; [| |congruence].
  - (* a send block *)
    assert (RB : receives b = []) by (unfold receives; rewrite K; reflexivity).
    assert (SB : sends_of b = [(k_hash b, t0)]) by (unfold sends_of; rewrite K, (PL eq_refl); reflexivity).
    rewrite (PL eq_refl) in *. cbn [map fst snd] in *.
    destruct (S1 _ _ (or_introl eq_refl)) as [S11 S12].
    repeat split.
    + intros h. rewrite !get_del, JH, zin_app. cbn [key_eqb zin existsb]. rewrite orb_false_r.
      destruct (h =? k_hash b); rewrite ?orb_true_r, ?orb_false_r; reflexivity.
    + intros a n. rewrite !get_del, JN, map_app, pin_app. cbn [key_eqb map pin existsb fst snd place].
      rewrite orb_false_r. unfold place; cbn [fst snd]. destruct ((a =? k_addr b) && (n =? k_height b)); rewrite ?orb_true_r, ?orb_false_r; reflexivity.
    + intros h. rewrite !get_del, JR, app_nil_r, map_app, zin_app. cbn [key_eqb map fst zin existsb]. rewrite orb_false_r.
      change (existsb (Z.eqb h) ?l) with (zin h l).
      destruct (zin h (all_receives P)) eqn:E; [|reflexivity].
      apply zin_In in E. destruct (h =? k_hash b) eqn:E'; [apply Z.eqb_eq in E'; subst; tauto|].
      rewrite orb_false_r; reflexivity.
    + intros a h. rewrite !get_del, JO. cbn [key_eqb]. unfold roadb. rewrite flat_sends, SB.
      rewrite existsb_app, map_app, zin_app. cbn [existsb map fst zin]. rewrite RB.
      cbn [zin existsb andb orb]. rewrite !orb_false_r.
      change (existsb (Z.eqb h) ?l) with (zin h l).
      destruct (h =? k_hash b) eqn:E'; [|rewrite orb_false_r; reflexivity].
      apply Z.eqb_eq in E'; subst h. rewrite orb_true_r; cbn [negb]. rewrite andb_false_r.
      destruct (existsb _ P) eqn:E; [|reflexivity].
      exfalso. apply S11. apply existsb_exists in E as (x & Hx & E). apply andb_true_iff in E as [E _].
      apply zin_In in E. apply in_flat_map; eauto.
    + apply in_app_iff. apply in_mput in H as [[-> ->]|[H D]]; [right; cbn; auto|apply JM in H; tauto].
    + rewrite app_nil_r. apply in_mput in H as [[-> ->]|[H D]]; [auto|apply JM in H; tauto].
    + rewrite app_nil_r. intros [H D]. apply in_mput. apply in_app_iff in H as [H|[[= <- <-]|[]]]; auto.
      right. split; [apply JM; auto|]. intros ->. apply S12, in_map_fst; eauto.
  - (* a receive block *)
    assert (RB : receives b = [f]) by (unfold receives; rewrite K; reflexivity).
    assert (SB : sends_of b = k_subs b) by (unfold sends_of; rewrite K; reflexivity).
    destruct (S2 f (or_introl eq_refl)) as [S21 S22].
    cbn [In] in S22.
    apply NoDup_cons_iff in ND as [ND1 ND2].
    assert (MH : mhas m f = zin f (map fst (all_sends P))).
    { apply eq_true_iff_eq. rewrite mhas_In, zin_In, in_map_fst.
      split; intros (t & H); exists t; apply JM || (apply JM in H; tauto); auto. }
    assert (FS : zin f (map fst (k_subs b)) = false) by (apply zin_false; tauto).
    set (sm1 := if mhas m f then _ else _).
    assert (G1 : forall k, get (fst sm1) k =
      match k with
      | KHash h => if h =? k_hash b then None else get s k
      | KHeight a n => if (a =? k_addr b) && (n =? k_height b) then None else get s k
      | KRecv h => if h =? f then (if zin f (map fst (all_sends P)) then None else Some VUnreceived) else get s k
      | KRoad a h => if (a =? k_addr b) && (h =? f) && negb (zin f (map fst (all_sends P))) then Some VEmpty else get s k
      end).
    { intros k. unfold sm1. rewrite MH. destruct (zin f (map fst (all_sends P))); cbn [fst];
        rewrite ?get_put, ?get_del, ?get_put, ?get_del; destruct k; cbn [key_eqb negb]; rewrite ?get_put, ?get_del; cbn [key_eqb]; 
        rewrite ?andb_true_r, ?andb_false_r;
        repeat match goal with |- context [if ?c then _ else _] => destruct c end; reflexivity. }
    assert (M1 : forall h t, In (h, t) (snd sm1) <-> In (h, t) m /\ h <> f).
    { intros h t. unfold sm1. rewrite MH. destruct (zin f (map fst (all_sends P))) eqn:E; cbn [snd]; [apply in_mdel|].
      apply zin_false in E. split; [|tauto]. intros H; split; auto. intros ->. apply E, in_map_fst. exists t. apply JM in H; tauto. }
    destruct sm1 as [s1 m1]. cbn [fst snd] in G1, M1.
    repeat split.
    + intros h. rewrite get_delete_subs, G1, JH, zin_app. cbn [zin existsb].
      change (existsb (Z.eqb h) ?l) with (zin h l).
      destruct (zin h (map fst (k_subs b))), (h =? k_hash b), (zin h (all_hashes P)); reflexivity.
    + intros a n. rewrite get_delete_subs, G1, JN, map_app, pin_app. cbn [map pin existsb fst snd]. unfold place at 3 4; cbn [fst snd].
      rewrite orb_false_r. destruct ((a =? k_addr b) && (n =? k_height b)); rewrite ?orb_true_r, ?orb_false_r; reflexivity.
    + intros h. rewrite get_delete_subs, G1, JR, zin_app, map_app, zin_app. cbn [zin existsb]. rewrite orb_false_r.
      change (existsb (Z.eqb h) ?l) with (zin h l).
      destruct (h =? f) eqn:E.
      * apply Z.eqb_eq in E; subst h. rewrite FS, orb_true_r, orb_false_r. reflexivity.
      * rewrite orb_false_r. destruct (zin h (all_receives P)) eqn:E1; [|reflexivity].
        assert (zin h (map fst (k_subs b)) = false) as ->; [|rewrite orb_false_r; reflexivity].
        apply zin_false. rewrite in_map_fst. intros (t & Ht). apply zin_In in E1. destruct (S1 _ _ Ht); auto.
    + intros a h. rewrite get_delete_subs, G1, JO. unfold roadb. rewrite flat_sends, SB.
      rewrite existsb_app, map_app, zin_app. cbn [existsb]. rewrite RB. cbn [zin existsb].
      rewrite !orb_false_r. change (existsb (Z.eqb h) ?l) with (zin h l).
      rewrite (Z.eqb_sym (k_addr b) a), (andb_comm (a =? k_addr b)).
      destruct (h =? f) eqn:E; cbn [andb].
      * apply Z.eqb_eq in E; subst h. rewrite FS, orb_false_r.
        destruct (existsb _ P) eqn:E1.
        { exfalso. apply S21. apply existsb_exists in E1 as (x & Hx & E1). apply andb_true_iff in E1 as [E1 _].
          apply zin_In in E1. apply in_flat_map; eauto. }
        cbn [orb andb]. destruct (a =? k_addr b), (zin f (map fst (all_sends P))); reflexivity.
      * rewrite orb_false_r. destruct (existsb _ P) eqn:E1; [|reflexivity]. cbn [andb].
        assert (zin h (map fst (k_subs b)) = false) as ->; [|rewrite orb_false_r; reflexivity].
        apply zin_false. rewrite in_map_fst. intros (t & Ht). destruct (S1 _ _ Ht) as [Q _]. apply Q.
        apply existsb_exists in E1 as (x & Hx & E1). apply andb_true_iff in E1 as [E1 _].
        apply zin_In in E1. apply in_flat_map; eauto.
    + apply in_app_iff. apply in_delete_subs in H as [H|[H D]]; auto. apply M1 in H as [H _]. apply JM in H. tauto.
    + rewrite in_app_iff. apply in_delete_subs in H as [H|[H D]]; auto.
      * destruct (S1 _ _ H) as [Q _]. intros [R|[<-|[]]]; [auto|]. apply S22. right. apply in_map_fst; eauto.
      * apply M1 in H as [H NE]. apply JM in H. intros [R|[<-|[]]]; [tauto|congruence].
    + rewrite !in_app_iff. intros [[H|H] D]; apply in_delete_subs; auto. right. split.
      * apply M1. split; [apply JM; split; auto|]. intros ->. apply D; cbn; auto.
      * rewrite in_map_fst. intros (t' & Ht). destruct (S1 _ _ Ht) as [_ Q]. apply Q, in_map_fst; eauto.
Qed.

Lemma J_fold : forall d s0 P s m, J s0 P s m ->
  (forall d1 b d2, d = d1 ++ b :: d2 -> step_ok (P ++ d1) b) ->
  J s0 (P ++ d) (fst (fold_left delete_block d (s, m))) (snd (fold_left delete_block d (s, m))).
Proof.
  induction d as [|b d IH]; intros s0 P s m H SO.
  - cbn [fold_left fst snd]. rewrite app_nil_r; auto.
  - cbn [fold_left]. pose proof (J_step _ _ _ _ b H) as H1.
    specialize (SO [] b d eq_refl) as SO0. rewrite app_nil_r in SO0. specialize (H1 SO0).
    destruct (delete_block (s, m) b) as [s1 m1]; cbn [fst snd] in H1.
    replace (P ++ b :: d) with ((P ++ [b]) ++ d) by (rewrite <- app_assoc; reflexivity).
    apply IH; auto. intros d1 b' d2 E. rewrite <- app_assoc. cbn [app]. apply (SO (b :: d1) b' d2). rewrite E; reflexivity.
Qed.
Lemma J_nil : forall s, J s [] s [].
Proof. intros s. repeat split; try reflexivity; intros; cbn in *; tauto. Qed.

Lemma get_close : forall m s k, get (close_sends s m) k =
  match k with
  | KRoad a h => if pin (h, a) m then None else get s k
  | KRecv h => if zin h (map fst m) then None else get s k
  | _ => get s k
  end.
Proof.
  unfold close_sends. induction m as [|[h0 t0] m IH]; intros s k.
  - destruct k; reflexivity.
  - cbn [fold_left fst snd]. rewrite IH. destruct k; rewrite !get_del; cbn [key_eqb map fst]; auto.
    + unfold zin; cbn [existsb]. destruct (h =? h0), (existsb (Z.eqb h) (map fst m)); reflexivity.
    + unfold pin; cbn [existsb fst snd]. rewrite (andb_comm (a =? t0)).
      destruct ((h =? h0) && (a =? t0)); cbn [orb]; destruct (existsb _ m); reflexivity.
Qed.

Inductive subseq {A} : list A -> list A -> Prop :=
| sub_nil : forall l, subseq [] l
| sub_skip : forall x d l, subseq d l -> subseq d (x :: l)
| sub_take : forall x d l, subseq d l -> subseq (x :: d) (x :: l).
Lemma subseq_in : forall {A} (d l : list A), subseq d l -> incl d l.
Proof.
  intros A d l H. induction H; intros y Hy; [destruct Hy|right; auto|].
  destruct Hy as [<-|Hy]; [left; auto|right; auto].
Qed.
Lemma subseq_split : forall {A} (d l : list A), subseq d l -> forall d1 b d2, d = d1 ++ b :: d2 ->
  exists l1 l2, l = l1 ++ b :: l2 /\ subseq d1 l1 /\ subseq d2 l2.
Proof.
  intros A d l H. induction H as [l|x d l H IH|x d l H IH]; intros d1 b d2 E.
  - destruct d1; discriminate.
  - destruct (IH _ _ _ E) as (l1 & l2 & -> & S1 & S2). exists (x :: l1), l2. repeat split; auto. apply sub_skip; auto.
  - destruct d1 as [|y d1]; cbn [app] in E; injection E as -> E.
    + subst. exists [], l. repeat split; auto using sub_nil.
    + destruct (IH _ _ _ E) as (l1 & l2 & -> & S1 & S2). exists (y :: l1), l2. repeat split; auto. apply sub_take; auto.
Qed.
Lemma subseq_refl : forall {A} (l : list A), subseq l l.
Proof. induction l; [apply sub_nil|apply sub_take; auto]. Qed.
Lemma subseq_prefix : forall {A} (p d l : list A), subseq d l -> subseq d (p ++ l).
Proof. induction p; cbn; intros; auto. apply sub_skip; auto. Qed.

Lemma step_ok_subseq : forall l d, wf l -> subseq d l -> (forall b, In b d -> plain b) ->
  forall d1 b d2, d = d1 ++ b :: d2 -> step_ok d1 b.
Proof.
  intros l d [U P] SS PL d1 b d2 E.
  destruct (subseq_split _ _ SS _ _ _ E) as (l1 & l2 & -> & S1 & S2). apply subseq_in in S1.
  apply prec_app in P as [P1 P2]. cbn [app prec] in P2. destruct P2 as [G _].
  pose proof (uniq_in_nodup _ b U ltac:(apply in_app_iff; cbn; auto)) as NB.
  apply uniq_app in U as (U1 & U2 & FH & FP & FR).
  assert (NR : forall h, In h (hashes_of b) -> (forall x t, In x l1 -> ~ In (h, t) (sends_of x))).
  { intros h Hh x t Hx S. exact (FH x b h Hx (or_introl eq_refl) (sends_hashes _ _ _ S) Hh). }
  split; [|split; [|split]]; auto.
  - intros h t Hs. apply sends_hashes in Hs. split.
    + intros R. apply in_flat_map in R as (y & Hy & R).
      destruct (received_is_sent l1 h P1) as (x & t' & Hx & S); [exists y; auto|]. eapply NR; eauto.
    + rewrite in_map_fst. intros (t' & R). apply in_flat_map in R as (y & Hy & R). eapply NR; eauto.
  - intros h Hr. split.
    + intros R. apply in_flat_map in R as (y & Hy & R). exact (FR y b h (S1 _ Hy) (or_introl eq_refl) R Hr).
    + intros Hh. unfold receives in Hr. destruct (k_kind b) as [|f e|] eqn:K; [destruct Hr| |destruct Hr].
      destruct Hr as [<-|[]]. destruct G as [_ G]. destruct (G _ _ K) as (x & Hx & S). eapply NR; eauto.
  - apply PL. rewrite E. apply in_app_iff; cbn; auto.
Qed.

Lemma rollback_exact : forall s all d R, exact s all -> wf all -> subseq d all ->
  (forall b, In b d -> plain b) ->
  (forall b, In b all <-> In b d \/ In b R) -> (forall b, In b d -> In b R -> False) ->
  (forall b, In b R -> grounded R b) ->
  exact (rollback_index s d) R.
Proof.
  intros s all d R EX W SS PL CV DJ CL.
  pose proof (J_fold d s [] s [] (J_nil s) (step_ok_subseq all d W SS PL)) as H.
  cbn [app] in H. destruct W as [U P].
  unfold rollback_index. destruct (fold_left delete_block d (s, [])) as [s1 m]. cbn [fst snd] in H.
  destruct H as (JH & JN & JR & JO & JM).
  destruct (U) as (U1 & U2 & U3).
  assert (HU : forall x y h, In x all -> In y all -> In h (hashes_of x) -> In h (hashes_of y) -> x = y)
    by (intros; exact (nodup_flat_inj hashes_of all U1 _ _ h H H0 H1 H2)).
  assert (RU : forall x y h, In x all -> In y all -> In h (receives x) -> In h (receives y) -> x = y)
    by (intros; exact (nodup_flat_inj receives all U3 _ _ h H H0 H1 H2)).
  assert (DA : forall b, In b d -> In b all) by (intros; apply CV; auto).
  assert (RA : forall b, In b R -> In b all) by (intros; apply CV; auto).
  assert (SD : forall h, In h (map fst (all_sends d)) -> (forall t, ~ sent R h t)).
  { intros h Hh t (y & Hy & S). apply in_map_fst in Hh as (t' & Hh). apply in_flat_map in Hh as (x & Hx & Hh).
    apply (DJ x); auto. rewrite (HU x y h (DA _ Hx) (RA _ Hy) (sends_hashes _ _ _ Hh) (sends_hashes _ _ _ S)). auto. }
  assert (RR : forall h, received R h -> exists t, sent R h t).
  { intros h (b & Hb & Hr). unfold receives in Hr. destruct (k_kind b) as [|f e|] eqn:K; [destruct Hr| |destruct Hr].
    destruct Hr as [<-|[]]. destruct (CL b Hb) as [_ G]. destruct (G _ _ K) as (x & Hx & S). exists (k_addr b), x; auto. }
  assert (RD : forall h, In h (all_receives d) -> ~ received R h).
  { intros h Hh (y & Hy & S). apply in_flat_map in Hh as (x & Hx & Hh). apply (DJ x); auto.
    rewrite (RU x y h (DA _ Hx) (RA _ Hy) Hh S). auto. }
  assert (SA : forall h t, sent all h t <-> sent R h t \/ In (h, t) (all_sends d)).
  { intros h t; split.
    - intros (x & Hx & S). apply CV in Hx as [Hx|Hx]; [right; apply in_flat_map; eauto|left; exists x; auto].
    - intros [(x & Hx & S)|S]; [exists x; auto|]. apply in_flat_map in S as (x & Hx & S). exists x; auto. }
  assert (VA : forall h, received all h <-> received R h \/ In h (all_receives d)).
  { intros h; split.
    - intros (x & Hx & S). apply CV in Hx as [Hx|Hx]; [right; apply in_flat_map; eauto|left; exists x; auto].
    - intros [(x & Hx & S)|S]; [exists x; auto|]. apply in_flat_map in S as (x & Hx & S). exists x; auto. }
  assert (RSA : forall h b, In b all -> In h (receives b) -> sent all h (k_addr b)).
  { intros h b Hb Hr. unfold receives in Hr. destruct (k_kind b) as [|f e|] eqn:K; [destruct Hr| |destruct Hr].
    destruct Hr as [<-|[]]. destruct (prec_in _ _ _ P Hb) as [_ G]. destruct (G _ _ K) as (x & Hx & S). exists x; auto. }
  unfold exact in EX. intros k v. rewrite get_close. destruct k as [h|a n|h|a h].
  - rewrite JH. destruct (zin h (all_hashes d)) eqn:E.
    + split; [discriminate|]. destruct v; cbn [means]; try tauto. intros (b & Hb & Hh & _). exfalso.
      apply zin_In, in_flat_map in E as (x & Hx & E). apply (DJ x); auto. rewrite (HU x b h); auto.
    + apply zin_false in E. rewrite EX. destruct v; cbn [means]; try tauto. split.
      * intros (b & Hb & Hh & Q). apply CV in Hb as [Hb|Hb]; [|eauto]. exfalso; apply E, in_flat_map; eauto.
      * intros (b & Hb & Q). exists b; auto.
  - rewrite JN. destruct (pin (a, n) (map place d)) eqn:E.
    + split; [discriminate|]. destruct v; cbn [means]; try tauto. intros (b & Hb & Pl & _). exfalso.
      apply pin_In, in_map_iff in E as (x & E & Hx). apply (DJ x); auto.
      rewrite (nodup_map_inj place _ U2 x b); auto; congruence.
    + apply pin_false in E. rewrite EX. destruct v; cbn [means]; try tauto. split.
      * intros (b & Hb & Pl & Q). apply CV in Hb as [Hb|Hb]; [|eauto]. exfalso; apply E, in_map_iff; eauto.
      * intros (b & Hb & Q). exists b; auto.
  - destruct (zin h (map fst (all_sends d))) eqn:E.
    + (* the send goes: nothing about it is left *)
      apply zin_In in E.
      assert (NM : ~ means R (KRecv h) v).
      { destruct v; cbn [means]; try tauto.
        - intros (b & Hb & Hr & _). destruct (RR h) as (t & S); [exists b; auto|]. eapply SD; eauto.
        - intros ((t & S) & _). eapply SD; eauto. }
      split; [|tauto]. intros G. exfalso.
      destruct (zin h (map fst m)) eqn:E1; [discriminate|].
      rewrite JR in G. destruct (zin h (all_receives d)) eqn:E2.
      * assert (zin h (map fst (all_sends d)) = true) as Q by (apply zin_In; auto). rewrite Q in G. discriminate.
      * apply zin_false in E1, E2. apply E1. apply in_map_fst. apply in_map_fst in E as (t & E). exists t. apply JM; auto.
    + assert (zin h (map fst m) = false) as ->.
      { apply zin_false. rewrite in_map_fst. intros (t & H). apply JM in H as [H _].
        apply zin_false in E. apply E, in_map_fst; eauto. }
      rewrite JR, E. apply zin_false in E. destruct (zin h (all_receives d)) eqn:E2.
      * apply zin_In in E2. pose proof (RD _ E2) as N.
        assert (S : exists t, sent R h t).
        { apply in_flat_map in E2 as (b & Hb & Hr). exists (k_addr b).
          pose proof (RSA h b (DA _ Hb) Hr) as S. apply SA in S as [S|S]; auto. exfalso; apply E, in_map_fst; eauto. }
        split; [intros [= <-]; cbn [means]; auto|].
        destruct v; cbn [means]; try tauto.
        intros (b & Hb & Hr & _). exfalso; apply N; exists b; auto.
      * apply zin_false in E2. rewrite EX. destruct v; cbn [means]; try tauto.
        -- split; intros (b & Hb & Hr & Q).
           ++ apply CV in Hb as [Hb|Hb]; [|exists b; auto]. exfalso; apply E2, in_flat_map; eauto.
           ++ exists b; auto.
        -- split; intros ((t & S) & N).
           ++ split; [|intros Q; apply N, VA; auto]. exists t. apply SA in S as [S|S]; auto. exfalso; apply E, in_map_fst; eauto.
           ++ split; [exists t; apply SA; auto|]. rewrite VA. tauto.
  - destruct (pin (h, a) m) eqn:E.
    + apply pin_In, JM in E as [E _]. split; [discriminate|]. destruct v; cbn [means]; try tauto.
      intros [S _]. exfalso. eapply SD; [|exact S]. apply in_map_fst; eauto.
    + apply pin_false in E. rewrite JO. destruct (roadb d a h) eqn:E1.
      * unfold roadb in E1. apply andb_true_iff in E1 as [E1 E2]. apply negb_true_iff, zin_false in E2.
        apply existsb_exists in E1 as (b & Hb & E1). apply andb_true_iff in E1 as [E1 E3].
        apply zin_In in E1. apply Z.eqb_eq in E3; subst a.
        assert (S : sent R h (k_addr b)).
        { pose proof (RSA h b (DA _ Hb) E1) as S. apply SA in S as [S|S]; auto. exfalso; apply E2, in_map_fst; eauto. }
        assert (N : ~ received R h) by (apply RD, in_flat_map; eauto).
        split; [intros [= <-]; cbn [means]; auto|destruct v; cbn [means]; tauto].
      * rewrite EX. destruct v; cbn [means]; try tauto. split; intros [S N].
        -- split; [|intros Q; apply N, VA; auto]. apply SA in S as [S|S]; auto. exfalso. apply E, JM. split; auto.
           intros Q; apply N, VA; auto.
        -- split; [apply SA; auto|]. rewrite VA. intros [Q|Q]; [auto|].
           apply in_flat_map in Q as (b & Hb & Hr).
           assert (E2 : ~ In h (map fst (all_sends d))) by (intros Q; eapply SD; eauto).
           assert (k_addr b = a).
           { pose proof (RSA h b (DA _ Hb) Hr) as (x & Hx & Sx). destruct S as (y & Hy & Sy).
             assert (x = y) by (exact (HU x y h Hx (RA _ Hy) (sends_hashes _ _ _ Sx) (sends_hashes _ _ _ Sy))). subst y.
             exact (sends_functional _ (uniq_in_nodup _ _ U Hx) _ _ _ Sx Sy). }
           subst a. unfold roadb in E1. apply zin_false in E2. rewrite E2 in E1. cbn [negb] in E1. rewrite andb_true_r in E1.
           assert (X : existsb (fun b0 => zin h (receives b0) && (k_addr b0 =? k_addr b)) d = true).
           { apply existsb_exists. exists b. split; auto. apply andb_true_iff; split; [apply zin_In; auto|apply Z.eqb_refl]. }
           congruence.
Qed.
