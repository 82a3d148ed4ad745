(** Dependents, confirmation, and the invariant of all reachable chains. *)
From Verif Require Import Lib ChainModel ChainSpec ChainProofs ChainProofs2.
From Coq Require Import Permutation.

(** ** Heights *)
Lemma prec_heights : forall l C, (forall b, In b C -> 1 <= k_height b) -> prec C l ->
  forall b, In b l -> 1 <= k_height b.
Proof.
  induction l as [|a l IH]; intros C HC P b Hb; [destruct Hb|].
  destruct P as [G P].
  assert (Ha : 1 <= k_height a).
  { destruct G as [[[E _]|(x & Hx & F)] _]; [lia|]. specialize (HC _ Hx). destruct F as (_ & F & _). lia. }
  destruct Hb as [<-|Hb]; auto.
  eapply IH; [|exact P|exact Hb]. intros c Hc. apply in_app_iff in Hc as [Hc|[<-|[]]]; auto.
Qed.
Lemma wf_heights : forall l b, wf l -> In b l -> 1 <= k_height b.
Proof. intros l b [_ P] H. eapply (prec_heights l []); eauto. intros ? []. Qed.

Lemma prec_contiguous : forall l C,
  (forall b n, In b C -> 1 <= n <= k_height b -> exists y, In y C /\ place y = (k_addr b, n)) ->
  prec C l -> forall b n, In b (C ++ l) -> 1 <= n <= k_height b ->
  exists y, In y (C ++ l) /\ place y = (k_addr b, n).
Proof.
  induction l as [|a l IH]; intros C HC P b n Hb Hn.
  - rewrite app_nil_r in *. eauto.
  - destruct P as [G P]. replace (C ++ a :: l) with ((C ++ [a]) ++ l) in * by (rewrite <- app_assoc; reflexivity).
    eapply IH; eauto. clear b n Hb Hn. intros b n Hb Hn. apply in_app_iff in Hb as [Hb|[<-|[]]].
    + destruct (HC b n Hb Hn) as (y & Hy & E). exists y; split; auto; apply in_app_iff; auto.
    + destruct (Z.eq_dec n (k_height a)) as [->|NE].
      { exists a; split; [apply in_app_iff; cbn; auto|reflexivity]. }
      destruct G as [[[E _]|(x & Hx & F1 & F2 & _)] _]; [lia|].
      destruct (HC x n Hx ltac:(lia)) as (y & Hy & E). exists y. rewrite <- F1. split; auto; apply in_app_iff; auto.
Qed.
Lemma wf_contiguous : forall l b n, wf l -> In b l -> 1 <= n <= k_height b ->
  exists y, In y l /\ place y = (k_addr b, n).
Proof. intros l b n [_ P] H Hn. apply (prec_contiguous l []); auto. intros ? ? []. Qed.

Lemma wf_app_l : forall l l', wf (l ++ l') -> wf l.
Proof. intros l l' [U P]. apply prec_app in P as [P _]. apply uniq_app in U as [U _]. split; auto. Qed.

(** a later block of the same account is higher *)
Lemma wf_order : forall l1 b l2 x, wf (l1 ++ b :: l2) -> In x l1 -> k_addr x = k_addr b -> k_height x < k_height b.
Proof.
  intros l1 b l2 x W Hx E. destruct (Z.lt_ge_cases (k_height x) (k_height b)) as [|G]; auto. exfalso.
  pose proof (wf_heights _ b W ltac:(apply in_app_iff; cbn; auto)).
  destruct (wf_contiguous l1 x (k_height b) (wf_app_l _ _ W) Hx ltac:(lia)) as (y & Hy & Py).
  destruct W as [U _]. apply uniq_app in U as (_ & _ & _ & FP & _).
  apply (FP y b Hy (or_introl eq_refl)). unfold place in *. congruence.
Qed.

(** what a block needs comes before it *)
Lemma needs_before : forall l1 b l2 x, wf (l1 ++ b :: l2) -> In x (l1 ++ b :: l2) -> needs x b -> In x l1.
Proof.
  intros l1 b l2 x W Hx N.
  assert (Hb : In b (l1 ++ b :: l2)) by (apply in_app_iff; cbn; auto).
  destruct (W) as [U P]. destruct (U) as (U1 & U2 & U3).
  apply prec_app in P as [P1 P2]. cbn [app prec] in P2. destruct P2 as [[G1 G2] _].
  assert (I : forall y, In y l1 -> In y (l1 ++ b :: l2)) by (intros; apply in_app_iff; auto).
  destruct N as [(F1 & F2 & F3)|(f & e & K & S)].
  - pose proof (wf_heights _ x W Hx).
    destruct G1 as [[E _]|(y & Hy & E1 & E2 & E3)]; [lia|].
    assert (x = y) as -> by (apply (nodup_map_inj place _ U2); auto; unfold place; f_equal; [congruence|lia]). auto.
  - destruct (G2 _ _ K) as (y & Hy & Sy).
    assert (x = y) as -> by
      exact (nodup_flat_inj hashes_of _ U1 x y f Hx (I _ Hy) (sends_hashes _ _ _ S) (sends_hashes _ _ _ Sy)). auto.
Qed.

(** ** Marking dependents *)
Definition mark_inv (P M : list blk) (A H : list Z) : Prop :=
  incl M P /\
  (forall x y, In x M -> In y P -> k_addr x = k_addr y -> k_height x <= k_height y -> In y M) /\
  (forall a, In a A <-> exists x, In x M /\ k_addr x = a) /\
  (forall x h t, In x M -> In (h, t) (sends_of x) -> In h H) /\
  (forall h, In h H -> exists x, In x M /\ In h (hashes_of x)).

Lemma mark_iff : forall C P b r M A H, wf (C ++ P ++ b :: r) -> mark_inv P M A H ->
  (zin (k_addr b) A || match recv_from b with Some f => zin f H | None => false end = true
   <-> exists x, In x M /\ needs x b).
Proof.
  intros C P b r M A H W (IM & UP & AA & HH1 & HH2).
  rewrite app_assoc in W.
  assert (Hb : In b ((C ++ P) ++ b :: r)) by (apply in_app_iff; cbn; auto).
  assert (I : forall y, In y (C ++ P) -> In y ((C ++ P) ++ b :: r)) by (intros; apply in_app_iff; auto).
  assert (IP : forall y, In y M -> In y (C ++ P)) by (intros; apply in_app_iff; auto).
  destruct (W) as [U P0]. destruct (U) as (U1 & U2 & U3).
  apply prec_app in P0 as [P1 P2]. cbn [app prec] in P2. destruct P2 as [[G1 G2] _].
  rewrite orb_true_iff, zin_In. split.
  - intros [HA|HR].
    + apply AA in HA as (x & Hx & E).
      pose proof (wf_order _ _ _ x W (IP _ Hx) E) as LT.
      pose proof (wf_heights _ x W (I _ (IP _ Hx))).
      destruct G1 as [[E1 _]|(y & Hy & F)]; [lia|]. destruct (F) as (F1 & F2 & F3).
      assert (HyP : In y P).
      { apply in_app_iff in Hy as [Hy|Hy]; auto. exfalso.
        pose proof (wf_app_l _ _ W) as WCP. pose proof (wf_app_l _ _ WCP) as WC.
        destruct (wf_contiguous C y (k_height x) WC Hy ltac:(lia)) as (z & Hz & Pz).
        destruct WCP as [UCP _]. apply uniq_app in UCP as (_ & _ & _ & FP & _).
        apply (FP z x Hz (IM _ Hx)). unfold place in *. congruence. }
      exists y. split; [|left; exact F]. apply (UP x y Hx HyP); [congruence|lia].
    + unfold recv_from in HR. destruct (k_kind b) as [|f e|] eqn:K; try discriminate.
      apply zin_In, HH2 in HR as (x & Hx & Hf). destruct (G2 _ _ eq_refl) as (y & Hy & Sy).
      assert (x = y) as -> by
        exact (nodup_flat_inj hashes_of _ U1 x y f (I _ (IP _ Hx)) (I _ Hy) Hf (sends_hashes _ _ _ Sy)).
      exists y. split; auto. right. exists f, e. auto.
  - intros (x & Hx & [(F1 & _)|(f & e & K & S)]).
    + left. apply AA. eauto.
    + right. unfold recv_from. rewrite K. apply zin_In. eauto.
Qed.

Lemma mark_inv_skip : forall C P b r M A H, wf (C ++ P ++ b :: r) -> mark_inv P M A H ->
  ~ In (k_addr b) A -> mark_inv (P ++ [b]) M A H.
Proof.
  intros C P b r M A H W (IM & UP & AA & HH1 & HH2) NA.
  repeat split; try apply AA; auto.
  - intros x Hx. apply in_app_iff; auto.
  - intros x y Hx Hy E L. apply in_app_iff in Hy as [Hy|[<-|[]]]; eauto.
    exfalso. apply NA, AA. eauto.
Qed.
Lemma mark_inv_take : forall C P b r M A H A' H', wf (C ++ P ++ b :: r) -> mark_inv P M A H ->
  (forall a, In a A' <-> a = k_addr b \/ In a A) ->
  (forall h, In h H -> In h H') -> (forall h t, In (h, t) (sends_of b) -> In h H') ->
  (forall h, In h H' -> In h H \/ In h (hashes_of b)) ->
  mark_inv (P ++ [b]) (M ++ [b]) A' H'.
Proof.
  intros C P b r M A H A' H' W (IM & UP & AA & HH1 & HH2) EA E1 E2 E3.
  split; [|split; [|split; [|split]]].
  - intros x Hx. apply in_app_iff in Hx as [Hx|Hx]; apply in_app_iff; auto.
  - intros x y Hx Hy E L. apply in_app_iff. apply in_app_iff in Hy as [Hy|[<-|[]]]; [|cbn; auto].
    apply in_app_iff in Hx as [Hx|[<-|[]]]; [left; eauto|].
    exfalso. rewrite app_assoc in W. pose proof (wf_order (C ++ P) b r y W ltac:(apply in_app_iff; auto) ltac:(auto)). lia.
  - intros a. rewrite EA, AA. split.
    + intros [->|(x & Hx & E)]; [exists b|exists x]; split; auto; apply in_app_iff; cbn; auto.
    + intros (x & Hx & E). apply in_app_iff in Hx as [Hx|[<-|[]]]; eauto.
  - intros x h t Hx S. apply in_app_iff in Hx as [Hx|[<-|[]]]; eauto.
  - intros h Hh. destruct (E3 _ Hh) as [Q|Q].
    + destruct (HH2 _ Q) as (x & Hx & S). exists x. split; auto; apply in_app_iff; auto.
    + exists b. split; auto; apply in_app_iff; cbn; auto.
Qed.

(** the two loops: what they select *)
Definition selects (root : blk -> Prop) (M r D : list blk) : Prop :=
  subseq D r /\
  forall b, In b r -> (In b D <-> root b \/ exists x, In x (M ++ D) /\ needs x b).

Lemma sends_in_loop : forall b h t, In (h, t) (sends_of b) ->
  In h ((if is_send b then [k_hash b] else []) ++ sub_hashes b).
Proof.
  intros b h t S. unfold sends_of, is_send, sub_hashes in *. apply in_app_iff.
  destruct (k_kind b); cbn [In] in *; [destruct S as [[= <- <-]|S]; auto| |]; right; apply in_map_fst; eauto.
Qed.
Lemma loop_in_hashes : forall b h, In h ((if is_send b then [k_hash b] else []) ++ sub_hashes b) -> In h (hashes_of b).
Proof.
  intros b h S. unfold hashes_of, sub_hashes in *. apply in_app_iff in S as [S|S]; [|right; auto].
  destruct (is_send b); [destruct S as [<-|[]]; left; auto|destruct S].
Qed.

Lemma selects_step : forall (root : blk -> Prop) C P b r M D (marked : bool), wf (C ++ P ++ b :: r) -> incl M P ->
  (marked = true <-> root b \/ exists x, In x M /\ needs x b) ->
  selects root (if marked then M ++ [b] else M) r D ->
  selects root M (b :: r) (if marked then b :: D else D).
Proof.
  intros root C P b r M D marked W IM HM [SS SE].
  assert (NB : ~ In b r).
  { intros Hb. destruct W as [U _]. rewrite app_assoc in U. replace ((C ++ P) ++ b :: r) with (((C ++ P) ++ [b]) ++ r) in U by (rewrite <- app_assoc; reflexivity).
    apply uniq_app in U as (_ & _ & _ & FP & _). apply (FP b b); auto. apply in_app_iff; cbn; auto. }
  assert (LATE : forall x, In x r -> needs x b -> False).
  { intros x Hx N. rewrite app_assoc in W.
    pose proof (needs_before _ _ _ x W ltac:(apply in_app_iff; cbn; auto) N) as Q.
    destruct W as [U _]. apply uniq_app in U as (_ & _ & _ & FP & _). apply (FP x x); cbn; auto. }
  assert (SELF : needs b b -> False).
  { intros N. rewrite app_assoc in W.
    pose proof (needs_before _ _ _ b W ltac:(apply in_app_iff; cbn; auto) N) as Q.
    destruct W as [U _]. apply uniq_app in U as (_ & _ & _ & FP & _). apply (FP b b); cbn; auto. }
  pose proof (subseq_in _ _ SS) as ID.
  split.
  { destruct marked; [apply sub_take|apply sub_skip]; auto. }
  intros y [<-|Hy].
  - destruct marked.
    + split; [|cbn; auto]. intros _. destruct (proj1 HM eq_refl) as [R|(x & Hx & N)]; auto.
      right; exists x; split; auto; apply in_app_iff; auto.
    + split; [intros Hb; exfalso; auto|]. intros Q. exfalso.
      enough (false = true) by discriminate. apply HM. destruct Q as [R|(x & Hx & N)]; auto.
      apply in_app_iff in Hx as [Hx|Hx]; [right; eauto|]. exfalso; eauto.
  - specialize (SE y Hy). destruct marked.
    + rewrite <- app_assoc in SE. cbn [app] in SE. cbn [In]. rewrite <- SE. split; [|auto].
      intros [<-|Q]; [exfalso; auto|auto].
    + exact SE.
Qed.

Lemma deps_loop_selects : forall r C P M A H, wf (C ++ P ++ r) -> mark_inv P M A H ->
  selects (fun _ => False) M r (deps_loop A H r).
Proof.
  induction r as [|b r IH]; intros C P M A H W MI.
  - split; [apply sub_nil|intros b []].
  - pose proof (mark_iff _ _ _ _ _ _ _ W MI) as IFF.
    pose proof (proj1 MI) as IM.
    assert (W' : wf (C ++ (P ++ [b]) ++ r)) by (rewrite <- app_assoc; exact W).
    assert (AA : forall a, In a A <-> exists x, In x M /\ k_addr x = a) by apply MI.
    cbn [deps_loop]. destruct (zin (k_addr b) A) eqn:EA.
    + apply (selects_step _ C P b r M _ true W IM).
      { cbn [orb] in IFF. tauto. }
      apply (IH C (P ++ [b])); auto. apply zin_In in EA.
      eapply (mark_inv_take C P b r M A H); eauto.
      * intros a. split; [auto|intros [->|?]; auto].
      * intros h Hh. rewrite !in_app_iff; auto.
      * intros h t S. rewrite app_assoc. apply in_app_iff. left. eapply sends_in_loop; eauto.
      * intros h Hh. rewrite app_assoc in Hh. apply in_app_iff in Hh as [Hh|Hh]; auto. right; apply loop_in_hashes; auto.
    + cbn [orb] in IFF. destruct (recv_from b) as [f|] eqn:ER; [destruct (zin f H) eqn:EF|].
      * apply (selects_step _ C P b r M _ true W IM); [tauto|].
        assert (IS : is_send b = false) by (unfold recv_from, is_send in *; destruct (k_kind b); congruence).
        apply (IH C (P ++ [b])); auto. eapply (mark_inv_take C P b r M A H); eauto.
        -- intros a. cbn [In]. intuition congruence.
        -- intros h Hh. rewrite in_app_iff; auto.
        -- intros h t S. apply sends_in_loop in S. rewrite IS in S. apply in_app_iff; auto.
        -- intros h Hh. apply in_app_iff in Hh as [Hh|Hh]; auto. right. unfold hashes_of; right; exact Hh.
      * apply (selects_step _ C P b r M _ false W IM).
        { split; [discriminate|]. intros [[]|Q]. apply IFF in Q; auto. }
        apply (IH C (P ++ [b])); auto. eapply mark_inv_skip; eauto. apply zin_false; auto.
      * apply (selects_step _ C P b r M _ false W IM).
        { split; [discriminate|]. intros [[]|Q]. apply IFF in Q; auto. }
        apply (IH C (P ++ [b])); auto. eapply mark_inv_skip; eauto. apply zin_false; auto.
Qed.

Definition bad_root (bad : blk -> bool) (b : blk) : Prop :=
  bad b = true \/ exists f, k_kind b = Recv f true.
Lemma filter_loop_selects : forall bad r C P M A H, wf (C ++ P ++ r) -> mark_inv P M A H ->
  selects (bad_root bad) M r (filter_loop bad A H r).
Proof.
  intros bad. induction r as [|b r IH]; intros C P M A H W MI.
  - split; [apply sub_nil|intros b []].
  - pose proof (mark_iff _ _ _ _ _ _ _ W MI) as IFF.
    pose proof (proj1 MI) as IM.
    assert (W' : wf (C ++ (P ++ [b]) ++ r)) by (rewrite <- app_assoc; exact W).
    assert (AA : forall a, In a A <-> exists x, In x M /\ k_addr x = a) by apply MI.
    cbn [filter_loop].
    set (inv := zin (k_addr b) A || _ || bad b).
    assert (HM : inv = true <-> bad_root bad b \/ exists x, In x M /\ needs x b).
    { rewrite <- IFF. unfold inv, bad_root, recv_from. rewrite !orb_true_iff.
      destruct (k_kind b) as [t|f e|]; rewrite ?orb_true_iff.
      - split; [intros [[?|?]|?]; auto; discriminate|intros [[?|(f & Q)]|[?|?]]; auto; discriminate].
      - split; [intros [[?|[E|?]]|?]; auto; subst e; left; right; eauto|].
        intros [[?|(g & Q)]|[?|?]]; auto. injection Q as _ ->. auto.
      - split; [intros [[?|?]|?]; auto; discriminate|intros [[?|(f & Q)]|[?|?]]; auto; discriminate]. }
    destruct inv eqn:EI.
    + apply (selects_step _ C P b r M _ true W IM); [exact HM|].
      apply (IH C (P ++ [b])); auto.
      eapply (mark_inv_take C P b r M A H); eauto.
      * intros a. cbn [In]. intuition congruence.
      * intros h Hh. rewrite !in_app_iff; auto.
      * intros h t S. rewrite app_assoc. apply in_app_iff. left. eapply sends_in_loop; eauto.
      * intros h Hh. rewrite app_assoc in Hh. apply in_app_iff in Hh as [Hh|Hh]; auto. right; apply loop_in_hashes; auto.
    + apply (selects_step _ C P b r M _ false W IM); [exact HM|].
      apply (IH C (P ++ [b])); auto. eapply mark_inv_skip; eauto.
      apply zin_false. unfold inv in EI. apply orb_false_iff in EI as [EI _]. apply orb_false_iff in EI as [EI _]. auto.
Qed.
