(** Proofs about the account chain model. *)
From Verif Require Import Lib ChainModel ChainSpec.
From Coq Require Import Permutation.

(** ** The store *)
Lemma key_eqb_eq : forall x y, key_eqb x y = true <-> x = y.
Proof.
  intros x y; destruct x, y; cbn [key_eqb]; rewrite ?andb_true_iff, ?Z.eqb_eq;
    (split; [intros H; try discriminate; intuition congruence|intros H; inversion H; auto]).
Qed.
Lemma key_eqb_refl : forall x, key_eqb x x = true.
Proof. intros; apply key_eqb_eq; reflexivity. Qed.

Lemma get_del : forall s k k', get (del s k) k' = if key_eqb k' k then None else get s k'.
Proof.
  intros s k k'. induction s as [|[k1 v1] r IH]; cbn [del filter get].
  - destruct (key_eqb k' k); reflexivity.
  - cbn [fst]. destruct (key_eqb k k1) eqn:E; cbn [negb].
    + apply key_eqb_eq in E; subst k1. unfold del in IH; rewrite IH.
      destruct (key_eqb k' k); reflexivity.
    + cbn [get]. unfold del in IH; rewrite IH. destruct (key_eqb k' k1) eqn:E1; [|reflexivity].
      apply key_eqb_eq in E1; subst k1. destruct (key_eqb k' k) eqn:E2; [|reflexivity].
      apply key_eqb_eq in E2; subst. rewrite key_eqb_refl in E; discriminate.
Qed.
Lemma get_put : forall s k v k', get (put s k v) k' = if key_eqb k' k then Some v else get s k'.
Proof.
  intros. unfold put; cbn [get]. rewrite get_del. destruct (key_eqb k' k); reflexivity.
Qed.

Lemma zin_In : forall x l, zin x l = true <-> In x l.
Proof.
  intros; unfold zin; rewrite existsb_exists. split.
  - intros (y & Hy & E). apply Z.eqb_eq in E; subst; auto.
  - intros; exists x; split; auto; apply Z.eqb_refl.
Qed.
Definition pin (p : Z * Z) (l : list (Z * Z)) : bool := existsb (fun q => (fst p =? fst q) && (snd p =? snd q)) l.
Lemma pin_In : forall p l, pin p l = true <-> In p l.
Proof.
  intros [a b] l; unfold pin; rewrite existsb_exists. split.
  - intros ([c d] & Hy & E). cbn [fst snd] in E. apply andb_true_iff in E as [E1 E2].
    apply Z.eqb_eq in E1, E2; subst; auto.
  - intros; exists (a, b); split; auto; cbn [fst snd]; rewrite !Z.eqb_refl; auto.
Qed.

(** ** Inserting a block *)
Lemma get_insert_subs : forall a n l s k,
  get (fold_left (insert_sub a n) l s) k =
  match k with
  | KHash h => if zin h (map fst l) then Some (VAddrHeight a n) else get s k
  | KRecv h => if zin h (map fst l) then Some VUnreceived else get s k
  | KRoad t h => if pin (h, t) l then Some VEmpty else get s k
  | KHeight _ _ => get s k
  end.
Proof.
  induction l as [|[h0 t0] l IH]; intros s k.
  - destruct k; reflexivity.
  - cbn [fold_left]. rewrite IH. unfold insert_sub; cbn [fst snd].
    destruct k; rewrite ?get_put; cbn [key_eqb map zin pin existsb fst snd];
      repeat match goal with |- context [zin ?x ?y] => change (existsb (Z.eqb x) y) with (zin x y) end; auto.
    + unfold zin. destruct (h =? h0); cbn [orb]; [destruct (existsb _ _); reflexivity|reflexivity].
    + unfold zin. destruct (h =? h0); cbn [orb]; [destruct (existsb _ _); reflexivity|reflexivity].
    + unfold pin; cbn [fst snd]. rewrite (andb_comm (a0 =? t0)).
      destruct ((h =? h0) && (a0 =? t0)); cbn [orb]; [destruct (existsb _ _); reflexivity|reflexivity].
Qed.

Definition recvb (b : blk) (h : Z) : bool := zin h (receives b).

Lemma get_insert_block : forall s b k,
  get (insert_block s b) k =
  match k with
  | KHash h => if zin h (hashes_of b) then Some (VAddrHeight (k_addr b) (k_height b)) else get s k
  | KHeight a n => if (a =? k_addr b) && (n =? k_height b) then Some (VHash (k_hash b)) else get s k
  | KRecv h => if zin h (map fst (sends_of b)) then Some VUnreceived
               else if zin h (receives b) then Some (VHash (k_hash b)) else get s k
  | KRoad a h => if pin (h, a) (sends_of b) then Some VEmpty
               else if zin h (receives b) && (a =? k_addr b) then None else get s k
  end.
Proof.
  intros s b k. unfold insert_block. rewrite get_insert_subs.
  unfold hashes_of, sends_of, receives.
  destruct k, (k_kind b); rewrite ?get_del, ?get_put; cbn [key_eqb map zin pin existsb fst snd orb andb];
    rewrite ?orb_false_r, ?get_put; cbn [key_eqb];
    repeat match goal with |- context [existsb (Z.eqb ?x) ?y] => change (existsb (Z.eqb x) y) with (zin x y) end;
    repeat match goal with |- context [existsb (fun q => (?h =? fst q) && (?a =? snd q)) ?l] =>
      change (existsb (fun q => (h =? fst q) && (a =? snd q)) l) with (pin (h, a) l) end;
    rewrite ?(andb_comm (_ =? k_addr b)), ?(andb_comm (_ =? to));
    repeat match goal with |- context [if ?c then _ else _] => destruct c eqn:? end;
    cbn [orb andb] in *; rewrite ?orb_true_r in *; try reflexivity; try congruence; try discriminate.
Qed.

Definition all_hashes (l : list blk) := flat_map hashes_of l.
Definition all_receives (l : list blk) := flat_map receives l.
Definition uniq (l : list blk) : Prop :=
  NoDup (all_hashes l) /\ NoDup (map place l) /\ NoDup (all_receives l).
Fixpoint prec (C : list blk) (l : list blk) : Prop :=
  match l with [] => True | b :: r => grounded C b /\ prec (C ++ [b]) r end.
Definition wf (l : list blk) : Prop := uniq l /\ prec [] l.

(** sends are hashes *)
Lemma sends_hashes : forall b h t, In (h, t) (sends_of b) -> In h (hashes_of b).
Proof.
  intros b h t H. unfold sends_of in H; unfold hashes_of.
  assert (S : In (h, t) (k_subs b) -> In h (map fst (k_subs b))) by (intros; apply in_map_iff; exists (h, t); auto).
  destruct (k_kind b); cbn [In] in *; [destruct H as [H|H]; [inversion H; auto|auto]|auto|auto].
Qed.
Lemma in_map_fst : forall (l : list (Z * Z)) h, In h (map fst l) <-> exists t, In (h, t) l.
Proof.
  intros; rewrite in_map_iff; split.
  - intros ([x y] & E & H); cbn [fst] in E; subst; eauto.
  - intros (t & H); exists (h, t); auto.
Qed.

(** NoDup of a concatenation *)
Lemma NoDup_app_iff : forall {A} (l l' : list A),
  NoDup (l ++ l') <-> NoDup l /\ NoDup l' /\ (forall x, In x l -> In x l' -> False).
Proof.
  intros A l l'. induction l as [|a l IH]; cbn [app].
  - split; [intros; repeat split; auto using NoDup_nil|tauto].
  - rewrite !NoDup_cons_iff, IH, in_app_iff. split.
    + intros (N & D1 & D2 & D). repeat split; auto.
      intros x [->|H] H'; [tauto|eauto].
    + intros ((N & D1) & D2 & D). repeat split; auto.
      * intros [H|H]; [auto|]. apply (D a); cbn; auto.
      * intros x H H'. apply (D x); cbn; auto.
Qed.
Lemma nodup_flat_inj : forall {A B} (f : A -> list B) l, NoDup (flat_map f l) ->
  forall a b x, In a l -> In b l -> In x (f a) -> In x (f b) -> a = b.
Proof.
  intros A B f l. induction l as [|y l IH]; intros N a b x Ha Hb Fa Fb; [destruct Ha|].
  cbn [flat_map] in N. apply NoDup_app_iff in N as (N1 & N2 & D).
  assert (M : forall c, In c l -> In x (f c) -> In x (flat_map f l)) by (intros; apply in_flat_map; eauto).
  destruct Ha as [<-|Ha], Hb as [<-|Hb]; auto.
  - exfalso; eauto.
  - exfalso; eauto.
  - eauto.
Qed.
Lemma nodup_map_inj : forall {A B} (f : A -> B) l, NoDup (map f l) ->
  forall a b, In a l -> In b l -> f a = f b -> a = b.
Proof.
  intros A B f l N a b Ha Hb E.
  assert (F : flat_map (fun a => [f a]) l = map f l) by (clear; induction l; cbn; f_equal; auto).
  rewrite <- F in N. eapply (nodup_flat_inj (fun a => [f a])); eauto; cbn; auto.
Qed.
Lemma flat_map_app' : forall {A B} (f : A -> list B) l l', flat_map f (l ++ l') = flat_map f l ++ flat_map f l'.
Proof. intros; induction l; cbn; [auto|rewrite IHl, app_assoc; auto]. Qed.

Lemma prec_app : forall l C l', prec C (l ++ l') <-> prec C l /\ prec (C ++ l) l'.
Proof.
  induction l as [|b l IH]; intros; cbn [app prec].
  - rewrite app_nil_r; tauto.
  - rewrite IH, <- app_assoc; cbn [app]. tauto.
Qed.
Lemma grounded_incl : forall C C' b, incl C C' -> grounded C b -> grounded C' b.
Proof.
  intros C C' b I [[H|(x & Hx & F)] R]; (split; [|intros f e E; destruct (R f e E) as (y & Hy & S); exists y; split; auto]).
  - left; auto.
  - right; exists x; split; auto.
Qed.
Lemma prec_in : forall l C b, prec C l -> In b l -> grounded (C ++ l) b.
Proof.
  induction l as [|a l IH]; intros C b P H; [destruct H|].
  destruct P as [G P]. destruct H as [<-|H].
  - eapply grounded_incl; [|exact G]. intros x; rewrite in_app_iff; auto.
  - specialize (IH _ _ P H). rewrite <- app_assoc in IH; exact IH.
Qed.

(** exactness after inserting *)
Lemma sent_snoc : forall l b h t, sent (l ++ [b]) h t <-> sent l h t \/ In (h, t) (sends_of b).
Proof.
  intros; unfold sent; split.
  - intros (x & H & S). apply in_app_iff in H as [H|[<-|[]]]; eauto.
  - intros [(x & H & S)|S]; [exists x|exists b]; split; auto; apply in_app_iff; cbn; auto.
Qed.
Lemma received_snoc : forall l b h, received (l ++ [b]) h <-> received l h \/ In h (receives b).
Proof.
  intros; unfold received; split.
  - intros (x & H & S). apply in_app_iff in H as [H|[<-|[]]]; eauto.
  - intros [(x & H & S)|S]; [exists x|exists b]; split; auto; apply in_app_iff; cbn; auto.
Qed.

Lemma uniq_app : forall l l', uniq (l ++ l') ->
  uniq l /\ uniq l' /\
  (forall x y h, In x l -> In y l' -> In h (hashes_of x) -> In h (hashes_of y) -> False) /\
  (forall x y, In x l -> In y l' -> place x = place y -> False) /\
  (forall x y h, In x l -> In y l' -> In h (receives x) -> In h (receives y) -> False).
Proof.
  intros l l' (H1 & H2 & H3). unfold all_hashes, all_receives in *.
  rewrite flat_map_app' in H1, H3. rewrite map_app in H2.
  apply NoDup_app_iff in H1 as (A1 & A2 & A3). apply NoDup_app_iff in H2 as (B1 & B2 & B3).
  apply NoDup_app_iff in H3 as (C1 & C2 & C3).
  repeat split; auto.
  - intros x y h X Y Hx Hy. apply (A3 h); apply in_flat_map; eauto.
  - intros x y X Y E. apply (B3 (place x)); [apply in_map; auto|rewrite E; apply in_map; auto].
  - intros x y h X Y Hx Hy. apply (C3 h); apply in_flat_map; eauto.
Qed.

Lemma received_is_sent : forall l h, prec [] l -> received l h -> exists x t, In x l /\ In (h, t) (sends_of x).
Proof.
  intros l h P (b & Hb & R). unfold receives in R. destruct (k_kind b) as [|f e|] eqn:K; try destruct R as [<-|[]]; try destruct R.
  destruct (prec_in _ _ _ P Hb) as [_ G]. destruct (G _ _ K) as (x & Hx & S). eauto.
Qed.

Lemma wf_snoc : forall l b, wf (l ++ [b]) -> wf l /\ grounded l b.
Proof.
  intros l b [U P]. apply prec_app in P as [P [G _]]. apply uniq_app in U as [U _].
  split; [split; auto|exact G].
Qed.

Lemma zin_false : forall x l, zin x l = false <-> ~ In x l.
Proof. intros; rewrite <- zin_In; destruct (zin x l); split; intros; congruence. Qed.
Lemma pin_false : forall x l, pin x l = false <-> ~ In x l.
Proof. intros; rewrite <- pin_In; destruct (pin x l); split; intros; congruence. Qed.

Lemma sends_functional : forall b, NoDup (hashes_of b) -> forall h t t',
  In (h, t) (sends_of b) -> In (h, t') (sends_of b) -> t = t'.
Proof.
  intros b N h t t' H H'. unfold hashes_of in N. apply NoDup_cons_iff in N as [N1 N2].
  assert (S : forall u u', In (h, u) (k_subs b) -> In (h, u') (k_subs b) -> u = u').
  { intros u u' A B. pose proof (nodup_map_inj fst _ N2 _ _ A B eq_refl) as E. congruence. }
  unfold sends_of in *. destruct (k_kind b); eauto.
  assert (Q : forall u, In (h, u) (k_subs b) -> In h (map fst (k_subs b))) by (intros; apply in_map_fst; eauto).
  destruct H as [H|H], H' as [H'|H']; try (inversion H; subst); try (inversion H'; subst); eauto; exfalso; eauto.
Qed.
Lemma uniq_in_nodup : forall l b, uniq l -> In b l -> NoDup (hashes_of b).
Proof.
  intros l b (U & _) H. apply in_split in H as (l1 & l2 & ->). unfold all_hashes in U.
  rewrite flat_map_app' in U. apply NoDup_app_iff in U as (_ & U & _). cbn [flat_map] in U.
  apply NoDup_app_iff in U; tauto.
Qed.

Lemma exact_insert : forall s l b, exact s l -> wf (l ++ [b]) -> exact (insert_block s b) (l ++ [b]).
Proof.
  intros s l b EX W. pose proof (wf_snoc _ _ W) as [[U P] G]. destruct W as [UB _].
  pose proof (uniq_in_nodup _ b UB ltac:(apply in_app_iff; cbn; auto)) as NB.
  destruct (uniq_app _ _ UB) as (_ & _ & FH & FP & FR).
  assert (NS : forall h, In h (hashes_of b) -> forall x t, In x l -> ~ In (h, t) (sends_of x)).
  { intros h Hh x t Hx S. eapply FH; [exact Hx|left; reflexivity|eapply sends_hashes; eauto|exact Hh]. }
  assert (NR : forall h, In h (hashes_of b) -> ~ received l h).
  { intros h Hh R. destruct (received_is_sent _ _ P R) as (x & t & Hx & S). eapply NS; eauto. }
  assert (RS : forall h, In h (receives b) -> exists x, In x l /\ In (h, k_addr b) (sends_of x)).
  { intros h Hh. unfold receives in Hh. destruct (k_kind b) as [|f e|] eqn:K; [destruct Hh| |destruct Hh].
    destruct Hh as [<-|[]]. destruct G as [_ G]. destruct (G _ _ K) as (x & Hx & S). eauto. }
  assert (RN : forall h, In h (receives b) -> ~ In h (hashes_of b)).
  { intros h R Hh. destruct (RS _ R) as (x & Hx & S). eapply NS; eauto. }
  unfold exact in EX. intros k v. rewrite get_insert_block. destruct k as [h|a n|h|a h].
  - (* hash *)
    destruct (zin h (hashes_of b)) eqn:E.
    + apply zin_In in E. split.
      * intros [= <-]. exists b. repeat split; auto; apply in_app_iff; cbn; auto.
      * destruct v; cbn [means]; try tauto. intros (x & Hx & Hh & Pl).
        apply in_app_iff in Hx as [Hx|[<-|[]]]; [destruct (FH x b h Hx (or_introl eq_refl) Hh E)|].
        unfold place in Pl; injection Pl as <- <-; reflexivity.
    + apply zin_false in E. rewrite EX. destruct v; cbn [means]; try tauto. split.
      * intros (x & Hx & R). exists x; split; auto; apply in_app_iff; auto.
      * intros (x & Hx & Hh & Pl). apply in_app_iff in Hx as [Hx|[<-|[]]]; [eauto|tauto].
  - (* height *)
    destruct ((a =? k_addr b) && (n =? k_height b)) eqn:E.
    + apply andb_true_iff in E as [E1 E2]. apply Z.eqb_eq in E1, E2; subst. split.
      * intros [= <-]. exists b. repeat split; auto; apply in_app_iff; cbn; auto.
      * destruct v; cbn [means]; try tauto. intros (x & Hx & Pl & <-).
        apply in_app_iff in Hx as [Hx|[<-|[]]]; [destruct (FP x b Hx (or_introl eq_refl) Pl)|reflexivity].
    + rewrite EX. destruct v; cbn [means]; try tauto. split.
      * intros (x & Hx & R). exists x; split; auto; apply in_app_iff; auto.
      * intros (x & Hx & Pl & Hh). apply in_app_iff in Hx as [Hx|[<-|[]]]; [eauto|].
        unfold place in Pl. inversion Pl; subst. rewrite !Z.eqb_refl in E; discriminate.
  - (* received *)
    destruct (zin h (map fst (sends_of b))) eqn:E.
    + apply zin_In, in_map_fst in E as (t & E). pose proof (sends_hashes _ _ _ E) as Hh.
      split.
      * intros [= <-]. cbn [means]. split; [exists t; apply sent_snoc; auto|].
        rewrite received_snoc. intros [R|R]; [eapply NR; eauto|eapply RN; eauto].
      * destruct v; cbn [means]; try tauto. intros (x & Hx & Hr & _). exfalso.
        assert (R : received (l ++ [b]) h) by (exists x; auto).
        apply received_snoc in R as [R|R]; [eapply NR; eauto|eapply RN; eauto].
    + apply zin_false in E. rewrite in_map_fst in E.
      destruct (zin h (receives b)) eqn:E'.
      * apply zin_In in E'. split.
        -- intros [= <-]. exists b. repeat split; auto; apply in_app_iff; cbn; auto.
        -- destruct v; cbn [means]; try tauto.
           ++ intros (x & Hx & Hr & <-). apply in_app_iff in Hx as [Hx|[<-|[]]]; [|reflexivity].
              destruct (FR x b h Hx (or_introl eq_refl) Hr E').
           ++ intros [_ N]. exfalso; apply N, received_snoc; auto.
      * apply zin_false in E'. rewrite EX. destruct v; cbn [means]; try tauto.
        -- split.
           ++ intros (x & Hx & R). exists x; split; auto; apply in_app_iff; auto.
           ++ intros (x & Hx & Hr & Hh). apply in_app_iff in Hx as [Hx|[<-|[]]]; [eauto|tauto].
        -- rewrite received_snoc. split.
           ++ intros [(t & S) N]. split; [exists t; apply sent_snoc; auto|tauto].
           ++ intros [(t & S) N]. apply sent_snoc in S as [S|S]; [split; eauto|exfalso; eauto].
  - (* on road *)
    destruct (pin (h, a) (sends_of b)) eqn:E.
    + apply pin_In in E. pose proof (sends_hashes _ _ _ E) as Hh. split.
      * intros [= <-]. cbn [means]. split; [apply sent_snoc; auto|].
        rewrite received_snoc. intros [R|R]; [eapply NR; eauto|eapply RN; eauto].
      * destruct v; cbn [means]; tauto.
    + apply pin_false in E. destruct (zin h (receives b) && (a =? k_addr b)) eqn:E'.
      * apply andb_true_iff in E' as [E1 E2]. apply zin_In in E1. split; [discriminate|].
        destruct v; cbn [means]; try tauto. intros [_ N]. exfalso; apply N, received_snoc; auto.
      * rewrite EX. destruct v; cbn [means]; try tauto.
        rewrite received_snoc, sent_snoc. split; [|tauto].
        intros [S N]. split; auto. intros [R|R]; [auto|].
        (* the addressee of a received block is the receiver *)
        destruct (RS _ R) as (x & Hx & Sx). destruct S as (y & Hy & Sy).
        assert (x = y).
        { destruct U as (U1 & _). exact (nodup_flat_inj hashes_of l U1 x y h Hx Hy (sends_hashes _ _ _ Sx) (sends_hashes _ _ _ Sy)). }
        subst y. assert (a = k_addr b) by exact (sends_functional _ (uniq_in_nodup _ _ U Hx) _ _ _ Sy Sx).
        subst a. apply zin_In in R. rewrite R, Z.eqb_refl in E'. discriminate.
Qed.
