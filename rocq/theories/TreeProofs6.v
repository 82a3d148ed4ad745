(** * The candidate tree: pruning a branch *)
From Coq Require Import ZArith List Bool Lia Permutation.
From Verif Require Import Lib TreeModel TreeSpec TreeProofs TreeProofs2 TreeProofs3 TreeProofs4 TreeProofs5.
Import ListNotations.
Local Open Scope Z_scope.

(** The number of branches between [x] and the ledger *)
Inductive up (t : tree) : nat -> Z -> Prop :=
| u_disk x b : bget t x = Some b -> b_root b = Disk -> up t 0 x
| u_node n x b r : bget t x = Some b -> b_root b = Node r -> up t n r -> up t (S n) x.
(** The first block of [x] is also its parent's *)
Definition dup (t : tree) (b : br) (r : Z) : Prop :=
  exists k c, bget t r = Some c /\ mget (b_tail b + 1) (b_blocks b) = Some k /\ b_tail b + 1 <= b_head c /\ sees t (Node r) (b_tail b + 1) k.
(** No branch on the way to the ledger starts with a block of its parent *)
Inductive clean (t : tree) : Z -> Prop :=
| c_disk x b : bget t x = Some b -> b_root b = Disk -> clean t x
| c_node x b r : bget t x = Some b -> b_root b = Node r -> clean t r -> ~ dup t b r -> clean t x.
(** Heads stay *)
Definition heads (t t' : tree) (L : list Z) : Prop :=
  forall y c, In y L -> bget t y = Some c -> exists c', bget t' y = Some c' /\ b_head c' = b_head c /\ b_headX c' = b_headX c.
Lemma heads_refl t L : heads t t L. Proof. intros y c _ C. eauto. Qed.
Lemma heads_trans a b c L L' : heads a b L -> heads b c L' -> incl L L' -> heads a c L.
Proof.
  intros H1 H2 S y d Hy D. destruct (H1 y d Hy D) as (d1 & D1 & A & B). destruct (H2 y d1 (S y Hy) D1) as (d2 & D2 & A2 & B2).
  exists d2. repeat split; congruence.
Qed.
Lemma heads_grow t t' L : heads t t' L -> grow t t' L.
Proof. intros H y c Hy C. destruct (H y c Hy C) as (c' & C' & A & _). exists c'. split; [exact C'|lia]. Qed.
Lemma recore_heads t t' L : recore t t' -> heads t t' L.
Proof. intros R y c _ C. destruct (recore_get t t' y c R C) as (c' & C' & (_ & A & B & _)). eauto. Qed.
Lemma keep_refl t L : keep t t L. Proof. intros ? ? ? ? _ _ _ X. exact X. Qed.
Lemma keep_sub t t' L L' : keep t t' L -> incl L' L -> keep t t' L'.
Proof. intros K S x b h k Hx. exact (K x b h k (S x Hx)). Qed.

Section Prune.
  Context (U : knot -> Prop) (HU : honest U).

  Lemma up_exists t L rk ex det m : inv U t L rk ex det m -> forall x, In x L -> exists n, up t n x /\ (n < length L)%nat.
  Proof.
    intro I. assert (X : forall x, In x L -> forall seen, NoDup seen -> (forall y, In y seen -> (rk x < rk y)%nat /\ In y L) ->
      exists n, up t n x /\ (n + length seen < length L)%nat).
    { apply (rank_ind L rk (fun x => forall seen, NoDup seen -> (forall y, In y seen -> (rk x < rk y)%nat /\ In y L) ->
        exists n, up t n x /\ (n + length seen < length L)%nat)).
      intros x Hx IH seen ND Hs.
      assert (ND' : NoDup (x :: seen)) by (constructor; [intro X; apply Hs in X; lia|exact ND]).
      assert (Len : (length (x :: seen) <= length L)%nat).
      { apply NoDup_incl_length; [exact ND'|]. intros y [<-|Y]; [exact Hx|now apply Hs]. }
      destruct (v_get _ _ _ _ _ _ _ I x Hx) as [b B]. pose proof (v_root _ _ _ _ _ _ _ I x b Hx B) as R.
      destruct (b_root b) as [|r] eqn:Er.
      - exists 0%nat. split; [now apply (u_disk t x b)|]. cbn [length] in Len. lia.
      - pose proof (a_rank _ _ _ _ _ _ _ _ R) as Rk. destruct (IH r (a_in _ _ _ _ _ _ _ _ R) Rk (x :: seen) ND') as (n & Hu & Hl).
        + intros y [<-|Y]; [now split|]. split; [apply Hs in Y; lia|now apply Hs].
        + exists (S n). split; [now apply (u_node t n x b r)|]. cbn [length] in Hl. lia. }
    intros x Hx. destruct (X x Hx [] (NoDup_nil _)) as (n & Hu & Hl); [intros ? []|]. exists n. split; [exact Hu|]. cbn [length] in Hl. lia.
  Qed.

  (** Sharing with the ancestors does not change when only higher ranks do *)
  Lemma clean_frozen t t' L rk ex det ex' det' m : inv U t L rk ex det m -> inv U t' L rk ex' det' m -> keep t t' L -> base t' = base t ->
    forall x, clean t x -> In x L ->
    (forall y c, In y L -> (rk y <= rk x)%nat -> bget t y = Some c -> exists c', bget t' y = Some c' /\ same_core c c' /\ b_root c' = b_root c) ->
    clean t' x.
  Proof.
    intros I I' K Eb x C. induction C as [x b B E|x b r B E C IH D]; intros Hx H.
    - destruct (H x b Hx (le_n _) B) as (b' & B' & _ & R). apply (c_disk t' x b' B'). congruence.
    - destruct (H x b Hx (le_n _) B) as (b' & B' & SC & R). pose proof (rootn U t L rk _ _ m I x b r Hx B E) as At.
      pose proof (a_in _ _ _ _ _ _ _ _ At) as Hr. pose proof (a_rank _ _ _ _ _ _ _ _ At) as Rk.
      apply (c_node t' x b' r B'); [congruence| |].
      + apply IH; [exact Hr|]. intros y c Hy Ry. apply H; [exact Hy|lia].
      + intros (k & c' & C' & F & Hh & S). apply D. destruct SC as (S1 & S2 & S3 & S4 & S5). rewrite S1, S4 in F. rewrite S4 in Hh, S.
        destruct (v_get _ _ _ _ _ _ _ I r Hr) as [c Cc]. destruct (H r c Hr ltac:(lia) Cc) as (c2 & C2 & (_ & T2 & _) & _).
        rewrite C' in C2. injection C2 as <-. exists k, c. split; [exact Cc|]. split; [exact F|]. split; [lia|].
        pose proof (tail_le U t L rk _ _ m I x b Hx B).
        destruct (sees_all U t L rk _ _ m I r Hr c (b_tail b + 1) Cc ltac:(lia)) as (k2 & S2' & _).
        pose proof (K r c (b_tail b + 1) k2 Hr Cc ltac:(lia) S2') as S3'. now rewrite (sees_fun _ _ _ _ _ S S3').
  Qed.

  (** ** The loop that drops shared blocks *)
  Lemma bput_same t x b : fields t (bput t x b).
  Proof. repeat split. Qed.
  Lemma drop_loop x r lo L rk m : forall n t b removed,
    inv U t L rk (Some (x, lo)) None m -> In x L -> bget t x = Some b -> b_root b = Node r -> n = Z.to_nat (size b) ->
    exists t' b' rem', drop_shared n t x (Node r) (b_tail b + 1) removed = Some (t', rem') /\
      inv U t' L rk (Some (x, lo)) None m /\ keep t t' L /\ bget t' x = Some b' /\ b_root b' = Node r /\ b_head b' = b_head b /\
      b_headX b' = b_headX b /\ b_kids b' = b_kids b /\ b_tail b <= b_tail b' /\ (forall y, y <> x -> bget t' y = bget t y) /\
      t_list t' = t_list t /\ t_main t' = t_main t /\ t_next t' = t_next t /\ t_disk t' = t_disk t /\ ~ dup t' b' r /\
      (forall h, In h (t_hashes t') -> In h (t_hashes t)) /\
      (rem' = true \/ (rem' = removed /\ t' = t)).
  Proof.
    induction n as [|n IH]; intros t b removed I Hx B Er Hn.
    - exists t, b, removed. cbn [drop_shared]. split; [reflexivity|]. split; [exact I|]. split; [apply keep_refl|].
      do 4 (split; [first [assumption|reflexivity]|]). split; [reflexivity|]. split; [lia|].
      do 5 (split; [first [reflexivity|intros; reflexivity]|]).
      split; [|split; [auto|right; now split]]. intros (k & c & C & F & _).
      pose proof (wf_of U t L rk _ _ m I x b Hx B) as W. apply (w_dom b W) in F. unfold size in Hn. lia.
    - pose proof (wf_of U t L rk _ _ m I x b Hx B) as W.
      assert (Hs : b_tail b < b_head b) by (unfold size in Hn; lia).
      pose proof (rootn U t L rk _ _ m I x b r Hx B Er) as At. pose proof (a_in _ _ _ _ _ _ _ _ At) as Hr.
      destruct (v_get _ _ _ _ _ _ _ I r Hr) as [c C]. pose proof (tail_le U t L rk _ _ m I x b Hx B) as Tb.
      assert (Nrx : r <> x) by (intros ->; pose proof (a_rank _ _ _ _ _ _ _ _ At); lia).
      assert (Stop : ~ dup t b r -> exists t' b' rem', Some (t, removed) = Some (t', rem') /\
        inv U t' L rk (Some (x, lo)) None m /\ keep t t' L /\ bget t' x = Some b' /\ b_root b' = Node r /\ b_head b' = b_head b /\
        b_headX b' = b_headX b /\ b_kids b' = b_kids b /\ b_tail b <= b_tail b' /\ (forall y, y <> x -> bget t' y = bget t y) /\
        t_list t' = t_list t /\ t_main t' = t_main t /\ t_next t' = t_next t /\ t_disk t' = t_disk t /\ ~ dup t' b' r /\
        (forall h, In h (t_hashes t') -> In h (t_hashes t)) /\
        (rem' = true \/ (rem' = removed /\ t' = t))).
      { intro D. exists t, b, removed. split; [reflexivity|]. split; [exact I|]. split; [apply keep_refl|].
        do 4 (split; [first [assumption|reflexivity]|]). split; [reflexivity|]. split; [lia|].
        do 5 (split; [first [reflexivity|intros; reflexivity]|]). split; [exact D|]. split; [auto|right; now split]. }
      cbn [drop_shared]. destruct (knot_and_branch t (Node r) (b_tail b + 1)) as [[k holder]|] eqn:KB.
      + pose proof (knot_and_branch_sound t (Node r) _ _ _ KB) as [Sk _].
        assert (Hh : b_tail b + 1 <= b_head c).
        { destruct (Z_le_gt_dec (b_tail b + 1) (b_head c)) as [|GT]; [assumption|].
          rewrite (knot_and_branch_above t r c (b_tail b + 1) C) in KB by lia. discriminate. }
        destruct (w_full b W (b_tail b + 1)) as [own Own]; [lia|].
        rewrite (local_node t x b _ B), Own. cbn [bind].
        pose proof (sees_inv U t L rk _ _ m I r c (b_tail b + 1) k Hr C ltac:(lia) Sk) as [_ Uk].
        assert (Uo : U own) by (destruct (v_wf _ _ _ _ _ _ _ I x b Hx B) as (_ & V & _); eauto).
        destruct (Z.eqb_spec (k_hash k) (k_hash own)) as [E|E].
        * assert (own = k) as -> by (destruct HU as [J _]; apply J; auto).
          destruct (drop_move U t L rk x lo None m b r k I Hx B Er Own Sk) as (b1 & E1 & R1 & H1 & X1 & K1 & T1 & M1 & I1 & Kp1).
          { intros d D. rewrite C in D. injection D as <-. exact Hh. }
          unfold br_remove_tail. rewrite B. cbn [bind]. rewrite E1. cbn [bind].
          set (t1 := bput t x b1) in *.
          set (t2 := match holder with Disk => knot_remove t1 k | Node _ => t1 end).
          assert (I2 : inv U t2 L rk (Some (x, lo)) None m) by (unfold t2; destruct holder; [apply inv_fields; exact I1|exact I1]).
          assert (G2 : forall y, bget t2 y = bget t1 y) by (intro y; unfold t2; destruct holder; reflexivity).
          assert (B2 : bget t2 x = Some b1) by (rewrite G2; apply bget_same).
          assert (O2 : forall y, y <> x -> bget t2 y = bget t y) by (intros y N; rewrite G2; now apply bget_other).
          assert (Gr : grow t t1 L) by (apply (grow_put t t1 L x b b1 B (bget_same _ _ _)); [intros y N; now apply bget_other|lia]).
          assert (K2 : keep t t2 L).
          { unfold t2. destruct holder; [|exact Kp1]. exact (keep_trans t t1 _ L L Kp1 (keep_fields _ _ _) Gr (incl_refl L)). }
          destruct (IH t2 b1 true I2 Hx B2 R1) as (t' & b' & rem' & E' & I' & K' & B' & R' & H' & X' & Kd' & T' & O' & F1 & F2 & F3 & F4 & D' & Hs' & Rm).
          { unfold size in *. lia. }
          rewrite T1 in E'. replace (b_tail b + 1 + 1) with (b_tail b + 1 + 1) by lia. rewrite E'.
          exists t', b', rem'. split; [reflexivity|]. split; [exact I'|].
          assert (G0 : grow t t2 L) by (apply (grow_put t t2 L x b b1 B B2 O2); lia).
          split; [exact (keep_trans t t2 t' L L K2 K' G0 (incl_refl L))|].
          split; [exact B'|]. split; [exact R'|]. split; [congruence|]. split; [congruence|]. split; [congruence|]. split; [lia|].
          split; [intros y N; rewrite O' by exact N; now apply O2|].
          assert (Ff : t_list t2 = t_list t /\ t_main t2 = t_main t /\ t_next t2 = t_next t /\ t_disk t2 = t_disk t) by (unfold t2; destruct holder; repeat split).
          destruct Ff as (Z1 & Z2 & Z3 & Z4). do 4 (split; [congruence|]). split; [exact D'|].
          split.
          { intros h Hin. apply Hs' in Hin. unfold t2 in Hin. destruct holder; [|exact Hin]. cbn [knot_remove set_hashes t_hashes] in Hin.
            apply sdel_In in Hin. apply Hin. }
          left. destruct Rm as [->|[-> _]]; reflexivity.
        * apply Stop. intros (k2 & c2 & C2 & F & _ & S2). rewrite Own in F. injection F as <-.
          apply E. now rewrite (sees_fun _ _ _ _ _ Sk S2).
      + apply Stop. intros (k2 & c2 & C2 & F & Hh & S2). rewrite C in C2. injection C2 as <-.
        destruct (knot_and_branch_sees U t L rk _ _ m I r c _ k2 Hr C Hh S2) as [rf Q]. congruence.
  Qed.

  (** ** Taking a childless branch out of the tree *)
  Lemma inv_detach t L rk m x b r c : inv U t L rk None None m -> In x L -> x <> m -> bget t x = Some b -> b_root b = Node r -> bget t r = Some c ->
    let t' := set_list (bput t r (set_kids c (sdel x (b_kids c)))) (sdel x (t_list t)) in
    recore t t' /\ inv U t' L rk None (Some x) m /\ keep t t' L /\
    (forall y d d', bget t y = Some d -> bget t' y = Some d' -> b_root d' = b_root d) /\ (forall y, y <> r -> bget t' y = bget t y).
  Proof.
    intros I Hx Nm B Er C t'. pose proof (rootn U t L rk _ _ m I x b r Hx B Er) as At. pose proof (a_in _ _ _ _ _ _ _ _ At) as Hr.
    assert (G : forall y, bget t' y = if y =? r then Some (set_kids c (sdel x (b_kids c))) else bget t y) by (intro y; apply bget_bput).
    assert (RC : recore t t').
    { split; [reflexivity|]. split; [reflexivity|]. intro y. rewrite G. destruct (Z.eqb_spec y r) as [->|].
      - rewrite C. repeat split.
      - destruct (bget t y); [apply same_core_refl|exact Logic.I]. }
    assert (RO : forall y d d', bget t y = Some d -> bget t' y = Some d' -> b_root d' = b_root d).
    { intros y d d' D D'. rewrite G in D'. destruct (Z.eqb_spec y r) as [->|]; [|congruence].
      rewrite C in D. injection D as <-. injection D' as <-. reflexivity. }
    assert (K : keep t t' L).
    { apply (keep_reroot U t t' L rk None None m rk I RC). intros y d d' h k Hy D D' Hh S. rewrite (RO y d d' D D').
      destruct (b_root d) as [|q] eqn:Eq; [now rewrite sees_disk in S|].
      pose proof (rootn U t L rk _ _ m I y d q Hy D Eq) as A. pose proof (a_in _ _ _ _ _ _ _ _ A) as Hq.
      split; [exact Hq|]. split; [apply (a_rank _ _ _ _ _ _ _ _ A)|]. destruct (v_get _ _ _ _ _ _ _ I q Hq) as [e E].
      exists e. split; [exact E|]. pose proof (a_le _ _ _ _ _ _ _ _ A e E). split; [lia|exact S]. }
    split; [exact RC|]. split; [|split; [exact K|split; [exact RO|intros y N; rewrite G; now destruct (Z.eqb_spec y r)]]].
    apply (inv_make U t t' L rk None None m rk None (Some x) m I RC).
    - apply I.
    - intros y Hy. cbn [t' set_list t_list] in Hy. apply sdel_In in Hy. destruct Hy as [Hy N].
      split; [now apply (v_list _ _ _ _ _ _ _ I)|congruence].
    - intros y d' Hy D'. rewrite G in D'. destruct (Z.eqb_spec y r) as [->|].
      + injection D' as <-. apply sdel_nodup. apply (v_wf _ _ _ _ _ _ _ I r c Hr C).
      + apply (v_wf _ _ _ _ _ _ _ I y d' Hy D').
    - intros y d' Hy D'. destruct (recore_back t t' y d' RC D') as (d & D & SC). pose proof SC as (_ & _ & _ & S4 & S5).
      rewrite (RO y d d' D D'). pose proof (v_root _ _ _ _ _ _ _ I y d Hy D) as Q. destruct (b_root d) as [|q] eqn:Eq.
      + destruct Q as (Q1 & Q2 & Q3). split; [exact Q1|]. split; [rewrite S4; exact Q2|rewrite S5; exact Q3].
      + pose proof (a_in _ _ _ _ _ _ _ _ Q) as Hq.
        apply (attached_keep t t' L rk None None m y d d' q Q Hy K (recore_grow t t' L RC) S4 S5 (v_get _ _ _ _ _ _ _ I q Hq)).
        intros _ e e' E E'. destruct (recore_get t t' q e RC E) as (e2 & E2 & (_ & _ & _ & S & _)). rewrite E' in E2. injection E2 as <-. cbn [eff]. lia.
    - intros y d' z Hy D'. destruct (recore_back t t' y d' RC D') as (d & D & _). pose proof (v_kids _ _ _ _ _ _ _ I y d z Hy D) as Q.
      assert (RZ : (exists cz, bget t' z = Some cz /\ b_root cz = Node y) <-> (exists cz, bget t z = Some cz /\ b_root cz = Node y)).
      { split; intros (cz & A & E).
        - destruct (recore_back t t' z cz RC A) as (c0 & A0 & _). exists c0. split; [exact A0|]. rewrite <- E. symmetry. exact (RO z c0 cz A0 A).
        - destruct (recore_get t t' z cz RC A) as (c0 & A0 & _). exists c0. split; [exact A0|]. rewrite <- E. exact (RO z cz c0 A A0). }
      rewrite RZ. rewrite G in D'. destruct (Z.eqb_spec y r) as [->|Ny].
      + rewrite C in D. injection D as <-. injection D' as <-. cbn [set_kids b_kids]. rewrite sdel_In, Q. split.
        * intros ((A1 & A2 & _) & N). split; [exact A1|]. split; [exact A2|congruence].
        * intros (A1 & A2 & A3). split; [|congruence]. split; [exact A1|]. split; [exact A2|discriminate].
      + rewrite D in D'. injection D' as <-. rewrite Q. split.
        * intros (A1 & A2 & A3). split; [exact A1|]. split; [exact A2|]. intro X. injection X as <-. destruct A2 as (cz & A & E). rewrite B in A. injection A as <-. congruence.
        * intros (A1 & A2 & A3). split; [exact A1|]. split; [exact A2|discriminate].
  Qed.
  (** A detached branch nobody hangs on can be forgotten *)
  Lemma inv_forget t L rk m x : inv U t L rk None (Some x) m -> x <> m ->
    (forall y c, In y L -> bget t y = Some c -> b_root c <> Node x) -> inv U t (sdel x L) rk None None m.
  Proof.
    intros I Nm H. constructor; try apply I.
    - apply sdel_nodup, I.
    - apply sdel_In. split; [apply I|congruence].
    - intros y Hy. destruct (v_list _ _ _ _ _ _ _ I y Hy) as [A B]. split; [|discriminate]. apply sdel_In. split; [exact A|congruence].
    - intros y Hy. apply sdel_In in Hy. apply (v_get _ _ _ _ _ _ _ I y (proj1 Hy)).
    - intros y c Hy C. apply sdel_In in Hy. apply (v_wf _ _ _ _ _ _ _ I y c (proj1 Hy) C).
    - intros y c Hy C. apply sdel_In in Hy. destruct Hy as [Hy N]. pose proof (v_root _ _ _ _ _ _ _ I y c Hy C) as Q.
      destruct (b_root c) as [|q] eqn:Eq; [exact Q|]. destruct Q as [A1 A2 A3 A4 A5 A6]. constructor; try assumption.
      apply sdel_In. split; [exact A1|]. intros ->. exact (H y c Hy C Eq).
    - intros y c z Hy C. apply sdel_In in Hy. destruct Hy as [Hy N]. rewrite (v_kids _ _ _ _ _ _ _ I y c z Hy C), sdel_In. split.
      + intros (A1 & A2 & A3). split; [split; [exact A1|congruence]|]. split; [exact A2|discriminate].
      + intros ((A1 & A0) & A2 & A3). split; [exact A1|]. split; [exact A2|congruence].
  Qed.

  (** ** Pruning *)
  Definition cover (t t' : tree) (y z : Z) : Prop :=
    exists c cz, bget t y = Some c /\ bget t' z = Some cz /\ b_head c <= b_head cz /\
      forall h k, h <= b_head c -> sees t (Node y) h k -> sees t' (Node z) h k.
  Record pruned (t t' : tree) (L L' : list Z) (rk : Z -> nat) (det' : option Z) (m x : Z) : Prop := {
    p_inv : inv U t' L' rk None det' m;
    p_in : In x L';
    p_incl : incl L' L;
    p_keep : keep t t' L';
    p_heads : heads t t' L';
    p_disk : t_disk t' = t_disk t;
    p_main : t_main t' = t_main t;
    p_next : t_next t' = t_next t;
    p_list : forall y, In y (t_list t') <-> In y (t_list t) /\ In y L' /\ det' <> Some y;
    p_det : det' = None \/ (det' = Some x /\ x <> m /\ (forall y c, In y L' -> bget t' y = Some c -> b_root c <> Node x) /\
                            exists z, In z L' /\ z <> x /\ cover t t' x z);
    p_clean : clean t' x;
    p_gone : forall y, In y L -> ~ In y L' -> (rk y < rk x)%nat /\ exists z, In z L' /\ det' <> Some z /\ cover t t' y z;
    p_hash : forall h, In h (t_hashes t') -> In h (t_hashes t);
    p_roots : forall y c c' q, In y L' -> bget t y = Some c -> bget t' y = Some c' -> b_root c = Node q ->
       ((rk x < rk q)%nat -> b_root c' = b_root c) /\
       (q = x -> b_root c' = Node x \/ exists bx', bget t' x = Some bx' /\ b_root c' = b_root bx') }.

  Lemma keep_sees t t' L rk ex det m x b h k : inv U t L rk ex det m -> keep t t' L -> In x L -> bget t x = Some b ->
    base t <= h <= b_head b -> sees t' (Node x) h k -> sees t (Node x) h k.
  Proof.
    intros I K Hx B H S. destruct (sees_all U t L rk _ _ m I x Hx b h B H) as (k' & S' & _).
    now rewrite (sees_fun _ _ _ _ _ S (K x b h k' Hx B (proj2 H) S')).
  Qed.

  Lemma prune_main t L rk m x b fuel : inv U t L rk None None m -> In x L -> bget t x = Some b -> b_root b = Disk -> prune (S fuel) t x = Some t.
  Proof.
    intros I Hx B Er. cbn [prune]. rewrite B. cbn [bind]. rewrite Er. cbn [bind]. rewrite B. cbn [bind]. rewrite Er.
    assert (D : drop_shared (Z.to_nat (size b)) t x Disk (b_tail b + 1) false = Some (t, false)).
    { destruct (Z.to_nat (size b)); [reflexivity|]. cbn [drop_shared knot_and_branch].
      pose proof (v_root _ _ _ _ _ _ _ I x b Hx B) as R. rewrite Er in R. destruct R as (_ & R & _).
      destruct (disk_get t (b_tail b + 1)) as [k|] eqn:E; [|reflexivity].
      apply (disk_dom t (v_disk _ _ _ _ _ _ _ I)) in E. lia. }
    rewrite D. reflexivity.
  Qed.
End Prune.
