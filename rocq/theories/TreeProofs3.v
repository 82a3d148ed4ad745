(** * The candidate tree: single moves that keep the invariant *)
From Coq Require Import ZArith List Bool Lia Permutation.
From Verif Require Import Lib TreeModel TreeSpec TreeProofs TreeProofs2.
Import ListNotations.
Local Open Scope Z_scope.

(** Same blocks, head and tail *)
Definition same_core (b b' : br) : Prop :=
  b_blocks b' = b_blocks b /\ b_head b' = b_head b /\ b_headX b' = b_headX b /\ b_tail b' = b_tail b /\ b_tailX b' = b_tailX b.
Lemma same_core_refl b : same_core b b. Proof. repeat split. Qed.
Lemma wfb_core b b' : same_core b b' -> wfb b -> wfb b'.
Proof.
  intros (A & B & C & D & E) W. destruct W. constructor; rewrite ?A, ?B, ?C, ?D, ?E; assumption.
Qed.
(** No branch of [L] loses its head *)
Definition grow (t t' : tree) (L : list Z) : Prop :=
  forall x b, In x L -> bget t x = Some b -> exists b', bget t' x = Some b' /\ b_head b <= b_head b'.

Lemma share_keep t t' L x r lo lo' : In x L -> In r L -> keep t t' L -> grow t t' L -> share t x r lo -> lo' <= lo -> share t' x r lo'.
Proof.
  intros A B K G (h & k & bx & b & B1 & B2 & H1 & H2 & H3 & S1 & S2) Hl.
  destruct (G x bx A B1) as (bx' & B1' & G1). destruct (G r b B B2) as (b' & B2' & G2).
  exists h, k, bx', b'. repeat split; try assumption; try lia.
  - exact (K x bx h k A B1 H2 S1).
  - exact (K r b h k B B2 H3 S2).
Qed.
Lemma attached_keep t t' L rk ex ex' m x bx bx' r :
  attached t L rk ex m x bx r -> In x L -> keep t t' L -> grow t t' L ->
  b_tail bx' = b_tail bx -> b_tailX bx' = b_tailX bx ->
  (exists b, bget t r = Some b) ->
  (r <> m -> forall b b', bget t r = Some b -> bget t' r = Some b' -> eff ex' r b' <= eff ex r b) ->
  attached t' L rk ex' m x bx' r.
Proof.
  intros A Hx K G T X [b B] E. destruct A as [A1 A2 A3 A4 A5 A6]. specialize (A4 b B).
  destruct (G r b A1 B) as (b' & B' & Hb). constructor; try assumption.
  - intros c C. rewrite B' in C. injection C as <-. lia.
  - destruct A5 as (k & S & Hk). exists k. rewrite T, X. split; [|exact Hk]. exact (K r b _ k A1 B A4 S).
  - intros N c C. rewrite B' in C. injection C as <-. destruct (A6 N b B) as [P Q]. specialize (E N b b' B B').
    split; [lia|]. exact (share_keep t t' L x r _ _ Hx A1 K G Q E).
Qed.

Section Moves.
  Context (U : knot -> Prop) (HU : honest U).

  Lemma rank_ind (L : list Z) (rk : Z -> nat) (P : Z -> Prop) :
    (forall x, In x L -> (forall y, In y L -> (rk y < rk x)%nat -> P y) -> P x) -> forall x, In x L -> P x.
  Proof.
    intro H. assert (X : forall n x, (rk x < n)%nat -> In x L -> P x).
    { induction n as [|n IH]; intros x Hr Hx; [lia|]. apply H; [exact Hx|]. intros y Hy Hl. apply IH; [lia|exact Hy]. }
    intros x Hx. exact (X (S (rk x)) x (le_n _) Hx).
  Qed.

  (** ** One branch changes its blocks *)
  Lemma inv_put t t' L rk ex ex' det m x b b' :
    inv U t L rk ex det m -> In x L -> bget t x = Some b ->
    bget t' x = Some b' -> (forall y, y <> x -> bget t' y = bget t y) ->
    t_list t' = t_list t -> t_next t' = t_next t -> disk_ok t' -> Forall U (t_disk t') -> base t' = base t ->
    b_root b' = b_root b -> b_kids b' = b_kids b -> b_head b <= b_head b' ->
    wfb b' -> (forall h k, mget h (b_blocks b') = Some k -> U k) -> base t <= b_tail b' ->
    keep t t' L ->
    (forall r, b_root b = Node r -> attached t' L rk ex' m x b' r) ->
    (forall bm, bget t' m = Some bm -> b_tail bm = top t' /\ b_tailX bm = k_hash (disk_head t')) ->
    (x <> m -> eff ex' x b' <= eff ex x b) ->
    (forall r c, r <> x -> eff ex' r c = eff ex r c) ->
    inv U t' L rk ex' det m.
  Proof.
    intros I Hx B B' Ho Hl Hn D DU Hbs Rr Rk Hh W V T K Ar Am E1 E2.
    assert (G : grow t t' L).
    { intros y c Hy C. destruct (Z.eq_dec y x) as [->|N].
      - rewrite B in C. injection C as <-. eauto.
      - exists c. rewrite Ho by exact N. split; [exact C|lia]. }
    constructor; try assumption.
    - apply (v_nodup _ _ _ _ _ _ _ I).
    - apply (v_main _ _ _ _ _ _ _ I).
    - rewrite Hl. apply (v_list _ _ _ _ _ _ _ I).
    - intros y Hy. destruct (v_get _ _ _ _ _ _ _ I y Hy) as [c C]. destruct (G y c Hy C) as (c' & C' & _). eauto.
    - intros y c Hy C. rewrite Hbs. destruct (Z.eq_dec y x) as [->|N].
      + rewrite B' in C. injection C as <-. split; [exact W|]. split; [exact V|]. split; [exact T|]. rewrite Rk.
        destruct (v_wf _ _ _ _ _ _ _ I x b Hx B) as (_ & _ & _ & Q). exact Q.
      + rewrite Ho in C by exact N. exact (v_wf _ _ _ _ _ _ _ I y c Hy C).
    - rewrite Hn. intros y c C. destruct (Z.eq_dec y x) as [->|N].
      + exact (v_next _ _ _ _ _ _ _ I x b B).
      + rewrite Ho in C by exact N. exact (v_next _ _ _ _ _ _ _ I y c C).
    - intros y c Hy C. destruct (Z.eq_dec y x) as [->|N].
      + rewrite B' in C. injection C as <-. rewrite Rr. destruct (b_root b) as [|r] eqn:Er; [|now apply Ar].
        pose proof (v_root _ _ _ _ _ _ _ I x b Hx B) as R. rewrite Er in R. destruct R as (-> & _). split; [reflexivity|]. now apply Am.
      + assert (C0 : bget t y = Some c) by (rewrite <- Ho by exact N; exact C).
        pose proof (v_root _ _ _ _ _ _ _ I y c Hy C0) as R. destruct (b_root c) as [|r] eqn:Er.
        * destruct R as (-> & _). split; [reflexivity|]. now apply Am.
        * pose proof (a_in _ _ _ _ _ _ _ _ R) as Hr.
          apply (attached_keep t t' L rk ex ex' m y c c r R Hy K G eq_refl eq_refl (v_get _ _ _ _ _ _ _ I r Hr)).
          intros Nr d d' D1 D2. destruct (Z.eq_dec r x) as [->|N'].
          -- rewrite B in D1. injection D1 as <-. rewrite B' in D2. injection D2 as <-. now apply E1.
          -- rewrite Ho in D2 by exact N'. rewrite D1 in D2. injection D2 as <-. rewrite E2 by exact N'. lia.
    - intros y c z Hy C.
      assert (Q : forall w e, bget t' w = Some e -> exists e0, bget t w = Some e0 /\ b_root e = b_root e0).
      { intros w e F. destruct (Z.eq_dec w x) as [->|N]; [exists b; rewrite B' in F; injection F as <-; now split|].
        rewrite Ho in F by exact N. eauto. }
      assert (Q' : forall w e, bget t w = Some e -> exists e0, bget t' w = Some e0 /\ b_root e0 = b_root e).
      { intros w e F. destruct (Z.eq_dec w x) as [->|N]; [exists b'; rewrite B in F; injection F as <-; now split|].
        exists e. rewrite Ho by exact N. now split. }
      assert (X : exists c0, bget t y = Some c0 /\ b_kids c = b_kids c0).
      { destruct (Z.eq_dec y x) as [->|N]; [exists b; rewrite B' in C; injection C as <-; now split|].
        rewrite Ho in C by exact N. eauto. }
      destruct X as (c0 & C0 & ->). rewrite (v_kids _ _ _ _ _ _ _ I y c0 z Hy C0). split.
      + intros (P1 & (e & P2 & P3) & P4). split; [exact P1|]. split; [|exact P4].
        destruct (Q' z e P2) as (e0 & F1 & F2). exists e0. split; congruence.
      + intros (P1 & (e & P2 & P3) & P4). split; [exact P1|]. split; [|exact P4].
        destruct (Q z e P2) as (e0 & F1 & F2). exists e0. split; congruence.
  Qed.

  Lemma inv_ex t L rk det m x b : inv U t L rk None det m -> bget t x = Some b -> inv U t L rk (Some (x, b_tail b)) det m.
  Proof.
    intros I B. constructor; try apply I. intros y c Hy C. pose proof (v_root _ _ _ _ _ _ _ I y c Hy C) as R.
    destruct (b_root c) as [|r]; [exact R|]. destruct R as [R1 R2 R3 R4 R5 R6]. constructor; try assumption.
    intros N d D. specialize (R6 N d D). unfold eff in *. destruct (Z.eqb_spec x r) as [->|]; [|exact R6].
    rewrite B in D. injection D as <-. exact R6.
  Qed.
  Lemma inv_fields t L rk ex det m s : inv U t L rk ex det m -> inv U (set_hashes t s) L rk ex det m.
  Proof.
    assert (E : forall y, bget (set_hashes t s) y = bget t y) by reflexivity.
    assert (S : forall rf h k, sees t rf h k -> sees (set_hashes t s) rf h k).
    { intros rf h k H. induction H; [now constructor|]. apply (s_up _ x b); assumption. }
    intro I. destruct I as [I1 I2 I3 I4 I5 I6 I7 I8 I9 I10]. constructor; try assumption.
    intros x b Hx B. specialize (I9 x b Hx B). destruct (b_root b) as [|r]; [exact I9|].
    destruct I9 as [R1 R2 R3 R4 R5 R6]. constructor; try assumption.
    - destruct R5 as (k & P & Q). exists k. split; [now apply S|exact Q].
    - intros N c C. destruct (R6 N c C) as [P (h & k & q1 & q2 & q)]. split; [exact P|].
      exists h, k, q1, q2. intuition.
  Qed.
  Lemma keep_fields t L s : keep t (set_hashes t s) L.
  Proof.
    intros x b h k _ _ _ H. induction H; [now constructor|]. apply (s_up _ x0 b0); assumption.
  Qed.
  Lemma keep_trans t1 t2 t3 L L' : keep t1 t2 L -> keep t2 t3 L' -> grow t1 t2 L -> incl L L' -> keep t1 t3 L.
  Proof.
    intros A B G IL x b h k Hx E H S. destruct (G x b Hx E) as (b' & E' & Hb).
    apply (B x b' h k (IL x Hx) E'); [lia|]. exact (A x b h k Hx E H S).
  Qed.

  (** Only [x] changes: the others see the same if [x] does *)
  Lemma keep_one t t' L rk ex det m x b b' :
    inv U t L rk ex det m -> In x L -> bget t x = Some b ->
    bget t' x = Some b' -> (forall y, y <> x -> bget t' y = bget t y) ->
    (x <> m -> forall h, disk_get t' h = disk_get t h) ->
    (forall h k, h <= b_head b -> sees t (Node x) h k ->
       (forall q c, In q L -> (rk q < rk x)%nat -> bget t q = Some c -> h <= b_head c -> sees t (Node q) h k -> sees t' (Node q) h k) ->
       sees t' (Node x) h k) ->
    keep t t' L.
  Proof.
    intros I Hx B Bx' Bo Dk Kx. intros y c h k' Hy. revert c h k'. revert y Hy.
    apply (rank_ind L rk (fun y => forall c h k', bget t y = Some c -> h <= b_head c -> sees t (Node y) h k' -> sees t' (Node y) h k')).
    intros y Hy IH c h k' C H S. destruct (Z.eq_dec y x) as [->|N].
    - rewrite B in C. injection C as <-. apply Kx; [exact H|exact S|].
      intros q d Hq Hr D Hd Sq. exact (IH q Hq Hr d h k' D Hd Sq).
    - assert (C' : bget t' y = Some c) by (rewrite Bo by exact N; exact C).
      inversion S as [rf h0 k1 F|z d h0 k1 F G S']; subst.
      + constructor. rewrite (local_node t' y c h C'). now rewrite (local_node t y c h C) in F.
      + rewrite C in G. injection G as <-. apply (s_up t' y c); [|exact C'|].
        * rewrite (local_node t' y c h C'). now rewrite (local_node t y c h C) in F.
        * destruct (b_root c) as [|q] eqn:Eq.
          { pose proof (v_root _ _ _ _ _ _ _ I y c Hy C) as R. rewrite Eq in R. destruct R as (-> & _).
            rewrite sees_disk in *. rewrite Dk; [exact S'|congruence]. }
          pose proof (rootn U t L rk _ det m I y c q Hy C Eq) as Aq. pose proof (a_in _ _ _ _ _ _ _ _ Aq) as Hq.
          destruct (v_get _ _ _ _ _ _ _ I q Hq) as [d D]. pose proof (a_le _ _ _ _ _ _ _ _ Aq d D).
          apply (IH q Hq (a_rank _ _ _ _ _ _ _ _ Aq) d h k' D); [|exact S'].
          destruct (Z_le_gt_dec h (b_tail c)); [lia|].
          destruct (w_full c (wf_of U t L rk _ det m I y c Hy C) h) as [z Z]; [lia|]. rewrite (local_node t y c h C) in F. congruence.
  Qed.

  (** ** Dropping the lowest block when the root has it (branch.go 85-99) *)
  Lemma drop_move t L rk x lo det m b r k :
    inv U t L rk (Some (x, lo)) det m -> In x L -> bget t x = Some b -> b_root b = Node r ->
    mget (b_tail b + 1) (b_blocks b) = Some k -> sees t (Node r) (b_tail b + 1) k ->
    (forall c, bget t r = Some c -> b_tail b + 1 <= b_head c) ->
    exists b', remove_tail b k = Some b' /\ b_root b' = Node r /\ b_head b' = b_head b /\ b_headX b' = b_headX b /\
      b_kids b' = b_kids b /\ b_tail b' = b_tail b + 1 /\ (forall h, b_tail b + 1 < h -> mget h (b_blocks b') = mget h (b_blocks b)) /\
      inv U (bput t x b') L rk (Some (x, lo)) det m /\ keep t (bput t x b') L.
  Proof.
    intros I Hx B Er Hk Hs Hc.
    pose proof (wf_of U t L rk _ det m I x b Hx B) as W.
    destruct (w_dom b W _ _ Hk) as [R Hh]. pose proof (w_first b W k Hk) as P.
    pose proof (rootn U t L rk _ det m I x b r Hx B Er) as At.
    unfold remove_tail. rewrite P, Z.eqb_refl. cbn [negb].
    destruct (Z.gtb_spec (k_height k) (b_head b)) as [X|_]; [lia|].
    eexists. split; [reflexivity|]. cbn [b_root b_head b_headX b_kids b_tail b_blocks]. rewrite Hh.
    do 5 (split; [first [exact Er|reflexivity]|]).
    split. { intros h H. rewrite mget_mdel. destruct (Z.eqb_spec h (b_tail b + 1)); [lia|reflexivity]. }
    set (b' := mkbr _ _ _ _ _ _ _). set (t' := bput t x b').
    assert (Bx' : bget t' x = Some b') by apply bget_same.
    assert (Bo : forall y, y <> x -> bget t' y = bget t y) by (intros y N; now apply bget_other).
    assert (K : keep t t' L).
    { apply (keep_one t t' L rk (Some (x, lo)) det m x b b' I Hx B Bx' Bo); [reflexivity|].
      intros h k' H S IH. destruct (Z_le_gt_dec h (b_tail b + 1)) as [LE|GT].
      - assert (Q : sees t (Node r) h k').
        { destruct (Z.eq_dec h (b_tail b + 1)) as [->|N].
          - apply (sees_own U t L rk _ det m I x b _ _ Hx B) in S; [|lia]. rewrite Hk in S. injection S as <-. exact Hs.
          - apply (sees_root U t L rk _ det m I x b _ _ Hx B) in S; [|lia]. now rewrite Er in S. }
        destruct (v_get _ _ _ _ _ _ _ I r (a_in _ _ _ _ _ _ _ _ At)) as [c C]. specialize (Hc c C).
        apply (s_up t' x b'); [|exact Bx'|].
        + rewrite (local_node t' x b' h Bx'). cbn [b' b_blocks]. rewrite mget_mdel.
          destruct (Z.eqb_spec h (b_tail b + 1)); [reflexivity|].
          destruct (mget h (b_blocks b)) eqn:F; [|reflexivity]. apply (w_dom b W) in F. lia.
        + cbn [b' b_root]. rewrite Er. apply (IH r c (a_in _ _ _ _ _ _ _ _ At) (a_rank _ _ _ _ _ _ _ _ At) C); [lia|exact Q].
      - apply (sees_own U t L rk _ det m I x b _ _ Hx B) in S; [|lia]. constructor.
        rewrite (local_node t' x b' h Bx'). cbn [b' b_blocks]. rewrite mget_mdel.
        destruct (Z.eqb_spec h (b_tail b + 1)); [lia|exact S]. }
    split; [|exact K].
    pose proof (v_wf _ _ _ _ _ _ _ I x b Hx B) as (_ & V & T & _).
    apply (inv_put t t' L rk (Some (x, lo)) (Some (x, lo)) det m x b b' I Hx B Bx' Bo); try reflexivity; try exact K.
    - apply (v_disk _ _ _ _ _ _ _ I).
    - apply (v_diskU _ _ _ _ _ _ _ I).
    - constructor; cbn [b' b_tail b_head b_blocks b_tailX b_headX].
      + lia.
      + intros h k' F. rewrite mget_mdel in F. destruct (Z.eqb_spec h (b_tail b + 1)); [discriminate|].
        destruct (w_dom b W _ _ F). lia.
      + intros h H. rewrite mget_mdel. destruct (Z.eqb_spec h (b_tail b + 1)); [lia|]. apply (w_full b W). lia.
      + intros k' F. rewrite mget_mdel in F. destruct (_ =? _); [discriminate|].
        exact (w_link b W _ _ _ Hk F).
      + intros h k1 k2 F1 F2. rewrite mget_mdel in F1, F2. destruct (_ =? _) in F1; [discriminate|]. destruct (_ =? _) in F2; [discriminate|].
        exact (w_link b W _ _ _ F1 F2).
      + intro Q. assert (X : mget (b_head b) (b_blocks b) = Some k) by (rewrite Q; exact Hk). exact (w_head b W k X).
      + intros k' F. rewrite mget_mdel in F. destruct (_ =? _); [discriminate|]. exact (w_head b W _ F).
      + apply mdel_nodup. apply W.
    - intros h k' F. cbn [b' b_blocks] in F. rewrite mget_mdel in F. destruct (_ =? _); [discriminate|]. eauto.
    - cbn [b' b_tail]. lia.
    - intros r' Er'. rewrite Er in Er'. injection Er' as <-.
      destruct (v_get _ _ _ _ _ _ _ I r (a_in _ _ _ _ _ _ _ _ At)) as [c C]. specialize (Hc c C).
      assert (Nr : r <> x) by (intros ->; pose proof (a_rank _ _ _ _ _ _ _ _ At); lia).
      destruct At as [A1 A2 A3 A4 A5 A6]. constructor; try assumption.
      + intros d D. rewrite Bo in D by exact Nr. rewrite C in D. injection D as <-. exact Hc.
      + exists k. split; [|reflexivity]. exact (K r c _ k A1 C Hc Hs).
      + intros N d D. rewrite Bo in D by exact Nr. destruct (A6 N d D) as [Q1 Q2]. split; [cbn [b' b_tail]; lia|].
        refine (share_keep t t' L x r _ _ Hx A1 K _ Q2 (Z.le_refl _)).
        intros y e Hy E. destruct (Z.eq_dec y x) as [->|Ny].
        * exists b'. split; [exact Bx'|]. rewrite B in E. injection E as <-. cbn [b' b_head]. lia.
        * exists e. rewrite Bo by exact Ny. split; [exact E|lia].
    - intros bm Bm. destruct (v_get _ _ _ _ _ _ _ I m (v_main _ _ _ _ _ _ _ I)) as [c C].
      assert (Nm : m <> x).
      { intro. subst m. exact (a_not _ _ _ _ _ _ _ _ At eq_refl). }
      rewrite Bo in Bm by exact Nm. rewrite C in Bm. injection Bm as <-.
      pose proof (v_root _ _ _ _ _ _ _ I m c (v_main _ _ _ _ _ _ _ I) C) as Rm. destruct (b_root c) as [|q].
      + destruct Rm as (_ & R1 & R2). now split.
      + exfalso. exact (a_not _ _ _ _ _ _ _ _ Rm eq_refl).
    - intros _. unfold eff. rewrite !Z.eqb_refl. lia.
  Qed.
End Moves.
