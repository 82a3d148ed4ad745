(** * The candidate tree: emptying the main branch, and the periodic pruning *)
From Coq Require Import ZArith List Bool Lia Permutation.
From Verif Require Import Lib TreeModel TreeSpec TreeProofs TreeProofs2 TreeProofs3 TreeProofs4 TreeProofs5 TreeProofs6 TreeProofs7 TreeProofs8 TreeProofs9 TreeProofs10 TreeProofs11 TreeProofs12.
Import ListNotations.
Local Open Scope Z_scope.

(** What is in both lists of branches sees the same *)
Definition stable (t t' : tree) (L L' : list Z) : Prop :=
  forall x b, In x L -> In x L' -> bget t x = Some b ->
    exists b', bget t' x = Some b' /\ b_head b <= b_head b' /\ (forall h k, h <= b_head b -> sees t (Node x) h k -> sees t' (Node x) h k).
Lemma stable_of t t' L L' : keep t t' L' -> grow t t' L' -> stable t t' L L'.
Proof. intros K G x b _ Hx B. destruct (G x b Hx B) as (b' & B' & H). exists b'. split; [exact B'|]. split; [exact H|]. intros h k Hh. exact (K x b h k Hx B Hh). Qed.
Lemma stable_of' t t' L L' : keep t t' L -> grow t t' L -> stable t t' L L'.
Proof. intros K G x b Hx _ B. destruct (G x b Hx B) as (b' & B' & H). exists b'. split; [exact B'|]. split; [exact H|]. intros h k Hh. exact (K x b h k Hx B Hh). Qed.

Section Whole2.
  Context (U : knot -> Prop) (HU : honest U).

  Lemma main_size t L rk b : inv U t L rk None None (t_main t) -> bget t (t_main t) = Some b -> b_head b = top t -> size b = 0.
  Proof. intros I B H. destruct (main_root U t L rk _ _ _ b I B) as (_ & T & _). unfold size. lia. Qed.

  Lemma switch_empty_ok t L rk order : inv U t L rk None None (t_main t) -> (forall x, In x order -> In x (t_list t)) ->
    exists t' L' rk' b', switch_empty t order = Done t' /\ inv U t' L' rk' None None (t_main t') /\ stable t t' L L' /\
      t_disk t' = t_disk t /\ bget t' (t_main t') = Some b' /\ size b' = 0 /\ (forall h, In h (t_hashes t') -> In h (t_hashes t)) /\
      (forall x c c', In x L -> In x L' -> bget t x = Some c -> bget t' x = Some c' -> b_head c' = b_head c).
  Proof.
    intros I Ho. set (m := t_main t) in *. pose proof (v_main _ _ _ _ _ _ _ I) as Hm. destruct (v_get _ _ _ _ _ _ _ I m Hm) as [b B].
    pose proof (main_onto U t L rk _ m I) as (bm & Bm & Tm & Sm). rewrite B in Bm. injection Bm as <-. pose proof (top_base U t L rk _ _ m I) as TB.
    unfold switch_empty. fold m. rewrite B. destruct (Z.eqb_spec (size b) 0) as [E0|E0].
    - exists t, L, rk, b. split; [reflexivity|]. split; [exact I|]. split; [apply stable_of'; [apply keep_refl|apply heads_grow, heads_refl]|]. repeat split; try assumption; [auto|]. intros x c c' _ _ C C'. congruence.
    - destruct (find_empty t order) as [c|] eqn:Ef.
      + apply find_some in Ef. destruct Ef as [Hc Ec]. apply Ho in Hc. apply (v_list _ _ _ _ _ _ _ I) in Hc. destruct Hc as [Hc _].
        destruct (v_get _ _ _ _ _ _ _ I c Hc) as [bc Bc]. rewrite Bc in Ec. apply andb_true_iff in Ec. destruct Ec as [Ec E3]. apply andb_true_iff in Ec. destruct Ec as [E1 E2].
        apply Z.eqb_eq in E1, E2, E3. fold (top t) in E3.
        assert (On : onto t c).
        { exists bc. split; [exact Bc|]. split; [lia|]. assert (R : base t <= top t <= b_head bc) by lia.
          destruct (sees_all U t L rk _ _ m I c Hc bc (top t) Bc R) as (k & Sk & Hk & Uk). assert (k = disk_head t); [|congruence].
          apply (proj1 HU); [exact Uk| |].
          - pose proof (v_diskU _ _ _ _ _ _ _ I) as F. rewrite Forall_forall in F. apply F, disk_head_in, I.
          - rewrite <- E2. rewrite <- E3 in Sk. exact (sees_head U t L rk _ _ m I c bc k Hc Bc Sk). }
        destruct (switch_ok U HU t L rk c I Hc) as (t' & L' & rk' & I' & Sh & _ & [(E & Em & _)|(_ & _ & N)]); [|contradiction].
        pose proof (v_main _ _ _ _ _ _ _ I') as Hm'. destruct (v_get _ _ _ _ _ _ _ I' _ Hm') as [b' B'].
        exists t', L', rk', b'. split; [exact E|]. split; [exact I'|]. split; [apply stable_of; [apply Sh|apply heads_grow, Sh]|]. split; [apply Sh|]. split; [exact B'|].
        split; [|split; [apply Sh|intros y d d' _ Hy D D'; destruct (s_heads _ _ _ _ Sh y d Hy D) as (d2 & D2 & Q & _); congruence]]. apply (main_size t' L' rk' b' I' B'). rewrite Em in *. destruct (s_heads _ _ _ _ Sh c bc Hm' Bc) as (b2 & B2 & H2 & _). rewrite B' in B2. injection B2 as <-.
        unfold top, disk_head. rewrite (s_disk _ _ _ _ Sh). change (b_head b' = top t). congruence.
      + fold (top t). destruct (fork_ok U t L rk m m b (top t) I Hm B (conj TB Tm) (or_introl eq_refl)) as (t1 & rk1 & bn & E1 & I1 & K1 & H1 & M1 & D1 & L1 & Hs1 & NL & Bn & Hn & Sn).
        rewrite E1. set (n := t_next t + 1) in *. fold m in M1. 
        assert (On : onto t1 n).
        { exists bn. split; [exact Bn|]. unfold top, disk_head. rewrite D1. fold (disk_head t). fold (top t). split; [lia|]. apply Sn; [lia|exact Sm]. }
        rewrite <- M1 in I1. destruct (switch_ok U HU t1 (n :: L) rk1 n I1 (or_introl eq_refl)) as (t' & L' & rk' & I' & Sh & _ & [(E & Em & _)|(_ & _ & N)]); [|contradiction].
        pose proof (v_main _ _ _ _ _ _ _ I') as Hm'. destruct (v_get _ _ _ _ _ _ _ I' _ Hm') as [b' B'].
        exists t', L', rk', b'. split; [exact E|]. split; [exact I'|]. split; [|split; [|split; [exact B'|split; [|split]]]].
        * intros x c Hx Hx' C. destruct (H1 x c Hx C) as (c1 & C1 & A1 & _). destruct (s_heads _ _ _ _ Sh x c1 Hx' C1) as (c2 & C2 & A2 & _).
          exists c2. split; [exact C2|]. split; [lia|]. intros h k Hh S. apply (s_keep _ _ _ _ Sh x c1 h k Hx' C1); [lia|]. exact (K1 x c h k Hx C Hh S).
        * rewrite (s_disk _ _ _ _ Sh). exact D1.
        * apply (main_size t' L' rk' b' I' B'). rewrite Em in *. destruct (s_heads _ _ _ _ Sh n bn Hm' Bn) as (b2 & B2 & H2 & _). rewrite B' in B2. injection B2 as <-.
          unfold top, disk_head. rewrite (s_disk _ _ _ _ Sh), D1. change (b_head b' = top t). congruence.
        * intros h Hh. apply (s_hash _ _ _ _ Sh) in Hh. congruence.
        * intros y d d' Hy Hy' D D'. destruct (H1 y d Hy D) as (d1 & D1' & Q1 & _). destruct (s_heads _ _ _ _ Sh y d1 Hy' D1') as (d2 & D2 & Q2 & _). congruence.
  Qed.

  (** ** Pruning every branch *)
  Lemma prune_each_ok m : forall order t L rk, inv U t L rk None None m -> t_main t = m ->
    exists t' L', prune_each t order = Some t' /\ inv U t' L' rk None None m /\ t_main t' = m /\ shrunk t t' L L' /\
      (forall y, In y (t_list t) -> In y L' -> In y (t_list t')).
  Proof.
    induction order as [|x r IH]; intros t L rk I Em.
    - exists t, L. split; [reflexivity|]. split; [exact I|]. split; [exact Em|]. split; [apply shrunk_refl; intros y Hy; now apply (v_list _ _ _ _ _ _ _ I)|auto].
    - cbn [prune_each]. destruct (negb (sin x (t_list t)) || (x =? t_main t)) eqn:E; [now apply IH|].
      apply orb_false_iff in E. destruct E as [E1 _]. apply negb_false_iff in E1. apply sin_In in E1. apply (v_list _ _ _ _ _ _ _ I) in E1. destruct E1 as [Hx _].
      pose proof (fuel_enough U t L rk _ _ m I) as Fu. destruct (prune_shrunk U HU t L rk m x (fuel_of t) I Em Hx ltac:(lia)) as (t1 & L1 & E1 & I1 & Em1 & Sh1 & St1).
      rewrite E1. cbn [bind]. destruct (IH t1 L1 rk I1 Em1) as (t2 & L2 & E2 & I2 & Em2 & Sh2 & St2).
      exists t2, L2. split; [exact E2|]. split; [exact I2|]. split; [exact Em2|]. split; [exact (shrunk_trans t t1 t2 L L1 L2 (v_get _ _ _ _ _ _ _ I) Sh1 Sh2)|].
      intros y Y Hy. apply St2; [|exact Hy]. apply St1; [exact Y|]. now apply (s_incl _ _ _ _ Sh2).
  Qed.

  (** ** Removing leaves *)
  Lemma wfb_remove_head b k : wfb b -> b_tail b < b_head b -> mget (b_head b) (b_blocks b) = Some k ->
    exists b', remove_head b k = Some b' /\ wfb b' /\ b_head b' = b_head b - 1 /\ b_tail b' = b_tail b.
  Proof.
    intros W H E. destruct (w_dom b W _ _ E) as [R Hk]. unfold remove_head. rewrite (w_head b W k E), Z.eqb_refl. cbn [negb]. rewrite Hk.
    destruct (Z.leb_spec (b_head b) (b_tail b)); [lia|]. eexists. split; [reflexivity|]. split; [|split; reflexivity].
    constructor; cbn [b_tail b_head b_blocks b_tailX b_headX].
    - lia.
    - intros h a. rewrite mget_mdel. destruct (Z.eqb_spec h (b_head b)); [discriminate|]. intro F. apply (w_dom b W) in F. lia.
    - intros h Hh. rewrite mget_mdel. destruct (Z.eqb_spec h (b_head b)); [lia|]. apply (w_full b W). lia.
    - intros a. rewrite mget_mdel. destruct (Z.eqb_spec (b_tail b + 1) (b_head b)); [discriminate|]. apply (w_first b W).
    - intros h a a'. rewrite !mget_mdel. destruct (Z.eqb_spec h (b_head b)); [discriminate|]. destruct (Z.eqb_spec (h + 1) (b_head b)); [discriminate|]. apply (w_link b W).
    - intro Q. apply (w_first b W). now replace (b_tail b + 1) with (b_head b) by lia.
    - intros a. rewrite mget_mdel. destruct (Z.eqb_spec (b_head b - 1) (b_head b)); [discriminate|]. intro F. apply (w_link b W (b_head b - 1)); [exact F|]. now replace (b_head b - 1 + 1) with (b_head b) by lia.
    - pose proof (w_nodup b W) as ND. now apply mdel_nodup.
  Qed.
  Lemma destroy_ok x : forall n t b, bget t x = Some b -> wfb b -> n = Z.to_nat (size b) ->
    exists t' b', destroy n t x (b_head b) = Some t' /\ bget t' x = Some b' /\ (forall y, y <> x -> bget t' y = bget t y) /\
      t_list t' = t_list t /\ t_main t' = t_main t /\ t_next t' = t_next t /\ t_disk t' = t_disk t /\ (forall h, In h (t_hashes t') -> In h (t_hashes t)).
  Proof.
    induction n as [|n IH]; intros t b B W En; cbn [destroy]; rewrite B; cbn [bind]; pose proof (w_le b W) as Le; unfold size in *.
    - assert (E : b_head b = b_tail b) by lia. replace (b_head b - b_tail b =? 0) with true by (symmetry; apply Z.eqb_eq; lia). cbn [negb].
      assert (Q : b_blocks b = []) by (apply mget_nil; intro h; destruct (mget h (b_blocks b)) eqn:F; [apply (w_dom b W) in F; lia|reflexivity]).
      rewrite Q. cbn [zlen length]. exists t, b. repeat split; try assumption. auto.
    - assert (H : b_tail b < b_head b) by lia. destruct (w_full b W (b_head b)) as [k E]; [lia|]. rewrite E. cbn [bind].
      destruct (wfb_remove_head b k W H E) as (b' & E' & W' & Hb & Tb). rewrite E'. cbn [bind].
      assert (B' : bget (knot_remove (bput t x b') k) x = Some b') by (change (bget (bput t x b') x = Some b'); apply bget_same).
      destruct (IH (knot_remove (bput t x b') k) b' B' W') as (t' & b2 & D1 & D2 & D3 & D4 & D5 & D6 & D7 & D8); [lia|].
      rewrite <- Hb. exists t', b2. split; [exact D1|]. split; [exact D2|]. split; [intros y N; rewrite (D3 y N); change (bget (bput t x b') y = bget t y); now apply bget_other|].
      repeat split; try assumption. intros h Hh. apply D8 in Hh. cbn [knot_remove set_hashes t_hashes] in Hh. apply sdel_In in Hh. apply Hh.
  Qed.
  Lemma off_sees t t' L rk ex det m : inv U t L rk ex det m -> (forall y, In y L -> bget t' y = bget t y) -> t_disk t' = t_disk t ->
    forall rf h k, sees t rf h k -> (forall y, rf = Node y -> In y L) -> sees t' rf h k.
  Proof.
    intros I G Ed rf h k S. induction S as [rf h k E|x b h k E B S IH]; intro Hr.
    - constructor. destruct rf as [|y]; cbn [local] in *; [unfold disk_get in *; now rewrite Ed|]. now rewrite (G y (Hr y eq_refl)).
    - pose proof (Hr x eq_refl) as Hx. apply (s_up t' x b); [cbn [local] in *; now rewrite (G x Hx)|now rewrite (G x Hx)|]. apply IH.
      intros y Ey. pose proof (rootn U t L rk _ _ m I x b y Hx B Ey) as At. apply At.
  Qed.
  Lemma inv_off t t' L rk m : inv U t L rk None None m -> (forall y, In y L -> bget t' y = bget t y) -> t_disk t' = t_disk t -> t_list t' = t_list t -> t_next t' = t_next t ->
    (forall y b, bget t' y = Some b -> exists b0, bget t y = Some b0) -> inv U t' L rk None None m /\ keep t t' L /\ heads t t' L.
  Proof.
    intros I G Ed El En Gx. pose proof (off_sees t t' L rk _ _ m I G Ed) as S.
    assert (S' : forall y h k, In y L -> sees t (Node y) h k -> sees t' (Node y) h k) by (intros y h k Hy X; apply S; [exact X|intros z Ez; congruence]).
    split; [|split; [intros y c h k Hy _ _; now apply S'|intros y c Hy C; exists c; rewrite (G y Hy); now split]].
    destruct I as [I1 I2 I3 I4 I5 I6 I7 I8 I9 I10]. constructor; try assumption.
    - unfold disk_ok in *. now rewrite Ed.
    - now rewrite Ed.
    - now rewrite El.
    - intros y Hy. rewrite (G y Hy). auto.
    - intros y b Hy. rewrite (G y Hy). unfold base in *. rewrite Ed. apply I7. exact Hy.
    - intros y b B. rewrite En. destruct (Gx y b B) as [b0 B0]. exact (I8 y b0 B0).
    - intros y b Hy. rewrite (G y Hy). intro B. specialize (I9 y b Hy B). unfold top, disk_head in *. rewrite Ed. destruct (b_root b) as [|r]; [exact I9|].
      destruct I9 as [A1 A2 A3 A4 (k & Sk & Xk) A6]. constructor; try assumption.
      + intros c. rewrite (G r A1). apply A4.
      + exists k. split; [now apply S'|exact Xk].
      + intros N c. rewrite (G r A1). intro C. destruct (A6 N c C) as [Q1 (h & k' & bx & b' & P1 & P2 & P3 & P4 & P5 & P6 & P7)]. split; [exact Q1|].
        exists h, k', bx, b'. rewrite (G y Hy), (G r A1). repeat split; try assumption; now apply S'.
    - intros y b z Hy. rewrite (G y Hy). intro B. rewrite (I10 y b z Hy B). split; intros (A1 & A2 & A3); (split; [exact A1|]; split; [|exact A3]).
      + now rewrite (G z A1).
      + now rewrite (G z A1) in A2.
  Qed.

  Lemma sees_low t L rk ex det m : inv U t L rk ex det m -> forall rf h k, sees t rf h k -> (forall y, rf = Node y -> In y L) -> base t <= h.
  Proof.
    intros I rf h k S. induction S as [rf h k E|x b h k E B S IH]; intro Hr.
    - destruct rf as [|y]; cbn [local] in E; [apply (disk_dom t (v_disk _ _ _ _ _ _ _ I)) in E; lia|].
      destruct (bget t y) as [b|] eqn:B; [|discriminate]. cbn [bind] in E. pose proof (Hr y eq_refl) as Hy. destruct (v_wf _ _ _ _ _ _ _ I y b Hy B) as (W & _ & T & _). apply (w_dom b W) in E. lia.
    - apply IH. intros y Ey. pose proof (rootn U t L rk _ _ m I x b y (Hr x eq_refl) B Ey) as At. apply At.
  Qed.
  (** Cover at one time, carried back over a step that keeps both *)
  Lemma cover_back t t1 L L1 rk det m y z : inv U t L rk None det m -> incl L1 L -> keep t t1 L1 -> heads t t1 L1 -> In y L1 -> In z L1 -> cover t1 t1 y z -> cover t t y z.
  Proof.
    intros I Sub K H Hy Hz (c1 & cz1 & C1 & Cz1 & Hh & S). destruct (v_get _ _ _ _ _ _ _ I y (Sub y Hy)) as [c C]. destruct (v_get _ _ _ _ _ _ _ I z (Sub z Hz)) as [cz Cz].
    destruct (H y c Hy C) as (c1' & C1' & A1 & _). rewrite C1 in C1'. injection C1' as <-. destruct (H z cz Hz Cz) as (cz1' & Cz1' & A2 & _). rewrite Cz1 in Cz1'. injection Cz1' as <-.
    exists c, cz. split; [exact C|]. split; [exact Cz|]. split; [lia|]. intros h k Hk Sk.
    assert (Lo : base t <= h) by (apply (sees_low t L rk _ _ m I _ h k Sk); intros w Ew; injection Ew as <-; now apply Sub).
    pose proof (S h k ltac:(lia) (K y c h k Hy C Hk Sk)) as S1. assert (R : base t <= h <= b_head cz) by lia.
    destruct (sees_all U t L rk _ _ m I z (Sub z Hz) cz h Cz R) as (k' & S' & _). now rewrite (sees_fun _ _ _ _ _ S1 (K z cz h k' Hz Cz (proj2 R) S')).
  Qed.
  Lemma cover_refl t y c : bget t y = Some c -> cover t t y y.
  Proof. intro C. exists c, c. split; [exact C|]. split; [exact C|]. split; [lia|]. auto. Qed.
  Lemma cover_keep' t t1 t2 L1 y z : (exists c, bget t y = Some c) -> In y L1 -> keep t t1 L1 -> heads t t1 L1 -> cover t1 t2 y z -> cover t t2 y z.
  Proof.
    intros [c C] Hy K H (c1 & cz & C1 & Cz & Hh & S). destruct (H y c Hy C) as (c1' & C1' & A1 & _). rewrite C1 in C1'. injection C1' as <-.
    exists c, cz. split; [exact C|]. split; [exact Cz|]. split; [lia|]. intros h k Hk Sk. apply S; [lia|]. exact (K y c h k Hy C Hk Sk).
  Qed.

  (** What the second loop takes away: [y] was part of a branch that is still
      there, or of one nobody has touched for long *)
  Definition lost (stale : list Z) (t t' : tree) (L L' : list Z) (y : Z) : Prop :=
    (exists z, In z L' /\ cover t t' y z) \/ (exists z, In z stale /\ In z L /\ cover t t y z).
  Lemma collect_ok stale m : forall order t L rk, inv U t L rk None None m -> t_main t = m ->
    exists t' L' gone, collect stale t order = Some (t', gone) /\ inv U t' L' rk None None m /\ t_main t' = m /\ incl L' L /\ keep t t' L' /\ heads t t' L' /\ t_disk t' = t_disk t /\
      (forall y, In y (t_list t') <-> In y (t_list t) /\ In y L') /\ (forall y, In y L -> ~ In y L' -> lost stale t t' L L' y) /\
      (forall h, In h (t_hashes t') -> In h (t_hashes t)).
  Proof.
    induction order as [|x r IH]; intros t L rk I Em.
    - exists t, L, []. split; [reflexivity|]. split; [exact I|]. split; [exact Em|]. split; [apply incl_refl|]. split; [apply keep_refl|]. split; [apply heads_refl|]. split; [reflexivity|].
      split; [intro y; split; [intro Y; split; [exact Y|now apply (v_list _ _ _ _ _ _ _ I)]|tauto]|]. split; [intros y A B; contradiction|auto].
    - cbn [collect]. destruct (negb (sin x (t_list t)) || (x =? t_main t) || negb (is_garbage stale t x)) eqn:E; [now apply IH|].
      apply orb_false_iff in E. destruct E as [E E3]. apply orb_false_iff in E. destruct E as [E1 E2]. apply negb_false_iff in E1, E3. apply sin_In in E1. apply Z.eqb_neq in E2. rewrite Em in E2.
      destruct (v_list _ _ _ _ _ _ _ I x E1) as [Hx _]. destruct (v_get _ _ _ _ _ _ _ I x Hx) as [b B]. unfold is_garbage in E3. rewrite B in E3. apply andb_true_iff in E3. destruct E3 as [G1 G2].
      unfold remove_branch. rewrite Em. destruct (Z.eqb_spec x m) as [|_]; [congruence|]. rewrite B. cbn [bind].
      pose proof (v_root _ _ _ _ _ _ _ I x b Hx B) as R. destruct (b_root b) as [|q] eqn:Er; [destruct R; congruence|]. rewrite G1.
      pose proof (a_in _ _ _ _ _ _ _ _ R) as Hq. destruct (v_get _ _ _ _ _ _ _ I q Hq) as [c C]. unfold remove_child. rewrite C. cbn [bind].
      destruct (inv_detach U t L rk m x b q c I Hx E2 B Er C) as (Rc & I1 & K1 & Rt1 & G1').
      set (t1 := set_list (bput t q (set_kids c (sdel x (b_kids c)))) (sdel x (t_list t))) in *.
      change (set_list (bput t q (set_kids c (sdel x (b_kids c)))) (sdel x (t_list (bput t q (set_kids c (sdel x (b_kids c))))))) with t1.
      assert (Nk : forall y d, In y L -> bget t1 y = Some d -> b_root d <> Node x).
      { intros y d Hy D Ed. destruct (recore_back t t1 y d Rc D) as (d0 & D0 & _). pose proof (Rt1 y d0 d D0 D) as X.
        assert (In y (b_kids b)) by (apply (v_kids _ _ _ _ _ _ _ I x b y Hx B); split; [exact Hy|]; split; [exists d0; split; [exact D0|congruence]|discriminate]).
        destruct (b_kids b); [contradiction|]. unfold zlen in G1. cbn [length] in G1. apply Z.eqb_eq in G1. lia. }
      pose proof (inv_forget U t1 L rk m x I1 E2 Nk) as I2. set (L1 := sdel x L) in *.
      assert (Nxq : q <> x) by (intro X; subst q; pose proof (a_rank _ _ _ _ _ _ _ _ R); lia).
      assert (B1 : bget t1 x = Some b) by (rewrite (G1' x ltac:(congruence)); exact B).
      destruct (destroy_ok x _ t1 b B1 (wf_of U t L rk _ _ m I x b Hx B) eq_refl) as (t2 & b2 & D1 & D2 & D3 & D4 & D5 & D6 & D7 & D8). rewrite D1. cbn [bind].
      assert (InL1 : forall y, In y L1 <-> In y L /\ y <> x) by (intro y; apply sdel_In).
      destruct (inv_off t1 t2 L1 rk m I2) as (I3 & K3 & H3).
      { intros y Hy. apply InL1 in Hy. apply D3. tauto. } { exact D7. } { exact D4. } { exact D6. }
      { intros y b0 B0. destruct (Z.eq_dec y x) as [->|N]; [eauto|]. rewrite (D3 y N) in B0. eauto. }
      assert (M2 : t_main t2 = m) by (rewrite D5; exact Em).
      destruct (IH t2 L1 rk I3 M2) as (t3 & L3 & gone & E4 & I4 & M4 & S4 & K4 & H4 & Ed4 & Ls4 & Lo4 & Hs4).
      rewrite E4. cbn [bind]. exists t3, L3, (x :: gone). split; [reflexivity|]. split; [exact I4|]. split; [exact M4|].
      assert (S1 : incl L1 L) by (intros y Hy; apply InL1 in Hy; tauto).
      assert (Kt2 : keep t t2 L1) by (apply (keep_trans t t1 t2 L1 L1 (keep_sub _ _ _ _ K1 S1) K3); [apply heads_grow; exact (recore_heads t t1 L1 Rc)|apply incl_refl]).
      assert (Ht2 : heads t t2 L1) by exact (heads_trans t t1 t2 L1 L1 (recore_heads t t1 L1 Rc) H3 (incl_refl L1)).
      split; [exact (incl_tran S4 S1)|].
      split. { apply (keep_trans t t2 t3 L3 L3); [exact (keep_sub _ _ _ _ Kt2 S4)|exact K4| |apply incl_refl]. apply heads_grow. intros y d Hy. apply Ht2. now apply S4. }
      split. { apply (heads_trans t t2 t3 L3 L3); [|exact H4|apply incl_refl]. intros y d Hy. apply Ht2. now apply S4. }
      split; [rewrite Ed4; exact D7|].
      split. { intro y. rewrite Ls4, D4. change (t_list t1) with (sdel x (t_list t)). rewrite sdel_In. split; [tauto|]. intros [A1 A2]. split; [|exact A2]. split; [exact A1|]. apply S4, InL1 in A2. tauto. }
      (* what is covered by a branch of L1 in t2 is lost as that branch is *)
      assert (Via : forall y z, In z L1 -> cover t t2 y z -> cover t t y z -> lost stale t t3 L L3 y).
      { intros y z Hz Cz Cz0. destruct (in_dec Z.eq_dec z L3) as [Z3|Z3]; [left; exists z; split; [exact Z3|exact (cover_keep t t2 t3 L3 y z Cz K4 H4 Z3)]|].
        destruct (Lo4 z Hz Z3) as [(w & Hw & Cw)|(w & Hw & Hw' & Cw)].
        - left. exists w. split; [exact Hw|exact (cover_trans t t2 t3 y z w Cz Cw)].
        - right. exists w. split; [exact Hw|]. split; [now apply S1|]. apply (cover_trans t t t y z w Cz0).
          exact (cover_back t t2 L L1 rk None m z w I S1 Kt2 Ht2 Hz Hw' Cw). }
      split.
      { intros y Hy Ny. destruct (Z.eq_dec y x) as [->|N].
        - apply orb_true_iff in G2. destruct G2 as [G2|G2].
          + right. exists x. apply sin_In in G2. split; [exact G2|]. split; [exact Hx|exact (cover_refl t x b B)].
          + apply Z.eqb_eq in G2. unfold size in G2.
            assert (Cq : cover t t x q).
            { exists b, c. split; [exact B|]. split; [exact C|]. pose proof (a_le _ _ _ _ _ _ _ _ R c C). split; [lia|]. intros h k Hh S.
              apply (child_sees U t L rk _ _ m I x b q h k Hx B Er); [lia|exact S]. }
            apply (Via x q); [apply InL1; now split| |exact Cq]. apply (cover_keep t t t2 L1 x q Cq Kt2 Ht2). apply InL1. now split.
        - apply (Via y y); [apply InL1; now split| |destruct (v_get _ _ _ _ _ _ _ I y Hy) as [d D]; exact (cover_refl t y d D)].
          destruct (v_get _ _ _ _ _ _ _ I y Hy) as [d D]. apply (cover_keep t t t2 L1 y y (cover_refl t y d D) Kt2 Ht2). apply InL1. now split. }
      intros h Hh. apply Hs4, D8 in Hh. exact Hh.
  Qed.

  (** ** The ring check *)
  Inductive desc (t : tree) (x : Z) : Z -> Prop :=
  | d_kid y b : bget t y = Some b -> b_root b = Node x -> desc t x y
  | d_step y b z : bget t y = Some b -> b_root b = Node z -> desc t x z -> desc t x y.
  Section Ring.
    Context (t : tree) (L : list Z) (rk : Z -> nat) (m : Z) (I : inv U t L rk None None m).
    Lemma desc_rank x y : desc t x y -> In y L -> (rk x < rk y)%nat /\ In x L.
    Proof.
      induction 1 as [y b B E|y b z B E D IH]; intro Hy; pose proof (rootn U t L rk _ _ m I y b _ Hy B E) as At.
      - split; apply At.
      - pose proof (a_rank _ _ _ _ _ _ _ _ At). destruct (IH (a_in _ _ _ _ _ _ _ _ At)). split; [lia|assumption].
    Qed.
    Lemma desc_split x y : desc t x y -> exists v b, bget t v = Some b /\ b_root b = Node x /\ (v = y \/ desc t v y).
    Proof.
      induction 1 as [y b B E|y b z B E D IH]; [exists y, b; auto|]. destruct IH as (v & c & C & Ec & Q). exists v, c. split; [exact C|]. split; [exact Ec|]. right.
      destruct Q as [->|Q]; [exact (d_kid t z y b B E)|exact (d_step t v y b z B E Q)].
    Qed.
    Lemma desc_line u v y : desc t u y -> desc t v y -> u = v \/ desc t u v \/ desc t v u.
    Proof.
      intro D. revert v. induction D as [y b B E|y b z B E D IH]; intros v D'; inversion D' as [y' b' B' E'|y' b' z' B' E' D2]; subst y'; rewrite B in B'; injection B' as <-.
      - left. congruence.
      - assert (z' = u) by congruence. subst z'. right. now right.
      - assert (z = v) by congruence. subst z. right. now left.
      - assert (z' = z) by congruence. subst z'. now apply IH.
    Qed.
    Lemma desc_trans u v y : desc t u v -> desc t v y -> desc t u y.
    Proof. intros A D. induction D as [y b B E|y b z B E D IH]; [exact (d_step t u y b v B E A)|exact (d_step t u y b z B E IH)]. Qed.

    Lemma ring_ok : forall f x bm anc, In x L -> NoDup anc -> incl anc L -> (forall a, In a anc -> (rk a <= rk x)%nat) -> In x anc -> (length L < f + length anc)%nat ->
      (forall y, In y L -> desc t x y -> ~ In y bm) ->
      exists bm', ring f t bm x = Some bm' /\ forall y, In y bm' <-> In y bm \/ (In y L /\ desc t x y).
    Proof.
      induction f as [|f IH]; intros x bm anc Hx ND Sub Hr Ha Hf Hbm.
      - pose proof (NoDup_incl_length ND Sub). lia.
      - cbn [ring]. destruct (v_get _ _ _ _ _ _ _ I x Hx) as [b B]. rewrite B. cbn [bind].
        set (each := fix each (bm : list Z) (kids : list Z) : option (list Z) :=
           match kids with [] => Some bm | v :: r => if sin v bm then None else do bm' <- ring f t (v :: bm) v; each bm' r end).
        pose proof (v_wf _ _ _ _ _ _ _ I x b Hx B) as (_ & _ & _ & NDk).
        assert (Kids : forall v, In v (b_kids b) -> In v L /\ exists c, bget t v = Some c /\ b_root c = Node x).
        { intros v Hv. apply (v_kids _ _ _ _ _ _ _ I x b v Hx B) in Hv. tauto. }
        assert (Each : forall ks bm, NoDup ks -> incl ks (b_kids b) -> (forall v y, In v ks -> In y L -> (y = v \/ desc t v y) -> ~ In y bm) ->
          exists bm', each bm ks = Some bm' /\ forall y, In y bm' <-> In y bm \/ (In y L /\ exists v, In v ks /\ (y = v \/ desc t v y))).
        { induction ks as [|v ks IHk]; intros bm0 NDs Hs Hb; cbn [each].
          - exists bm0. split; [reflexivity|]. intro y. split; [now left|]. intros [Y|(_ & v & [] & _)]. exact Y.
          - inversion NDs as [|? ? Nv NDs']; subst. destruct (Kids v (Hs v (or_introl eq_refl))) as (Hv & cv & Cv & Ev).
            pose proof (rootn U t L rk _ _ m I v cv x Hv Cv Ev) as At. pose proof (a_rank _ _ _ _ _ _ _ _ At) as Rk.
            destruct (sin v bm0) eqn:Sv; [apply sin_In in Sv; exfalso; exact (Hb v v (or_introl eq_refl) Hv (or_introl eq_refl) Sv)|].
            destruct (IH v (v :: bm0) (v :: anc)) as (bm1 & E1 & M1).
            { exact Hv. } { constructor; [|exact ND]. intro X. apply Hr in X. lia. } { intros a [<-|Hin]; [exact Hv|now apply Sub]. }
            { intros a [<-|Hin]; [lia|]. apply Hr in Hin. lia. } { now left. } { cbn [length]. lia. }
            { intros y Hy Dy [<-|Y]; [apply (desc_rank v v) in Dy; [lia|exact Hv]|]. exact (Hb v y (or_introl eq_refl) Hy (or_intror Dy) Y). }
            rewrite E1. cbn [bind]. destruct (IHk bm1 NDs') as (bm2 & E2 & M2).
            { intros w Hw. apply Hs. now right. }
            { intros w y Hw Hy Dy Y. destruct (Kids w (Hs w (or_intror Hw))) as (Hw' & cw & Cw & Ew). pose proof (rootn U t L rk _ _ m I w cw x Hw' Cw Ew) as Aw. pose proof (a_rank _ _ _ _ _ _ _ _ Aw) as Rw.
              assert (Nvw : v <> w) by (intros ->; contradiction).
              assert (Nd1 : forall p q cp cq, In p L -> In q L -> bget t p = Some cp -> b_root cp = Node x -> bget t q = Some cq -> b_root cq = Node x -> ~ desc t p q).
              { intros p q cp cq Hp Hq Cp Ep Cq Eq D. inversion D as [y' b' B' E'|y' b' z' B' E' D2]; subst y'; rewrite Cq in B'; injection B' as <-.
                - assert (p = x) by congruence. subst p. pose proof (rootn U t L rk _ _ m I x cp x Hp Cp Ep) as A. pose proof (a_rank _ _ _ _ _ _ _ _ A). lia.
                - assert (z' = x) by congruence. subst z'. apply desc_rank in D2; [|exact Hx]. pose proof (rootn U t L rk _ _ m I p cp x Hp Cp Ep) as A. pose proof (a_rank _ _ _ _ _ _ _ _ A). lia. }
              apply M1 in Y. destruct Y as [[Y|Y]|[_ Y]].
              - subst y. destruct Dy as [Dy|Dy]; [congruence|]. exact (Nd1 w v cw cv Hw' Hv Cw Ew Cv Ev Dy).
              - exact (Hb w y (or_intror Hw) Hy Dy Y).
              - destruct Dy as [->|Dy]; [exact (Nd1 v w cv cw Hv Hw' Cv Ev Cw Ew Y)|].
                destruct (desc_line v w y Y Dy) as [X|[X|X]]; [contradiction|exact (Nd1 v w cv cw Hv Hw' Cv Ev Cw Ew X)|exact (Nd1 w v cw cv Hw' Hv Cw Ew Cv Ev X)]. }
            exists bm2. split; [exact E2|]. intro y. rewrite M2, M1. cbn [In]. split.
            + intros [[[Y|Y]|(Hy & Y)]|(Hy & w & Hw & Y)]; [right; subst y; split; [exact Hv|exists v; auto]|now left|right; split; [exact Hy|exists v; auto]|right; split; [exact Hy|exists w; auto]].
            + intros [Y|(Hy & w & [Hw|Hw] & Y)]; [left; left; now right| |right; split; [exact Hy|exists w; now split]].
              subst w. destruct Y as [->|Y]; [left; left; now left|left; right; now split]. }
        destruct (Each (b_kids b) bm NDk (incl_refl _)) as (bm' & E & M).
        { intros v y Hv Hy Dy. destruct (Kids v Hv) as (_ & cv & Cv & Ev). apply Hbm; [exact Hy|]. destruct Dy as [->|Dy]; [exact (d_kid t x v cv Cv Ev)|].
          apply (desc_trans x v y); [exact (d_kid t x v cv Cv Ev)|exact Dy]. }
        exists bm'. split; [exact E|]. intro y. rewrite M. split; intros [Y|(Hy & Y)]; try (now left); right; (split; [exact Hy|]).
        + destruct Y as (v & Hv & Dy). destruct (Kids v Hv) as (_ & cv & Cv & Ev). destruct Dy as [->|Dy]; [exact (d_kid t x v cv Cv Ev)|].
          apply (desc_trans x v y); [exact (d_kid t x v cv Cv Ev)|exact Dy].
        + destruct (desc_split x y Y) as (v & cv & Cv & Ev & Q). exists v. split; [|destruct Q; [left; congruence|now right]].
          apply (v_kids _ _ _ _ _ _ _ I x b v Hx B). split; [|split; [eauto|discriminate]]. destruct Q as [->|Q]; [exact Hy|]. apply (desc_rank v y Q Hy).
    Qed.
  End Ring.

  (** ** The periodic pruning *)
  Lemma prune_tree_ok stale o1 o2 t L rk : inv U t L rk None None (t_main t) ->
    exists t' L' gone, prune_tree stale o1 o2 t = Some (t', gone) /\ inv U t' L' rk None None (t_main t') /\ t_main t' = t_main t /\ incl L' L /\ keep t t' L' /\ heads t t' L' /\
      t_disk t' = t_disk t /\ (forall y, In y (t_list t') <-> In y (t_list t) /\ In y L') /\ (forall y, In y L -> ~ In y L' -> lost stale t t' L L' y) /\
      (forall h, In h (t_hashes t') -> In h (t_hashes t)).
  Proof.
    intro I. set (m := t_main t) in *. pose proof (v_main _ _ _ _ _ _ _ I) as Hm. pose proof (fuel_enough U t L rk _ _ m I) as Fu.
    unfold prune_tree. fold m. destruct (ring_ok t L rk m I (fuel_of t) m [] [m]) as (bm & Er & _).
    { exact Hm. } { repeat constructor. intros []. } { intros a [<-|[]]. exact Hm. } { intros a [<-|[]]. lia. } { now left. } { cbn [length]. lia. } { intros y _ _ []. }
    rewrite Er. cbn [bind]. destruct (prune_each_ok m o1 t L rk I eq_refl) as (t1 & L1 & E1 & I1 & M1 & Sh & St). rewrite E1. cbn [bind].
    destruct (collect_ok stale m o2 t1 L1 rk I1 M1) as (t2 & L2 & gone & E2 & I2 & M2 & Sub & K2 & H2 & D2 & Ls & Lo & Hs).
    destruct Sh as [A1 A2 A3 A4 A5 A6 A7].
    exists t2, L2, gone. split; [exact E2|]. rewrite M2. split; [exact I2|]. split; [reflexivity|]. split; [exact (incl_tran Sub A1)|].
    split. { apply (keep_trans t t1 t2 L2 L2); [exact (keep_sub _ _ _ _ A2 Sub)|exact K2| |apply incl_refl]. apply heads_grow. intros y d Hy. apply A3. now apply Sub. }
    split. { apply (heads_trans t t1 t2 L2 L2); [|exact H2|apply incl_refl]. intros y d Hy. apply A3. now apply Sub. }
    split; [congruence|].
    split. { intro y. rewrite Ls. split; [intros [X Y]; apply A5 in X; tauto|]. intros [X Y]. split; [|exact Y]. apply St; [exact X|now apply Sub]. }
    split; [|intros h Hh; apply A7, Hs, Hh].
    assert (Via : forall y z, In y L -> In z L1 -> cover t t1 y z -> lost stale t t2 L L2 y).
    { intros y z Hy Hz Cz. destruct (in_dec Z.eq_dec z L2) as [Z2|Z2]; [left; exists z; split; [exact Z2|exact (cover_keep t t1 t2 L2 y z Cz K2 H2 Z2)]|].
      destruct (Lo z Hz Z2) as [(w & Hw & Cw)|(w & Hw & Hw' & Cw)]; [left; exists w; split; [exact Hw|exact (cover_trans t t1 t2 y z w Cz Cw)]|].
      right. exists w. split; [exact Hw|]. split; [now apply A1|]. pose proof (cover_trans t t1 t1 y z w Cz Cw) as (c & cw1 & C & Cw1 & Hh & S).
      destruct (v_get _ _ _ _ _ _ _ I w (A1 w Hw')) as [cw Cw0]. destruct (A3 w cw Hw' Cw0) as (cw1' & Cw1' & Q & _). rewrite Cw1 in Cw1'. injection Cw1' as <-.
      exists c, cw. split; [exact C|]. split; [exact Cw0|]. split; [lia|]. intros h k Hk Sk.
      assert (Lw : base t <= h) by (apply (sees_low t L rk _ _ m I _ h k Sk); intros v Ev; injection Ev as <-; exact Hy). assert (R : base t <= h <= b_head cw) by lia.
      destruct (sees_all U t L rk _ _ m I w (A1 w Hw') cw h Cw0 R) as (k' & S' & _). now rewrite (sees_fun _ _ _ _ _ (S h k Hk Sk) (A2 w cw h k' Hw' Cw0 (proj2 R) S')). }
    intros y Hy Ny. destruct (in_dec Z.eq_dec y L1) as [Y1|Y1].
    - apply (Via y y Hy Y1). destruct (v_get _ _ _ _ _ _ _ I y Hy) as [d D]. exact (cover_keep t t t1 L1 y y (cover_refl t y d D) A2 A3 Y1).
    - destruct (A6 y Hy Y1) as (z & Hz & Cz). exact (Via y z Hy Hz Cz).
  Qed.
End Whole2.
