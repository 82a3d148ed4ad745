(** * The candidate tree: where two branches part *)
From Coq Require Import ZArith List Bool Lia Permutation.
From Verif Require Import Lib TreeModel TreeSpec TreeProofs TreeProofs2 TreeProofs12 TreeProofs13 TreeProofs14.
Import ListNotations.
Local Open Scope Z_scope.

Section Fork.
  Context (U : knot -> Prop) (HU : honest U).
  Section At.
    Context (t : tree) (L : list Z) (rk : Z -> nat) (m : Z) (I : inv U t L rk None None m).
    Lemma base_sees : forall x, In x L -> forall b k, bget t x = Some b -> sees t (Node x) (base t) k -> disk_get t (base t) = Some k.
    Proof.
      apply (TreeProofs2.up_ind U t L rk _ _ m I (fun x => forall b k, bget t x = Some b -> sees t (Node x) (base t) k -> disk_get t (base t) = Some k)).
      intros y c Hy C IH c' k C' S. rewrite C in C'. injection C' as <-. pose proof (v_wf _ _ _ _ _ _ _ I y c Hy C) as (_ & _ & Tc & _).
      apply (sees_root U t L rk _ _ m I y c _ _ Hy C Tc) in S. destruct (b_root c) as [|r] eqn:Er; [now apply sees_disk|].
      pose proof (rootn U t L rk _ _ m I y c r Hy C Er) as At. pose proof (a_in _ _ _ _ _ _ _ _ At) as Hr. destruct (v_get _ _ _ _ _ _ _ I r Hr) as [d D]. exact (IH r eq_refl Hr d k D S).
    Qed.
    Context (lg sh : Z) (bl bs : br) (Hl : In lg L) (Hs : In sh L) (Bl : bget t lg = Some bl) (Bs : bget t sh = Some bs).
    Lemma fork_point_ok : forall f i, base t <= i -> i <= b_head bl -> i <= b_head bs -> (Z.to_nat (i - base t) < f)%nat ->
      exists j k, base t <= j <= i /\ sees t (Node lg) j k /\ sees t (Node sh) j k /\
        (forall h u v, j < h <= i -> sees t (Node lg) h u -> sees t (Node sh) h v -> u <> v) /\
        fork_point f t lg sh i = Some (get_knot t (Node lg) (j + 1) true, k).
    Proof.
      induction f as [|f IH]; intros i H1 H2 H3 Hf; [lia|]. cbn [fork_point].
      destruct (sees_all U t L rk _ _ m I lg Hl bl i Bl (conj H1 H2)) as (kl & Sl & _ & Ul). destruct (sees_all U t L rk _ _ m I sh Hs bs i Bs (conj H1 H3)) as (ks & Ss & _ & Us).
      rewrite (get_knot_sees U t L rk _ _ m I lg bl i kl Hl Bl H2 Sl), (get_knot_sees U t L rk _ _ m I sh bs i ks Hs Bs H3 Ss). cbn [bind].
      destruct (Z.eqb_spec (k_hash kl) (k_hash ks)) as [E|E].
      - assert (kl = ks) by (apply (proj1 HU); assumption). subst ks. exists i, kl. split; [lia|]. split; [exact Sl|]. split; [exact Ss|]. split; [intros h u v Hh; lia|reflexivity].
      - assert (Ni : base t < i).
        { destruct (Z.eq_dec i (base t)) as [->|]; [|lia]. exfalso. apply E. pose proof (base_sees lg Hl bl kl Bl Sl). pose proof (base_sees sh Hs bs ks Bs Ss). congruence. }
        destruct (IH (i - 1)) as (j & k & R & S1 & S2 & D & F); try lia. exists j, k. split; [lia|]. split; [exact S1|]. split; [exact S2|]. split; [|exact F].
        intros h u v Hh Su Sv. destruct (Z.eq_dec h i) as [->|]; [|apply (D h u v); [lia|exact Su|exact Sv]].
        pose proof (sees_fun _ _ _ _ _ Su Sl). pose proof (sees_fun _ _ _ _ _ Sv Ss). congruence.
    Qed.
  End At.

  (** Two chains split at a block both have *)
  Lemma split_at t L rk m x b l j k : inv U t L rk None None m -> In x L -> bget t x = Some b -> chain_of t x = Some l -> base t <= j <= b_head b -> sees t (Node x) j k ->
    exists p a, l = p ++ k :: a /\ length p = Z.to_nat (j - base t) /\
      (forall i u, nth_error p i = Some u -> sees t (Node x) (base t + Z.of_nat i) u /\ base t + Z.of_nat i <= b_head b) /\ get_knot t (Node x) (j + 1) true = hd_error a /\
      (forall u, hd_error a = Some u -> sees t (Node x) (j + 1) u /\ j + 1 <= b_head b).
  Proof.
    intros I Hx B E R S. destruct (chain_view U t L rk None m x b I Hx B) as (l1 & E1 & Le & V). rewrite E in E1. injection E1 as <-.
    assert (N : nth_error l (Z.to_nat (j - base t)) = Some k) by (apply V; replace (base t + Z.of_nat (Z.to_nat (j - base t))) with j by lia; split; [lia|exact S]).
    apply nth_error_split in N. destruct N as (p & a & -> & Lp). exists p, a. split; [reflexivity|]. split; [exact Lp|].
    assert (Nx : forall u, hd_error a = Some u <-> j + 1 <= b_head b /\ sees t (Node x) (j + 1) u).
    { intro u. specialize (V (Datatypes.S (length p)) u). rewrite nth_error_app2 in V by lia. replace (Datatypes.S (length p) - length p)%nat with 1%nat in V by lia. cbn [nth_error] in V.
      replace (base t + Z.of_nat (Datatypes.S (length p))) with (j + 1) in V by lia. destruct a; exact V. }
    split; [|split].
    - intros i u Hu. assert (i < length p)%nat by (apply nth_error_Some; congruence). assert (X : nth_error (p ++ k :: a) i = Some u) by (rewrite nth_error_app1 by lia; exact Hu). apply V in X. tauto.
    - destruct (hd_error a) as [u|] eqn:Ea; [destruct (proj1 (Nx u) eq_refl) as [A1 A2]; exact (get_knot_sees U t L rk _ _ m I x b _ u Hx B A1 A2)|].
      apply (get_knot_above U t L rk None None m I x b (j + 1) Hx B). destruct (Z_lt_le_dec (b_head b) (j + 1)) as [|G]; [assumption|].
      assert (R2 : base t <= j + 1 <= b_head b) by lia. destruct (sees_all U t L rk _ _ m I x Hx b (j + 1) B R2) as (u & Su & _).
      assert (X : None = Some u) by (apply Nx; now split). discriminate.
    - intros u Hu. apply Nx in Hu. tauto.
  Qed.
  Lemma fork_split t L rk m x y bx b lx ly j k : inv U t L rk None None m -> In x L -> In y L -> bget t x = Some bx -> bget t y = Some b -> chain_of t x = Some lx -> chain_of t y = Some ly ->
    base t <= j -> j <= b_head bx -> j <= b_head b -> sees t (Node x) j k -> sees t (Node y) j k ->
    exists p a c, lx = p ++ k :: a /\ ly = p ++ k :: c /\ get_knot t (Node x) (j + 1) true = hd_error a /\ get_knot t (Node y) (j + 1) true = hd_error c /\
      (forall u, hd_error a = Some u -> sees t (Node x) (j + 1) u /\ j + 1 <= b_head bx) /\ (forall u, hd_error c = Some u -> sees t (Node y) (j + 1) u /\ j + 1 <= b_head b).
  Proof.
    intros I Hx Hy Bx By Ex Ey H1 H2 H3 Sx Sy.
    destruct (split_at t L rk m x bx lx j k I Hx Bx Ex ltac:(lia) Sx) as (p & a & -> & Lp & Vp & Ga & Na).
    destruct (split_at t L rk m y b ly j k I Hy By Ey ltac:(lia) Sy) as (q & c & -> & Lq & Vq & Gc & Nc).
    assert (p = q); [|subst q; exists p, a, c; auto 10].
    apply nth_ext with (d := k) (d' := k); [congruence|]. intros i Hi. destruct (nth_error p i) as [u|] eqn:Eu; [|apply nth_error_None in Eu; lia].
    destruct (nth_error q i) as [v|] eqn:Ev; [|apply nth_error_None in Ev; lia]. rewrite (nth_error_nth p i k Eu), (nth_error_nth q i k Ev).
    apply Vp in Eu. apply Vq in Ev. destruct Eu as [Su _], Ev as [Sv _].
    pose proof (agree_down U HU t L rk None None m I x y bx b j k Hx Hy Bx By H2 H3 Sx Sy (base t + Z.of_nat i) u ltac:(lia) Su) as Sy'. exact (sees_fun _ _ _ _ _ Sy' Sv).
  Qed.
End Fork.
