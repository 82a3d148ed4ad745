(** * The candidate tree: switching and pruning as a whole *)
From Coq Require Import ZArith List Bool Lia Permutation.
From Verif Require Import Lib TreeModel TreeSpec TreeProofs TreeProofs2 TreeProofs3 TreeProofs4 TreeProofs5 TreeProofs6 TreeProofs7 TreeProofs8 TreeProofs9 TreeProofs10 TreeProofs11.
Import ListNotations.
Local Open Scope Z_scope.

(** [L] shrinks to [L']: what stays sees the same, what goes is covered *)
Record shrunk (t t' : tree) (L L' : list Z) : Prop := {
  s_incl : incl L' L;
  s_keep : keep t t' L';
  s_heads : heads t t' L';
  s_disk : t_disk t' = t_disk t;
  s_list : forall y, In y (t_list t') -> In y (t_list t) /\ In y L';
  s_gone : forall y, In y L -> ~ In y L' -> exists z, In z L' /\ cover t t' y z;
  s_hash : forall h, In h (t_hashes t') -> In h (t_hashes t) }.
Lemma shrunk_refl t L : (forall y, In y (t_list t) -> In y L) -> shrunk t t L L.
Proof.
  intro H. constructor; try reflexivity; try tauto; [apply incl_refl|apply keep_refl|apply heads_refl|]. intros y A. split; [exact A|now apply H].
Qed.
Lemma shrunk_trans t t1 t2 L L1 L2 : (forall y, In y L -> exists c, bget t y = Some c) -> shrunk t t1 L L1 -> shrunk t1 t2 L1 L2 -> shrunk t t2 L L2.
Proof.
  intros G [A1 A2 A3 A4 A5 A6 A7] [B1 B2 B3 B4 B5 B6 B7]. constructor.
  - exact (incl_tran B1 A1).
  - apply (keep_trans t t1 t2 L2 L2); [exact (keep_sub _ _ _ _ A2 B1)|exact B2| |apply incl_refl]. apply heads_grow. intros y c Hy. apply A3. now apply B1.
  - apply (heads_trans t t1 t2 L2 L2); [|exact B3|apply incl_refl]. intros y c Hy. apply A3. now apply B1.
  - congruence.
  - intros y Y. apply B5 in Y. destruct Y as [Y Y']. apply A5 in Y. now split.
  - intros y Hy Ny. destruct (in_dec Z.eq_dec y L1) as [Y1|Y1].
    + destruct (B6 y Y1 Ny) as (z & Hz & c1 & cz & C1 & Cz & Hh & S). exists z. split; [exact Hz|]. destruct (G y Hy) as [c C].
      destruct (A3 y c Y1 C) as (c1' & C1' & E & _). rewrite C1 in C1'. injection C1' as <-. exists c, cz. split; [exact C|]. split; [exact Cz|]. split; [lia|].
      intros h k Hk Sk. apply S; [lia|]. exact (A2 y c h k Y1 C Hk Sk).
    + destruct (A6 y Hy Y1) as (z & Hz & Cz). destruct (in_dec Z.eq_dec z L2) as [Z2|Z2]; [exists z; split; [exact Z2|exact (cover_keep t t1 t2 L2 y z Cz B2 B3 Z2)]|].
      destruct (B6 z Hz Z2) as (w & Hw & Cw). exists w. split; [exact Hw|]. exact (cover_trans t t1 t2 y z w Cz Cw).
  - auto.
Qed.

Section Whole.
  Context (U : knot -> Prop) (HU : honest U).

  (** One pruning, the emptied branch forgotten *)
  Lemma prune_shrunk t L rk m x fuel : inv U t L rk None None m -> t_main t = m -> In x L -> (length L <= fuel)%nat ->
    exists t' L', prune fuel t x = Some t' /\ inv U t' L' rk None None m /\ t_main t' = m /\ shrunk t t' L L' /\
      (forall y, In y (t_list t) -> In y L' -> In y (t_list t')).
  Proof.
    intros I Em Hx Hf. destruct (up_exists U t L rk _ _ m I x Hx) as (n & Hu & Hn).
    destruct (prune_ok U HU n t L rk m x fuel I Em Hx Hu ltac:(lia)) as (t1 & L1 & det & E & [P1 P2 P3 P4 P5 P6 P7 P8 P9 P10 P11 P12 P13 P14]).
    destruct P10 as [->|(-> & Nx & Nk & z & Hz & Nz & Cz)].
    - exists t1, L1. split; [exact E|]. split; [exact P1|]. split; [congruence|]. split; [|intros y Y X; apply P9; split; [exact Y|split; [exact X|discriminate]]]. constructor; try assumption.
      + intros y Y. apply P9 in Y. tauto.
      + intros y Hy Ny. destruct (P12 y Hy Ny) as (_ & w & Hw & _ & Cw). eauto.
    - exists t1, (sdel x L1). split; [exact E|]. split; [exact (inv_forget U t1 L1 rk m x P1 Nx Nk)|]. split; [congruence|].
      assert (Sub : incl (sdel x L1) L1) by (intros y Hy; apply sdel_In in Hy; apply Hy).
      split; [|intros y Y X; apply sdel_In in X; destruct X as [X X']; apply P9; split; [exact Y|split; [exact X|congruence]]]. constructor; try assumption.
      + exact (incl_tran Sub P3).
      + exact (keep_sub _ _ _ _ P4 Sub).
      + intros y c Hy. apply P5. now apply Sub.
      + intros y Y. apply P9 in Y. destruct Y as (A & B & C). split; [exact A|]. apply sdel_In. split; [exact B|congruence].
      + intros y Hy Ny. destruct (Z.eq_dec y x) as [->|N].
        * exists z. split; [apply sdel_In; now split|exact Cz].
        * assert (N1 : ~ In y L1) by (intro X; apply Ny; apply sdel_In; now split). destruct (P12 y Hy N1) as (_ & w & Hw & Dw & Cw).
          exists w. split; [apply sdel_In; split; [exact Hw|congruence]|exact Cw].
  Qed.

  (** ** Switching *)
  (** What leaves the list is the main branch now, or another branch covers it *)
  Definition unlisted (t t' : tree) (L' : list Z) : Prop :=
    forall y, In y (t_list t) -> In y (t_list t') \/ y = t_main t' \/ exists z, In z L' /\ z <> y /\ cover t t' y z.
  (** The chain of [x] holds the ledger's last block *)
  Definition onto (t : tree) (x : Z) : Prop := exists b, bget t x = Some b /\ top t <= b_head b /\ sees t (Node x) (top t) (disk_head t).
  Lemma main_onto t L rk det m : inv U t L rk None det m -> onto t m.
  Proof.
    intro I. pose proof (v_main _ _ _ _ _ _ _ I) as Hm. destruct (v_get _ _ _ _ _ _ _ I m Hm) as [bm Bm].
    destruct (main_root U t L rk _ _ m bm I Bm) as (Em & Tm & _). pose proof (tail_le U t L rk _ _ m I m bm Hm Bm) as Tl.
    exists bm. split; [exact Bm|]. split; [lia|]. apply (sees_root U t L rk _ _ m I m bm _ _ Hm Bm); [lia|]. rewrite Em, sees_disk. apply disk_top. apply (v_disk _ _ _ _ _ _ _ I).
  Qed.
  Lemma top_base t L rk ex det m : inv U t L rk ex det m -> base t <= top t.
  Proof. intro I. apply base_top. apply I. Qed.
  Lemma onto_keep t t' L L' rk det m x : inv U t L rk None det m -> keep t t' L' -> heads t t' L' -> In x L' -> In x L -> t_disk t' = t_disk t ->
    (onto t x <-> onto t' x).
  Proof.
    intros I K H Hx Hx0 Ed. destruct (v_get _ _ _ _ _ _ _ I x Hx0) as [b B]. destruct (H x b Hx B) as (b' & B' & E & _). pose proof (top_base t L rk _ _ m I) as TB.
    assert (Et : top t' = top t) by (unfold top, disk_head; now rewrite Ed). assert (Eh : disk_head t' = disk_head t) by (unfold disk_head; now rewrite Ed).
    unfold onto. rewrite Et, Eh. split; intros (c & C & T & S).
    - rewrite B in C. injection C as <-. exists b'. split; [exact B'|]. split; [lia|]. exact (K x b _ _ Hx B T S).
    - rewrite B' in C. injection C as <-. exists b. assert (T' : top t <= b_head b) by lia. split; [exact B|]. split; [exact T'|].
      destruct (sees_all U t L rk _ _ m I x Hx0 b (top t) B (conj TB T')) as (k & Sk & _). pose proof (K x b _ _ Hx B T' Sk) as Sk'. now rewrite (sees_fun _ _ _ _ _ S Sk').
  Qed.
  Lemma switch_ok t L rk x : inv U t L rk None None (t_main t) -> In x L ->
    exists t' L' rk', inv U t' L' rk' None None (t_main t') /\ shrunk t t' L L' /\ unlisted t t' L' /\
      ((switch_main t x = Done t' /\ t_main t' = x /\ onto t x) \/ (switch_main t x = Fail t' /\ t_main t' = t_main t /\ ~ onto t x)).
  Proof.
    intros I Hx. set (m := t_main t) in *. unfold switch_main. fold m. destruct (Z.eqb_spec x m) as [->|Nxm].
    - exists t, L, rk. split; [exact I|]. split; [apply shrunk_refl; intros y Hy; now apply (v_list _ _ _ _ _ _ _ I)|]. split; [intros y Hy; now left|]. left. split; [reflexivity|]. split; [reflexivity|]. exact (main_onto t L rk _ m I).
    - destruct (up_exists U t L rk _ _ m I x Hx) as (n & Hu & Hn). pose proof (fuel_enough U t L rk _ _ m I) as Fu.
      destruct (prune_ok U HU n t L rk m x (fuel_of t) I eq_refl Hx Hu ltac:(lia)) as (t1 & L1 & det & E & P). rewrite E.
      pose proof P as [P1 P2 P3 P4 P5 P6 P7 P8 P9 P10 P11 P12 P13 P14].
      destruct (up_exists U t1 L1 rk _ _ m P1 x P2) as (n1 & Hu1 & Hn1). pose proof (fuel_enough U t1 L1 rk _ _ m P1) as Fu1.
      assert (Hdet : det = None \/ det = Some x) by tauto.
      assert (O1 : onto t x <-> onto t1 x) by exact (onto_keep t t1 L L1 rk None m x I P4 P5 P2 Hx P6).
      destruct (exchange_all_ok U HU L1 m x n1 t1 rk det (fuel_of t1) P1 P2 Nxm Hdet Hu1 ltac:(lia)) as
        [(t2 & rk2 & E2 & I2 & K2 & H2 & F2)|(t2 & rk2 & det2 & E2 & I2 & D2 & K2 & H2 & F2 & G2)]; rewrite E2; pose proof F2 as (F21 & F22 & F23 & F24 & F25).
      + destruct (v_get _ _ _ _ _ _ _ I2 x P2) as [b2 B2]. rewrite B2. destruct (main_root U t2 L1 rk2 _ _ x b2 I2 B2) as (R1 & R2 & R3).
        assert (Ln : linked t2 b2 = true). { unfold linked. rewrite R2, R3. unfold top. now rewrite !Z.eqb_refl. }
        rewrite Ln.
        assert (Gone : forall t3 y, t_heap t3 = t_heap t2 -> t_disk t3 = t_disk t2 -> In y L -> ~ In y L1 -> exists w, In w L1 /\ cover t t3 y w).
        { intros t3 y X1 X2 Hy Ny. destruct (P12 y Hy Ny) as (_ & w & Hw & _ & Cw). exists w. split; [exact Hw|].
          destruct (cover_keep t t1 t2 L1 y w Cw K2 H2 Hw) as (c & cz & C & Cz & Q1 & Q2). exists c, cz. split; [exact C|]. split; [unfold bget in *; now rewrite X1|]. split; [exact Q1|].
          intros h k Hh S. apply (sees_heap t2 t3 X1 X2). now apply Q2. }
        exists (set_main t2 x), L1, rk2. split; [now apply (inv_ext U t2)|]. split.
        2:{ split; [|left; split; [reflexivity|]; split; [reflexivity|]; apply O1; apply (onto_keep t1 t2 L1 L1 rk det m x P1 K2 H2 P2 P2 F25); exact (main_onto t2 L1 rk2 _ x I2)].
            intros y Y. cbn [set_main t_list t_main]. rewrite F21. destruct (Z.eq_dec y x) as [->|N]; [right; now left|]. destruct (in_dec Z.eq_dec y L1) as [X|X]; [left; apply P9; split; [exact Y|split; [exact X|destruct Hdet; congruence]]|right; right].
            destruct (Gone (set_main t2 x) y eq_refl eq_refl) as (w & Hw & Cw); [now apply (v_list _ _ _ _ _ _ _ I)|exact X|]. exists w. split; [exact Hw|]. split; [intros ->; contradiction|exact Cw]. }
        constructor; cbn [set_main t_list t_main t_disk t_hashes].
        * exact P3.
        * intros y c h k Hy C Hh S. apply (sees_heap t2); [reflexivity|reflexivity|]. destruct (P5 y c Hy C) as (c1 & C1 & Q & _). apply (K2 y c1 h k Hy C1); [lia|]. exact (P4 y c h k Hy C Hh S).
        * exact (heads_trans t t1 t2 L1 L1 P5 H2 (incl_refl L1)).
        * congruence.
        * intros y Y. rewrite F21 in Y. apply P9 in Y. tauto.
        * intros y Hy Ny. apply Gone; try assumption; reflexivity.
        * intros h Hh. rewrite F24 in Hh. now apply P13.
      + assert (NO : ~ onto t x).
        { rewrite O1. intros (b1 & B1 & T1 & S1). apply G2. exact (clean_gp U HU t1 L1 rk det m P1 x P11 P2 Nxm b1 B1 T1 S1). }
        assert (M2 : t_main t2 = m) by (unfold m; congruence).
        assert (Cs : (det2 = None) \/ (det2 = Some x /\ det = Some x /\ t2 = t1)).
        { destruct D2 as [->|[-> ->]]; [now left|]. destruct Hdet as [->| ->]; [now left|right; auto]. }
        destruct Cs as [->|(-> & -> & ->)].
        * exists t2, L1, rk2. rewrite M2. split; [exact I2|]. split; [|split; [|right; auto]].
          2:{ intros y Y. rewrite F21. destruct (in_dec Z.eq_dec y L1) as [X|X].
              - destruct P10 as [->|(-> & _ & _ & z & Hz & Nz & Cz)]; [left; apply P9; split; [exact Y|split; [exact X|discriminate]]|].
                destruct (Z.eq_dec y x) as [->|N]; [right; right; exists z; split; [exact Hz|split; [exact Nz|exact (cover_keep t t1 t2 L1 x z Cz K2 H2 Hz)]]|].
                left. apply P9. split; [exact Y|split; [exact X|congruence]].
              - right; right. destruct (P12 y) as (_ & w & Hw & _ & Cw); [now apply (v_list _ _ _ _ _ _ _ I)|exact X|]. exists w. split; [exact Hw|]. split; [intros ->; contradiction|].
                exact (cover_keep t t1 t2 L1 y w Cw K2 H2 Hw). }
          constructor.
          -- exact P3.
          -- apply (keep_trans t t1 t2 L1 L1 P4 K2); [now apply heads_grow|apply incl_refl].
          -- exact (heads_trans t t1 t2 L1 L1 P5 H2 (incl_refl L1)).
          -- congruence.
          -- intros y Y. rewrite F21 in Y. apply P9 in Y. tauto.
          -- intros y Hy Ny. destruct (P12 y Hy Ny) as (_ & w & Hw & _ & Cw). exists w. split; [exact Hw|]. exact (cover_keep t t1 t2 L1 y w Cw K2 H2 Hw).
          -- intros h Hh. rewrite F24 in Hh. now apply P13.
        * destruct P10 as [X|(_ & _ & Nk & z & Hz & Nz & Cz)]; [discriminate|].
          exists t1, (sdel x L1), rk2. rewrite M2. split; [exact (inv_forget U t1 L1 rk2 m x I2 Nxm Nk)|]. split; [|split; [|right; auto]].
          2:{ intros y Y. destruct (in_dec Z.eq_dec y L1) as [X|X].
              - destruct (Z.eq_dec y x) as [->|N]; [right; right; exists z; split; [apply sdel_In; now split|now split]|].
                left. apply P9. split; [exact Y|split; [exact X|congruence]].
              - right; right. destruct (P12 y) as (_ & w & Hw & Dw & Cw); [now apply (v_list _ _ _ _ _ _ _ I)|exact X|]. exists w. split; [apply sdel_In; split; [exact Hw|congruence]|]. split; [intros ->; contradiction|exact Cw]. }
          assert (Sub : incl (sdel x L1) L1) by (intros y Hy; apply sdel_In in Hy; apply Hy).
          constructor; try assumption.
          -- exact (incl_tran Sub P3).
          -- exact (keep_sub _ _ _ _ P4 Sub).
          -- intros y c Hy. apply P5. now apply Sub.
          -- intros y Y. apply P9 in Y. destruct Y as (A & B & C). split; [exact A|]. apply sdel_In. split; [exact B|congruence].
          -- intros y Hy Ny. destruct (Z.eq_dec y x) as [->|N].
             ++ exists z. split; [apply sdel_In; now split|exact Cz].
             ++ assert (N1 : ~ In y L1) by (intro X; apply Ny; apply sdel_In; now split). destruct (P12 y Hy N1) as (_ & w & Hw & Dw & Cw).
                exists w. split; [apply sdel_In; split; [exact Hw|congruence]|exact Cw].
  Qed.
End Whole.
