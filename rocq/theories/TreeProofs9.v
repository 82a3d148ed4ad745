(** * The candidate tree: switching the main branch *)
From Coq Require Import ZArith List Bool Lia Permutation.
From Verif Require Import Lib TreeModel TreeSpec TreeProofs TreeProofs2 TreeProofs3 TreeProofs4 TreeProofs5 TreeProofs6 TreeProofs7 TreeProofs8.
Import ListNotations.
Local Open Scope Z_scope.

Section Switch.
  Context (U : knot -> Prop) (HU : honest U).

  Definition new_top (c : br) (x m : Z) : Z := match b_root c with Disk => x | Node _ => m end.
  (** The last part of an exchange, from the state where both tails are equal *)
  Lemma swap_ok t2 t5 L rk det m x b r c old :
    inv U t2 L rk None det m -> In x L -> bget t2 x = Some b -> b_root b = Node r -> bget t2 r = Some c -> b_tail b = b_tail c ->
    (det = None \/ det = Some x) -> fields t2 t5 ->
    bget t5 x = Some (set_kids (set_root b (b_root c)) (sadd r (b_kids b))) ->
    bget t5 r = Some (set_kids (set_root c (Node x)) (sdel x (b_kids c))) ->
    (forall y, y <> x -> y <> r -> b_root c <> Node y -> bget t5 y = bget t2 y) ->
    (forall rr d, b_root c = Node rr -> bget t2 rr = Some d -> exists d', bget t5 rr = Some d' /\ same_core d d' /\ b_root d' = b_root d /\ NoDup (b_kids d') /\
       (forall z, In z (b_kids d') <-> z = x \/ (In z (b_kids d) /\ z <> r))) ->
    exists t' rk' b', move_kids t5 r old (Node x) (sdel x (b_kids c)) = Some t' /\
      inv U t' L rk' None None (new_top c x m) /\ keep t2 t' L /\ recore t2 t' /\ fields t2 t' /\
      bget t' x = Some b' /\ b_root b' = b_root c /\
      (forall y d, In y L -> (rk y < rk r)%nat -> bget t2 y = Some d -> exists d', bget t' y = Some d' /\ same_core d d' /\ b_root d' = b_root d).
  Proof.
    intros I Hx B Er C Et Hdet F Gx Gr Go Grr.
    destruct (swap_inv U HU t2 t5 L rk det m x b r c I Hx B Er C Et Hdet F Gx Gr Go Grr) as (RC & I5 & K5 & RO5).
    pose proof (rootn U t2 L rk _ _ m I x b r Hx B Er) as At. pose proof (a_in _ _ _ _ _ _ _ _ At) as Hr. pose proof (a_rank _ _ _ _ _ _ _ _ At) as Rk.
    assert (Nxr : x <> r) by (intros ->; lia).
    set (lo := match b_root c with Disk => base t2 - 1 | Node _ => b_tail c end) in *.
    change (match b_root c with Disk => x | Node _ => m end) with (new_top c x m) in I5.
    destruct (kids_loop U HU r x lo None (new_top c x m) L (swap_rank rk x r) (sdel x (b_kids c)) t5 _ I5 Hr Gr eq_refl)
      as (t6 & c6 & E6 & F6 & RC6 & I6 & K6 & C6 & Er6 & Sub6 & Tl6 & RO6).
    - intros Nm d D. rewrite Gx in D. injection D as <-. cbn [set_kids set_root b_tail]. unfold lo, new_top in *. destruct (b_root c); [congruence|lia].
    - apply sdel_nodup. apply (v_wf _ _ _ _ _ _ _ I r c Hr C).
    - auto.
    - assert (I7 : inv U t6 L (swap_rank rk x r) None None (new_top c x m)).
      { apply (inv_unex U t6 L _ r lo None _ c6 I6 Hr C6). intros _ v bv Hv Bv Rv.
        assert (Kv : In v (b_kids c6)) by (apply (v_kids _ _ _ _ _ _ _ I6 r c6 v Hr C6); split; [exact Hv|split; [eauto|discriminate]]).
        exact (Tl6 v bv (Sub6 v Kv) Kv Bv). }
      destruct (recore_get t5 t6 x _ RC6 Gx) as (b6 & B6 & _).
      exists t6, (swap_rank rk x r), b6. split; [now apply move_is_prune|]. split; [exact I7|].
      split; [exact (keep_trans t2 t5 t6 L L K5 K6 (recore_grow _ _ _ RC) (incl_refl L))|].
      split; [exact (recore_trans _ _ _ RC RC6)|]. split; [exact (fields_trans _ _ _ F F6)|]. split; [exact B6|].
      split.
      { destruct (RO6 x _ b6 Gx B6) as [Q|[Q _]]; [exact Q|]. cbn [set_kids set_root b_root] in Q. exfalso.
        pose proof (v_root _ _ _ _ _ _ _ I r c Hr C) as Rr. rewrite Q in Rr. pose proof (a_rank _ _ _ _ _ _ _ _ Rr). lia. }
      intros y d Hy Ry D. destruct (recore_get t2 t5 y d RC D) as (d5 & D5 & SC5). destruct (recore_get t5 t6 y d5 RC6 D5) as (d6 & D6 & SC6).
      exists d6. split; [exact D6|]. split; [exact (same_core_trans _ _ _ SC5 SC6)|].
      assert (N1 : y <> x) by (intros ->; lia). assert (N2 : y <> r) by (intros ->; lia).
      pose proof (RO5 y d d5 N1 N2 D D5) as Q5. destruct (RO6 y d5 d6 D5 D6) as [Q|[Q _]]; [congruence|].
      rewrite Q5 in Q. pose proof (a_rank _ _ _ _ _ _ _ _ (rootn U t2 L rk _ _ m I y d r Hy D Q)). lia.
  Qed.

  Lemma exchange_root_ok t L rk det m x b r c :
    inv U t L rk None det m -> In x L -> bget t x = Some b -> b_root b = Node r -> bget t r = Some c ->
    (det = None \/ det = Some x) -> b_tail c <= b_tail b ->
    exists t' rk' b', exchange_root t x r = Done t' /\ inv U t' L rk' None None (new_top c x m) /\ keep t t' L /\ heads t t' L /\ fields t t' /\
      bget t' x = Some b' /\ b_root b' = b_root c /\ b_tail b' = b_tail c /\
      (forall y d, In y L -> (rk y < rk r)%nat -> bget t y = Some d -> exists d', bget t' y = Some d' /\ same_core d d' /\ b_root d' = b_root d).
  Proof.
    intros I Hx B Er C Hdet Hle.
    pose proof (rootn U t L rk _ _ m I x b r Hx B Er) as At. pose proof (a_in _ _ _ _ _ _ _ _ At) as Hr. pose proof (a_rank _ _ _ _ _ _ _ _ At) as Rk.
    pose proof (a_le _ _ _ _ _ _ _ _ At c C) as Hh. assert (Nxr : x <> r) by (intros ->; lia).
    pose proof (v_root _ _ _ _ _ _ _ I r c Hr C) as Rr.
    assert (Nrr : forall rr, b_root c = Node rr -> rr <> x /\ rr <> r).
    { intros rr E. rewrite E in Rr. pose proof (a_rank _ _ _ _ _ _ _ _ Rr). split; intros ->; lia. }
    (* the tree without [r] among its parent's children *)
    assert (S1 : exists t1, match b_root c with Node rr => remove_child t rr r | Disk => Some t end = Some t1 /\ fields t t1 /\
      bget t1 x = Some b /\ bget t1 r = Some c /\ (forall y, b_root c <> Node y -> bget t1 y = bget t y) /\
      (forall rr d, b_root c = Node rr -> bget t rr = Some d -> bget t1 rr = Some (set_kids d (sdel r (b_kids d))))).
    { destruct (b_root c) as [|rr] eqn:Erc.
      - exists t. split; [reflexivity|]. split; [apply fields_refl|]. split; [exact B|]. split; [exact C|]. split; [reflexivity|]. intros; discriminate.
      - destruct (Nrr rr eq_refl) as [Q1 Q2]. destruct (v_get _ _ _ _ _ _ _ I rr (a_in _ _ _ _ _ _ _ _ Rr)) as [d D].
        unfold remove_child. rewrite D. cbn [bind]. eexists. split; [reflexivity|]. split; [apply bput_same|].
        split; [rewrite bget_other by congruence; exact B|]. split; [rewrite bget_other by congruence; exact C|].
        split; [intros y Ny; apply bget_other; congruence|]. intros q e E1 E2. injection E1 as <-. rewrite D in E2. injection E2 as <-. apply bget_same. }
    destruct S1 as (t1 & E1 & F1 & B1 & C1 & O1 & K1).
    destruct (copy_ok U L rk det m x r _ t t1 b c I Hx B Er C eq_refl Hle B1 C1)
      as (t2 & t3 & b' & E3 & I2 & Kp2 & F2 & B2 & O2 & F3 & B3 & O3 & Er2 & Hd2 & Hx2 & Kd2 & Tl2).
    assert (C2 : bget t2 r = Some c) by (rewrite O2 by congruence; exact C).
    assert (C3 : bget t3 r = Some c) by (rewrite O3 by congruence; exact C1).
    assert (Hswap : exists t5, (exists t4, update_root_simple t3 x (Node r) (b_root c) = Some t4 /\
        update_root t4 r (b_root c) (Node x) = move_kids t5 r (b_root c) (Node x) (sdel x (b_kids c))) /\
        fields t3 t5 /\ bget t5 x = Some (set_kids (set_root b' (b_root c)) (sadd r (b_kids b'))) /\
        bget t5 r = Some (set_kids (set_root c (Node x)) (sdel x (b_kids c))) /\
        (forall y, y <> x -> y <> r -> b_root c <> Node y -> bget t5 y = bget t3 y) /\
        (forall rr d, b_root c = Node rr -> bget t3 rr = Some d -> bget t5 rr = Some (set_kids d (sadd x (b_kids d))))).
    { assert (Up : forall t4, bget t4 x = Some (set_root b' (b_root c)) -> bget t4 r = Some (set_kids c (sdel x (b_kids c))) ->
        exists t5, update_root t4 r (b_root c) (Node x) = move_kids t5 r (b_root c) (Node x) (sdel x (b_kids c)) /\ fields t4 t5 /\
          bget t5 x = Some (set_kids (set_root b' (b_root c)) (sadd r (b_kids b'))) /\
          bget t5 r = Some (set_kids (set_root c (Node x)) (sdel x (b_kids c))) /\ (forall y, y <> x -> y <> r -> bget t5 y = bget t4 y)).
      { intros t4 X4 R4. unfold update_root. rewrite R4. cbn [bind]. unfold add_child. rewrite bget_other by exact Nxr. rewrite X4. cbn [bind].
        rewrite bget_other by congruence. rewrite bget_same. cbn [bind]. eexists. split; [reflexivity|]. split; [repeat split|].
        split; [rewrite bget_same; reflexivity|]. split; [rewrite bget_other by congruence; rewrite bget_same; reflexivity|].
        intros y Y1 Y2. now rewrite !bget_other by congruence. }
      destruct (b_root c) as [|rr] eqn:Erc.
      - destruct (upd_simple_disk t3 x r b' c Nxr B3 C3) as (t4 & E4 & F4 & X4 & R4 & O4).
        destruct (Up t4 X4 R4) as (t5 & E5 & F5 & X5 & R5 & O5). exists t5. split; [eauto|]. split; [exact (fields_trans _ _ _ F4 F5)|].
        split; [exact X5|]. split; [exact R5|]. split; [intros y Y1 Y2 _; rewrite O5 by assumption; now apply O4|]. intros; discriminate.
      - destruct (Nrr rr eq_refl) as [Q1 Q2]. destruct (v_get _ _ _ _ _ _ _ I rr (a_in _ _ _ _ _ _ _ _ Rr)) as [d D].
        assert (D3 : bget t3 rr = Some (set_kids d (sdel r (b_kids d)))) by (rewrite O3 by congruence; exact (K1 rr d eq_refl D)).
        destruct (upd_simple t3 x r rr b' c _ Nxr (not_eq_sym Q1) (not_eq_sym Q2) B3 C3 D3) as (t4 & E4 & F4 & X4 & R4 & RR4 & O4).
        destruct (Up t4 X4 R4) as (t5 & E5 & F5 & X5 & R5 & O5). exists t5. split; [eauto|]. split; [exact (fields_trans _ _ _ F4 F5)|].
        split; [exact X5|]. split; [exact R5|].
        split; [intros y Y1 Y2 Y3; rewrite O5 by assumption; apply O4; congruence|].
        intros q e Eq Ee. injection Eq as <-. rewrite D3 in Ee. injection Ee as <-. rewrite O5 by congruence. exact RR4. }
    destruct Hswap as (t5 & (t4 & E4 & E5) & F5 & X5 & R5 & O5 & RR5).
    assert (F25 : fields t2 t5).
    { destruct F1 as (? & ? & ? & ? & ?), F2 as (? & ? & ? & ? & ?), F3 as (? & ? & ? & ? & ?), F5 as (? & ? & ? & ? & ?). unfold fields. repeat split; congruence. }
    destruct (swap_ok t2 t5 L rk det m x b' r c (b_root c) I2 Hx B2 Er2 C2 Tl2 Hdet F25 X5 R5) as (t' & rk' & b6 & E6 & I6 & K6 & RC6 & F6 & B6 & R6 & Fz).
    { intros y Y1 Y2 Y3. rewrite O5 by assumption. rewrite O3 by exact Y1. rewrite O2 by exact Y1. now apply O1. }
    { intros rr d Erc D. destruct (Nrr rr Erc) as [Q1 Q2]. rewrite O2 in D by exact Q1.
      pose proof (K1 rr d Erc D) as D1. assert (D3 : bget t3 rr = Some (set_kids d (sdel r (b_kids d)))) by (rewrite O3 by exact Q1; exact D1).
      pose proof (RR5 rr _ Erc D3) as D5. eexists. split; [exact D5|]. split; [repeat split|]. split; [reflexivity|].
      assert (Hrr : In rr L) by (rewrite Erc in Rr; apply (a_in _ _ _ _ _ _ _ _ Rr)).
      split; [cbn [set_kids b_kids]; apply sadd_nodup, sdel_nodup; apply (v_wf _ _ _ _ _ _ _ I rr d Hrr D)|].
      intro z. cbn [set_kids b_kids]. rewrite sadd_In, sdel_In. reflexivity. }
    assert (Ex : exchange_root t x r = Done t').
    { unfold exchange_root. rewrite B, C, E1.
      assert (Sw : of_opt (do t4 <- update_root_simple t3 x (Node r) (b_root c); update_root t4 r (b_root c) (Node x)) = Done t').
      { rewrite E4. cbn [bind]. rewrite E5, E6. reflexivity. }
      destruct (tail_equals c b) eqn:TE.
      - unfold tail_equals in TE. apply andb_prop in TE. destruct TE as [TE _]. apply Z.eqb_eq in TE.
        replace (b_tail b - b_tail c) with 0 in E3 by lia. cbn [Z.to_nat copy_tail] in E3. injection E3 as ->. exact Sw.
      - destruct (Z.leb_spec (b_tail c) (b_tail b)) as [_|X]; [|lia]. destruct (Z.geb_spec (b_head c) (b_tail b)) as [_|X]; [|lia]. cbn [andb].
        rewrite E3. exact Sw. }
    exists t', rk', b6. split; [exact Ex|]. split; [exact I6|].
    assert (H2 : heads t t2 L).
    { intros y d Hy D. destruct (Z.eq_dec y x) as [->|N]; [rewrite B in D; injection D as <-; exists b'; repeat split; congruence|].
      exists d. rewrite O2 by exact N. now repeat split. }
    split; [exact (keep_trans t t2 t' L L Kp2 K6 (heads_grow _ _ _ H2) (incl_refl L))|].
    split; [exact (heads_trans t t2 t' L L H2 (recore_heads _ _ L RC6) (incl_refl L))|].
    split; [exact (fields_trans _ _ _ F2 F6)|]. split; [exact B6|]. split; [exact R6|].
    split.
    { destruct (recore_get t2 t' x b' RC6 B2) as (b7 & B7 & (_ & _ & _ & T & _)). rewrite B6 in B7. injection B7 as <-. congruence. }
    intros y d Hy Ry D. apply (Fz y d Hy Ry). rewrite O2; [exact D|]. intros ->. lia.
  Qed.

  Lemma up_frozen t t' L rk ex det m : inv U t L rk ex det m -> forall n x, up t n x -> In x L ->
    (forall y d, In y L -> (rk y <= rk x)%nat -> bget t y = Some d -> exists d', bget t' y = Some d' /\ b_root d' = b_root d) -> up t' n x.
  Proof.
    intros I n x Hu. induction Hu as [x b B E|n x b r B E Hu IH]; intros Hx H; destruct (H x b Hx (le_n _) B) as (b' & B' & R).
    - apply (u_disk t' x b' B'). congruence.
    - apply (u_node t' n x b' r B'); [congruence|]. pose proof (rootn U t L rk _ _ m I x b r Hx B E) as At.
      apply IH; [apply (a_in _ _ _ _ _ _ _ _ At)|]. intros y d Hy Ry. apply H; [exact Hy|]. pose proof (a_rank _ _ _ _ _ _ _ _ At). lia.
  Qed.
  Lemma gp_frozen t t' L rk ex det m : inv U t L rk ex det m -> top t' = top t -> forall x, gp t m x -> In x L ->
    (forall y d, In y L -> (rk y <= rk x)%nat -> bget t y = Some d -> exists d', bget t' y = Some d' /\ same_core d d' /\ b_root d' = b_root d) -> gp t' m x.
  Proof.
    intros I Et x Hu. induction Hu as [x b B E T|x b r B E Hu IH]; intros Hx H; destruct (H x b Hx (le_n _) B) as (b' & B' & SC & R).
    - apply (g_last t' m x b' B'); [congruence|]. destruct SC as (_ & _ & _ & S & _). lia.
    - apply (g_up t' m x b' r B'); [congruence|]. pose proof (rootn U t L rk _ _ m I x b r Hx B E) as At.
      apply IH; [apply (a_in _ _ _ _ _ _ _ _ At)|]. intros y d Hy Ry. apply H; [exact Hy|]. pose proof (a_rank _ _ _ _ _ _ _ _ At). lia.
  Qed.

  (** ** Exchanging all the way up *)
  Lemma exchange_all_ok L m x : forall n t rk det fuel,
    inv U t L rk None det m -> In x L -> x <> m -> (det = None \/ det = Some x) -> up t n x -> (n < fuel)%nat ->
    (exists t' rk', exchange_all fuel t x = Done t' /\ inv U t' L rk' None None x /\ keep t t' L /\ heads t t' L /\ fields t t') \/
    (exists t' rk' det', exchange_all fuel t x = Fail t' /\ inv U t' L rk' None det' m /\ (det' = None \/ (det' = det /\ t' = t)) /\ keep t t' L /\ heads t t' L /\ fields t t' /\ ~ gp t m x).
  Proof.
    induction n as [|n IH]; intros t rk det fuel I Hx Nxm Hdet Hu Hf; (destruct fuel as [|fuel]; [lia|]).
    - inversion Hu as [y b B E|]; subst. pose proof (v_root _ _ _ _ _ _ _ I x b Hx B) as R. rewrite E in R. destruct R as (X & _). congruence.
    - inversion Hu as [|n0 y b r B Er Hu']; subst n0 y. pose proof (rootn U t L rk _ _ m I x b r Hx B Er) as At.
      pose proof (a_in _ _ _ _ _ _ _ _ At) as Hr. pose proof (a_rank _ _ _ _ _ _ _ _ At) as Rk. destruct (v_get _ _ _ _ _ _ _ I r Hr) as [c C].
      cbn [exchange_all]. rewrite B, Er.
      destruct (Z_le_gt_dec (b_tail c) (b_tail b)) as [LE|GT].
      + destruct (exchange_root_ok t L rk det m x b r c I Hx B Er C Hdet LE) as (t1 & rk1 & b1 & E1 & I1 & K1 & H1 & F1 & B1 & R1 & T1 & Fz).
        rewrite E1. pose proof (v_root _ _ _ _ _ _ _ I r c Hr C) as Rr. unfold new_top in I1.
        destruct (b_root c) as [|rr] eqn:Erc.
        * left. destruct fuel as [|fuel]; [lia|]. cbn [exchange_all]. rewrite B1, R1. exists t1, rk1. split; [reflexivity|]. split; [exact I1|]. split; [exact K1|]. split; [exact H1|exact F1].
        * inversion Hu' as [y d D Ed|n1 y d q D Ed Hu2]; subst y; rewrite C in D; injection D as <-; [congruence|]. subst n.
          assert (q = rr) by congruence. subst q. pose proof (a_in _ _ _ _ _ _ _ _ Rr) as Hrr. pose proof (a_rank _ _ _ _ _ _ _ _ Rr) as Rkr.
          assert (Up1 : up t1 (S n1) x).
          { apply (u_node t1 n1 x b1 rr B1 R1). apply (up_frozen t t1 L rk None det m I n1 rr Hu2 Hrr).
            intros y d Hy Ry D. destruct (Fz y d Hy ltac:(lia) D) as (d' & D' & _ & R). eauto. }
          assert (Tp : top t1 = top t) by (destruct F1 as (_ & _ & _ & _ & Fd); unfold top, disk_head; now rewrite Fd).
          destruct (IH t1 rk1 None fuel I1 Hx Nxm (or_introl eq_refl) Up1 ltac:(lia)) as [(t' & rk' & E & I' & K & H & F)|(t' & rk' & det' & E & I' & Hd' & K & H & F & NG)].
          -- left. exists t', rk'. split; [exact E|]. split; [exact I'|]. split; [exact (keep_trans t t1 t' L L K1 K (heads_grow _ _ _ H1) (incl_refl L))|].
             split; [exact (heads_trans t t1 t' L L H1 H (incl_refl L))|exact (fields_trans _ _ _ F1 F)].
          -- right. exists t', rk', det'. split; [exact E|]. split; [exact I'|]. split; [left; destruct Hd' as [Hd'|[Hd' _]]; exact Hd'|].
             split; [exact (keep_trans t t1 t' L L K1 K (heads_grow _ _ _ H1) (incl_refl L))|].
             split; [exact (heads_trans t t1 t' L L H1 H (incl_refl L))|]. split; [exact (fields_trans _ _ _ F1 F)|].
             intro Gp. apply NG. assert (Gr : gp t m r).
             { inversion Gp as [y d D Ed' _|y d q D Ed' Gq]; subst y; rewrite B in D; injection D as <-.
               - assert (r = m) by congruence. subst r. exfalso. exact (a_not _ _ _ _ _ _ _ _ Rr eq_refl).
               - assert (q = r) by congruence. now subst q. }
             inversion Gr as [y d D Ed' Tt|y d q D Ed' Gq]; subst y; rewrite C in D; injection D as <-.
             ++ apply (g_last t1 m x b1 B1); [congruence|]. lia.
             ++ assert (q = rr) by congruence. subst q. apply (g_up t1 m x b1 rr B1 R1).
                apply (gp_frozen t t1 L rk None det m I Tp rr Gq Hrr). intros y d Hy Ry D. apply (Fz y d Hy ltac:(lia) D).
      + right. assert (r = m) as ->.
        { destruct (Z.eq_dec r m) as [|N]; [assumption|]. destruct (a_eff _ _ _ _ _ _ _ _ At N c C) as [Q _]. unfold eff in Q. lia. }
        destruct (main_root U t L rk _ _ m c I C) as (Erc & Tc & _).
        exists t, rk, det. split; [|split; [exact I|split; [right; now split|split; [apply keep_refl|split; [apply heads_refl|split; [apply fields_refl|]]]]]].
        * unfold exchange_root. rewrite B, C, Erc. unfold tail_equals. destruct (Z.eqb_spec (b_tail c) (b_tail b)); [lia|]. cbn [andb].
          destruct (Z.leb_spec (b_tail c) (b_tail b)); [lia|]. reflexivity.
        * intro Gp. inversion Gp as [y d D Ed Tt|y d q D Ed Gq]; subst y; rewrite B in D; injection D as <-; [lia|].
          assert (q = m) by congruence. subst q. clear -Gq C Erc. inversion Gq as [y d D Ed _|y d q D Ed _]; subst y; rewrite C in D; injection D as <-; congruence.
  Qed.

  (** ** When the target goes through the ledger's head *)
  Lemma clean_apart t L rk det m : inv U t L rk None det m -> forall x, clean t x -> In x L -> x <> m -> forall b bm h k,
    bget t x = Some b -> bget t m = Some bm -> b_tail b < h -> h <= b_head b -> h <= b_head bm -> sees t (Node x) h k -> sees t (Node m) h k -> False.
  Proof.
    intros I x C. induction C as [x b B E|x b r B E C IH D]; intros Hx Nm b' bm h k B' Bm H1 H2 H3 S1 S2; rewrite B in B'; injection B' as <-.
    - pose proof (v_root _ _ _ _ _ _ _ I x b Hx B) as R. rewrite E in R. destruct R as (X & _). congruence.
    - pose proof (rootn U t L rk _ _ m I x b r Hx B E) as At. pose proof (a_in _ _ _ _ _ _ _ _ At) as Hr. pose proof (v_main _ _ _ _ _ _ _ I) as Hm.
      pose proof (wf_of U t L rk _ _ m I x b Hx B) as W. pose proof (tail_le U t L rk _ _ m I x b Hx B) as T.
      destruct (v_get _ _ _ _ _ _ _ I r Hr) as [c Cc]. pose proof (a_le _ _ _ _ _ _ _ _ At c Cc) as Hle.
      destruct (w_full b W (b_tail b + 1)) as [k1 F1]; [lia|].
      assert (S1' : sees t (Node x) (b_tail b + 1) k1) by (apply (sees_own U t L rk _ _ m I x b _ _ Hx B); [lia|exact F1]).
      destruct (Z.eq_dec r m) as [->|Nr].
      + rewrite Bm in Cc. injection Cc as <-. apply D. exists k1, bm. split; [exact Bm|]. split; [exact F1|]. split; [lia|].
        apply (agree_down U HU t L rk _ _ m I x m b bm h k Hx Hm B Bm H2 H3 S1 S2 (b_tail b + 1) k1); [lia|exact S1'].
      + destruct (a_eff _ _ _ _ _ _ _ _ At Nr c Cc) as [Q1 Q2]. unfold eff in Q1, Q2.
        assert (Lt : b_tail c < b_tail b).
        { destruct (Z_lt_le_dec (b_tail c) (b_tail b)) as [|GE]; [assumption|]. exfalso. apply D.
          destruct Q2 as (h' & k' & bx & b2 & P1 & P2 & P3 & P4 & P5 & P6 & P7). rewrite B in P1. injection P1 as <-. rewrite Cc in P2. injection P2 as <-.
          exists k1, c. split; [exact Cc|]. split; [exact F1|]. split; [lia|].
          apply (agree_down U HU t L rk _ _ m I x r b c h' k' Hx Hr B Cc P4 P5 P6 P7 (b_tail b + 1) k1); [lia|exact S1']. }
        destruct (sees_all U t L rk _ _ m I x Hx b (b_tail b) B ltac:(lia)) as (k2 & S3 & _).
        apply (IH Hr Nr c bm (b_tail b) k2 Cc Bm Lt Hle ltac:(lia)).
        * apply (child_sees U t L rk _ _ m I x b r _ _ Hx B E); [lia|exact S3].
        * apply (agree_down U HU t L rk _ _ m I x m b bm h k Hx Hm B Bm H2 H3 S1 S2 (b_tail b) k2); [lia|exact S3].
  Qed.
  Lemma clean_gp t L rk det m : inv U t L rk None det m -> forall x, clean t x -> In x L -> x <> m -> forall b,
    bget t x = Some b -> top t <= b_head b -> sees t (Node x) (top t) (disk_head t) -> gp t m x.
  Proof.
    intros I x C. pose proof (v_main _ _ _ _ _ _ _ I) as Hm. destruct (v_get _ _ _ _ _ _ _ I m Hm) as [bm Bm].
    destruct (main_root U t L rk _ _ m bm I Bm) as (Em & Tm & _). pose proof (tail_le U t L rk _ _ m I m bm Hm Bm) as Tl.
    assert (Sm : sees t (Node m) (top t) (disk_head t)).
    { apply (sees_root U t L rk _ _ m I m bm _ _ Hm Bm); [lia|]. rewrite Em, sees_disk. apply disk_top. apply (v_disk _ _ _ _ _ _ _ I). }
    induction C as [x b B E|x b r B E C IH D]; intros Hx Nm b' B' H2 S1; rewrite B in B'; injection B' as <-.
    - pose proof (v_root _ _ _ _ _ _ _ I x b Hx B) as R. rewrite E in R. destruct R as (X & _). congruence.
    - assert (Le : top t <= b_tail b).
      { destruct (Z_le_gt_dec (top t) (b_tail b)) as [|GT]; [assumption|]. exfalso.
        apply (clean_apart t L rk det m I x (c_node t x b r B E C D) Hx Nm b bm (top t) (disk_head t) B Bm); try lia; assumption. }
      pose proof (rootn U t L rk _ _ m I x b r Hx B E) as At. pose proof (a_in _ _ _ _ _ _ _ _ At) as Hr.
      destruct (Z.eq_dec r m) as [->|Nr]; [now apply (g_last t m x b)|].
      apply (g_up t m x b r B E). destruct (v_get _ _ _ _ _ _ _ I r Hr) as [c Cc]. pose proof (a_le _ _ _ _ _ _ _ _ At c Cc).
      apply (IH Hr Nr c Cc); [lia|]. apply (child_sees U t L rk _ _ m I x b r _ _ Hx B E Le). exact S1.
  Qed.
End Switch.
