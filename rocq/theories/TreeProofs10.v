(** * The candidate tree: the operations *)
From Coq Require Import ZArith List Bool Lia Permutation.
From Verif Require Import Lib TreeModel TreeSpec TreeProofs TreeProofs2 TreeProofs3 TreeProofs4 TreeProofs5 TreeProofs6 TreeProofs7 TreeProofs8 TreeProofs9.
Import ListNotations.
Local Open Scope Z_scope.

Section Ops.
  Context (U : knot -> Prop) (HU : honest U).

  Lemma sees_heap t t' : t_heap t' = t_heap t -> t_disk t' = t_disk t -> forall rf h k, sees t rf h k -> sees t' rf h k.
  Proof.
    intros E1 E2. assert (G : forall y, bget t' y = bget t y) by (intro y; unfold bget; now rewrite E1).
    assert (Lo : forall rf h, local t' rf h = local t rf h).
    { intros [|y] h; cbn [local]; [unfold disk_get; now rewrite E2|now rewrite G]. }
    intros rf h k S. induction S as [rf h k E|x b h k E B S IH]; [constructor; now rewrite Lo|]. apply (s_up t' x b); [now rewrite Lo|now rewrite G|exact IH].
  Qed.
  Lemma inv_ext t t' L rk ex det m : inv U t L rk ex det m -> t_heap t' = t_heap t -> t_disk t' = t_disk t -> t_list t' = t_list t -> t_next t' = t_next t ->
    inv U t' L rk ex det m.
  Proof.
    intros I E1 E2 E3 E4. assert (G : forall y, bget t' y = bget t y) by (intro y; unfold bget; now rewrite E1).
    pose proof (sees_heap t t' E1 E2) as S. destruct I as [I1 I2 I3 I4 I5 I6 I7 I8 I9 I10]. constructor; try assumption.
    - unfold disk_ok in *. now rewrite E2.
    - now rewrite E2.
    - now rewrite E3.
    - intros y Hy. rewrite G. auto.
    - intros y b Hy. rewrite G. unfold base in *. rewrite E2. apply I7. exact Hy.
    - intros y b. rewrite G, E4. apply I8.
    - intros y b Hy. rewrite G. intro B. specialize (I9 y b Hy B). unfold top, disk_head in *. rewrite E2. destruct (b_root b) as [|r]; [exact I9|].
      destruct I9 as [A1 A2 A3 A4 (k & Sk & Xk) A6]. constructor; try assumption.
      + intros c. rewrite G. apply A4.
      + exists k. split; [now apply S|exact Xk].
      + intros N c. rewrite G. intro C. destruct (A6 N c C) as [Q1 (h & k' & bx & b' & P1 & P2 & P3 & P4 & P5 & P6 & P7)]. split; [exact Q1|].
        exists h, k', bx, b'. rewrite !G. repeat split; try assumption; now apply S.
    - intros y b z Hy. rewrite G. intro B. rewrite (I10 y b z Hy B). setoid_rewrite G. reflexivity.
  Qed.
  Lemma keep_ext t t' L : t_heap t' = t_heap t -> t_disk t' = t_disk t -> keep t t' L.
  Proof. intros E1 E2 x b h k _ _ _ S. exact (sees_heap t t' E1 E2 _ _ _ S). Qed.
  Lemma heads_ext t t' L : t_heap t' = t_heap t -> heads t t' L.
  Proof. intros E y c _ C. exists c. split; [unfold bget in *; now rewrite E|]. now split. Qed.

  (** ** Adding a block *)
  Lemma add_ok t L rk m x b k : inv U t L rk None None m -> In x L -> bget t x = Some b -> U k -> k_prev k = b_headX b ->
    exists t' b', tree_add_head t x k = Some t' /\ inv U t' L rk None None m /\ keep t t' L /\ grow t t' L /\
      t_main t' = t_main t /\ t_disk t' = t_disk t /\ t_list t' = t_list t /\ t_hashes t' = sadd (k_hash k) (t_hashes t) /\
      bget t' x = Some b' /\ b_head b' = b_head b + 1 /\ b_headX b' = k_hash k /\ sees t' (Node x) (b_head b + 1) k /\
      (forall y, y <> x -> bget t' y = bget t y).
  Proof.
    intros I Hx B Uk P. destruct (head_move U HU t L rk None m x b k I Hx B Uk P) as (b' & E & H1 & H2 & I' & K & S).
    unfold tree_add_head. rewrite B. cbn [bind]. rewrite E. cbn [bind]. eexists. exists b'. split; [reflexivity|].
    split; [now apply inv_fields|].
    assert (G : grow t (bput t x b') L) by (apply (grow_put t _ L x b b' B (bget_same _ _ _)); [intros y N; now apply bget_other|lia]).
    split; [exact (keep_trans t _ _ L L K (keep_fields _ _ _) G (incl_refl L))|]. split; [exact G|].
    do 4 (split; [reflexivity|]). split; [apply bget_same|]. split; [exact H1|]. split; [exact H2|].
    split; [now apply (sees_heap (bput t x b'))|]. intros y N. now apply bget_other.
  Qed.

  (** ** A new branch *)
  Lemma fork_ok t L rk m x b h : inv U t L rk None None m -> In x L -> bget t x = Some b -> base t <= h <= b_head b -> (x = m \/ b_tail b < h) ->
    exists t' rk' bn, fork t x h = Some (t', t_next t + 1) /\ inv U t' (t_next t + 1 :: L) rk' None None m /\ keep t t' L /\ heads t t' L /\
      t_main t' = t_main t /\ t_disk t' = t_disk t /\ t_list t' = sadd (t_next t + 1) (t_list t) /\ t_hashes t' = t_hashes t /\ ~ In (t_next t + 1) L /\
      bget t' (t_next t + 1) = Some bn /\ b_head bn = h /\ (forall h' k, h' <= h -> sees t (Node x) h' k -> sees t' (Node (t_next t + 1)) h' k).
  Proof.
    intros I Hx B Hh Hd. destruct (sees_all U t L rk _ _ m I x Hx b h B Hh) as (k & S & Hk & Uk).
    set (n := t_next t + 1). pose proof (fun y c => v_next _ _ _ _ _ _ _ I y c) as Nx.
    assert (Nn : bget t n = None) by (destruct (bget t n) as [c|] eqn:E; [apply Nx in E; lia|reflexivity]).
    assert (NL : ~ In n L) by (intro X; destruct (v_get _ _ _ _ _ _ _ I n X); congruence).
    assert (Nxn : x <> n) by (intros ->; contradiction).
    unfold fork. rewrite (get_knot_sees U t L rk _ _ m I x b h k Hx B (proj2 Hh) S). cbn [bind]. rewrite Hk. fold n. unfold add_child.
    set (t1 := set_next (bput t n (new_br h (k_hash k) (Node x))) n).
    assert (B1 : bget t1 x = Some b) by (unfold t1; change (bget (bput t n (new_br h (k_hash k) (Node x))) x = Some b); rewrite bget_other by exact Nxn; exact B).
    rewrite B1. cbn [bind].
    set (bn := new_br h (k_hash k) (Node x)) in *. set (bx := set_kids b (sadd n (b_kids b))).
    set (t' := set_list (bput t1 x bx) (sadd n (t_list (bput t1 x bx)))).
    assert (G : forall y, bget t' y = if y =? x then Some bx else if y =? n then Some bn else bget t y).
    { intro y. change (bget (bput t1 x bx) y = if y =? x then Some bx else if y =? n then Some bn else bget t y). rewrite bget_bput. destruct (y =? x); [reflexivity|].
      change (bget (bput t n bn) y = if y =? n then Some bn else bget t y). apply bget_bput. }
    assert (Gn : bget t' n = Some bn) by (rewrite G; destruct (Z.eqb_spec n x); [congruence|]; now rewrite Z.eqb_refl).
    assert (Gx : bget t' x = Some bx) by (rewrite G; now rewrite Z.eqb_refl).
    assert (Go : forall y, y <> x -> y <> n -> bget t' y = bget t y) by (intros y N1 N2; rewrite G; destruct (Z.eqb_spec y x); [congruence|]; now destruct (Z.eqb_spec y n)).
    assert (Cor : forall y c, bget t y = Some c -> exists c', bget t' y = Some c' /\ same_core c c' /\ b_root c' = b_root c).
    { intros y c C. destruct (Z.eq_dec y x) as [->|N1]; [rewrite B in C; injection C as <-; exists bx; split; [exact Gx|split; [repeat split|reflexivity]]|].
      assert (y <> n) by congruence. exists c. rewrite Go by assumption. split; [exact C|split; [apply same_core_refl|reflexivity]]. }
    assert (Bk : forall y c', y <> n -> bget t' y = Some c' -> exists c, bget t y = Some c /\ same_core c c' /\ b_root c' = b_root c).
    { intros y c' N C'. destruct (Z.eq_dec y x) as [->|N1]; [rewrite Gx in C'; injection C' as <-; exists b; split; [exact B|split; [repeat split|reflexivity]]|].
      rewrite Go in C' by assumption. exists c'. split; [exact C'|split; [apply same_core_refl|reflexivity]]. }
    assert (SS : forall rf h' k', sees t rf h' k' -> sees t' rf h' k').
    { intros rf h' k' S'. induction S' as [rf h' k' E|y c h' k' E C S' IH].
      - constructor. destruct rf as [|y]; [exact E|]. cbn [local] in *. destruct (bget t y) as [c|] eqn:C; [|discriminate]. cbn [bind] in E.
        destruct (Cor y c C) as (c' & C' & (S1 & _) & _). rewrite C'. cbn [bind]. now rewrite S1.
      - destruct (Cor y c C) as (c' & C' & (S1 & _) & R). apply (s_up t' y c'); [|exact C'|now rewrite R].
        rewrite (local_node t' y c' h' C'), S1. now rewrite (local_node t y c h' C) in E. }
    assert (K : keep t t' L) by (intros y c h' k' _ _ _ S'; now apply SS).
    assert (Hds : heads t t' L).
    { intros y c _ C. destruct (Cor y c C) as (c' & C' & (_ & S2 & S3 & _) & _). eauto. }
    assert (Gw : grow t t' L) by now apply heads_grow.
    assert (Sn : forall h' k', h' <= h -> sees t (Node x) h' k' -> sees t' (Node n) h' k').
    { intros h' k' _ S'. apply (s_up t' n bn); [rewrite (local_node t' n bn h' Gn); reflexivity|exact Gn|]. apply SS. exact S'. }
    set (rk' := fun y => if y =? n then Datatypes.S (rk x) else rk y).
    assert (Rn : rk' n = Datatypes.S (rk x)) by (unfold rk'; now rewrite Z.eqb_refl).
    assert (Ro : forall y, y <> n -> rk' y = rk y) by (intros y N; unfold rk'; now destruct (Z.eqb_spec y n)).
    exists t', rk', bn. split; [reflexivity|]. split.
    { constructor.
      - apply (v_disk _ _ _ _ _ _ _ I).
      - apply (v_diskU _ _ _ _ _ _ _ I).
      - constructor; [exact NL|apply I].
      - right. apply I.
      - intros y Hy. change (In y (sadd n (t_list t))) in Hy. apply sadd_In in Hy. split; [|discriminate]. destruct Hy as [->|Hy]; [now left|right; now apply (v_list _ _ _ _ _ _ _ I)].
      - intros y [<-|Hy]; [eauto|]. destruct (v_get _ _ _ _ _ _ _ I y Hy) as [c C]. destruct (Cor y c C) as (c' & C' & _). eauto.
      - intros y c' [<-|Hy] C'.
        + rewrite Gn in C'. injection C' as <-. split; [|split; [intros h' k' F; discriminate|split; [exact (proj1 Hh)|constructor]]].
          constructor; cbn [bn new_br b_tail b_head b_blocks b_tailX b_headX mget]; try discriminate; try lia; try reflexivity. constructor.
        + assert (Ny : y <> n) by (intros ->; contradiction). destruct (Bk y c' Ny C') as (c & C & SC & _). destruct (v_wf _ _ _ _ _ _ _ I y c Hy C) as (W & V & T & ND).
          split; [exact (wfb_core c c' SC W)|]. destruct SC as (S1 & _ & _ & S4 & _). split; [rewrite S1; exact V|]. split; [rewrite S4; exact T|].
          destruct (Z.eq_dec y x) as [->|N1]; [rewrite Gx in C'; injection C' as <-; rewrite B in C; injection C as <-; now apply sadd_nodup|].
          rewrite Go in C' by assumption. rewrite C in C'. now injection C' as <-.
      - change (t_next t') with n. intros y c' C'. destruct (Z.eq_dec y n) as [->|N]; [lia|]. destruct (Bk y c' N C') as (c & C & _). apply Nx in C. lia.
      - intros y c' [<-|Hy] C'.
        + rewrite Gn in C'. injection C' as <-. cbn [bn new_br b_root]. constructor.
          * now right. * rewrite Rn, (Ro x Nxn). lia. * intros E. subst m. apply NL. apply I.
          * intros d D. rewrite Gx in D. injection D as <-. cbn. lia.
          * exists k. split; [now apply SS|reflexivity].
          * intros Nm d D. rewrite Gx in D. injection D as <-. cbn [eff bx set_kids b_tail bn new_br]. destruct Hd as [|Hd]; [congruence|]. split; [lia|].
            exists h, k, bn, bx. split; [exact Gn|]. split; [exact Gx|]. split; [exact Hd|]. split; [cbn; lia|]. split; [cbn; lia|]. split; [apply Sn; [lia|exact S]|now apply SS].
        + assert (Ny : y <> n) by (intros ->; contradiction). destruct (Bk y c' Ny C') as (c & C & SC & R). pose proof SC as (_ & _ & _ & S4 & S5).
          pose proof (v_root _ _ _ _ _ _ _ I y c Hy C) as Q. rewrite R. destruct (b_root c) as [|q] eqn:Eq.
          * destruct Q as (Q1 & Q2 & Q3). split; [exact Q1|]. change (top t') with (top t). change (disk_head t') with (disk_head t). split; congruence.
          * pose proof (a_in _ _ _ _ _ _ _ _ Q) as Hq. assert (Nq : q <> n) by (intros ->; contradiction).
            pose proof (attached_keep t t' L rk None None m y c c' q Q Hy K Gw S4 S5 (v_get _ _ _ _ _ _ _ I q Hq)) as At.
            destruct At as [A1 A2 A3 A4 A5 A6].
            -- intros _ d d' D D'. destruct (Bk q d' Nq D') as (d2 & D2 & (_ & _ & _ & Tq & _) & _). rewrite D in D2. injection D2 as <-. cbn [eff]. lia.
            -- constructor; try assumption; [now right|]. rewrite (Ro y Ny), (Ro q Nq). exact A2.
      - assert (RootC : forall z q, (exists cz, bget t' z = Some cz /\ b_root cz = Node q) <-> (z = n /\ q = x) \/ (z <> n /\ exists cz, bget t z = Some cz /\ b_root cz = Node q)).
        { intros z q. destruct (Z.eq_dec z n) as [->|Z1].
          - split; [intros (cz & A & E); rewrite Gn in A; injection A as <-; cbn in E; left; split; congruence|].
            intros [[_ ->]|[X _]]; [|congruence]. exists bn. now split.
          - split; [intros (cz & A & E); right; split; [exact Z1|]; destruct (Bk z cz Z1 A) as (c & C & _ & R); exists c; split; [exact C|congruence]|].
            intros [[X _]|[_ (c & C & E)]]; [congruence|]. destruct (Cor z c C) as (c' & C' & _ & R). exists c'. split; [exact C'|congruence]. }
        intros y c' z [<-|Hy] C'; rewrite RootC.
        + rewrite Gn in C'. injection C' as <-. cbn [bn new_br b_kids]. split; [intros []|].
          intros (P & [[_ X]|[Z1 (cz & A & E)]] & _); [congruence|].
          destruct (in_dec Z.eq_dec z L) as [Hz|Nz]; [|destruct P as [P|P]; congruence].
          exact (NL (a_in _ _ _ _ _ _ _ _ (rootn U t L rk _ _ m I z cz n Hz A E))).
        + assert (Ny : y <> n) by (intros ->; contradiction). destruct (v_get _ _ _ _ _ _ _ I y Hy) as [c C]. pose proof (v_kids _ _ _ _ _ _ _ I y c z Hy C) as Q.
          destruct (Z.eq_dec y x) as [->|N1].
          * rewrite Gx in C'. injection C' as <-. rewrite B in C. injection C as <-. cbn [bx set_kids b_kids]. rewrite sadd_In, Q. cbn [In].
            split; [intros [->|(A1 & A2 & A3)]; [split; [now left|split; [left; now split|discriminate]]|split; [now right|split; [right; split; [intros ->; contradiction|exact A2]|exact A3]]]|].
            intros (A1 & [[A2 _]|[A2 A2']] & A3); [now left|]. right. split; [destruct A1; [congruence|assumption]|]. now split.
          * rewrite Go in C' by assumption. rewrite C in C'. injection C' as <-. rewrite Q. cbn [In].
            split; [intros (A1 & A2 & A3); split; [now right|split; [right; split; [intros ->; contradiction|exact A2]|exact A3]]|].
            intros (A1 & [[A2 A2']|[A2 A2']] & A3); [congruence|]. split; [destruct A1; [congruence|assumption]|]. now split. }
    split; [exact K|]. split; [exact Hds|]. do 4 (split; [reflexivity|]). split; [exact NL|]. split; [exact Gn|]. split; [reflexivity|]. exact Sn.
  Qed.
End Ops.
