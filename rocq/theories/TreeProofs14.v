(** * The candidate tree: histories and the chains branches stand for *)
From Coq Require Import ZArith List Bool Lia Permutation.
From Verif Require Import Lib TreeModel TreeSpec TreeProofs TreeProofs2 TreeProofs3 TreeProofs4 TreeProofs5 TreeProofs6 TreeProofs7 TreeProofs8 TreeProofs9 TreeProofs10 TreeProofs11 TreeProofs12 TreeProofs13.
Import ListNotations.
Local Open Scope Z_scope.

Lemma base_first t : first_height t = base t.
Proof. unfold first_height, base. now destruct (t_disk t). Qed.
Lemma heights_nth a n i h : nth_error (heights a n) i = Some h <-> (i < n)%nat /\ h = a + Z.of_nat i.
Proof.
  revert a i. induction n as [|n IH]; intros a i; cbn [heights]; [destruct i; cbn; split; [discriminate|lia|discriminate|lia]|].
  destruct i as [|i]; cbn [nth_error]; [split; [injection 1 as <-; lia|intros [_ ->]; f_equal; lia]|]. rewrite IH. split; intros [A B]; split; lia.
Qed.
Lemma heights_len a n : length (heights a n) = n.
Proof. revert a. induction n as [|n IH]; intro a; cbn; [reflexivity|]. now rewrite IH. Qed.
Lemma all_some_nth {A} (l : list (option A)) : (forall i o, nth_error l i = Some o -> o <> None) ->
  exists r, all_some l = Some r /\ length r = length l /\ forall i a, nth_error r i = Some a <-> nth_error l i = Some (Some a).
Proof.
  induction l as [|o l IH]; intro H.
  - exists []. split; [reflexivity|]. split; [reflexivity|]. intros [|i] a; cbn; split; discriminate.
  - destruct o as [a|]; [|exfalso; exact (H O None eq_refl eq_refl)]. destruct IH as (r & E & Le & Q); [intros i o Ho; exact (H (S i) o Ho)|].
    cbn [all_some]. rewrite E. exists (a :: r). split; [reflexivity|]. split; [cbn; now rewrite Le|]. intros [|i] b; cbn [nth_error]; [split; injection 1 as <-; reflexivity|apply Q].
Qed.
Lemma prefix_nth {A} (l l' : list A) : (forall i a, nth_error l i = Some a -> nth_error l' i = Some a) -> l' = l ++ skipn (length l) l'.
Proof.
  revert l'. induction l as [|a l IH]; intros l' H; [reflexivity|]. destruct l' as [|b l']; [specialize (H O a eq_refl); discriminate|].
  pose proof (H O a eq_refl) as E. injection E as ->. cbn [length skipn app]. f_equal. apply IH. intros i c Hc. exact (H (S i) c Hc).
Qed.
Lemma dchain_nth a l i k : dchain (a :: l) -> nth_error (a :: l) i = Some k -> k_height k = k_height a + Z.of_nat i.
Proof.
  revert a l k. induction i as [|i IH]; intros a l k D E; [injection E as <-; lia|]. cbn [nth_error] in E. destruct l as [|b l]; [destruct i; discriminate|].
  rewrite (IH b l k (dchain_tl _ _ D) E). destruct (D [] a b l eq_refl) as [_ ->]. lia.
Qed.
Lemma disk_nth t i k : disk_ok t -> nth_error (t_disk t) i = Some k -> disk_get t (base t + Z.of_nat i) = Some k.
Proof.
  intros D E. pose proof D as [C N]. unfold base. destruct (t_disk t) as [|a l] eqn:Ed; [congruence|]. cbn [hd].
  pose proof (dchain_nth a l i k C E) as Hk. rewrite <- Hk.
  assert (R : base t <= k_height k <= top t).
  { assert (In k (t_disk t)) by (rewrite Ed; exact (nth_error_In _ _ E)). unfold base, top, disk_head. rewrite Ed. cbn [hd]. split; [lia|].
    destruct (dchain_heights a l C) as [_ G]. fold k0. rewrite (last_any (a :: l) _ a) by discriminate. rewrite G, Hk. assert (i < length (a :: l))%nat by (apply nth_error_Some; congruence). cbn in *. unfold zlen. lia. }
  destruct (disk_full t D _ R) as [k' E']. rewrite E'. apply (disk_dom t D) in E'. destruct E' as (_ & Hk' & Ik'). rewrite Ed in Ik'. apply In_nth_error in Ik'. destruct Ik' as [j Ej].
  pose proof (dchain_nth a l j k' C Ej). assert (j = i) by lia. subst j. congruence.
Qed.

Section Hist.
  Context (U : knot -> Prop) (HU : honest U).
  Definition ok (t : tree) : Prop := exists L rk, inv U t L rk None None (t_main t).
  Lemma present_in t L rk x : inv U t L rk None None (t_main t) -> present t x -> In x L.
  Proof. intros I [H| ->]; [now apply (v_list _ _ _ _ _ _ _ I)|apply I]. Qed.

  Lemma init_ok d : ledger U d -> inv U (init d) [1] (fun _ => O) None None 1.
  Proof.
    intros (N & C & F). constructor.
    - split; [exact C|exact N].
    - exact F.
    - repeat constructor. intros [].
    - now left.
    - intros x Hx. split; [exact Hx|discriminate].
    - intros x [<-|[]]. eexists. reflexivity.
    - intros x b [<-|[]] B. injection B as <-. split; [|split; [intros h k X; discriminate|split; [|constructor]]].
      + constructor; cbn [new_br b_tail b_head b_blocks b_tailX b_headX mget]; try discriminate; try lia; try reflexivity. constructor.
      + cbn [new_br b_tail]. exact (base_top (init d) (conj C N)).
    - intros x b B. unfold bget in B. cbn in B. destruct (Z.eqb_spec x 1); [cbn; lia|discriminate].
    - intros x b [<-|[]] B. injection B as <-. cbn [new_br b_root b_tail b_tailX]. repeat split.
    - intros x b y [<-|[]] B. injection B as <-. cbn [new_br b_kids]. split; [intros []|]. intros ([<-|[]] & (c & C' & E) & _). injection C' as <-. discriminate.
  Qed.

  (** The chain of a branch, by height *)
  Lemma chain_view t L rk det m x b : inv U t L rk None det m -> In x L -> bget t x = Some b ->
    exists l, chain_of t x = Some l /\ length l = Z.to_nat (b_head b - base t + 1) /\
      forall i k, nth_error l i = Some k <-> (base t + Z.of_nat i <= b_head b /\ sees t (Node x) (base t + Z.of_nat i) k).
  Proof.
    intros I Hx B. pose proof (v_wf _ _ _ _ _ _ _ I x b Hx B) as (W & _ & T & _). pose proof (w_le b W) as Le.
    unfold chain_of. rewrite B, base_first. set (n := Z.to_nat (b_head b - base t + 1)).
    assert (Nth : forall i o, nth_error (map (fun h => get_knot t (Node x) h true) (heights (base t) n)) i = Some o <-> (i < n)%nat /\ o = get_knot t (Node x) (base t + Z.of_nat i) true).
    { intros i o. rewrite nth_error_map. destruct (nth_error (heights (base t) n) i) as [h|] eqn:E; cbn [option_map].
      - apply heights_nth in E. destruct E as [E ->]. split; [injection 1 as <-; now split|intros [_ ->]; reflexivity].
      - split; [discriminate|]. intros [X _]. apply nth_error_None in E. rewrite heights_len in E. lia. }
    destruct (all_some_nth (map (fun h => get_knot t (Node x) h true) (heights (base t) n))) as (l & E & Le' & Q).
    { intros i o Ho X. apply Nth in Ho. destruct Ho as [Hi ->]. assert (R : base t <= base t + Z.of_nat i <= b_head b) by lia.
      destruct (sees_all U t L rk _ _ m I x Hx b _ B R) as (k & S & _). rewrite (get_knot_sees U t L rk _ _ m I x b _ k Hx B (proj2 R) S) in X. discriminate. }
    exists l. split; [exact E|]. split; [rewrite Le', map_length; apply heights_len|]. intros i k. rewrite Q, Nth. split.
    - intros [Hi Ek]. split; [lia|]. apply (get_knot_sound t). now symmetry.
    - intros [Hi S]. split; [lia|]. symmetry. exact (get_knot_sees U t L rk _ _ m I x b _ k Hx B Hi S).
  Qed.
  Lemma view_chain t L rk det m x b l : inv U t L rk None det m -> In x L -> bget t x = Some b -> chain_of t x = Some l ->
    chain l /\ (forall k, In k l -> U k) /\ hd_error l = hd_error (t_disk t) /\ exists q z, l = q ++ [z] /\ k_hash z = b_headX b /\ k_height z = b_head b.
  Proof.
    intros I Hx B E. destruct (chain_view t L rk det m x b I Hx B) as (l' & E' & Le & V). rewrite E in E'. injection E' as <-.
    pose proof (v_wf _ _ _ _ _ _ _ I x b Hx B) as (W & _ & T & _). pose proof (w_le b W) as Lt.
    split; [|split; [|split]].
    - intros p a c q ->. assert (A : nth_error (p ++ a :: c :: q) (length p) = Some a) by (rewrite nth_error_app2, Nat.sub_diag by lia; reflexivity).
      assert (A' : nth_error (p ++ a :: c :: q) (S (length p)) = Some c) by (rewrite nth_error_app2 by lia; replace (S (length p) - length p)%nat with 1%nat by lia; reflexivity).
      apply V in A, A'. destruct A as [A1 A2], A' as [A1' A2']. replace (base t + Z.of_nat (S (length p))) with (base t + Z.of_nat (length p) + 1) in * by lia.
      split; [exact (sees_link U t L rk _ _ m I x Hx b (base t + Z.of_nat (length p)) a c B ltac:(lia) A1' A2 A2')|].
      assert (R1 : base t <= base t + Z.of_nat (length p) <= b_head b) by lia. assert (R2 : base t <= base t + Z.of_nat (length p) + 1 <= b_head b) by lia.
      rewrite (proj1 (sees_inv U t L rk _ _ m I x b _ a Hx B R1 A2)). exact (proj1 (sees_inv U t L rk _ _ m I x b _ c Hx B R2 A2')).
    - intros k Ik. apply In_nth_error in Ik. destruct Ik as [i Hi]. apply V in Hi. destruct Hi as [H1 H2]. assert (R : base t <= base t + Z.of_nat i <= b_head b) by lia.
      apply (sees_inv U t L rk _ _ m I x b _ k Hx B R H2).
    - assert (G : forall x, In x L -> forall b k, bget t x = Some b -> sees t (Node x) (base t) k -> disk_get t (base t) = Some k).
      { apply (TreeProofs2.up_ind U t L rk _ _ m I (fun x => forall b k, bget t x = Some b -> sees t (Node x) (base t) k -> disk_get t (base t) = Some k)).
        intros y c Hy C IH c' k C' S. rewrite C in C'. injection C' as <-. pose proof (v_wf _ _ _ _ _ _ _ I y c Hy C) as (_ & _ & Tc & _).
        apply (sees_root U t L rk _ _ m I y c _ _ Hy C Tc) in S. destruct (b_root c) as [|r] eqn:Er; [now apply sees_disk|].
        pose proof (rootn U t L rk _ _ m I y c r Hy C Er) as At. pose proof (a_in _ _ _ _ _ _ _ _ At) as Hr. destruct (v_get _ _ _ _ _ _ _ I r Hr) as [d D]. exact (IH r eq_refl Hr d k D S). }
      destruct (sees_all U t L rk _ _ m I x Hx b (base t) B ltac:(lia)) as (k & S & _). pose proof (G x Hx b k B S) as Dk.
      assert (N0 : nth_error l 0 = Some k) by (apply V; replace (base t + Z.of_nat 0) with (base t) by lia; split; [lia|exact S]).
      pose proof (v_disk _ _ _ _ _ _ _ I) as D. pose proof D as [_ Nd]. destruct (t_disk t) as [|a d] eqn:Ed; [congruence|]. cbn [hd_error].
      assert (N1 : nth_error (t_disk t) 0 = Some a) by now rewrite Ed. apply (disk_nth t 0 a D) in N1. replace (base t + Z.of_nat 0) with (base t) in N1 by lia.
      destruct l; [discriminate|]. injection N0 as ->. cbn. congruence.
    - destruct (sees_all U t L rk _ _ m I x Hx b (b_head b) B ltac:(lia)) as (k & S & Hk & _). set (n := Z.to_nat (b_head b - base t)).
      assert (Nn : nth_error l n = Some k) by (apply V; unfold n; replace (base t + Z.of_nat (Z.to_nat (b_head b - base t))) with (b_head b) by lia; split; [lia|exact S]).
      apply nth_error_split in Nn. destruct Nn as (q & r & -> & Lq). rewrite app_length in Le. cbn [length] in Le. assert (length r = O) by lia. destruct r; [|discriminate].
      exists q, k. split; [reflexivity|]. split; [exact (sees_head U t L rk _ _ m I x b k Hx B S)|exact Hk].
  Qed.
  (** Seen in one place, seen in the other: the chain is a beginning of the other *)
  Lemma view_prefix t t' L L' rk rk' det det' m m' x y b c l l' : inv U t L rk None det m -> inv U t' L' rk' None det' m' -> In x L -> In y L' -> bget t x = Some b -> bget t' y = Some c ->
    base t' = base t -> b_head b <= b_head c -> (forall h k, h <= b_head b -> sees t (Node x) h k -> sees t' (Node y) h k) -> chain_of t x = Some l -> chain_of t' y = Some l' ->
    exists e, l' = l ++ e /\ zlen e = b_head c - b_head b /\ (forall k, sees t' (Node y) (b_head b + 1) k -> b_head b < b_head c -> hd_error e = Some k).
  Proof.
    intros I I' Hx Hy B C Eb Hh S E E'. destruct (chain_view t L rk det m x b I Hx B) as (l1 & E1 & Le & V). rewrite E in E1. injection E1 as <-.
    destruct (chain_view t' L' rk' det' m' y c I' Hy C) as (l2 & E2 & Le' & V'). rewrite E' in E2. injection E2 as <-. rewrite Eb in *.
    pose proof (v_wf _ _ _ _ _ _ _ I x b Hx B) as (W & _ & T & _). pose proof (w_le b W) as Lt.
    assert (P : l' = l ++ skipn (length l) l').
    { apply prefix_nth. intros i a Ha. apply V in Ha. destruct Ha as [A1 A2]. apply V'. split; [lia|]. now apply S. }
    exists (skipn (length l) l'). split; [exact P|]. split; [unfold zlen; rewrite skipn_length; lia|].
    intros k Sk Lk. assert (N : nth_error l' (length l) = Some k) by (apply V'; rewrite Le; replace (base t + Z.of_nat (Z.to_nat (b_head b - base t + 1))) with (b_head b + 1) by lia; split; [lia|exact Sk]).
    rewrite P in N. rewrite nth_error_app2, Nat.sub_diag in N by lia. destruct (skipn (length l) l'); [discriminate|exact N].
  Qed.
  Lemma view_in t L rk det m x b l h k : inv U t L rk None det m -> In x L -> bget t x = Some b -> chain_of t x = Some l -> k_height k = h -> base t <= h ->
    (In k l <-> h <= b_head b /\ sees t (Node x) h k).
  Proof.
    intros I Hx B E Hk Hb. destruct (chain_view t L rk det m x b I Hx B) as (l1 & E1 & Le & V). rewrite E in E1. injection E1 as <-. split.
    - intro Ik. apply In_nth_error in Ik. destruct Ik as [i Hi]. apply V in Hi. destruct Hi as [A1 A2]. assert (R : base t <= base t + Z.of_nat i <= b_head b) by lia.
      pose proof (proj1 (sees_inv U t L rk _ _ m I x b _ k Hx B R A2)) as Q. assert (Eh : h = base t + Z.of_nat i) by lia. rewrite Eh. now split.
    - intros [A S]. apply (nth_error_In l (Z.to_nat (h - base t))). apply V. replace (base t + Z.of_nat (Z.to_nat (h - base t))) with h by lia. now split.
  Qed.

  Lemma base_same t t' : t_disk t' = t_disk t -> base t' = base t.
  Proof. intro E. unfold base. now rewrite E. Qed.
  (** Whose head an operation may move *)
  Definition steady (o : op) (t : tree) (x : Z) : Prop :=
    match o with OAdd y _ => x <> y | OAdvance _ => x <> t_main t | _ => True end.
  Definition moved (o : op) (t t' : tree) (L L' : list Z) : Prop :=
    forall x b b', In x L -> In x L' -> bget t x = Some b -> bget t' x = Some b' -> steady o t x -> b_head b' = b_head b.
  Lemma moved_heads o t t' L L' : heads t t' L' -> moved o t t' L L'.
  Proof. intros H x b b' _ Hx B B' _. destruct (H x b Hx B) as (c & C & E & _). congruence. Qed.
  Lemma moved_heads' o t t' L L' : heads t t' L -> moved o t t' L L'.
  Proof. intros H x b b' Hx _ B B' _. destruct (H x b Hx B) as (c & C & E & _). congruence. Qed.
  Lemma step_ok t L rk o : inv U t L rk None None (t_main t) -> allowed U t o ->
    exists t' L' rk', state_of (apply_op o t) = Some t' /\ inv U t' L' rk' None None (t_main t') /\ stable t t' L L' /\ moved o t t' L L' /\ base t' = base t.
  Proof.
    intros I A. destruct o as [x k|x h|x|order|stale o1 o2|k|n]; cbn [allowed apply_op] in *.
    - destruct A as (P & Uk & b & B & Pk). pose proof (present_in t L rk x I P) as Hx.
      destruct (add_ok U HU t L rk _ x b k I Hx B Uk Pk) as (t' & b' & E & I' & K & G & M & D & Ls & Hs & B' & H1 & H2 & S & O). rewrite E. cbn [of_opt state_of].
      exists t', L, rk. split; [reflexivity|]. rewrite M. split; [exact I'|]. split; [exact (stable_of' t t' L L K G)|]. split; [|exact (base_same _ _ D)].
      intros y c c' _ _ C C' N. cbn [steady] in N. rewrite (O y N) in C'. congruence.
    - destruct A as (P & b & B & Hh & Hd). pose proof (present_in t L rk x I P) as Hx. rewrite base_first in Hh.
      destruct (fork_ok U t L rk _ x b h I Hx B Hh Hd) as (t' & rk' & bn & E & I' & K & H & M & D & Ls & Hs & NL & Bn & Hn & Sn). rewrite E. cbn [bind of_opt state_of].
      exists t', (t_next t + 1 :: L), rk'. split; [reflexivity|]. rewrite M. split; [exact I'|]. split; [exact (stable_of' t t' L _ K (heads_grow _ _ _ H))|]. split; [now apply moved_heads'|exact (base_same _ _ D)].
    - pose proof (present_in t L rk x I A) as Hx. destruct (switch_ok U HU t L rk x I Hx) as (t' & L' & rk' & I' & Sh & _ & E).
      exists t', L', rk'. split; [destruct E as [(E & _)|(E & _)]; rewrite E; reflexivity|]. split; [exact I'|]. split; [apply stable_of; [apply Sh|apply heads_grow, Sh]|].
      split; [apply moved_heads; apply Sh|apply base_same; apply Sh].
    - destruct (switch_empty_ok U HU t L rk order I) as (t' & L' & rk' & b' & E & I' & S & D & B' & Z0 & Hs & Hd); [intros y Hy; now apply A|].
      exists t', L', rk'. rewrite E. split; [reflexivity|]. split; [exact I'|]. split; [exact S|]. split; [|exact (base_same _ _ D)].
      intros y c c' Hy Hy' C C' _. exact (Hd y c c' Hy Hy' C C').
    - destruct (prune_tree_ok U HU stale o1 o2 t L rk I) as (t' & L' & gone & E & I' & M & Sub & K & H & D & _). rewrite E. cbn [bind of_opt state_of].
      exists t', L', rk. split; [reflexivity|]. split; [exact I'|]. split; [exact (stable_of t t' L L' K (heads_grow _ _ _ H))|]. split; [now apply moved_heads|exact (base_same _ _ D)].
    - destruct A as [Uk Pk]. destruct (v_get _ _ _ _ _ _ _ I _ (v_main _ _ _ _ _ _ _ I)) as [b B].
      destruct (advance_ok U HU t L rk _ b k I B eq_refl Uk Pk) as (t' & L' & rk' & E & I' & K & G & Sub & D & Li & Li' & Hd & _). rewrite E. cbn [of_opt state_of].
      exists t', L', rk'. split; [reflexivity|]. split; [exact I'|]. split; [exact (stable_of' t t' L L' K G)|]. split.
      + intros y c c' Hy _ C C' N. cbn [steady] in N. destruct (Hd y c Hy C) as (c2 & C2 & [Q|(Q & _)]); [congruence|contradiction].
      + pose proof (v_disk _ _ _ _ _ _ _ I) as [_ Nd]. unfold base. rewrite D. destruct (t_disk t); [congruence|reflexivity].
    - set (q := (length (t_disk t) - n)%nat). assert (Ed : t_disk t = firstn q (t_disk t) ++ skipn q (t_disk t)) by (symmetry; apply firstn_skipn).
      assert (Nq : firstn q (t_disk t) <> []) by (intro X; apply (f_equal (@length _)) in X; rewrite firstn_length in X; cbn in X; unfold q in X; lia).
      destruct (rollback_ok U L rk _ (skipn q (t_disk t)) t (firstn q (t_disk t)) I eq_refl Ed Nq) as (t' & E & I' & K & H & M & D & Ls & Eb). rewrite E. cbn [of_opt state_of].
      exists t', L, rk. split; [reflexivity|]. rewrite M. split; [exact I'|]. split; [exact (stable_of' t t' L L K (heads_grow _ _ _ H))|]. split; [now apply moved_heads|exact Eb].
  Qed.
End Hist.
