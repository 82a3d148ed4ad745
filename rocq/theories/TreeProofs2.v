(** * The candidate tree: the invariant and what it gives *)
From Coq Require Import ZArith List Bool Lia Permutation.
From Verif Require Import Lib TreeModel TreeSpec TreeProofs.
Import ListNotations.
Local Open Scope Z_scope.

(** The tail of [r] for the purposes of its children: while [r] is being pruned,
    the tail it had before *)
Definition eff (ex : option (Z * Z)) (r : Z) (b : br) : Z :=
  match ex with Some (y, lo) => if y =? r then lo else b_tail b | None => b_tail b end.
(** [x] and [r] have a block in common above height [lo] *)
Definition share (t : tree) (x r lo : Z) : Prop :=
  exists h k bx b, bget t x = Some bx /\ bget t r = Some b /\ lo < h /\ h <= b_head bx /\ h <= b_head b /\
                   sees t (Node x) h k /\ sees t (Node r) h k.
Record attached (t : tree) (L : list Z) (rk : Z -> nat) (ex : option (Z * Z)) (m x : Z) (bx : br) (r : Z) : Prop := {
  a_in : In r L;
  a_rank : (rk r < rk x)%nat;
  a_not : x <> m;
  a_le : forall b, bget t r = Some b -> b_tail bx <= b_head b;
  a_see : exists k, sees t (Node r) (b_tail bx) k /\ k_hash k = b_tailX bx;
  a_eff : r <> m -> forall b, bget t r = Some b -> eff ex r b <= b_tail bx /\ share t x r (eff ex r b) }.
(** [L]: the branches in use. [rk]: a rank that falls towards the ledger. [ex]:
    the branch being pruned. [det]: the branch taken out of its root's children.
    [m]: the branch on the ledger. *)
Record inv (U : knot -> Prop) (t : tree) (L : list Z) (rk : Z -> nat) (ex : option (Z * Z)) (det : option Z) (m : Z) : Prop := {
  v_disk : disk_ok t;
  v_diskU : Forall U (t_disk t);
  v_nodup : NoDup L;
  v_main : In m L;
  v_list : forall x, In x (t_list t) -> In x L /\ det <> Some x;
  v_get : forall x, In x L -> exists b, bget t x = Some b;
  v_wf : forall x b, In x L -> bget t x = Some b ->
         wfb b /\ (forall h k, mget h (b_blocks b) = Some k -> U k) /\ base t <= b_tail b /\ NoDup (b_kids b);
  v_next : forall x b, bget t x = Some b -> x <= t_next t;
  v_root : forall x b, In x L -> bget t x = Some b ->
           match b_root b with
           | Disk => x = m /\ b_tail b = top t /\ b_tailX b = k_hash (disk_head t)
           | Node r => attached t L rk ex m x b r
           end;
  v_kids : forall x b y, In x L -> bget t x = Some b ->
           (In y (b_kids b) <-> In y L /\ (exists by_, bget t y = Some by_ /\ b_root by_ = Node x) /\ det <> Some y) }.

(** All branches of [L] see in [t'] what they saw in [t] *)
Definition keep (t t' : tree) (L : list Z) : Prop :=
  forall x b h k, In x L -> bget t x = Some b -> h <= b_head b -> sees t (Node x) h k -> sees t' (Node x) h k.

Section Tree.
  Context (U : knot -> Prop) (HU : honest U).

  Section One.
    Context (t : tree) (L : list Z) (rk : Z -> nat) (ex : option (Z * Z)) (det : option Z) (m : Z).
    Context (I : inv U t L rk ex det m).
    Lemma wf_of x b : In x L -> bget t x = Some b -> wfb b.
    Proof. intros A B. apply (v_wf _ _ _ _ _ _ _ I x b A B). Qed.
    (** Induction towards the ledger *)
    Lemma up_ind (P : Z -> Prop) :
      (forall x b, In x L -> bget t x = Some b -> (forall r, b_root b = Node r -> In r L -> P r) -> P x) ->
      forall x, In x L -> P x.
    Proof.
      intro H. assert (X : forall n x, (rk x < n)%nat -> In x L -> P x).
      { induction n as [|n IH]; intros x Hr Hx; [lia|].
        destruct (v_get _ _ _ _ _ _ _ I x Hx) as [b E]. apply (H x b Hx E). intros r Er Hin.
        pose proof (v_root _ _ _ _ _ _ _ I x b Hx E) as R. rewrite Er in R.
        apply IH; [|exact Hin]. pose proof (a_rank _ _ _ _ _ _ _ _ R). lia. }
      intros x Hx. exact (X (S (rk x)) x (le_n _) Hx).
    Qed.
    Lemma tail_le x b : In x L -> bget t x = Some b -> base t <= b_tail b <= b_head b.
    Proof. intros A B. destruct (v_wf _ _ _ _ _ _ _ I x b A B) as (W & _ & T & _). pose proof (w_le b W). lia. Qed.
    (** Below its tail a branch sees what its root sees *)
    Lemma sees_root x b h k : In x L -> bget t x = Some b -> h <= b_tail b ->
      (sees t (Node x) h k <-> sees t (b_root b) h k).
    Proof.
      intros A B H. assert (N : local t (Node x) h = None).
      { rewrite (local_node t x b h B). destruct (mget h (b_blocks b)) eqn:E; [|reflexivity].
        apply (w_dom b (wf_of x b A B)) in E. lia. }
      split; intro Q.
      - inversion Q; subst; [congruence|]. match goal with X : bget t x = Some ?c |- _ => rewrite B in X; injection X as <- end. assumption.
      - now apply (s_up t x b).
    Qed.
    Lemma sees_own x b h k : In x L -> bget t x = Some b -> b_tail b < h <= b_head b ->
      (sees t (Node x) h k <-> mget h (b_blocks b) = Some k).
    Proof.
      intros A B H. rewrite <- (local_node t x b h B). split; intro Q; [|now constructor].
      inversion Q; subst; [assumption|]. destruct (w_full b (wf_of x b A B) h H) as [k' E].
      rewrite <- (local_node t x b h B) in E. congruence.
    Qed.
    Lemma rootn x b r : In x L -> bget t x = Some b -> b_root b = Node r -> attached t L rk ex m x b r.
    Proof. intros A B E. pose proof (v_root _ _ _ _ _ _ _ I x b A B) as R. now rewrite E in R. Qed.
    (** Everything below the head is seen *)
    Lemma sees_all : forall x, In x L -> forall b h, bget t x = Some b -> base t <= h <= b_head b ->
      exists k, sees t (Node x) h k /\ k_height k = h /\ U k.
    Proof.
      apply (up_ind (fun x => forall b h, bget t x = Some b -> base t <= h <= b_head b ->
        exists k, sees t (Node x) h k /\ k_height k = h /\ U k)).
      intros x b A B IH b' h B' H. rewrite B in B'. injection B' as <-.
      destruct (Z_le_gt_dec h (b_tail b)) as [LE|GT].
      - pose proof (v_root _ _ _ _ _ _ _ I x b A B) as R. destruct (b_root b) as [|r] eqn:Er.
        + destruct R as (_ & R & _). destruct (disk_full t (v_disk _ _ _ _ _ _ _ I) h) as [k E]; [lia|].
          exists k. split; [apply (sees_root x b h k A B LE); rewrite Er; now constructor|].
          apply (disk_dom t (v_disk _ _ _ _ _ _ _ I)) in E. destruct E as (_ & E & J). split; [exact E|].
          pose proof (v_diskU _ _ _ _ _ _ _ I) as F. rewrite Forall_forall in F. auto.
        + pose proof (a_in _ _ _ _ _ _ _ _ R) as Hr. destruct (v_get _ _ _ _ _ _ _ I r Hr) as [c C].
          pose proof (a_le _ _ _ _ _ _ _ _ R c C).
          destruct (IH r eq_refl Hr c h C) as (k & S & K); [lia|]. exists k. split; [|exact K].
          apply (sees_root x b h k A B LE). now rewrite Er.
      - destruct (w_full b (wf_of x b A B) h) as [k E]; [lia|]. exists k.
        split; [apply (sees_own x b h k A B); [lia|exact E]|].
        split; [apply (w_dom b (wf_of x b A B) h k E)|]. destruct (v_wf _ _ _ _ _ _ _ I x b A B) as (_ & V & _). eauto.
    Qed.
    Lemma sees_inv x b h k : In x L -> bget t x = Some b -> base t <= h <= b_head b -> sees t (Node x) h k -> k_height k = h /\ U k.
    Proof.
      intros A B H S. destruct (sees_all x A b h B H) as (k' & S' & E). now rewrite (sees_fun _ _ _ _ _ S S').
    Qed.
    (** What is seen at the tail has the tail's hash *)
    Lemma sees_tail x b k : In x L -> bget t x = Some b -> sees t (Node x) (b_tail b) k -> k_hash k = b_tailX b.
    Proof.
      intros A B S. apply (sees_root x b (b_tail b) k A B (Z.le_refl _)) in S.
      pose proof (v_root _ _ _ _ _ _ _ I x b A B) as R. destruct (b_root b) as [|r] eqn:Er.
      - destruct R as (_ & R & X). rewrite sees_disk, R, (disk_top t (v_disk _ _ _ _ _ _ _ I)) in S. injection S as <-. congruence.
      - destruct (a_see _ _ _ _ _ _ _ _ R) as (k' & S' & X). now rewrite (sees_fun _ _ _ _ _ S S').
    Qed.
    Lemma sees_head x b k : In x L -> bget t x = Some b -> sees t (Node x) (b_head b) k -> k_hash k = b_headX b.
    Proof.
      intros A B S. pose proof (wf_of x b A B) as W. pose proof (w_le b W). destruct (Z.eq_dec (b_head b) (b_tail b)) as [E|E].
      - rewrite (w_head0 b W E). apply (sees_tail x b k A B). now rewrite <- E.
      - apply (sees_own x b (b_head b) k A B) in S; [|lia]. symmetry. now apply (w_head b W).
    Qed.
    (** Consecutive blocks are linked *)
    Lemma sees_link : forall x, In x L -> forall b h k k', bget t x = Some b -> base t <= h -> h + 1 <= b_head b ->
      sees t (Node x) h k -> sees t (Node x) (h + 1) k' -> k_prev k' = k_hash k.
    Proof.
      apply (up_ind (fun x => forall b h k k', bget t x = Some b -> base t <= h -> h + 1 <= b_head b ->
      sees t (Node x) h k -> sees t (Node x) (h + 1) k' -> k_prev k' = k_hash k)).
      intros x b A B IH b' h k k' B' H1 H2 S S'. rewrite B in B'. injection B' as <-.
      pose proof (wf_of x b A B) as W. destruct (Z_le_gt_dec (h + 1) (b_tail b)) as [LE|GT].
      - apply (sees_root x b _ _ A B) in S; [|lia]. apply (sees_root x b _ _ A B LE) in S'.
        pose proof (v_root _ _ _ _ _ _ _ I x b A B) as R. destruct (b_root b) as [|r] eqn:Er.
        + rewrite sees_disk in S, S'. exact (disk_link t (v_disk _ _ _ _ _ _ _ I) h k k' S S').
        + pose proof (a_in _ _ _ _ _ _ _ _ R) as Hr. destruct (v_get _ _ _ _ _ _ _ I r Hr) as [c C].
          pose proof (a_le _ _ _ _ _ _ _ _ R c C). apply (IH r eq_refl Hr c h k k' C); auto; lia.
      - apply (sees_own x b _ _ A B) in S'; [|lia]. destruct (Z.eq_dec h (b_tail b)) as [->|N].
        + rewrite (w_first b W _ S'). symmetry. exact (sees_tail x b k A B S).
        + apply (sees_own x b _ _ A B) in S; [|lia]. exact (w_link b W h k k' S S').
    Qed.
    (** Two branches that agree at a height agree below it *)
    Lemma agree_down x y bx b h k : In x L -> In y L -> bget t x = Some bx -> bget t y = Some b ->
      h <= b_head bx -> h <= b_head b -> sees t (Node x) h k -> sees t (Node y) h k ->
      forall h' k', base t <= h' <= h -> sees t (Node x) h' k' -> sees t (Node y) h' k'.
    Proof.
      intros A B C D H1 H2 S1 S2 h' k' R. remember (Z.to_nat (h - h')) as n eqn:En.
      revert h' k' R En. induction n as [|n IH]; intros h' k' R En S.
      - assert (h' = h) as -> by lia. now rewrite (sees_fun _ _ _ _ _ S S1).
      - destruct (sees_all x A bx (h' + 1) C) as (k1 & P1 & Q1 & _); [lia|].
        pose proof (IH (h' + 1) k1 ltac:(lia) ltac:(lia) P1) as P2.
        destruct (sees_all y B b h' D) as (k2 & P3 & _ & U2); [lia|].
        assert (k' = k2) as ->; [|exact P3].
        destruct HU as [Hinj _]. apply Hinj; [apply (sees_inv x bx h' k' A C ltac:(lia) S)|exact U2|].
        rewrite <- (sees_link x A bx h' k' k1 C ltac:(lia) ltac:(lia) S P1).
        apply (sees_link y B b h' k2 k1 D ltac:(lia) ltac:(lia) P3 P2).
    Qed.
    (** A child sees what its root sees up to its own tail *)
    Lemma child_sees x b r h k : In x L -> bget t x = Some b -> b_root b = Node r -> h <= b_tail b ->
      (sees t (Node x) h k <-> sees t (Node r) h k).
    Proof. intros A B E H. rewrite (sees_root x b h k A B H), E. tauto. Qed.

    (** ** Reading computes what is seen *)
    Lemma climb_sees x h k : sees t (Node x) h k -> In x L -> forall fuel seen,
      (forall y, In y seen -> (rk x < rk y)%nat /\ In y L) -> NoDup seen ->
      (length L + 2 <= fuel + length seen)%nat -> exists rf, climb fuel t seen (Node x) h = Some (k, rf).
    Proof.
      intro S. remember (Node x) as rf eqn:Erf. revert x Erf.
      induction S as [rf h k E|y b h k E B S IH]; intros x Erf A fuel seen Hs N Hf.
      - subst rf. destruct fuel as [|f].
        + exfalso. assert (length seen <= length L)%nat by (apply NoDup_incl_length; [exact N|]; intros z Z; apply Hs; exact Z). lia.
        + cbn [climb]. rewrite E. eauto.
      - injection Erf as ->. assert (X : ~ In x seen) by (intro Q; apply Hs in Q; lia).
        assert (N' : NoDup (x :: seen)) by (constructor; assumption).
        assert (incl (x :: seen) L) by (intros z [<-|Z]; [exact A|apply Hs; exact Z]).
        pose proof (NoDup_incl_length N' H) as Q. cbn [length] in Q.
        destruct fuel as [|f]; [lia|]. cbn [climb]. rewrite E. rewrite (proj2 (sin_false x seen) X), B. cbn [bind].
        destruct (b_root b) as [|r] eqn:Er.
        + destruct f as [|f]; [lia|]. cbn [climb]. rewrite sees_disk in S. unfold local. rewrite S. eauto.
        + pose proof (rootn x b r A B Er) as R. apply (IH r eq_refl (a_in _ _ _ _ _ _ _ _ R)).
          * pose proof (a_rank _ _ _ _ _ _ _ _ R). intros z [<-|Z]; [split; assumption|].
            destruct (Hs z Z). split; [lia|assumption].
          * exact N'.
          * cbn [length]. lia.
    Qed.
    Lemma fuel_enough : (length L + 2 <= fuel_of t)%nat.
    Proof.
      unfold fuel_of. pose proof (mget_len (t_heap t) L (v_nodup _ _ _ _ _ _ _ I) (v_get _ _ _ _ _ _ _ I)). lia.
    Qed.
    Lemma knot_and_branch_sees x b h k : In x L -> bget t x = Some b -> h <= b_head b -> sees t (Node x) h k ->
      exists rf, knot_and_branch t (Node x) h = Some (k, rf).
    Proof.
      intros A B H S. cbn [knot_and_branch]. rewrite B. cbn [bind].
      destruct (Z.gtb_spec h (b_head b)) as [X|X]; [lia|].
      inversion S as [rf h0 k' E|y c h0 k' E C S']; subst.
      - rewrite (local_node t x b h B) in E. rewrite E. eauto.
      - rewrite B in C. injection C as <-. rewrite (local_node t x b h B) in E. rewrite E.
        destruct (b_root b) as [|r] eqn:Er.
        + rewrite sees_disk in S'. cbn. rewrite S'. eauto.
        + pose proof (rootn x b r A B Er) as R.
          apply (climb_sees r h k S' (a_in _ _ _ _ _ _ _ _ R)); [intros y []|constructor|].
          cbn [length]. pose proof fuel_enough. lia.
    Qed.
    Lemma knot_and_branch_above x b h : bget t x = Some b -> b_head b < h -> knot_and_branch t (Node x) h = None.
    Proof. intros B H. cbn [knot_and_branch]. rewrite B. cbn [bind]. destruct (Z.gtb_spec h (b_head b)); [reflexivity|lia]. Qed.
    Lemma climb_sound fuel seen rf h k o : climb fuel t seen rf h = Some (k, o) -> sees t rf h k /\ local t o h = Some k.
    Proof.
      revert seen rf. induction fuel as [|f IH]; intros seen rf E; [discriminate|]. cbn [climb] in E.
      destruct (local t rf h) as [k'|] eqn:F; [injection E as -> <-; split; [now constructor|exact F]|].
      destruct rf as [|x]; [discriminate|]. destruct (sin x seen); [discriminate|].
      destruct (bget t x) as [b|] eqn:B; [|discriminate]. cbn [bind] in E. apply IH in E. destruct E as [E G]. split; [|exact G].
      now apply (s_up t x b).
    Qed.
    Lemma knot_and_branch_sound rf h k o : knot_and_branch t rf h = Some (k, o) -> sees t rf h k /\ local t o h = Some k.
    Proof.
      destruct rf as [|x]; cbn [knot_and_branch].
      - destruct (disk_get t h) eqn:E; [|discriminate]. cbn [bind]. injection 1 as -> <-. split; [now apply sees_disk|exact E].
      - destruct (bget t x) as [b|] eqn:B; [|discriminate]. cbn [bind]. destruct (h >? b_head b); [discriminate|].
        destruct (mget h (b_blocks b)) as [k'|] eqn:E.
        + injection 1 as -> <-. assert (local t (Node x) h = Some k) by now rewrite (local_node t x b h B). split; [now constructor|assumption].
        + intro G. apply climb_sound in G. destruct G as [G F]. split; [|exact F]. apply (s_up t x b); [now rewrite (local_node t x b h B)|exact B|exact G].
    Qed.
    (** GetKnot(height, true) of a branch in use *)
    Lemma get_knot_sees x b h k : In x L -> bget t x = Some b -> h <= b_head b -> sees t (Node x) h k -> get_knot t (Node x) h true = Some k.
    Proof.
      intros A B H S. unfold get_knot. destruct (local t (Node x) h) as [k'|] eqn:E.
      - f_equal. exact (sees_fun t _ h _ _ (s_here t _ h k' E) S).
      - destruct (knot_and_branch_sees x b h k A B H S) as [rf F]. rewrite F. reflexivity.
    Qed.
    Lemma get_knot_sound rf h k : get_knot t rf h true = Some k -> sees t rf h k.
    Proof.
      unfold get_knot. destruct (local t rf h) as [k'|] eqn:E; [injection 1 as ->; now constructor|].
      destruct (knot_and_branch t rf h) as [[k' o]|] eqn:F; [|discriminate]. cbn [bind fst]. injection 1 as ->.
      apply knot_and_branch_sound in F. apply F.
    Qed.
    Lemma get_knot_above x b h : In x L -> bget t x = Some b -> b_head b < h -> get_knot t (Node x) h true = None.
    Proof.
      intros A B H. unfold get_knot. rewrite (local_node t x b h B).
      destruct (mget h (b_blocks b)) eqn:E; [apply (w_dom b (wf_of x b A B)) in E; lia|].
      now rewrite (knot_and_branch_above x b h B H).
    Qed.
    Lemma get_knot_disk h : get_knot t Disk h true = disk_get t h.
    Proof. unfold get_knot. cbn. destruct (disk_get t h); reflexivity. Qed.
    (** ContainsKnot(height, hash, true), for a height up to the head *)
    Lemma contains_sees y b h k x : In y L -> bget t y = Some b -> h <= b_head b -> sees t (Node y) h k -> k_hash k = x ->
      contains t (Node y) h x true = Some true.
    Proof.
      intros A B H S X. cbn [contains]. rewrite B. cbn [bind]. unfold local_contains.
      destruct (Z.gtb_spec h (b_tail b)) as [G|G]; destruct (Z.leb_spec h (b_head b)) as [G'|G']; try lia; cbn [andb].
      - apply (sees_own y b h k A B) in S; [|lia]. rewrite S, X, Z.eqb_refl. reflexivity.
      - apply (sees_root y b h k A B G) in S. destruct (b_root b) as [|r] eqn:Er.
        + rewrite get_knot_disk. rewrite sees_disk in S. rewrite S, X, Z.eqb_refl. reflexivity.
        + pose proof (rootn y b r A B Er) as R. pose proof (a_in _ _ _ _ _ _ _ _ R) as Hr.
          destruct (v_get _ _ _ _ _ _ _ I r Hr) as [c C]. pose proof (a_le _ _ _ _ _ _ _ _ R c C).
          rewrite (get_knot_sees r c h k Hr C ltac:(lia) S), X, Z.eqb_refl. reflexivity.
    Qed.
    Lemma local_contains_true x b h k : In x L -> bget t x = Some b -> b_tail b < h <= b_head b -> sees t (Node x) h k -> local_contains b h (k_hash k) = true.
    Proof.
      intros A B H S. unfold local_contains.
      destruct (Z.gtb_spec h (b_tail b)) as [G|G]; destruct (Z.leb_spec h (b_head b)) as [G'|G']; try lia; cbn [andb].
      apply (sees_own x b h k A B H) in S. rewrite S. apply Z.eqb_refl.
    Qed.
    Lemma local_contains_low b h x : h <= b_tail b -> local_contains b h x = false.
    Proof. intro H. unfold local_contains. destruct (Z.gtb_spec h (b_tail b)); [lia|]. reflexivity. Qed.
    Lemma share_at x r bx b h k lo : bget t x = Some bx -> bget t r = Some b -> lo < h -> h <= b_head bx -> h <= b_head b ->
      sees t (Node x) h k -> sees t (Node r) h k -> share t x r lo.
    Proof. intros. exists h, k, bx, b. repeat split; assumption. Qed.
    Lemma share_trans x y z lo lo' : In x L -> In y L -> In z L -> base t <= lo -> base t <= lo' -> share t x y lo -> share t y z lo' ->
      lo' <= lo -> share t x z lo'.
    Proof.
      intros Hx Hy Hz Hb Hb' (h & k & bx & b & B1 & B2 & H1 & H2 & H3 & S1 & S2) (h' & k' & b' & bz & B3 & B4 & H4 & H5 & H6 & S3 & S4) Hl.
      rewrite B2 in B3. injection B3 as <-. destruct (Z_le_gt_dec h h') as [LE|GT].
      - apply (share_at x z bx bz h k lo'); try assumption; try lia.
        apply (agree_down y z b bz h' k' Hy Hz B2 B4 H5 H6 S3 S4 h k ltac:(lia) S2).
      - apply (share_at x z bx bz h' k' lo'); try assumption; try lia.
        destruct (sees_all x Hx bx h' B1) as (k1 & S5 & _); [lia|].
        pose proof (agree_down x y bx b h k Hx Hy B1 B2 H2 H3 S1 S2 h' k1 ltac:(lia) S5) as S6.
        now rewrite (sees_fun t _ _ _ _ S3 S6).
    Qed.
  End One.
End Tree.
