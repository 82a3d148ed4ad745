(** * C27: the tree of candidate chains

    [U] is the set of all blocks that ever appear; [honest U] says hashes tell
    blocks apart and commit to the previous block. A history starts from a tree
    newly made over a ledger [d] and takes any number of operations, each made
    as the pool makes it ([allowed]); a refused switch is part of the history. *)
From Coq Require Import ZArith List Bool Lia.
From Verif Require Import Lib TreeModel TreeSpec TreeProofs TreeProofs2 TreeProofs3 TreeProofs4 TreeProofs5 TreeProofs6 TreeProofs10 TreeProofs11 TreeProofs12 TreeProofs13 TreeProofs14 TreeProofs15.
Import ListNotations.
Local Open Scope Z_scope.

Section Props.
  Context (U : knot -> Prop) (HU : honest U) (d : list knot) (HD : ledger U d).

  Lemma history_inv t ops t' L rk : inv U t L rk None None (t_main t) -> history U t ops t' -> exists L' rk', inv U t' L' rk' None None (t_main t').
  Proof.
    intros I H. revert L rk I. induction H as [t|t o t1 l t2 A E H IH]; intros L rk I; [eauto|].
    destruct (step_ok U HU t L rk o I A) as (t1' & L' & rk' & E' & I' & _). rewrite E in E'. injection E' as <-. exact (IH L' rk' I').
  Qed.
  Lemma reached ops t : history U (init d) ops t -> exists L rk, inv U t L rk None None (t_main t).
  Proof. intro H. exact (history_inv (init d) ops t _ _ (init_ok U d HD) H). Qed.

  Lemma history_app s l1 s1 : history U s l1 s1 -> forall o s2, allowed U s1 o -> state_of (apply_op o s1) = Some s2 -> history U s (l1 ++ [o]) s2.
  Proof.
    induction 1 as [s|s o s1 r s2 A E H IH]; intros o' s3 A3 E3; cbn [app]; [econstructor; [exact A3|exact E3|constructor]|econstructor; [exact A|exact E|]]. now apply IH.
  Qed.
  Lemma disk_len t : dchain (t_disk t) /\ t_disk t <> [] -> Z.of_nat (length (t_disk t)) = top t - base t + 1.
  Proof.
    intros [C N]. unfold top, base, disk_head. destruct (t_disk t) as [|a r]; [congruence|]. cbn [hd]. rewrite (last_any (a :: r) _ a) by discriminate. destruct (dchain_heights a r C) as [_ G]. rewrite G. unfold zlen. cbn [length]. lia.
  Qed.

  (** Every branch is one contiguous chain linked by hashes, from the ledger's
      first block to the branch's head. *)
  Theorem tree_branches_are_chains ops t x : history U (init d) ops t -> present t x ->
    exists b l q z, bget t x = Some b /\ chain_of t x = Some l /\ chain l /\ hd_error l = hd_error (t_disk t) /\
      l = q ++ [z] /\ k_hash z = b_headX b /\ k_height z = b_head b.
  Proof.
    intros H P. destruct (reached ops t H) as (L & rk & I). pose proof (present_in U t L rk x I P) as Hx. destruct (v_get _ _ _ _ _ _ _ I x Hx) as [b B].
    destruct (chain_view U t L rk _ _ x b I Hx B) as (l & E & _). destruct (view_chain U t L rk _ _ x b l I Hx B E) as (C & _ & Hd & q & z & E1 & E2 & E3). exists b, l, q, z. auto 10.
  Qed.

  (** The main branch's chain is the ledger's chain and what is to come after it. *)
  Theorem tree_main_extends_ledger ops t : history U (init d) ops t ->
    exists b l, bget t (t_main t) = Some b /\ chain_of t (t_main t) = Some (t_disk t ++ l) /\ zlen l = size b.
  Proof.
    intro H. destruct (reached ops t H) as (L & rk & I). pose proof (v_main _ _ _ _ _ _ _ I) as Hm. destruct (v_get _ _ _ _ _ _ _ I _ Hm) as [b B].
    destruct (chain_view U t L rk _ _ _ b I Hm B) as (l & E & Le & V). destruct (main_root U t L rk _ _ _ b I B) as (Er & Ht & Hx). pose proof (tail_le U t L rk _ _ _ I _ b Hm B) as Tl.
    pose proof (v_disk _ _ _ _ _ _ _ I) as D.
    assert (P : l = t_disk t ++ skipn (length (t_disk t)) l).
    { apply prefix_nth. intros i k Hk. pose proof (disk_nth t i k D Hk) as Hg. pose proof (disk_dom t D _ _ Hg) as (R & _). apply V. split; [lia|].
      apply (sees_root U t L rk _ _ _ I _ b _ _ Hm B); [lia|]. now rewrite Er, sees_disk. }
    exists b, (skipn (length (t_disk t)) l). split; [exact B|]. split; [congruence|].
    pose proof (disk_len t D) as Ld.
    unfold zlen, size. rewrite skipn_length. lia.
  Qed.

  (** Only the main branch hangs on the ledger, at the ledger's last block. Any
      other hangs on a branch of the tree whose chain holds the block it starts after. *)
  Theorem tree_attached ops t x b : history U (init d) ops t -> present t x -> bget t x = Some b ->
    match b_root b with
    | Disk => x = t_main t /\ b_tail b = k_height (disk_head t) /\ b_tailX b = k_hash (disk_head t)
    | Node r => x <> t_main t /\ contains t (Node r) (b_tail b) (b_tailX b) true = Some true /\
                exists l k, chain_of t r = Some l /\ In k l /\ k_height k = b_tail b /\ k_hash k = b_tailX b
    end.
  Proof.
    intros H P B. destruct (reached ops t H) as (L & rk & I). pose proof (present_in U t L rk x I P) as Hx. pose proof (v_root _ _ _ _ _ _ _ I x b Hx B) as R.
    destruct (b_root b) as [|r]; [exact R|]. destruct R as [A1 A2 A3 A4 (k & Sk & Xk) A6]. destruct (v_get _ _ _ _ _ _ _ I r A1) as [c C]. pose proof (A4 c C) as Le.
    split; [exact A3|]. split; [exact (contains_sees U t L rk _ _ _ I r c _ k _ A1 C Le Sk Xk)|].
    destruct (chain_view U t L rk _ _ r c I A1 C) as (l & E & _). pose proof (v_wf _ _ _ _ _ _ _ I x b Hx B) as (_ & _ & T & _).
    pose proof (proj1 (sees_inv U t L rk _ _ _ I r c _ k A1 C (conj T Le) Sk)) as Hk. exists l, k. split; [exact E|]. split; [|now split].
    apply (view_in U t L rk _ _ r c l _ k I A1 C E Hk T). now split.
  Qed.

  (** No operation panics. *)
  Theorem tree_no_panic ops t o : history U (init d) ops t -> allowed U t o -> apply_op o t <> Panic.
  Proof. intros H A X. destruct (reached ops t H) as (L & rk & I). destruct (step_ok U HU t L rk o I A) as (t' & _ & _ & E & _). rewrite X in E. discriminate. Qed.

  (** A branch's chain never changes under its users: an operation leaves the
      chain of every branch that survives as it was, except that adding a block
      to it, and the ledger taking a block while it is the empty main branch,
      make it longer. *)
  Theorem tree_chains_kept ops t o t' x l : history U (init d) ops t -> allowed U t o -> state_of (apply_op o t) = Some t' -> present t x -> present t' x -> chain_of t x = Some l ->
    exists e, chain_of t' x = Some (l ++ e) /\ (match o with OAdd y _ => x <> y | OAdvance _ => x <> t_main t | _ => True end -> e = []).
  Proof.
    intros H A E P P' C. destruct (reached ops t H) as (L & rk & I). destruct (step_ok U HU t L rk o I A) as (t1 & L' & rk' & E' & I' & S & M & Eb). rewrite E in E'. injection E' as <-.
    pose proof (present_in U t L rk x I P) as Hx. pose proof (present_in U t' L' rk' x I' P') as Hx'. destruct (v_get _ _ _ _ _ _ _ I x Hx) as [b B].
    destruct (S x b Hx Hx' B) as (b' & B' & Hh & Sx). destruct (chain_view U t' L' rk' _ _ x b' I' Hx' B') as (l' & C' & _).
    destruct (view_prefix U t t' L L' rk rk' None None _ _ x x b b' l l' I I' Hx Hx' B B' Eb Hh Sx C C') as (e & -> & Ze & _). exists e. split; [exact C'|].
    intro St. pose proof (M x b b' Hx Hx' B B' St) as Q. destruct e; [reflexivity|]. unfold zlen in Ze. cbn [length] in Ze. lia.
  Qed.

  (** Adding a block: it becomes the last of that branch's chain, and is known. *)
  Theorem tree_add_effect ops t x k l : history U (init d) ops t -> allowed U t (OAdd x k) -> chain_of t x = Some l ->
    exists t', apply_op (OAdd x k) t = Done t' /\ chain_of t' x = Some (l ++ [k]) /\ t_main t' = t_main t /\ t_list t' = t_list t /\ t_disk t' = t_disk t /\ exists_hash t' (k_hash k) = true.
  Proof.
    intros H (P & Uk & b & B & Pk) C. destruct (reached ops t H) as (L & rk & I). pose proof (present_in U t L rk x I P) as Hx.
    destruct (add_ok U HU t L rk _ x b k I Hx B Uk Pk) as (t' & b' & E & I' & K & G & M & D & Ls & Hs & B' & H1 & H2 & S & O). exists t'. cbn [apply_op]. rewrite E. split; [reflexivity|].
    split; [|split; [exact M|split; [exact Ls|split; [exact D|unfold exists_hash; rewrite Hs; apply sin_In, sadd_In; now left]]]].
    destruct (chain_view U t' L rk _ _ x b' I' Hx B') as (l' & C' & _).
    destruct (view_prefix U t t' L L rk rk None None _ _ x x b b' l l' I I' Hx Hx B B' (base_same _ _ D) ltac:(lia) (fun h k' Hh Sh => K x b h k' Hx B Hh Sh) C C') as (e & -> & Ze & Hd).
    rewrite C'. do 2 f_equal. specialize (Hd k S ltac:(lia)). destruct e as [|u [|v e]]; cbn in Hd; try discriminate; [congruence|]. unfold zlen in Ze. cbn [length] in Ze. lia.
  Qed.

  (** A new branch: its chain is the other's up to the height asked for; no
      other branch and not the main branch change (with [tree_chains_kept]). *)
  Theorem tree_fork_effect ops t x h l : history U (init d) ops t -> allowed U t (OFork x h) -> chain_of t x = Some l ->
    exists t' n p z r, apply_op (OFork x h) t = Done t' /\ ~ present t n /\ In n (t_list t') /\ chain_of t' n = Some (p ++ [z]) /\ l = (p ++ [z]) ++ r /\ k_height z = h /\
      t_main t' = t_main t /\ t_disk t' = t_disk t /\ (forall y, In y (t_list t') <-> y = n \/ In y (t_list t)).
  Proof.
    intros H (P & b & B & Hh & Hd) C. destruct (reached ops t H) as (L & rk & I). pose proof (present_in U t L rk x I P) as Hx. rewrite base_first in Hh.
    destruct (fork_ok U t L rk _ x b h I Hx B Hh Hd) as (t' & rk' & bn & E & I' & K & Hd' & M & D & Ls & Hs & NL & Bn & Hn & Sn). cbn [apply_op]. rewrite E. cbn [bind of_opt].
    set (n := t_next t + 1) in *. destruct (chain_view U t' (n :: L) rk' _ _ n bn I' ltac:(now left) Bn) as (l' & C' & _).
    destruct (view_chain U t' (n :: L) rk' _ _ n bn l' I' ltac:(now left) Bn C') as (_ & _ & _ & p & z & -> & _ & Hz).
    destruct (view_prefix U t' t (n :: L) L rk' rk None None _ _ n x bn b (p ++ [z]) l I' I ltac:(now left) Hx Bn B) as (r & -> & _); try assumption.
    { symmetry. exact (base_same _ _ D). } { lia. }
    { intros h' k' Hh' S'. rewrite Hn in Hh'. assert (Lo : base t <= h') by (rewrite <- (base_same _ _ D); apply (sees_low U t' (n :: L) rk' _ _ _ I' _ h' k' S'); intros y Ey; injection Ey as <-; now left).
      assert (R : base t <= h' <= b_head b) by lia. destruct (sees_all U t L rk _ _ _ I x Hx b h' B R) as (k & Sk & _). now rewrite (sees_fun _ _ _ _ _ S' (Sn h' k Hh' Sk)). }
    exists t', n, p, z, r. split; [reflexivity|]. split; [intro X; exact (NL (present_in U t L rk n I X))|]. split; [rewrite Ls; apply sadd_In; now left|]. split; [exact C'|]. split; [reflexivity|]. split; [congruence|].
    split; [exact M|]. split; [exact D|]. intro y. rewrite Ls. apply sadd_In.
  Qed.

  (** Switching the main branch succeeds exactly when the chosen branch's chain
      holds the ledger's last block. A refused switch leaves the main branch.
      Either way a branch that leaves the list is the new main branch, or
      another branch's chain begins with its chain. *)
  Theorem tree_switch ops t x l : history U (init d) ops t -> present t x -> chain_of t x = Some l ->
    exists t', ((In (disk_head t) l /\ switch_main t x = Done t' /\ t_main t' = x) \/ (~ In (disk_head t) l /\ switch_main t x = Fail t' /\ t_main t' = t_main t)) /\ t_disk t' = t_disk t /\
      (forall y ly, In y (t_list t) -> chain_of t y = Some ly -> In y (t_list t') \/ y = t_main t' \/ exists z e, z <> y /\ chain_of t' z = Some (ly ++ e)).
  Proof.
    intros H P C. destruct (reached ops t H) as (L & rk & I). pose proof (present_in U t L rk x I P) as Hx. destruct (v_get _ _ _ _ _ _ _ I x Hx) as [b B].
    destruct (switch_ok U HU t L rk x I Hx) as (t' & L' & rk' & I' & Sh & Un & E).
    assert (On : In (disk_head t) l <-> onto t x).
    { rewrite (view_in U t L rk _ _ x b l (top t) (disk_head t) I Hx B C eq_refl (top_base U t L rk _ _ _ I)). unfold onto. split; [intros [Q1 Q2]; exists b; auto|]. intros (c & Bc & Q1 & Q2). rewrite B in Bc. injection Bc as <-. now split. }
    exists t'. split; [destruct E as [(E1 & E2 & E3)|(E1 & E2 & E3)]; [left|right]; rewrite On; auto|]. split; [apply Sh|].
    intros y ly Hy Cy. destruct (Un y Hy) as [Q|[Q|(z & Hz & Nz & c & cz & Bc & Bz & Hh & S)]]; [now left|right; now left|right; right].
    destruct (chain_view U t' L' rk' _ _ z cz I' Hz Bz) as (lz & Cz & _). pose proof (v_list _ _ _ _ _ _ _ I y Hy) as [Hy' _].
    destruct (view_prefix U t t' L L' rk rk' None None _ _ y z c cz ly lz I I' Hy' Hz Bc Bz (base_same _ _ (s_disk _ _ _ _ Sh)) Hh S Cy Cz) as (e & -> & _). exists z, e. now split.
  Qed.

  (** Emptying the main branch always succeeds; then its chain is the ledger's. *)
  Theorem tree_switch_empty ops t order : history U (init d) ops t -> (forall x, In x order <-> In x (t_list t)) ->
    exists t', switch_empty t order = Done t' /\ t_disk t' = t_disk t /\ chain_of t' (t_main t') = Some (t_disk t').
  Proof.
    intros H Ho. destruct (reached ops t H) as (L & rk & I). destruct (switch_empty_ok U HU t L rk order I) as (t' & L' & rk' & b' & E & I' & S & D & B' & Z0 & _); [intros y Hy; now apply Ho|].
    exists t'. split; [exact E|]. split; [exact D|]. assert (H' : history U (init d) (ops ++ [OEmpty order]) t').
    { apply (history_app _ _ _ H); [exact Ho|]. cbn [apply_op]. rewrite E. reflexivity. }
    destruct (tree_main_extends_ledger _ t' H') as (c & l & Bc & C & Zl). rewrite B' in Bc. injection Bc as <-. destruct l; [now rewrite app_nil_r in C|]. unfold zlen in Zl. cbn [length] in Zl. lia.
  Qed.

  (** The periodic pruning always succeeds and keeps the main branch. A chain
      it takes away is part of the chain of a branch that stays, or of one that
      nobody has touched for twenty minutes. *)
  Theorem tree_prune ops t stale o1 o2 : history U (init d) ops t ->
    exists t', apply_op (OPrune stale o1 o2) t = Done t' /\ t_main t' = t_main t /\ t_disk t' = t_disk t /\ (forall y, In y (t_list t') -> In y (t_list t)) /\
      (forall y ly, In y (t_list t) -> ~ In y (t_list t') -> chain_of t y = Some ly ->
         (exists z e, chain_of t' z = Some (ly ++ e)) \/ (exists z e, In z stale /\ chain_of t z = Some (ly ++ e))).
  Proof.
    intro H. destruct (reached ops t H) as (L & rk & I). destruct (prune_tree_ok U HU stale o1 o2 t L rk I) as (t' & L' & gone & E & I' & M & Sub & K & Hd & D & Ls & Lo & _).
    exists t'. cbn [apply_op]. rewrite E. cbn [bind of_opt]. split; [reflexivity|]. split; [exact M|]. split; [exact D|]. split; [intros y Hy; apply Ls in Hy; tauto|].
    intros y ly Hy Ny Cy. pose proof (v_list _ _ _ _ _ _ _ I y Hy) as [HyL _]. assert (NL : ~ In y L') by (intro X; apply Ny; apply Ls; now split).
    destruct (Lo y HyL NL) as [(z & Hz & c & cz & Bc & Bz & Hh & S)|(z & Hst & Hz & c & cz & Bc & Bz & Hh & S)]; [left|right].
    - destruct (chain_view U t' L' rk _ _ z cz I' Hz Bz) as (lz & Cz & _).
      destruct (view_prefix U t t' L L' rk rk None None _ _ y z c cz ly lz I I' HyL Hz Bc Bz (base_same _ _ D) Hh S Cy Cz) as (e & -> & _). eauto.
    - destruct (chain_view U t L rk _ _ z cz I Hz Bz) as (lz & Cz & _).
      destruct (view_prefix U t t L L rk rk None None _ _ y z c cz ly lz I I HyL Hz Bc Bz eq_refl Hh S Cy Cz) as (e & -> & _). eauto.
  Qed.

  (** The ledger takes a block: the main branch of the new tree extends the
      longer ledger (by [tree_main_extends_ledger]); it is the old one when that
      was empty or had this block next, else a new and empty one. No branch
      leaves the list. *)
  Theorem tree_advance ops t k : history U (init d) ops t -> allowed U t (OAdvance k) ->
    exists t', apply_op (OAdvance k) t = Done t' /\ t_disk t' = t_disk t ++ [k] /\ (forall y, In y (t_list t) -> In y (t_list t')) /\
      (forall r, chain_of t (t_main t) = Some (t_disk t ++ r) ->
         match r with
         | [] => t_main t' = t_main t /\ chain_of t' (t_main t') = Some (t_disk t ++ [k])
         | a :: _ => if k_hash a =? k_hash k then t_main t' = t_main t /\ chain_of t' (t_main t') = Some (t_disk t ++ r)
                     else t_main t' <> t_main t /\ chain_of t' (t_main t') = Some (t_disk t ++ [k])
         end).
  Proof.
    intros H A. pose proof A as [Uk Pk]. destruct (reached ops t H) as (L & rk & I). pose proof (v_main _ _ _ _ _ _ _ I) as Hm. destruct (v_get _ _ _ _ _ _ _ I _ Hm) as [b B].
    destruct (advance_ok U HU t L rk _ b k I B eq_refl Uk Pk) as (t' & L' & rk' & E & I' & K & G & Sub & D & Li & Li' & Hd & Cs). exists t'. cbn [apply_op]. rewrite E. split; [reflexivity|]. split; [exact D|]. split; [exact Li|].
    intros r C. destruct (main_root U t L rk _ _ _ b I B) as (Er & Ht & Hx). pose proof (wf_of U t L rk _ _ _ I _ b Hm B) as W. pose proof (tail_le U t L rk _ _ _ I _ b Hm B) as Tl.
    pose proof (adv_height U HU t L rk _ k I Uk Pk) as Hk.
    assert (Zr : zlen r = size b). { destruct (tree_main_extends_ledger ops t H) as (b1 & l1 & B1 & C1 & Z1). rewrite B in B1. injection B1 as <-. rewrite C in C1. injection C1 as C1. apply app_inv_head in C1. congruence. }
    assert (H' : history U (init d) (ops ++ [OAdvance k]) t') by (apply (history_app _ _ _ H); [exact A|cbn [apply_op]; rewrite E; reflexivity]).
    destruct (tree_main_extends_ledger _ t' H') as (b' & l' & B' & C' & Z'). destruct (main_root U t' L' rk' _ _ _ b' I' B') as (_ & Ht' & _).
    assert (Tp : top t' = k_height k) by (unfold top, disk_head; rewrite D, last_last; reflexivity).
    assert (Em : b_head b' = k_height k -> chain_of t' (t_main t') = Some (t_disk t ++ [k])).
    { intro Q. rewrite C', D. unfold size in Z'. destruct l'; [now rewrite app_nil_r|]. unfold zlen in Z'. cbn [length] in Z'. lia. }
    destruct r as [|a r].
    - unfold zlen in Zr. cbn [length] in Zr. unfold size in Zr. destruct Cs as [(_ & M & c & Bc & Q)|[(X & _)|(X & _)]]; [|apply (w_dom b W) in X; lia|lia].
      split; [exact M|]. apply Em. rewrite M, Bc in B'. injection B' as <-. exact Q.
    - assert (Sz : b_tail b < b_head b) by (unfold zlen in Zr; cbn [length] in Zr; unfold size in Zr; lia).
      assert (Sa : sees t (Node (t_main t)) (b_tail b + 1) a).
      { destruct (chain_view U t L rk _ _ _ b I Hm B) as (l1 & C1 & _ & V). rewrite C in C1. injection C1 as <-.
        destruct (V (length (t_disk t)) a) as [V1 _]. destruct V1 as [_ V1]; [rewrite nth_error_app2, Nat.sub_diag by lia; reflexivity|].
        rewrite (disk_len t (v_disk _ _ _ _ _ _ _ I)) in V1. replace (base t + (top t - base t + 1)) with (b_tail b + 1) in V1 by lia. exact V1. }
      assert (Ga : mget (b_tail b + 1) (b_blocks b) = Some a) by (apply (sees_own U t L rk _ _ _ I _ b _ _ Hm B); [lia|exact Sa]).
      assert (Ua : U a) by (pose proof (v_wf _ _ _ _ _ _ _ I _ b Hm B) as (_ & V & _); exact (V _ _ Ga)).
      destruct (Z.eqb_spec (k_hash a) (k_hash k)) as [Q|Q].
      + pose proof (proj1 HU a k Ua Uk Q) as ->. destruct Cs as [(X & _)|[(_ & M & c & Bc & Hc)|(_ & X & _)]]; [lia| |congruence].
        split; [exact M|]. rewrite M in *. rewrite Bc in B'. injection B' as <-.
        assert (Hm' : In (t_main t) L') by exact (v_main _ _ _ _ _ _ _ I').
        assert (Eb : base t' = base t) by (unfold base; rewrite D; pose proof (proj2 (v_disk _ _ _ _ _ _ _ I)); destruct (t_disk t); [congruence|reflexivity]).
        destruct (view_prefix U t t' L L' rk rk' None None _ _ _ _ b c _ _ I I' Hm Hm' B Bc Eb ltac:(lia) (fun h k' Hh Sh => K _ b h k' Hm B Hh Sh) C C') as (e & Ee & Ze & _).
        rewrite C', Ee. destruct e; [now rewrite app_nil_r|]. unfold zlen in Ze. cbn [length] in Ze. lia.
      + destruct Cs as [(X & _)|[(X & _)|(_ & _ & NL & c & Bc & Hc)]]; [lia|congruence|]. split; [intro X; apply NL; rewrite X; exact Hm|]. apply Em. rewrite Bc in B'. injection B' as <-. exact Hc.
  Qed.

  (** The ledger gives back its last [n] blocks: the main branch takes them, no
      branch's chain changes (by [tree_chains_kept]). *)
  Theorem tree_rollback ops t n : history U (init d) ops t -> allowed U t (ORollback n) ->
    exists t', apply_op (ORollback n) t = Done t' /\ t_disk t' = firstn (length (t_disk t) - n) (t_disk t) /\ t_main t' = t_main t /\ t_list t' = t_list t.
  Proof.
    intros H A. destruct (reached ops t H) as (L & rk & I). cbn [allowed apply_op] in *. set (q := (length (t_disk t) - n)%nat).
    assert (Ed : t_disk t = firstn q (t_disk t) ++ skipn q (t_disk t)) by (symmetry; apply firstn_skipn).
    assert (Nq : firstn q (t_disk t) <> []) by (intro X; apply (f_equal (@length _)) in X; rewrite firstn_length in X; cbn in X; unfold q in X; lia).
    destruct (rollback_ok U L rk _ (skipn q (t_disk t)) t (firstn q (t_disk t)) I eq_refl Ed Nq) as (t' & E & I' & K & Hd & M & D & Ls & Eb). rewrite E. exists t'. auto.
  Qed.

  (** The fork point of a branch and the main branch is their last common
      block; the key point is the next block of the longer one (the main branch
      when they are as long), none if it ends there. *)
  Theorem tree_fork_point ops t x bx bm lx lm : history U (init d) ops t -> present t x -> bget t x = Some bx -> bget t (t_main t) = Some bm -> chain_of t x = Some lx -> chain_of t (t_main t) = Some lm ->
    exists p f a c, lx = p ++ f :: a /\ lm = p ++ f :: c /\ (forall u v, hd_error a = Some u -> hd_error c = Some v -> u <> v) /\
      find_fork_point t x = Some (hd_error (if b_head bx >? b_head bm then a else c), f).
  Proof.
    intros H P Bx Bm Cx Cm. destruct (reached ops t H) as (L & rk & I). pose proof (present_in U t L rk x I P) as Hx. pose proof (v_main _ _ _ _ _ _ _ I) as Hm.
    pose proof (v_wf _ _ _ _ _ _ _ I x bx Hx Bx) as (Wx & _ & Tx & _). pose proof (w_le bx Wx). pose proof (v_wf _ _ _ _ _ _ _ I _ bm Hm Bm) as (Wm & _ & Tm & _). pose proof (w_le bm Wm).
    unfold find_fork_point. rewrite Bx. cbn [bind]. rewrite Bm. cbn [bind]. change (k_height (hd (mkknot 0 0 0) (t_disk t))) with (base t).
    destruct (Z.gtb_spec (b_head bx) (b_head bm)) as [Gt|Le].
    - rewrite Bm. cbn [bind]. destruct (fork_point_ok U HU t L rk _ I x (t_main t) bx bm Hx Hm Bx Bm (S (Z.to_nat (b_head bm - base t))) (b_head bm)) as (j & k & R & S1 & S2 & Df & F); try lia.
      destruct (fork_split U HU t L rk _ x (t_main t) bx bm lx lm j k I Hx Hm Bx Bm Cx Cm ltac:(lia) ltac:(lia) ltac:(lia) S1 S2) as (p & a & c & E1 & E2 & G1 & G2 & N1 & N2).
      exists p, k, a, c. split; [exact E1|]. split; [exact E2|]. split; [|rewrite F, G1; reflexivity].
      intros u v Hu Hv. destruct (N1 u Hu) as [Su _]. destruct (N2 v Hv) as [Sv Lv]. apply (Df (j + 1) u v); [lia|exact Su|exact Sv].
    - rewrite Bx. cbn [bind]. destruct (fork_point_ok U HU t L rk _ I (t_main t) x bm bx Hm Hx Bm Bx (S (Z.to_nat (b_head bx - base t))) (b_head bx)) as (j & k & R & S1 & S2 & Df & F); try lia.
      destruct (fork_split U HU t L rk _ x (t_main t) bx bm lx lm j k I Hx Hm Bx Bm Cx Cm ltac:(lia) ltac:(lia) ltac:(lia) S2 S1) as (p & a & c & E1 & E2 & G1 & G2 & N1 & N2).
      exists p, k, a, c. split; [exact E1|]. split; [exact E2|]. split; [|rewrite F, G2; reflexivity].
      intros u v Hu Hv. destruct (N1 u Hu) as [Su Lu]. destruct (N2 v Hv) as [Sv _]. intro X. apply (Df (j + 1) v u); [lia|exact Sv|exact Su|congruence].
  Qed.

  (** Looking a block up by height and hash finds a branch whose chain holds it,
      among the main branch and those listed. *)
  Theorem tree_find_branch ops t order h x y : history U (init d) ops t -> (forall x, In x order <-> In x (t_list t)) -> find_branch t order h x = Some y ->
    present t y /\ exists l k, chain_of t y = Some l /\ In k l /\ k_height k = h /\ k_hash k = x.
  Proof.
    intros H Ho E. destruct (reached ops t H) as (L & rk & I). unfold find_branch in E.
    assert (G : forall y k, present t y -> local t (Node y) h = Some k -> k_hash k = x -> exists l k, chain_of t y = Some l /\ In k l /\ k_height k = h /\ k_hash k = x).
    { intros z k P Lk Xk. pose proof (present_in U t L rk z I P) as Hz. destruct (v_get _ _ _ _ _ _ _ I z Hz) as [b B]. rewrite (local_node t z b h B) in Lk.
      pose proof (v_wf _ _ _ _ _ _ _ I z b Hz B) as (W & _ & T & _). destruct (w_dom b W _ _ Lk) as [R Hk]. destruct (chain_view U t L rk _ _ z b I Hz B) as (l & C & _).
      exists l, k. split; [exact C|]. split; [|now split]. apply (view_in U t L rk _ _ z b l h k I Hz B C Hk ltac:(lia)). split; [lia|]. apply (sees_own U t L rk _ _ _ I z b h k Hz B); [lia|exact Lk]. }
    cbn beta zeta in E. destruct (local t (Node (t_main t)) h) as [k|] eqn:Lk.
    - destruct (Z.eqb_spec (k_hash k) x) as [Q|Q]; [injection E as <-; split; [now right|]; apply (G _ k); [now right|exact Lk|exact Q]|].
      apply find_some in E. destruct E as [E1 E2]. destruct (local t (Node y) h) as [k2|] eqn:L2; [|discriminate]. apply Z.eqb_eq in E2. apply Ho in E1. split; [now left|]. apply (G _ k2); [now left|exact L2|exact E2].
    - apply find_some in E. destruct E as [E1 E2]. destruct (local t (Node y) h) as [k2|] eqn:L2; [|discriminate]. apply Z.eqb_eq in E2. apply Ho in E1. split; [now left|]. apply (G _ k2); [now left|exact L2|exact E2].
  Qed.
End Props.

(** ** Cases *)
Definition g0 := mkknot 0 100 0.
Definition a1 := mkknot 1 101 100.
Definition a2 := mkknot 2 102 101.
Definition a3 := mkknot 3 103 102.
Definition c2 := mkknot 2 202 101.
Definition c3 := mkknot 3 203 202.
Definition all_knots := [g0; a1; a2; a3; c2; c3].
Definition U0 (k : knot) : Prop := In k all_knots.
Example U0_honest : honest U0.
Proof.
  split; intros a b Ha Hb; cbn in Ha, Hb; repeat (destruct Ha as [<-|Ha]; [repeat (destruct Hb as [<-|Hb]; [cbn; intros; first [reflexivity|discriminate|lia]|]); destruct Hb|]); destruct Ha.
Qed.
Example g0_ledger : ledger U0 [g0].
Proof. split; [discriminate|]. split; [intros [|p [|q p0]] a b r E; discriminate|]. repeat constructor. Qed.

(** Two chains fork after height 1; the second becomes the main branch; the
    ledger takes its first blocks, gives one back and takes it again; the empty
    branch is chosen; stale branches are pruned. *)
Definition story : list op :=
  [OAdd 1 a1; OAdd 1 a2; OAdd 1 a3; OFork 1 1; OAdd 2 c2; OAdd 2 c3; OSwitch 2; OAdvance a1; OAdvance c2; ORollback 1; OAdvance c2; OPrune [] [2; 1] [2; 1]; OSwitch 1; OSwitch 2; OEmpty [2; 1]; OPrune [1] [3; 2; 1] [3; 2; 1]].
Fixpoint run (t : tree) (l : list op) : option tree := match l with [] => Some t | o :: r => match state_of (apply_op o t) with Some t' => run t' r | None => None end end.
Definition story_end : tree := match run (init [g0]) story with Some t => t | None => init [] end.
Ltac step := eapply h_cons; [|vm_compute; reflexivity|].
Ltac adds := split; [unfold present; cbn; tauto|split; [cbn; tauto|eexists; split; vm_compute; reflexivity]].
Ltac forks := split; [unfold present; cbn; tauto|eexists; split; [vm_compute; reflexivity|]; split; [cbn; lia|cbn; first [tauto|right; lia]]].
Ltac allow := match goal with
  | |- allowed _ _ (OAdd _ _) => adds
  | |- allowed _ _ (OFork _ _) => forks
  | |- allowed _ _ (OSwitch _) => unfold allowed, present; cbn; tauto
  | |- allowed _ _ (OEmpty _) => intro; cbn; tauto
  | |- allowed _ _ (OPrune _ _ _) => exact Logic.I
  | |- allowed _ _ (OAdvance _) => split; [cbn; tauto|vm_compute; reflexivity]
  | |- allowed _ _ (ORollback _) => cbn; lia
  end.
Example story_history : history U0 (init [g0]) story story_end.
Proof. unfold story. repeat (step; [allow|]). vm_compute. constructor. Qed.
Example story_chains : t_disk story_end = [g0; a1; c2] /\ present story_end 2 /\ chain_of story_end 2 = Some [g0; a1; c2; c3] /\
  chain_of story_end (t_main story_end) = Some [g0; a1; c2] /\ t_main story_end <> 2.
Proof. vm_compute. intuition congruence. Qed.
(** The theorems' hypotheses at the story's end *)
Example story_fork_point : exists p f a c, [g0; a1; c2; c3] = p ++ f :: a /\ [g0; a1; c2] = p ++ f :: c /\ (forall u v, hd_error a = Some u -> hd_error c = Some v -> u <> v) /\ find_fork_point story_end 2 = Some (Some c3, c2).
Proof. exists [g0; a1], c2, [c3], []. split; [reflexivity|]. split; [reflexivity|]. split; [intros u v _ X; discriminate X|vm_compute; reflexivity]. Qed.
Example story_advance : allowed U0 story_end (OAdvance c3) /\ chain_of story_end (t_main story_end) = Some (t_disk story_end ++ []) /\
  match apply_op (OAdvance c3) story_end with Done t => chain_of t (t_main t) = Some [g0; a1; c2; c3] | _ => False end.
Proof. split; [split; [cbn; tauto|reflexivity]|]. vm_compute. auto. Qed.
(** A switch refused: the chain of branch 1 lacks the ledger's last block *)
Example switch_refused : exists t, history U0 (init [g0]) (firstn 12 story) t /\ present t 1 /\ chain_of t 1 = Some [g0; a1; a2; a3] /\ disk_head t = c2 /\
  match switch_main t 1 with Fail t' => t_main t' = 2 | _ => False end.
Proof. eexists. split; [cbn [firstn story]; repeat (step; [allow|]); constructor|]. vm_compute. auto 10. Qed.
Example fork_after_ledger : exists t, history U0 (init [g0]) (firstn 9 story) t /\ allowed U0 t (OFork 1 2) /\ chain_of t 1 = Some [g0; a1; a2; a3].
Proof. eexists. split; [cbn [firstn story]; repeat (step; [allow|]); constructor|]. split; [forks|vm_compute; reflexivity]. Qed.

(** ** What does not hold *)
(** The main branch can be missing from the tree's list of branches: switching
    to a branch whose blocks the main branch also holds removes it from the list. *)
Theorem tree_main_listed_refuted : exists U d ops t, honest U /\ ledger U d /\ history U (init d) ops t /\ ~ In (t_main t) (t_list t).
Proof.
  exists U0, [g0], [OAdd 1 a1; OEmpty [1]; OAdd 2 a1; OAdd 2 a2; OSwitch 1]. eexists. split; [exact U0_honest|]. split; [exact g0_ledger|].
  split; [repeat (step; [allow|]); constructor|]. cbn. intros [E|[]]. discriminate E.
Qed.
(** A block held by a branch of the tree can be reported as unknown: pruning
    another branch that held it too forgets its hash. *)
Theorem tree_exists_refuted : exists U d ops t x l k, honest U /\ ledger U d /\ history U (init d) ops t /\
  In x (t_list t) /\ chain_of t x = Some l /\ In k l /\ ~ In k (t_disk t) /\ exists_hash t (k_hash k) = false.
Proof.
  exists U0, [g0], [OAdd 1 a1; OAdd 1 a2; OEmpty [1]; OFork 2 0; OAdd 3 a1; OPrune [1] [3; 2; 1] [3; 2; 1]]. eexists. exists 3, [g0; a1], a1. split; [exact U0_honest|]. split; [exact g0_ledger|].
  split; [repeat (step; [allow|]); constructor|]. split; [cbn; tauto|]. split; [vm_compute; reflexivity|]. split; [cbn; tauto|]. split; [cbn; intros [E|[]]; discriminate E|]. reflexivity.
Qed.
(** A branch accepts a block of any height: only the previous hash is compared. *)
Theorem tree_add_height_refuted : exists b k b', add_head b k = Some b' /\ k_height k <> b_head b + 1 /\ b_head b' = k_height k.
Proof. exists (new_br 5 50 Disk), (mkknot 9 90 50). eexists. split; [reflexivity|]. cbn. split; [lia|reflexivity]. Qed.

Print Assumptions tree_branches_are_chains.
Print Assumptions tree_main_extends_ledger.
Print Assumptions tree_attached.
Print Assumptions tree_no_panic.
Print Assumptions tree_chains_kept.
Print Assumptions tree_add_effect.
Print Assumptions tree_fork_effect.
Print Assumptions tree_switch.
Print Assumptions tree_switch_empty.
Print Assumptions tree_prune.
Print Assumptions tree_advance.
Print Assumptions tree_rollback.
Print Assumptions tree_fork_point.
Print Assumptions tree_find_branch.
Print Assumptions tree_main_listed_refuted.
Print Assumptions tree_exists_refuted.
Print Assumptions tree_add_height_refuted.
