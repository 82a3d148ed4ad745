(** The records of fees: which are still to be divided, and what they hold. *)
From Verif Require Import Lib DexFloat DivModel DivSpec DivProofs DivProofs2.
From Coq Require Import Sorted.
Import ListNotations.

Definition desc (l : list fees) : Prop := StronglySorted (fun a b => f_period b < f_period a) l.
Lemma desc_app a b : desc (a ++ b) <-> desc a /\ desc b /\ forall x y, In x a -> In y b -> f_period y < f_period x.
Proof.
  unfold desc. induction a as [|r a IH]; cbn; [split; [intros H; repeat split; auto; [constructor|tauto]|tauto]|]. split.
  - intros S. inversion S as [|? ? S' F]; subst. apply IH in S'. destruct S' as (A & B & C). rewrite Forall_app in F. destruct F as [F1 F2]. rewrite Forall_forall in F2. split; [now constructor|]. split; [exact B|]. intros x y [<-|X] Y; auto.
  - intros (A & B & C). inversion A as [|? ? A' F]; subst. constructor; [apply IH; auto|]. apply Forall_app. split; [exact F|]. apply Forall_forall. auto.
Qed.
Lemma desc_mid a r b : desc (a ++ r :: b) -> (forall x, In x a -> f_period r < f_period x) /\ (forall x, In x b -> f_period x < f_period r) /\ desc (a ++ b).
Proof.
  intros D. apply desc_app in D. destruct D as (A & B & C). inversion B as [|? ? B' F]; subst. rewrite Forall_forall in F. split; [intros x X; apply C; cbn; auto|]. split; [exact F|]. apply desc_app. split; [exact A|]. split; [exact B'|]. intros x y X Y. apply C; cbn; auto.
Qed.
Lemma desc_key a r r' b : f_period r' = f_period r -> desc (a ++ r :: b) -> desc (a ++ r' :: b).
Proof.
  intros E D. apply desc_app in D. destruct D as (A & B & C). inversion B as [|? ? B' F]; subst. apply desc_app. split; [exact A|]. split; [constructor; [exact B'|now rewrite E]|]. intros x y X [<-|Y]; [rewrite E|]; apply C; cbn; auto.
Qed.
Lemma fees_at_in l p r : fees_at l p = Some r -> In r l /\ f_period r = p.
Proof. unfold fees_at. intros H. apply find_some in H. destruct H as [I E]. split; [exact I|now apply Z.eqb_eq]. Qed.
Lemma fees_at_none l p : (forall r, In r l -> f_period r <> p) -> fees_at l p = None.
Proof. intros H. destruct (fees_at l p) as [r|] eqn:E; [|reflexivity]. apply fees_at_in in E. destruct E as [I E]. now destruct (H r I). Qed.
Lemma fees_at_mid a r b : desc (a ++ r :: b) -> fees_at (a ++ r :: b) (f_period r) = Some r.
Proof.
  intros D. destruct (desc_mid a r b D) as (X & Y & _). clear D. unfold fees_at. induction a as [|x a IH]; cbn; [now rewrite Z.eqb_refl|]. rewrite (proj2 (Z.eqb_neq _ _)) by (specialize (X x ltac:(now left)); lia). apply IH. intros y I. apply X. now right.
Qed.
Lemma map_same {A} (f : A -> A) l : (forall x, In x l -> f x = x) -> map f l = l.
Proof. induction l as [|x l IH]; cbn; intros H; [reflexivity|]. rewrite H by auto. f_equal. auto. Qed.
Lemma fees_set_mid a r r' b : f_period r' = f_period r -> desc (a ++ r :: b) -> fees_set (a ++ r :: b) r' = a ++ r' :: b.
Proof.
  intros E D. destruct (desc_mid a r b D) as (X & Y & _). unfold fees_set. rewrite map_app. cbn [map]. rewrite E, Z.eqb_refl. rewrite !map_same; [reflexivity| |]; intros x I; rewrite (proj2 (Z.eqb_neq _ _)); auto; [specialize (Y x I)|specialize (X x I)]; lia.
Qed.
Lemma fees_del_mid a r b : desc (a ++ r :: b) -> fees_del (a ++ r :: b) (f_period r) = a ++ b.
Proof.
  intros D. destruct (desc_mid a r b D) as (X & Y & _). unfold fees_del. rewrite filter_app. cbn [filter]. rewrite Z.eqb_refl. cbn [negb]. rewrite !filter_none; [reflexivity| |]; intros x I; apply negb_true_iff, Z.eqb_neq; [specialize (Y x I)|specialize (X x I)]; lia.
Qed.

(** * What the records look like *)
Definition key (r : fees) : Z * Z := (f_period r, f_last r).
Fixpoint links (z : Z) (l : list (Z * Z)) : Prop := match l with [] => True | (p, n) :: r => n = match r with [] => z | (q, _) :: _ => q end /\ links z r end.
Lemma links_app z a b : links z (a ++ b) -> links (match b with [] => z | (q, _) :: _ => q end) a /\ links z b.
Proof. induction a as [|[p n] a IH]; [intros H; split; [exact Logic.I|exact H]|]. cbn [app links]. intros [E L]. destruct (IH L) as [A B]. split; [|exact B]. split; [|exact A]. destruct a as [|[q m] a]; [|exact E]. cbn [app] in E. now destruct b as [|[q m] b]. Qed.
Definition open (r : fees) : Prop := f_divided r = false /\ forall l, In l (f_pools r) -> 0 <= p_amount l.
Definition shape (c z : Z) (h : fees) (U F : list fees) : Prop :=
  c = f_period h /\ desc (h :: U ++ F) /\ (forall r, In r (h :: U ++ F) -> 1 <= f_period r) /\ (forall r, In r (h :: U) -> open r /\ z < f_period r) /\ (forall r, In r F -> f_divided r = true) /\ links z (map key (h :: U)) /\ 0 <= z.
Definition finv (c : Z) (fs : list fees) (rl : Z) : Prop := (c = 0 /\ fs = [] /\ rl = 0) \/ (exists h U F z, fs = h :: U ++ F /\ rl = c /\ shape c z h U F).

(** * The records to divide *)
Lemma unfinished_from z V F a : forall B n b, desc (a ++ B ++ F) -> (forall r, In r (a ++ B ++ F) -> 1 <= f_period r) -> V = a ++ B -> (forall r, In r B -> f_divided r = false /\ z < f_period r) -> (forall r, In r F -> f_divided r = true) -> links z (map key B) -> 0 <= z ->
  match B with [] => True | r :: _ => (Z.to_nat (f_period r) < n)%nat -> unfinished n (V ++ F) (f_period r) b = B end.
Proof.
  intros B n b D P E. subst V. revert a n b D P. induction B as [|r B IH]; [trivial|]. intros a n b D P O C L Z0 N. destruct n as [|n]; [lia|]. cbn [unfinished]. rewrite <- app_assoc. cbn [app]. rewrite fees_at_mid by exact D. destruct (O r ltac:(now left)) as [-> ZR]. cbn [map links] in L. destruct L as [EL L]. f_equal.
  assert (P1 : 1 <= f_period r) by (apply P, in_or_app; right; now left).
  destruct B as [|s B].
  - cbn [map] in EL. rewrite EL. cbn [app] in *. destruct (Z.eqb_spec z 0) as [_|NZ]; [reflexivity|]. destruct n as [|n]; [lia|]. cbn [unfinished]. destruct (fees_at (a ++ r :: F) z) as [x|] eqn:FA; [|now rewrite andb_false_r].
    apply fees_at_in in FA. destruct FA as [I E]. destruct (desc_mid a r F D) as (X & _ & _). apply in_app_or in I. destruct I as [I|[<-|I]]; [specialize (X x I); lia|lia|now rewrite (C x I)].
  - cbn [map] in EL. cbn [key] in EL. rewrite EL. assert (PS : f_period s < f_period r) by (destruct (desc_mid a r ((s :: B) ++ F) D) as (_ & Y & _); apply Y; now left). assert (P2 : 1 <= f_period s) by (apply P, in_or_app; right; right; now left). rewrite (proj2 (Z.eqb_neq _ _)) by lia.
    assert (AE : a ++ r :: s :: B ++ F = (a ++ [r]) ++ (s :: B) ++ F) by (rewrite <- app_assoc; reflexivity). cbn [app] in AE. specialize (IH (a ++ [r]) n true). cbn [app] in IH, AE |- *. rewrite <- AE in IH. specialize (IH D P). rewrite AE. change ((a ++ [r]) ++ s :: B ++ F) with ((a ++ [r]) ++ (s :: B) ++ F). rewrite app_assoc. apply IH; auto; [intros x X; apply O; now right|lia].
Qed.
Lemma filter_suffix p U : desc U -> exists A B, U = A ++ B /\ filter (fun r => f_period r <=? p) U = B /\ (forall r, In r A -> p < f_period r) /\ forall r, In r B -> f_period r <= p.
Proof.
  induction U as [|r U IH]; intros D; [exists [], []; cbn; repeat split; auto; tauto|]. inversion D as [|? ? D' F]; subst. destruct (IH D') as (A & B & -> & E & X & Y). destruct (Z.leb_spec (f_period r) p) as [L|L].
  - assert (A = []) as -> by (destruct A as [|x A]; [reflexivity|]; rewrite Forall_forall in F; specialize (F x ltac:(now left)); specialize (X x ltac:(now left)); lia). exists [], (r :: B). cbn. rewrite (proj2 (Z.leb_le _ _) L). cbn in E. rewrite E. split; [reflexivity|]. split; [reflexivity|]. split; [intros x []|]. intros x [<-|I]; auto.
  - exists (r :: A), B. split; [reflexivity|]. cbn. rewrite (proj2 (Z.leb_gt _ _) L). split; [exact E|]. split; [|exact Y]. intros x [<-|I]; auto.
Qed.
(** From a day on, the search goes down to the newest record. *)
Lemma search_down fs : (forall r, In r fs -> 1 <= f_period r) -> forall n p, (Z.to_nat p < n)%nat -> 0 <= p ->
  (unfinished n fs p false = [] /\ forall r, In r fs -> p < f_period r) \/ (exists r m, fees_at fs (f_period r) = Some r /\ f_period r <= p /\ (forall x, In x fs -> f_period x <= p -> f_period x <= f_period r) /\ (Z.to_nat (f_period r) < m)%nat /\ unfinished n fs p false = unfinished m fs (f_period r) false).
Proof.
  intros P. induction n as [|n IH]; intros p N P0; [lia|]. destruct (fees_at fs p) as [r|] eqn:E.
  - right. destruct (fees_at_in _ _ _ E) as [I EP]. exists r, (Datatypes.S n). rewrite EP. split; [exact E|]. split; [lia|]. split; [intros; lia|]. split; [lia|reflexivity].
  - cbn [unfinished]. rewrite E. cbn [negb]. rewrite andb_true_r. assert (NE : forall r, In r fs -> f_period r <> p).
    { intros r I EP. unfold fees_at in E. pose proof (find_none _ _ E r I) as X. cbn in X. apply Z.eqb_neq in X. lia. }
    destruct (Z.ltb_spec 0 p) as [L|L].
    + destruct (IH (p - 1) ltac:(lia) ltac:(lia)) as [[A B]|(r & m & A & B & C & D & G)].
      * left. split; [exact A|]. intros r I. specialize (B r I). specialize (NE r I). lia.
      * right. exists r, m. split; [exact A|]. split; [lia|]. split; [|auto]. intros x X XP. apply C; [exact X|]. specialize (NE x X). lia.
    + left. split; [reflexivity|]. intros r I. specialize (P r I). lia.
Qed.
Lemma todo_ok c z h U F p : shape c z h U F -> 0 <= p < c -> exists A B, U = A ++ B /\ (forall r, In r A -> p < f_period r) /\ (forall r, In r B -> f_period r <= p) /\ unfinished (Datatypes.S (Z.to_nat p)) (h :: U ++ F) p false = B.
Proof.
  intros (C & D & P & O & FD & L & Z0) PC. assert (DU : desc U).
  { inversion D as [|? ? D' _]; subst. apply desc_app in D'. apply D'. }
  destruct (filter_suffix p U DU) as (A & B & E & _ & X & Y). exists A, B. split; [exact E|]. split; [exact X|]. split; [exact Y|].
  destruct (search_down _ P (Datatypes.S (Z.to_nat p)) p ltac:(lia) ltac:(lia)) as [[N ALL]|(r & m & FA & RP & MX & M & ->)].
  - rewrite N. destruct B as [|b B]; [reflexivity|]. specialize (Y b ltac:(now left)). specialize (ALL b). rewrite E in ALL. specialize (ALL ltac:(right; apply in_or_app; left; apply in_or_app; right; now left)). lia.
  - destruct (fees_at_in _ _ _ FA) as [I _]. destruct B as [|b B].
    + destruct m as [|m]; [lia|]. cbn [unfinished]. rewrite FA. assert (IF : In r F).
      { destruct I as [<-|I]; [lia|]. apply in_app_or in I. destruct I as [I|I]; [|exact I]. rewrite app_nil_r in E. subst U. specialize (X r I). lia. }
      now rewrite (FD r IF).
    + assert (EB : f_period r = f_period b).
      { assert (IB : In b (h :: U ++ F)) by (rewrite E; right; apply in_or_app; left; apply in_or_app; right; now left). specialize (MX b IB (Y b ltac:(now left))). subst U. destruct I as [<-|I]; [lia|]. rewrite <- app_assoc in I. apply in_app_or in I. destruct I as [I|[<-|I]]; [specialize (X r I); lia|reflexivity|].
        assert (D2 : desc ((h :: A) ++ b :: (B ++ F))) by (clear - D; rewrite <- app_assoc in D; exact D). destruct (desc_mid (h :: A) b (B ++ F) D2) as (_ & Q & _). specialize (Q r I). lia. }
      rewrite EB in *. subst U. pose proof (unfinished_from z (h :: A ++ b :: B) F (h :: A) (b :: B) m false) as W. cbn beta iota in W. cbn [app] in W. rewrite <- app_assoc in *. cbn [app] in *. apply W; auto.
      * intros x XI. destruct (O x) as [[Q _] Q2]; [right; apply in_or_app; now right|]. auto.
      * cbn [map] in L. rewrite map_app in L. rewrite app_comm_cons in L. apply links_app in L. apply L.
Qed.

(** * Marking *)
Definition marked (r : fees) : list fees := if f_mined r then [] else [Fees (f_period r) (f_pools r) true (f_mined r) (f_last r)].
Lemma mark_mid a r b : desc (a ++ r :: b) -> mark_divided (a ++ r :: b) r = a ++ marked r ++ b.
Proof. intros D. unfold mark_divided, marked. destruct (f_mined r); [now rewrite fees_del_mid|]. cbn [app]. now apply fees_set_mid. Qed.
Lemma desc_marked a r b : desc (a ++ r :: b) -> desc (a ++ marked r ++ b).
Proof. intros D. unfold marked. destruct (f_mined r); cbn [app]; [now apply desc_mid in D|]. now apply (desc_key a r). Qed.
Lemma mark_all B : forall a F, desc (a ++ B ++ F) -> fold_left mark_divided B (a ++ B ++ F) = a ++ flat_map marked B ++ F /\ desc (a ++ flat_map marked B ++ F).
Proof.
  induction B as [|r B IH]; intros a F D; [cbn; auto|]. cbn [fold_left flat_map app]. cbn [app] in D. rewrite mark_mid by exact D. apply desc_marked in D. rewrite app_assoc in D. rewrite (app_assoc a). destruct (IH (a ++ marked r) F D) as [-> X]. rewrite <- !app_assoc in *. auto.
Qed.
Lemma shape_divide c z h A B F : shape c z h (A ++ B) F -> exists F' z', fold_left mark_divided B (h :: (A ++ B) ++ F) = h :: A ++ F' /\ shape c z' h A F'.
Proof.
  intros (C & D & P & O & FD & L & Z0). rewrite <- app_assoc in *. destruct (mark_all B (h :: A) F D) as [E D']. exists (flat_map marked B ++ F), (match B with [] => z | r :: _ => f_period r end). split; [exact E|].
  assert (MI : forall r, In r (flat_map marked B) -> f_divided r = true /\ exists x, In x B /\ f_period x = f_period r).
  { intros r I. apply in_flat_map in I. destruct I as (x & X & I). unfold marked in I. destruct (f_mined x); [destruct I|]. destruct I as [<-|[]]. cbn. split; [reflexivity|]. now exists x. }
  split; [exact C|]. split; [exact D'|]. split; [|split; [|split; [|split]]].
  - intros r [<-|I]; [apply P; now left|]. apply in_app_or in I. destruct I as [I|I]; [apply P; right; apply in_or_app; auto|]. apply in_app_or in I. destruct I as [I|I]; [|apply P; right; apply in_or_app; right; apply in_or_app; auto]. destruct (MI r I) as (_ & x & X & <-). apply P. right. apply in_or_app. right. apply in_or_app. auto.
  - intros r I. assert (I' : In r (h :: A ++ B)) by (destruct I; [now left|right; apply in_or_app; auto]). destruct (O r I') as [Q1 Q2]. split; [exact Q1|]. destruct B as [|b B]; [exact Q2|]. rewrite app_comm_cons in D. cbn [app] in D. apply (desc_mid (h :: A) b (B ++ F)) in D. apply D. exact I.
  - intros r I. apply in_app_or in I. destruct I as [I|I]; [apply MI, I|auto].
  - cbn [map] in L. rewrite map_app, app_comm_cons in L. apply links_app in L. destruct L as [L _]. cbn [map]. destruct B as [|b B]; exact L.
  - destruct B as [|b B]; [exact Z0|]. assert (In b (h :: A ++ (b :: B) ++ F)) by (right; apply in_or_app; right; now left). specialize (P b H). lia.
Qed.
Definition dues (t : Z) (l : list fees) : Z := fold_right (fun r s => in_pools t part (f_pools r) + s) 0 l.
Lemma waiting_app t a b : waiting t (a ++ b) = waiting t a + waiting t b.
Proof. induction a as [|r a IH]; cbn; lia. Qed.
Lemma waiting_open t l : (forall r, In r l -> f_divided r = false) -> waiting t l = dues t l.
Proof. induction l as [|r l IH]; cbn; intros H; [reflexivity|]. rewrite (H r) by auto. rewrite IH by auto. reflexivity. Qed.
Lemma waiting_done t l : (forall r, In r l -> f_divided r = true) -> waiting t l = 0.
Proof. induction l as [|r l IH]; cbn; intros H; [reflexivity|]. rewrite (H r) by auto. rewrite IH by auto. reflexivity. Qed.
Lemma pooled_shape t c z h U F : shape c z h U F -> pooled t (h :: U ++ F) = in_pools t p_amount (f_pools h) + dues t U.
Proof. intros (_ & _ & _ & O & FD & _). cbn [pooled]. rewrite waiting_app, (waiting_done t F) by exact FD. rewrite waiting_open; [lia|]. intros r I. apply (O r). now right. Qed.
Lemma dues_app t a b : dues t (a ++ b) = dues t a + dues t b.
Proof. unfold dues. induction a as [|r a IH]; cbn [app fold_right]; [lia|]. rewrite IH. lia. Qed.

(** * A new day, a fee, the mark of the mining job *)
Lemma in_pools_ext t f g l : (forall x, In x l -> f x = g x) -> in_pools t f l = in_pools t g l.
Proof. induction l as [|x l IH]; cbn; intros H; [reflexivity|]. rewrite H by auto. rewrite IH by auto. reflexivity. Qed.
Lemma in_pools_add t f g l : in_pools t (fun x => f x + g x) l = in_pools t f l + in_pools t g l.
Proof. induction l as [|x l IH]; cbn; [reflexivity|]. rewrite IH. destruct (p_token x =? t); lia. Qed.
Lemma add_fee_ok t a t' l : in_pools t' p_amount (add_fee t a l) = in_pools t' p_amount l + (if t =? t' then a else 0).
Proof. induction l as [|x l IH]; cbn; [lia|]. destruct (Z.eqb_spec (p_token x) t) as [->|N]; cbn; [destruct (t =? t'); lia|]. rewrite IH. lia. Qed.
Lemma add_fee_nonneg t a l : 0 <= a -> (forall x, In x l -> 0 <= p_amount x) -> forall x, In x (add_fee t a l) -> 0 <= p_amount x.
Proof.
  intros A. induction l as [|y l IH]; cbn; intros H x; [intros [<-|[]]; exact A|]. destruct (p_token y =? t); cbn; intros [<-|I]; auto. cbn. specialize (H y ltac:(auto)). lia.
Qed.
Lemma shape_new c z h U F e p : shape c z h U F -> c < p -> let r := Fees p (map (fun l => Pool (p_token l) (Z.abs (rest l)) ((p_token l =? vite) && e)) (f_pools h)) false false c in
  shape p z r (h :: U) F /\ forall t, pooled t (r :: (h :: U) ++ F) = pooled t (h :: U ++ F).
Proof.
  intros S PC. cbn zeta. set (r := Fees p _ false false c). assert (S' := S). destruct S' as (C & D & P & O & FD & L & Z0). assert (OH := O h ltac:(now left)). assert (SR : shape p z r (h :: U) F).
  { split; [reflexivity|]. split; [constructor; [exact D|]; inversion D as [|? ? _ X]; subst; constructor; [exact PC|]; revert X; apply Forall_impl; intros x; cbn; lia|]. split; [intros x [<-|I]; [specialize (P h ltac:(now left)); cbn; lia|now apply P]|]. split; [|split; [exact FD|split; [|exact Z0]]].
    - intros x [<-|I]; [|now apply O]. split; [split; [reflexivity|]|cbn; lia]. intros l I. cbn in I. apply in_map_iff in I. destruct I as (y & <- & _). cbn. lia.
    - cbn [map links]. split; [exact C|exact L]. }
  split; [exact SR|]. intros t. rewrite (pooled_shape t _ _ _ _ _ SR), (pooled_shape t _ _ _ _ _ S). cbn [dues fold_right]. fold (dues t U). unfold r. cbn [f_pools].
  assert (in_pools t p_amount (map (fun l => Pool (p_token l) (Z.abs (rest l)) ((p_token l =? vite) && e)) (f_pools h)) = in_pools t rest (f_pools h)) as ->.
  { destruct OH as [[_ N] _]. clear - N. induction (f_pools h) as [|l ls IH]; cbn; [reflexivity|]. rewrite IH by (intros; apply N; now right). destruct (part_ok l (N l ltac:(now left))) as (_ & R & _). rewrite Z.abs_eq by exact R. reflexivity. }
  assert (in_pools t p_amount (f_pools h) = in_pools t rest (f_pools h) + in_pools t part (f_pools h)) as ->; [|lia]. rewrite <- in_pools_add. apply in_pools_ext. intros l I. destruct OH as [[_ N] _]. destruct (part_ok l (N l I)) as (_ & _ & R). lia.
Qed.
Lemma shape_first p : 1 <= p -> let r := Fees p [Pool vite 0 false] false false 0 in shape p 0 r [] [] /\ forall t, pooled t [r] = 0.
Proof.
  intros P. cbn zeta. split; [|intros t; cbn [pooled in_pools waiting f_pools p_token p_amount]; destruct (vite =? t); reflexivity]. split; [reflexivity|]. split; [repeat constructor|]. split; [intros r [<-|[]]; exact P|]. split; [intros r [<-|[]]; split; [split; [reflexivity|]|cbn; lia]; intros l [<-|[]]; cbn; lia|]. split; [intros r []|]. split; [cbn; auto|lia].
Qed.
Lemma shape_fee c z h U F t a : shape c z h U F -> 0 <= a -> let r := Fees (f_period h) (add_fee t a (f_pools h)) (f_divided h) (f_mined h) (f_last h) in
  fees_at (h :: U ++ F) c = Some h /\ fees_set (h :: U ++ F) r = r :: U ++ F /\ shape c z r U F /\ forall t', pooled t' (r :: U ++ F) = pooled t' (h :: U ++ F) + if t =? t' then a else 0.
Proof.
  intros S A. cbn zeta. set (r := Fees _ _ _ _ _). assert (S' := S). destruct S' as (C & D & P & O & FD & L & Z0). split; [rewrite C; apply (fees_at_mid []); exact D|]. split; [apply (fees_set_mid [] h); [reflexivity|exact D]|].
  split; [|intros t'; cbn [pooled]; unfold r; cbn [f_pools]; rewrite add_fee_ok; lia].
  split; [exact C|]. split; [apply (desc_key [] h); [reflexivity|exact D]|]. split; [intros x [<-|I]; [apply (P h); now left|apply P; now right]|]. split; [|auto]. intros x [<-|I]; [|apply O; now right]. destruct (O h ltac:(now left)) as [[Q1 Q2] Q3]. split; [split; [exact Q1|]|exact Q3]. cbn. now apply add_fee_nonneg.
Qed.
Lemma shape_mined fuel : forall c z h U F p, shape c z h U F -> exists h' U' F', mark_mined fuel (h :: U ++ F) p = h' :: U' ++ F' /\ shape c z h' U' F' /\ forall t, pooled t (h' :: U' ++ F') = pooled t (h :: U ++ F).
Proof.
  induction fuel as [|n IH]; intros c z h U F p S; [exists h, U, F; auto|]. cbn [mark_mined]. destruct (fees_at (h :: U ++ F) p) as [r|] eqn:FA; [|exists h, U, F; auto].
  assert (ONE : exists h' U' F', (if f_divided r then fees_del (h :: U ++ F) p else fees_set (h :: U ++ F) (Fees (f_period r) (f_pools r) (f_divided r) true (f_last r))) = h' :: U' ++ F' /\ shape c z h' U' F' /\ forall t, pooled t (h' :: U' ++ F') = pooled t (h :: U ++ F)).
  { destruct (fees_at_in _ _ _ FA) as [I E]. assert (S' := S). destruct S' as (C & D & P & O & FD & L & Z0). set (r' := Fees (f_period r) (f_pools r) (f_divided r) true (f_last r)). change (h :: U ++ F) with ((h :: U) ++ F) in I. apply in_app_or in I. destruct I as [I|I].
    - destruct (O r I) as [[DV Q] ZP]. rewrite DV. destruct (in_split _ _ I) as (a & b & EU). change (h :: U ++ F) with ((h :: U) ++ F) in *. rewrite EU in *. rewrite <- app_assoc in *. cbn [app] in *. rewrite (fees_set_mid a r) by (auto; reflexivity).
      assert (D2 : desc (a ++ r' :: b ++ F)) by (apply (desc_key a r); [reflexivity|exact D]). assert (L2 : links z (map key (a ++ r' :: b))) by (rewrite map_app in *; exact L).
      assert (O2 : forall x, In x (a ++ r' :: b) -> open x /\ z < f_period x) by (intros x X; apply in_app_or in X; destruct X as [X|[<-|X]]; [apply O, in_or_app; auto|split; [split; [exact DV|exact Q]|exact ZP]|apply O, in_or_app; right; now right]).
      assert (P2 : forall x, In x (a ++ r' :: b ++ F) -> 1 <= f_period x) by (intros x X; apply in_app_or in X; destruct X as [X|[<-|X]]; [apply P, in_or_app; auto|apply (P r), in_or_app; right; now left|apply P, in_or_app; right; now right]).
      destruct a as [|h' a]; cbn [app] in *; injection EU as -> ->.
      + exists r', b, F. split; [reflexivity|]. split; [unfold shape; repeat (split; [assumption|]); assumption|]. intros t. reflexivity.
      + exists h', (a ++ r' :: b), F. rewrite <- app_assoc. split; [reflexivity|]. split; [split; [exact C|]; split; [rewrite <- app_assoc; exact D2|]; split; [rewrite <- app_assoc; exact P2|repeat (split; [assumption|]); assumption]|]. intros t. cbn [pooled app]. rewrite <- ?app_assoc. cbn [app]. rewrite !waiting_app. cbn [waiting]. reflexivity.
    - rewrite (FD r I). destruct (in_split _ _ I) as (a & b & EF). subst F p. assert (X : h :: U ++ a ++ r :: b = (h :: U ++ a) ++ r :: b) by (cbn [app]; now rewrite <- app_assoc). rewrite X in *. rewrite fees_del_mid by exact D. exists h, U, (a ++ b). cbn [app]. rewrite <- app_assoc. split; [reflexivity|]. split.
      + split; [exact C|]. destruct (desc_mid _ _ _ D) as (_ & _ & D2). split; [cbn [app] in D2; rewrite <- app_assoc in D2; exact D2|]. split; [intros x XI; apply P; rewrite <- X; destruct XI as [->|XI]; [now left|right; apply in_app_or in XI; apply in_or_app; destruct XI as [XI|XI]; [now left|right; apply in_app_or in XI; apply in_or_app; destruct XI; [now left|right; now right]]]|]. split; [exact O|]. split; [|auto]. intros x XI. apply FD. apply in_app_or in XI. apply in_or_app. destruct XI; [now left|right; now right].
      + intros t. cbn [pooled]. rewrite <- !app_assoc. cbn [app]. rewrite !waiting_app. cbn [waiting]. rewrite (FD r I). lia. }
  destruct ONE as (h1 & U1 & F1 & -> & S1 & W1). destruct (0 <? f_last r); [|exists h1, U1, F1; auto]. destruct (IH c z h1 U1 F1 (f_last r) S1) as (h2 & U2 & F2 & E2 & S2 & W2). exists h2, U2, F2. split; [exact E2|]. split; [exact S2|]. intros t. now rewrite W2.
Qed.

(** * Sums by token *)
Fixpoint msum (t : Z) (m : list (Z * Z)) : Z := match m with [] => 0 | (s, a) :: r => (if s =? t then a else 0) + msum t r end.
Lemma sum_in_ok t a m : NoDup (map fst m) -> (forall e, In e m -> 0 <= snd e) -> 0 <= a -> let m' := sum_in t a m in
  NoDup (map fst m') /\ (forall e, In e m' -> 0 <= snd e) /\ (forall s, msum s m' = msum s m + if t =? s then a else 0) /\ forall s, In s (map fst m') -> s = t \/ In s (map fst m).
Proof.
  cbn zeta. induction m as [|[s b] m IH]; cbn; intros N P A.
  - split; [constructor; [tauto|constructor]|]. split; [intros e [<-|[]]; exact A|]. split; [intros s; lia|]. intros s [<-|[]]; auto.
  - inversion N as [|? ? NI N']; subst. destruct (Z.eqb_spec s t) as [->|NE]; cbn.
    + split; [now constructor|]. split; [intros e [<-|I]; [specialize (P (t, b) ltac:(auto)); cbn in *; lia|auto]|]. split; [intros s; destruct (t =? s); lia|tauto].
    + destruct (IH N' ltac:(auto) A) as (I1 & I2 & I3 & I4). split; [constructor; [|exact I1]; intros X; destruct (I4 s X); auto|]. split; [intros e [<-|I]; auto|]. split; [intros s'; rewrite I3; lia|]. intros s' [<-|X]; [auto|destruct (I4 s' X); auto].
Qed.
Lemma fold_sum ls : forall m, NoDup (map fst m) -> (forall e, In e m -> 0 <= snd e) -> (forall l, In l ls -> 0 <= p_amount l) -> let m' := fold_left (fun m x => sum_in (p_token x) (part x) m) ls m in
  NoDup (map fst m') /\ (forall e, In e m' -> 0 <= snd e) /\ forall s, msum s m' = msum s m + in_pools s part ls.
Proof.
  cbn zeta. induction ls as [|l ls IH]; cbn [fold_left in_pools]; intros m N P A; [split; [exact N|]; split; [exact P|]; intros s; lia|].
  destruct (part_ok l (A l ltac:(now left))) as (X & _ & _). destruct (sum_in_ok (p_token l) (part l) m N P X) as (I1 & I2 & I3 & _). destruct (IH _ I1 I2 ltac:(intros; apply A; now right)) as (J1 & J2 & J3). split; [exact J1|]. split; [exact J2|]. intros s. rewrite J3, I3. lia.
Qed.
Lemma sums_ok l : (forall r, In r l -> open r) -> NoDup (map fst (sums l)) /\ (forall e, In e (sums l) -> 0 <= snd e) /\ forall s, msum s (sums l) = dues s l.
Proof.
  unfold sums. assert (G : forall m, NoDup (map fst m) -> (forall e, In e m -> 0 <= snd e) -> (forall r, In r l -> open r) -> let m' := fold_left (fun m r => fold_left (fun m x => sum_in (p_token x) (part x) m) (f_pools r) m) l m in NoDup (map fst m') /\ (forall e, In e m' -> 0 <= snd e) /\ forall s, msum s m' = msum s m + dues s l).
  { cbn zeta. induction l as [|r l IH]; cbn [fold_left dues fold_right]; intros m N P A; [split; [exact N|]; split; [exact P|]; intros s; lia|].
    destruct (fold_sum (f_pools r) m N P (proj2 (A r ltac:(now left)))) as (I1 & I2 & I3). destruct (IH _ I1 I2 ltac:(intros; apply A; now right)) as (J1 & J2 & J3). split; [exact J1|]. split; [exact J2|]. intros s. rewrite J3, I3. unfold dues. lia. }
  intros O. apply (G []); [constructor|intros e []|exact O].
Qed.
Lemma burn_ok e m : NoDup (map fst m) -> (forall x, In x m -> 0 <= snd x) -> let b := burn e m in
  (forall x, In x (snd b) -> 0 <= snd x) /\ 0 <= fst b /\ forall s, msum s m = msum s (snd b) + if s =? vite then fst b else 0.
Proof.
  intros N P. cbn zeta. unfold burn. destruct e; [|cbn [fst snd]; split; [exact P|]; split; [lia|]; intros s; destruct (s =? vite); lia].
  destruct (find (fun e => fst e =? vite) m) as [[v a]|] eqn:F; [|cbn [fst snd]; split; [exact P|]; split; [lia|]; intros s; destruct (s =? vite); lia].
  destruct (Z.eqb_spec a 0) as [->|NZ]; cbn [fst snd]; [split; [exact P|]; split; [lia|]; intros s; destruct (s =? vite); lia|].
  split; [intros x I; apply filter_In in I; now apply P|]. assert (IN := find_some _ _ F). split; [specialize (P (v, a) (proj1 IN)); exact P|].
  intros s. clear P NZ IN. revert N F. induction m as [|[t b] m IH]; cbn [find map fst filter msum]; [discriminate|]. intros N F. inversion N as [|? ? NI N']; subst. destruct (Z.eqb_spec t vite) as [->|NE]; cbn [negb].
  - injection F as <- <-. assert (msum s (filter (fun e => negb (fst e =? vite)) m) = msum s m) as ->; [rewrite filter_none; [reflexivity|]; intros x X; apply negb_true_iff, Z.eqb_neq; intros Q; apply NI; rewrite <- Q; now apply in_map|]. rewrite (Z.eqb_sym vite s). lia.
  - cbn [msum]. rewrite (IH N' F). lia.
Qed.
Lemma left_items t m : left t (map (fun e => Item (fst e) (snd e) (snd e) 0 false) m) = msum t m.
Proof. induction m as [|[s a] m IH]; cbn; [reflexivity|]. now rewrite IH. Qed.
