(** Payments of a whole job are proportional. *)
From Verif Require Import Lib DexFloat DivModel DivSpec DivProofs DivProofs2 DivProofs3 DivProofs4 DivProofs5.
From Coq Require Import Sorted.
Import ListNotations.

Lemma serve_all_token total a u is x : In x (snd (serve_all total a u is)) -> In (snd (fst x)) (map i_token is).
Proof. unfold serve_all. cbn [snd]. intros I. apply in_flat_map in I. destruct I as (i & I & X). apply serve_token in X. rewrite X. now apply in_map. Qed.
Lemma walk_token total p : forall l is x, In x (snd (walk total p is l)) -> In (snd (fst x)) (map i_token is).
Proof.
  induction l as [|[u f] l IH]; intros is x; cbn [walk]; destruct (forallb i_over is); try (intros []).
  destruct (match_funds f p) as [[a f']|].
  - destruct (valid a).
    + assert (TK : map i_token (fst (serve_all total a u is)) = map i_token is) by (unfold serve_all; cbn [fst]; rewrite map_map; apply map_ext; intros j; apply serve_map). pose proof (serve_all_token total a u is x) as ST. destruct (serve_all total a u is) as [is' out]. cbn [fst snd] in *. specialize (IH is' x). destruct (walk total p is' l) as [r' pays]. cbn [snd] in *. intros I. apply in_app_or in I. destruct I as [I|I]; [auto|]. rewrite <- TK. auto.
    + specialize (IH is x). destruct (walk total p is l). exact IH.
  - specialize (IH is x). destruct (walk total p is l). exact IH.
Qed.
Lemma burn_nodup e m : NoDup (map fst m) -> NoDup (map fst (snd (burn e m))).
Proof.
  intros N. unfold burn. destruct e; [|exact N]. destruct (find _ m) as [[v a]|]; [|exact N]. destruct (a =? 0); [exact N|]. cbn [snd]. induction m as [|[s b] m IH]; cbn [filter map fst] in *; [constructor|]. inversion N as [|? ? NI N']; subst. destruct (s =? vite); cbn [negb map fst]; [now apply IH|]. constructor; [|now apply IH]. intros X. apply NI. apply in_map_iff in X. destruct X as (y & <- & Y). apply filter_In in Y. apply in_map. apply Y.
Qed.
Lemma msum_in m s a : NoDup (map fst m) -> In (s, a) m -> msum s m = a.
Proof.
  induction m as [|[t b] m IH]; cbn [map fst msum]; intros N []; inversion N as [|? ? NI N']; subst.
  - injection H as -> ->. rewrite Z.eqb_refl. assert (msum s m = 0) as ->; [|lia]. clear - NI. induction m as [|[t b] m IH]; [reflexivity|]. cbn [msum map fst] in *. rewrite IH by (intros X; apply NI; now right). destruct (Z.eqb_spec t s) as [->|]; [destruct NI; now left|lia].
  - rewrite IH by assumption. destruct (Z.eqb_spec t s) as [->|]; [|lia]. destruct NI. apply (in_map fst) in H. exact H.
Qed.
Lemma cs_ge u l q : counts (at_ (uget u l) q) <= cs l q.
Proof. induction l as [|[v f] l IH]; cbn [uget cs]; [rewrite at_nil; lia|]. pose proof (counts_nonneg (at_ f q)). pose proof (cs_nonneg l q). destruct (v =? u); lia. Qed.
Lemma counts_both a b : counts a = counts b -> threshold <= a -> b = a.
Proof. unfold counts. intros E T. rewrite (proj2 (Z.leb_le _ _) T) in E. pose proof threshold_pos. destruct (threshold <=? b); lia. Qed.
Lemma divide_share ops d p pays t : inv ops d -> 1 <= p < d_cur d -> (0 < d_job d -> p = d_job d + 1) -> d_paid (divide_fees d p) = d_paid d ++ pays -> paid t pays < roomy ->
  ascending (pt t pays) /\ forall pre u s a post, pt t pays = pre ++ (u, s, a) :: post -> post <> [] -> Z.abs (a * at_ (d_sum d) p - paid t pays * held ops u p) < at_ (d_sum d) p.
Proof.
  intros V P J E RM. assert (JP : d_job d < p) by (pose proof (i_job _ _ V); lia).
  assert (NIL : pays = [] -> ascending (pt t pays) /\ forall pre u s a post, pt t pays = pre ++ (u, s, a) :: post -> post <> [] -> Z.abs (a * at_ (d_sum d) p - paid t pays * held ops u p) < at_ (d_sum d) p).
  { intros ->. split; [constructor|]. intros [|? pre] u s a post X; discriminate. }
  assert (SK : d_paid d = d_paid d ++ pays -> pays = []) by (intros X; apply (app_inv_head (d_paid d)); now rewrite app_nil_r).
  unfold divide_fees in E. destruct (unfinished (Datatypes.S (Z.to_nat p)) (d_fees d) p false) as [|r0 todo0] eqn:TD; [now apply NIL, SK|]. pose proof (match_ok (d_cur d) (d_sum d) p (i_sum _ _ V)) as M. destruct (match_funds (d_sum d) p) as [[total sum']|]; [|now apply NIL, SK]. destruct M as (ET & TP & _). rewrite <- TD in E. rewrite <- ET. clear SK TD r0 todo0.
  destruct (i_fees _ _ V) as [(C0 & _)|(h & U & F & z & EF & R & S)]; [lia|]. rewrite EF in E. destruct (todo_ok _ _ _ _ _ p S ltac:(lia)) as (A & B & EU & _ & _ & TD). rewrite TD in E. subst U.
  assert (OB : forall r, In r B -> open r) by (destruct S as (_ & _ & _ & O & _); intros r I; apply (O r); right; apply in_or_app; now right).
  destruct (sums_ok B OB) as (K1 & K2 & _). destruct (burn_ok (d_earth d) (sums B) K1 K2) as (L1 & _ & _). pose proof (burn_nodup (d_earth d) _ K1) as ND. cbn zeta in *. destruct (burn (d_earth d) (sums B)) as [b m]. cbn [fst snd] in *.
  assert (FT : Forall (fit total p (d_users d)) (map (fun e => Item (fst e) (snd e) (snd e) 0 false) m)).
  { apply Forall_forall. intros i I. apply in_map_iff in I. destruct I as (e & <- & I). split; cbn [i_left i_over i_done]; [now apply L1|]. rewrite (i_total _ _ V p JP), <- ET. lia. }
  assert (ND' : NoDup (map i_token (map (fun e => Item (fst e) (snd e) (snd e) 0 false) m))) by (rewrite map_map; exact ND).
  pose proof (walk_share total p (d_cur d) (d_users d) _ (i_users _ _ V) FT ND') as WS. pose proof (walk_token total p (d_users d) (map (fun e => Item (fst e) (snd e) (snd e) 0 false) m)) as WT.
  destruct (walk_ok total p (d_cur d) (d_users d) _ (i_users _ _ V) FT) as (_ & _ & _ & _ & W5 & W6). cbn zeta in *. destruct (walk total p _ (d_users d)) as [us pays']. cbn [fst snd d_paid] in *. apply app_inv_head in E. subst pays'.
  destruct (pt t pays) as [|x0 rest0] eqn:EP; [split; [constructor|]; intros [|? pre] u s a post X; discriminate|]. rewrite <- EP.
  assert (TI : In t (map i_token (map (fun e => Item (fst e) (snd e) (snd e) 0 false) m))).
  { assert (I : In x0 (pt t pays)) by (rewrite EP; now left). apply filter_In in I. destruct I as [I T]. apply Z.eqb_eq in T. rewrite <- T. now apply WT. }
  clear NIL x0 rest0 EP. apply in_map_iff in TI. destruct TI as (i & <- & I). assert (AM : i_amount i = paid (i_token i) pays /\ 0 <= i_amount i).
  { rewrite W5, left_items. apply in_map_iff in I. destruct I as ([s a] & <- & I). cbn [i_amount i_token fst snd]. rewrite (msum_in m s a ND I). split; [reflexivity|exact (L1 _ I)]. }
  destruct AM as [AM AN]. destruct (WS i I) as (_ & AS & SH). split; [exact AS|]. intros pre u s a post EQ NP. rewrite (SH pre u s a post EQ NP).
  assert (IN : In (u, s, a) pays) by (assert (X : In (u, s, a) (pt (i_token i) pays)) by (rewrite EQ; apply in_or_app; right; now left); apply filter_In in X; apply X). destruct (W6 u s a IN) as [T _].
  rewrite (counts_both _ _ (i_held _ _ V u p JP) T), <- AM. apply share_close; [|lia]. split; [pose proof threshold_pos; lia|]. rewrite ET, <- (i_total _ _ V p JP). pose proof (cs_ge u (d_users d) p) as X. unfold counts in X at 1. now rewrite (proj2 (Z.leb_le _ _) T) in X.
Qed.
