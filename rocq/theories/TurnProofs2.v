From Verif Require Import Lib.
From Verif Require RoadModel RoadProofs.
Import RoadProofs.
From Verif Require Import TurnModel TurnSpec TurnProofs.
From Coq Require Import Permutation Sorted.
Import ListNotations.

Section Turn.
Context (contract genesis pooled : Z -> bool).
Notation parts := (parts contract genesis).
Notation on_road := (on_road contract).

(** ** Chains *)
Definition later (b c : blk) : Prop := b_addr b = b_addr c -> b_height b < b_height c.
Definition kind_ok (b : blk) : Prop := match b with BSend a _ _ => contract a = false | BRecv a _ h _ subs => genesis h = false /\ (subs <> [] -> contract a = true) end.
Record wf (L : list blk) : Prop := {
  wf_hash : NoDup (hashes L);
  wf_high : forall b, In b L -> 1 <= b_height b;
  wf_order : StronglySorted later L;
  wf_kind : forall b, In b L -> kind_ok b;
  wf_from : forall a n x f subs, In (BRecv a n x f subs) L -> exists c s, In c L /\ In s (sends_of c) /\ s_hash s = f /\ s_to s = a;
  wf_taken : NoDup (taken L);
  wf_pool : forall b s, In b L -> In s (sends_of b) -> contract (s_to s) = true -> pooled (s_to s) = true }.
Definition hs (b : blk) : list Z := match b with BSend _ _ s => [s_hash s] | BRecv _ _ h _ subs => h :: map s_hash subs end.
Lemma hashes_hs L : hashes L = flat_map hs L. Proof. reflexivity. Qed.
Lemma hs_head b : In (b_hash b) (hs b). Proof. destruct b; cbn; auto. Qed.
Lemma hs_send b s : In s (sends_of b) -> In (s_hash s) (hs b).
Proof. destruct b; cbn; [intros [->|[]]; auto|]. intros H. right. now apply in_map. Qed.
Lemma hs_sends b : NoDup (hs b) -> NoDup (map s_hash (sends_of b)).
Proof. destruct b; cbn; [trivial|]. intros N. now inversion N. Qed.
Lemma nodup_app_ht {A} (l r : list A) x : NoDup (l ++ r) -> In x l -> In x r -> False.
Proof. induction l as [|y l IH]; [intros _ []|]. cbn. intros N. inversion_clear N as [|? ? X Y]. intros [->|H] R; [apply X, in_or_app; auto|now apply IH]. Qed.
Lemma nodup_app_r' {A} (l r : list A) : NoDup (l ++ r) -> NoDup r.
Proof. induction l as [|y l IH]; [trivial|]. cbn. intros N. inversion_clear N. auto. Qed.
Lemma same_block L h b c : NoDup (hashes L) -> In b L -> In c L -> In h (hs b) -> In h (hs c) -> b = c.
Proof.
  intros N. rewrite hashes_hs in N. induction L as [|d L IH]; [intros []|]. cbn in N. intros [->|B] [->|C] HB HC; [reflexivity| | |].
  - exfalso. apply (nodup_app_ht _ _ _ N HB). apply in_flat_map. eauto.
  - exfalso. apply (nodup_app_ht _ _ _ N HC). apply in_flat_map. eauto.
  - apply IH; auto. now apply nodup_app_r' in N.
Qed.
Lemma block_nodup L b : NoDup (hashes L) -> In b L -> NoDup (hs b).
Proof. intros N. rewrite hashes_hs in N. induction L as [|d L IH]; [intros []|]. cbn in N. intros [->|B]; [now apply nodup_app_l in N|]. apply IH; [now apply nodup_app_r' in N|exact B]. Qed.
Lemma sorted_high L b c : StronglySorted later L -> In b L -> In c L -> b_addr b = b_addr c -> b_height b = b_height c -> b = c.
Proof.
  clear contract genesis pooled.
  induction 1 as [|d L SS IH F]; [intros []|]. rewrite Forall_forall in F. intros [->|B] [->|C] A H; [reflexivity| | |auto].
  - specialize (F c C A). lia.
  - specialize (F b B (eq_sym A)). lia.
Qed.

(** ** Where the sends are *)
Fixpoint spots_from (i a n : Z) (l : list send) : list (key * Z) :=
  match l with [] => [] | s :: r => (((s_to s, a), (n, s_hash s)), i) :: spots_from (i + 1) a n r end.
Definition spots (b : blk) : list (key * Z) := spots_from 0 (b_addr b) (b_height b) (sends_of b).
Definition located (L : list blk) : list (key * Z) := flat_map spots L.
Definition k_to (k : key) : Z := fst (fst k).
Definition k_from (k : key) : Z := snd (fst k).
Definition k_height (k : key) : Z := fst (snd k).
Definition k_hash (k : key) : Z := snd (snd k).
Definition due (L : list blk) (x : key * Z) : bool := contract (k_to (fst x)) && negb (mem (k_hash (fst x)) (taken L)).
Definition owed (L : list blk) : list (key * Z) := filter (due L) (located L).
Lemma spots_in : forall l i a n k j, In (k, j) (spots_from i a n l) -> exists s, In s l /\ k = ((s_to s, a), (n, s_hash s)).
Proof. induction l as [|s l IH]; intros i a n k j; [intros []|]. cbn. intros [[= <- <-]|H]; [exists s; auto|]. destruct (IH _ _ _ _ _ H) as (t & T & E). exists t. auto. Qed.
Lemma in_spots : forall l i a n s, In s l -> exists j, In (((s_to s, a), (n, s_hash s)), j) (spots_from i a n l).
Proof. induction l as [|t l IH]; intros i a n s; [intros []|]. cbn. intros [->|H]; [eexists; now left|]. destruct (IH (i + 1) a n s H) as (j & J). exists j. auto. Qed.
Lemma spot_of L k i : In (k, i) (located L) -> exists b s, In b L /\ In s (sends_of b) /\ In (k, i) (spots b) /\ k = ((s_to s, b_addr b), (b_height b, s_hash s)).
Proof. intros H. apply in_flat_map in H. destruct H as (b & B & H). destruct (spots_in _ _ _ _ _ _ H) as (s & S1 & E). exists b, s. auto. Qed.
Lemma spot_index : forall l i a n k j, NoDup (map s_hash l) -> In (k, j) (spots_from i a n l) -> position l (k_hash k) = Some (j - i).
Proof.
  clear contract genesis pooled.
  induction l as [|s l IH]; intros i a n k j N; [intros []|]. cbn [map] in N. inversion_clear N as [|? ? NX NL]. cbn [spots_from In position]. intros [[= <- <-]|H].
  - cbn. rewrite Z.eqb_refl. f_equal. lia.
  - destruct (spots_in _ _ _ _ _ _ H) as (t & T & E). destruct (Z.eqb_spec (s_hash s) (k_hash k)) as [Q|_].
    { exfalso. apply NX. rewrite Q, E. cbn. now apply in_map. }
    rewrite (IH _ _ _ _ _ NL H). f_equal. lia.
Qed.
Lemma spot_one L k i k' i' : NoDup (hashes L) -> In (k, i) (located L) -> In (k', i') (located L) -> k_hash k = k_hash k' -> (k, i) = (k', i').
Proof.
  clear contract genesis pooled.
  intros N H H' E. destruct (spot_of _ _ _ H) as (b & s & B & S1 & P & K). destruct (spot_of _ _ _ H') as (b' & s' & B' & S2 & P' & K'). assert (b = b').
  { apply (same_block L (k_hash k) b b' N B B'); [rewrite K; cbn; now apply hs_send|rewrite E, K'; cbn; now apply hs_send]. }
  subst b'. pose proof (hs_sends _ (block_nodup _ _ N B)) as ND. pose proof (spot_index _ _ _ _ _ _ ND P) as I1. pose proof (spot_index _ _ _ _ _ _ ND P') as I2. rewrite E in I1. rewrite I1 in I2. injection I2 as I2. assert (i = i') by lia. subst i'. f_equal. assert (s = s').
  { subst k k'. cbn in E. clear - ND S1 S2 E. induction (sends_of b) as [|t l IH]; [destruct S1|]. cbn in ND. inversion_clear ND as [|? ? X Y]. destruct S1 as [->|S1], S2 as [->|S2]; [reflexivity| | |auto].
    - destruct X. rewrite E. now apply in_map.
    - destruct X. rewrite <- E. now apply in_map. }
  subst s'. congruence.
Qed.
Lemma find_one {A} (q : A -> bool) l x : In x l -> q x = true -> (forall y, In y l -> q y = true -> y = x) -> find q l = Some x.
Proof. intros I Q U. destruct (find q l) as [y|] eqn:F; [apply find_some in F; destruct F; f_equal; auto|]. pose proof (find_none _ _ F x I). congruence. Qed.
Lemma holds_hs h b : holds h b = true <-> In h (hs b).
Proof.
  unfold holds. rewrite orb_true_iff, Z.eqb_eq, existsb_exists. destruct b as [a n s|a n x f subs]; cbn.
  - split; [intros [->|(t & [] & _)]; auto|intros [->|[]]; auto].
  - split; [intros [->|(t & T & E)]; [auto|apply Z.eqb_eq in E; subst h; right; now apply in_map]|intros [->|H]; [auto|]]. apply in_map_iff in H. destruct H as (t & T & E). right. exists t. split; [exact E|now apply Z.eqb_eq].
Qed.
Lemma complete_ok L b h : NoDup (hashes L) -> In b L -> In h (hs b) -> complete L h = Some b.
Proof. intros N B H. apply find_one; [exact B|now apply holds_hs|]. intros c C Q. apply holds_hs in Q. now apply (same_block L h). Qed.
Lemma by_hash_ok L k i : wf L -> In (k, i) (located L) -> exists n, by_hash L (k_hash k) = Some (k_from k, k_to k, n) /\ (contract (k_from k) = false -> n = k_height k).
Proof.
  intros W H. destruct (spot_of _ _ _ H) as (b & s & B & S1 & P & K). unfold by_hash. pose proof (hs_send b s S1) as HS. rewrite (complete_ok L b (k_hash k) (wf_hash _ W) B) by (rewrite K; exact HS). pose proof (wf_kind _ W b B) as KI. destruct b as [a n t|a n x f subs]; cbn in S1, KI.
  - destruct S1 as [<-|[]]. subst k. cbn. exists n. auto.
  - pose proof (block_nodup _ _ (wf_hash _ W) B) as ND. cbn in ND. inversion_clear ND as [|? ? NX NL]. subst k. cbn [k_hash k_from k_to k_height fst snd b_addr]. destruct (Z.eqb_spec x (s_hash s)) as [E|_]; [destruct NX; rewrite E; now apply in_map|].
    rewrite (find_one (fun s0 => s_hash s0 =? s_hash s) subs s); [|exact S1|apply Z.eqb_refl|].
    + exists 0. split; [reflexivity|]. destruct KI as [_ KI]. intros F. rewrite KI in F; [discriminate|]. intros ->. destruct S1.
    + intros t T E. apply Z.eqb_eq in E. clear - NL T S1 E. induction subs as [|u l IH]; [destruct S1|]. cbn in NL. inversion_clear NL as [|? ? X Y]. destruct S1 as [->|S1], T as [->|T]; [reflexivity| | |auto]; destruct X; [rewrite <- E|rewrite E]; now apply in_map.
Qed.
(** The entry a send, or its receive block, stands for. *)
Lemma contract_subs L b k i : wf L -> In b L -> In (k, i) (spots b) -> contract (b_addr b) = true -> b_subs b = sends_of b.
Proof. intros W B P C. pose proof (wf_kind _ W b B) as KI. destruct b; [cbn in KI, C; congruence|reflexivity]. Qed.
Lemma road_send L b k i a n s : wf L -> In b L -> In (k, i) (spots b) -> k_hash k = s_hash s -> In (ESend a n s) (parts b) -> on_road L (ESend a n s) = Some (Tx k (Some i)).
Proof.
  intros W B P E H. pose proof (block_nodup _ _ (wf_hash _ W) B) as ND. pose proof (spot_index _ _ _ _ _ _ (hs_sends _ ND) P) as IX. rewrite Z.sub_0_r in IX. pose proof (spots_in _ _ _ _ _ _ P) as (t & T & K). assert (TS : In s (sends_of b) /\ a = b_addr b /\ (contract a = false -> n = b_height b)).
  { destruct b as [a' n' s'|a' n' x f subs]; cbn in H.
    - destruct H as [[= <- <- <-]|[]]. cbn. auto.
    - destruct (genesis x); [destruct H|]. destruct H as [H|H]; [discriminate|]. destruct (contract a') eqn:CA; [|destruct H]. apply in_map_iff in H. destruct H as (u & [= <- <- <-] & U). cbn. split; [exact U|]. split; [reflexivity|congruence]. }
  destruct TS as (TS & -> & NN). assert (t = s).
  { rewrite K in E. cbn in E. pose proof (hs_sends _ ND) as NS. clear - NS T TS E. induction (sends_of b) as [|u l IH]; [destruct T|]. cbn in NS. inversion_clear NS as [|? ? X Y]. destruct T as [->|T], TS as [->|TS]; [reflexivity| | |auto]; destruct X; [rewrite E|rewrite <- E]; now apply in_map. }
  subst t. unfold TurnModel.on_road. destruct (contract (b_addr b)) eqn:CB.
  - rewrite (complete_ok L b (s_hash s) (wf_hash _ W) B) by now apply hs_send. rewrite (contract_subs L b k i W B P CB), <- E, IX. rewrite K. reflexivity.
  - rewrite (NN eq_refl), K. do 2 f_equal. pose proof (wf_kind _ W b B) as KI. destruct b as [a' n' s'|a' n' x f subs]; cbn in CB, KI, P, T.
    + destruct P as [[= _ <-]|[]]. reflexivity.
    + destruct KI as [_ KI]. rewrite KI in CB; [discriminate|]. intros ->. destruct T.
Qed.
Lemma road_recv L k i a : wf L -> In (k, i) (located L) -> on_road L (ERecv a (k_hash k)) = Some (Tx k (Some i)).
Proof.
  intros W H. destruct (by_hash_ok L k i W H) as (n & BH & NN). unfold TurnModel.on_road. rewrite BH. destruct (spot_of _ _ _ H) as (b & s & B & S1 & P & K). pose proof (block_nodup _ _ (wf_hash _ W) B) as ND. pose proof (spot_index _ _ _ _ _ _ (hs_sends _ ND) P) as IX. rewrite Z.sub_0_r in IX. assert (KF : k_from k = b_addr b) by (rewrite K; reflexivity). destruct (contract (k_from k)) eqn:CB.
  - rewrite (complete_ok L b (k_hash k) (wf_hash _ W) B) by (rewrite K; cbn; now apply hs_send). rewrite (contract_subs L b k i W B P) by congruence. rewrite IX. rewrite K. reflexivity.
  - rewrite (NN eq_refl). do 2 f_equal; [now destruct k as [[? ?] [? ?]]|]. pose proof (wf_kind _ W b B) as KI. rewrite KF in CB. destruct b as [a' n' s'|a' n' x f subs]; cbn in CB, KI, P.
    + destruct P as [[= _ <-]|[]]. reflexivity.
    + destruct KI as [_ KI]. rewrite KI in CB; [discriminate|]. cbn in S1. intros ->. destruct S1.
Qed.
End Turn.
