From Verif Require Import Lib RoadModel RoadSpec.
From Coq Require Import Permutation.
Import ListNotations.

(** ** Maps *)
Section Map.
Context {K V : Type} (eqb : K -> K -> bool) (E : forall a b, eqb a b = true <-> a = b).
Implicit Types (m : list (K * V)) (k : K).
Lemma eqb_refl k : eqb k k = true. Proof. now apply E. Qed.
Lemma eqb_no a b : a <> b -> eqb a b = false. Proof. intros N. destruct (eqb a b) eqn:X; [apply E in X; contradiction|reflexivity]. Qed.
Lemma get_del m k x : get eqb (del eqb m k) x = if eqb k x then None else get eqb m x.
Proof.
  induction m as [|[y v] r IH]; cbn; [now destruct (eqb k x)|]. destruct (eqb y k) eqn:A; [rewrite IH; apply E in A; subst y; now destruct (eqb k x)|]. cbn. rewrite IH. destruct (eqb y x) eqn:B; [|reflexivity]. apply E in B. subst y. rewrite (eqb_no k x); [reflexivity|]. intros ->. now rewrite eqb_refl in A.
Qed.
Lemma get_put m k v x : get eqb (put eqb m k v) x = if eqb k x then Some v else get eqb m x.
Proof. unfold put. cbn. rewrite get_del. now destruct (eqb k x). Qed.
Lemma in_del m k e : In e (del eqb m k) <-> In e m /\ fst e <> k.
Proof.
  induction m as [|[y v] r IH]; cbn; [tauto|]. destruct (eqb y k) eqn:A.
  - apply E in A. subst y. rewrite IH. split; [tauto|]. intros [[<-|X] N]; [now destruct N|tauto].
  - cbn. rewrite IH. split; [|tauto]. intros [<-|X]; [|tauto]. split; [now left|]. cbn. intros ->. now rewrite eqb_refl in A.
Qed.
Lemma nodup_del m k : NoDup (map fst m) -> NoDup (map fst (del eqb m k)).
Proof.
  induction m as [|[y v] r IH]; cbn; [trivial|]. intros N. inversion_clear N as [|? ? A B]. destruct (eqb y k); [now apply IH|]. cbn. constructor; [|now apply IH]. intros X. apply A. apply in_map_iff in X. destruct X as (e & F & G). apply in_del in G. apply in_map_iff. exists e. tauto.
Qed.
Lemma nodup_put m k v : NoDup (map fst m) -> NoDup (map fst (put eqb m k v)).
Proof.
  intros N. cbn. constructor; [|now apply nodup_del]. intros X. apply in_map_iff in X. destruct X as (e & F & G). apply in_del in G. tauto.
Qed.
Lemma get_in m k v : get eqb m k = Some v -> In (k, v) m.
Proof. induction m as [|[y w] r IH]; cbn; [discriminate|]. destruct (eqb y k) eqn:A; [|auto]. apply E in A. subst y. intros [= ->]. now left. Qed.
Lemma in_get m k v : NoDup (map fst m) -> In (k, v) m -> get eqb m k = Some v.
Proof.
  induction m as [|[y w] r IH]; cbn; [intros _ []|]. intros N. inversion_clear N as [|? ? A B]. intros [[= -> ->]|X]; [now rewrite eqb_refl|]. destruct (eqb y k) eqn:F; [|auto]. apply E in F. subst y. destruct A. apply in_map_iff. now exists (k, v).
Qed.
Lemma get_none m k : get eqb m k = None <-> ~ In k (map fst m).
Proof.
  induction m as [|[y w] r IH]; cbn; [tauto|]. destruct (eqb y k) eqn:A; [apply E in A; subst y; split; [discriminate|tauto]|]. rewrite IH. split; [intros H [->|X]; [now rewrite eqb_refl in A|tauto]|tauto].
Qed.
Lemma del_none m k : get eqb m k = None -> del eqb m k = m.
Proof. induction m as [|[y w] r IH]; cbn; [trivial|]. destruct (eqb y k); [discriminate|]. intros X. now rewrite IH. Qed.
Lemma perm_del m k v : NoDup (map fst m) -> get eqb m k = Some v -> Permutation m ((k, v) :: del eqb m k).
Proof.
  induction m as [|[y w] r IH]; cbn; [discriminate|]. intros N. inversion_clear N as [|? ? A B]. destruct (eqb y k) eqn:F.
  - apply E in F. subst y. intros [= ->]. rewrite del_none; [reflexivity|]. now apply get_none.
  - intros X. rewrite perm_swap. now apply perm_skip, IH.
Qed.
Lemma get_perm m m' k : NoDup (map fst m) -> Permutation m m' -> get eqb m' k = get eqb m k.
Proof.
  intros N P. assert (N' : NoDup (map fst m')) by (eapply Permutation_NoDup; [apply Permutation_map; exact P|exact N]). destruct (get eqb m k) as [v|] eqn:A.
  - apply in_get; [exact N'|]. apply (Permutation_in _ P). now apply get_in.
  - apply get_none. apply get_none in A. intros X. apply A. eapply Permutation_in; [apply Permutation_sym, Permutation_map; exact P|exact X].
Qed.
End Map.
Lemma zeq a b : (a =? b) = true <-> a = b. Proof. apply Z.eqb_eq. Qed.
Lemma keq_ok a b : keq a b = true <-> a = b.
Proof. destruct a, b. unfold keq. cbn. rewrite andb_true_iff, !Z.eqb_eq. split; [intros [-> ->]; reflexivity|intros [= -> ->]; auto]. Qed.

(** ** Sums *)
Definition sum {A} (f : A -> Z) (l : list A) : Z := fold_right (fun e x => f e + x) 0 l.
Lemma sum_app {A} (f : A -> Z) l r : sum f (l ++ r) = sum f l + sum f r.
Proof. induction l as [|e l IH]; cbn [app sum fold_right] in *; [reflexivity|]. fold (sum f (l ++ r)). fold (sum f l). lia. Qed.
Lemma sum_cons {A} (f : A -> Z) e l : sum f (e :: l) = f e + sum f l. Proof. reflexivity. Qed.
Lemma sum_perm {A} (f : A -> Z) l r : Permutation l r -> sum f l = sum f r.
Proof. induction 1; cbn [sum fold_right] in *; fold (@sum A f) in *; unfold sum in *; cbn; lia. Qed.
Lemma sum_ext {A} (f g : A -> Z) l : (forall e, In e l -> f e = g e) -> sum f l = sum g l.
Proof. induction l as [|e l IH]; intros H; [reflexivity|]. rewrite !sum_cons. rewrite (H e) by now left. rewrite IH; [reflexivity|]. intros x X. apply H. now right. Qed.
Lemma sum_zero {A} (f : A -> Z) l : (forall e, In e l -> f e = 0) -> sum f l = 0.
Proof. intros H. rewrite (sum_ext f (fun _ => 0) l H). induction l as [|e l IH]; [reflexivity|]. rewrite sum_cons, IH; [reflexivity|]. intros x X. apply H. now right. Qed.
Lemma sum_filter {A} (f : A -> Z) (q : A -> bool) l : sum f (filter q l) = sum (fun e => if q e then f e else 0) l.
Proof. induction l as [|e l IH]; [reflexivity|]. cbn [filter]. rewrite sum_cons. destruct (q e); [rewrite sum_cons|]; rewrite IH; lia. Qed.
Lemma sum_map {A B} (g : A -> B) (f : B -> Z) l : sum f (map g l) = sum (fun e => f (g e)) l.
Proof. induction l as [|e l IH]; [reflexivity|]. cbn [map]. now rewrite !sum_cons, IH. Qed.
Lemma sum_flat {A B} (g : A -> list B) (f : B -> Z) l : sum f (flat_map g l) = sum (fun e => sum f (g e)) l.
Proof. induction l as [|e l IH]; [reflexivity|]. cbn [flat_map]. now rewrite sum_app, sum_cons, IH. Qed.
Lemma sum_plus {A} (f g : A -> Z) l : sum (fun e => f e + g e) l = sum f l + sum g l.
Proof. induction l as [|e l IH]; [reflexivity|]. rewrite !sum_cons, IH. lia. Qed.
Lemma sum_opp {A} (f : A -> Z) l : sum (fun e => - f e) l = - sum f l.
Proof. induction l as [|e l IH]; [reflexivity|]. rewrite !sum_cons, IH. lia. Qed.
Lemma sum_nonneg {A} (f : A -> Z) l : (forall e, In e l -> 0 <= f e) -> 0 <= sum f l.
Proof. induction l as [|e l IH]; intros H; [reflexivity|]. rewrite sum_cons. pose proof (H e (or_introl eq_refl)). assert (0 <= sum f l) by (apply IH; intros x X; apply H; now right). lia. Qed.
Lemma perm_filter {A} (q : A -> bool) l r : Permutation l r -> Permutation (filter q l) (filter q r).
Proof. induction 1; cbn; [constructor|destruct (q x); [now constructor|assumption]|destruct (q x), (q y); try reflexivity; apply perm_swap|eapply Permutation_trans; eassumption]. Qed.
Lemma perm_flat {A B} (g : A -> list B) l r : Permutation l r -> Permutation (flat_map g l) (flat_map g r).
Proof.
  induction 1; cbn; [constructor|now apply Permutation_app_head| |eapply Permutation_trans; eassumption]. rewrite !app_assoc. apply Permutation_app_tail, Permutation_app_comm.
Qed.
Lemma nodup_app_l {A} (l r : list A) : NoDup (l ++ r) -> NoDup l.
Proof. induction l as [|x l IH]; intros N; [constructor|]. inversion_clear N as [|? ? P Q]. constructor; [|now apply IH]. intros X. apply P. apply in_or_app. now left. Qed.

Section Road.
Context (contract genesis : Z -> bool) (ord : forall A : Type, list A -> list A) (ORD : forall A l, Permutation (ord A l) l).
Notation parts := (parts contract genesis).
Notation unpaired := (unpaired contract genesis ord).
Notation flushed := (flushed contract genesis ord).

(** ** What an entry counts for an account and a token; [p] is the amount, or one *)
Definition w (p : send -> Z) (a t : Z) (s : send) : Z := if (s_to s =? a) && (s_tok s =? t) then p s else 0.
Definition tv (p : send -> Z) (L : list blk) (t : Z) (e : ent) : Z :=
  match e with
  | ESend s => if s_tok s =? t then p s else 0
  | ERecv _ f => match look L f with Some s => if s_tok s =? t then - p s else 0 | None => 0 end
  end.
Definition ev (p : send -> Z) (L : list blk) (a t : Z) (e : ent) : Z := if e_owner e =? a then tv p L t e else 0.
Definition one (_ : send) : Z := 1.

(** ** Chains *)
Record wf (L : list blk) : Prop := {
  wf_hash : NoDup (hashes L);
  wf_recv : NoDup (received L);
  wf_from : forall a h f subs, In (BRecv a h f subs) L -> genesis h = false /\ (subs <> [] -> contract a = true) /\ exists s, In s (sends L) /\ s_hash s = f /\ s_to s = a;
  wf_amt : forall s, In s (sends L) -> 0 <= s_amt s;
  wf_size : zlen (sends L) < two64 }.
Lemma hashes_app A B : hashes (A ++ B) = hashes A ++ hashes B. Proof. apply flat_map_app. Qed.
Lemma received_app A B : received (A ++ B) = received A ++ received B. Proof. apply flat_map_app. Qed.
Lemma sends_app A B : sends (A ++ B) = sends A ++ sends B. Proof. apply flat_map_app. Qed.
Lemma send_hash L s : In s (sends L) -> In (s_hash s) (hashes L).
Proof.
  unfold sends, hashes. rewrite !in_flat_map. intros (b & B & X). exists b. split; [exact B|]. destruct b as [a s'|a h f subs]; [destruct X as [->|[]]; now left|]. right. now apply in_map.
Qed.
Lemma sends_nodup L : NoDup (hashes L) -> NoDup (map s_hash (sends L)).
Proof.
  induction L as [|b L IH]; [constructor|]. intros N. unfold hashes in N. cbn [flat_map] in N. fold (hashes L) in N. unfold sends. cbn [flat_map]. fold (sends L). destruct b as [a s|a h f subs].
  - cbn in *. inversion_clear N as [|? ? X Y]. constructor; [|now apply IH]. intros Z. apply X. apply in_map_iff in Z. destruct Z as (s' & <- & G). now apply send_hash.
  - cbn in N. inversion_clear N as [|? ? X Y]. rewrite map_app. clear X. revert Y. induction subs as [|s r IHr]; cbn; [exact IH|]. intros Y. inversion_clear Y as [|? ? P Q]. constructor; [|now apply IHr]. intros Z. apply P. apply in_app_iff in Z. apply in_app_iff. destruct Z as [Z|Z]; [now left|]. right. apply in_map_iff in Z. destruct Z as (s' & <- & G). now apply send_hash.
Qed.
Lemma look_in L s : NoDup (hashes L) -> In s (sends L) -> look L (s_hash s) = Some s.
Proof.
  intros N. apply sends_nodup in N. unfold look. induction (sends L) as [|x r IH]; [intros []|]. cbn in N |- *. inversion_clear N as [|? ? P Q]. intros [->|X]; [now rewrite Z.eqb_refl|]. destruct (Z.eqb_spec (s_hash x) (s_hash s)) as [F|F]; [|now apply IH]. destruct P. rewrite F. now apply in_map.
Qed.
Lemma same_send L s s' : NoDup (hashes L) -> In s (sends L) -> In s' (sends L) -> s_hash s = s_hash s' -> s = s'.
Proof. intros N A B H. pose proof (look_in L s N A) as X. rewrite H, (look_in L s' N B) in X. congruence. Qed.
Lemma received_in L f : In f (received L) <-> exists a h subs, In (BRecv a h f subs) L.
Proof.
  unfold received. rewrite in_flat_map. split.
  - intros (b & B & X). destruct b as [a s|a h g subs]; [destruct X|]. destruct X as [->|[]]. now exists a, h, subs.
  - intros (a & h & subs & B). exists (BRecv a h f subs). split; [exact B|now left].
Qed.
Lemma wf_perm L D R : wf L -> Permutation L (D ++ R) -> closed D -> wf D.
Proof.
  intros W P C. assert (PH : Permutation (hashes L) (hashes D ++ hashes R)) by (rewrite <- hashes_app; now apply perm_flat). assert (PR : Permutation (received L) (received D ++ received R)) by (rewrite <- received_app; now apply perm_flat). assert (PS : Permutation (sends L) (sends D ++ sends R)) by (rewrite <- sends_app; now apply perm_flat).
  assert (SL : forall s, In s (sends D) -> In s (sends L)) by (intros s X; apply (Permutation_in _ (Permutation_sym PS)), in_or_app; now left).
  constructor.
  - apply (nodup_app_l _ (hashes R)). exact (Permutation_NoDup PH (wf_hash L W)).
  - apply (nodup_app_l _ (received R)). exact (Permutation_NoDup PR (wf_recv L W)).
  - intros a h f subs B. assert (BL : In (BRecv a h f subs) L) by (apply (Permutation_in _ (Permutation_sym P)), in_or_app; now left). destruct (wf_from L W a h f subs BL) as (G & Co & s & S1 & S2 & S3). split; [exact G|]. split; [exact Co|]. destruct (C f) as (s' & T1 & T2); [apply received_in; now exists a, h, subs|]. exists s'. split; [exact T1|]. split; [exact T2|]. rewrite (same_send L s' s (wf_hash L W)); [exact S3|now apply SL|exact S1|congruence].
  - intros s X. apply (wf_amt L W). now apply SL.
  - pose proof (wf_size L W). unfold zlen in *. rewrite (Permutation_length PS), app_length in H. lia.
Qed.
Lemma wf_look L a h f subs : wf L -> In (BRecv a h f subs) L -> exists s, look L f = Some s /\ In s (sends L) /\ s_hash s = f /\ s_to s = a.
Proof. intros W B. destruct (wf_from L W a h f subs B) as (_ & _ & s & S1 & S2 & S3). exists s. rewrite <- S2. rewrite (look_in L s (wf_hash L W) S1). auto. Qed.

(** The entries of blocks: the sends and the receives. *)
Lemma parts_in L : wf L -> forall b e, In b L -> In e (parts b) -> match e with ESend s => In s (sends L) | ERecv a f => exists h subs, In (BRecv a h f subs) L end.
Proof.
  intros W b e B X. destruct b as [a s|a h f subs]; cbn [RoadModel.parts] in X.
  - destruct X as [<-|[]]. unfold sends. apply in_flat_map. exists (BSend a s). split; [exact B|now left].
  - destruct (wf_from L W a h f subs B) as (G & Co & _). rewrite G in X. destruct X as [<-|X]; [now exists h, subs|]. destruct (contract a); [|destruct X]. apply in_map_iff in X. destruct X as (s & <- & Y). unfold sends. apply in_flat_map. now exists (BRecv a h f subs).
Qed.
Definition snds (es : list ent) : list send := flat_map (fun e => match e with ESend s => [s] | _ => [] end) es.
Definition rcvs (es : list ent) : list Z := flat_map (fun e => match e with ERecv _ f => [f] | _ => [] end) es.
Lemma snds_map l : snds (map ESend l) = l. Proof. induction l as [|s l IH]; [reflexivity|]. cbn. unfold snds in IH. now rewrite IH. Qed.
Lemma rcvs_map l : rcvs (map ESend l) = []. Proof. induction l as [|s l IH]; [reflexivity|exact IH]. Qed.
Lemma parts_sends L : (forall a h f subs, In (BRecv a h f subs) L -> genesis h = false /\ (subs <> [] -> contract a = true)) -> snds (flat_map parts L) = sends L /\ rcvs (flat_map parts L) = received L.
Proof.
  induction L as [|b L IH]; [split; reflexivity|]. intros W. destruct IH as [I1 I2]; [intros a h f subs B; apply (W a h f subs); now right|]. unfold snds, rcvs, sends, received in *. cbn [flat_map]. rewrite !flat_map_app, I1, I2. destruct b as [a s|a h f subs]; cbn [RoadModel.parts flat_map app]; [split; reflexivity|]. destruct (W a h f subs (or_introl eq_refl)) as [G Co]. rewrite G. cbn [flat_map app]. destruct (contract a).
  - pose proof (snds_map subs) as X1. pose proof (rcvs_map subs) as X2. unfold snds, rcvs in *. now rewrite X1, X2.
  - destruct subs as [|s r]; [split; reflexivity|]. exfalso. assert (X : false = true) by (apply Co; discriminate). discriminate.
Qed.

(** ** Cancelling pairs keeps the sums *)
Definition apart (L : list blk) (X : list ent) : Prop :=
  NoDup (map s_hash (snds X)) /\ NoDup (rcvs X) /\ forall a f s, In (ERecv a f) X -> In (ESend s) X -> s_hash s = f -> look L f = Some s /\ s_to s = a.
Lemma apart_perm L X Y : Permutation X Y -> apart L X -> apart L Y.
Proof.
  intros P (A & B & C). split; [|split].
  - refine (Permutation_NoDup _ A). apply Permutation_map. now apply perm_flat.
  - refine (Permutation_NoDup _ B). now apply perm_flat.
  - intros a f s R1 S1. apply C; (eapply Permutation_in; [apply Permutation_sym; exact P|assumption]).
Qed.
Lemma apart_app L X Y : apart L (X ++ Y) -> apart L X.
Proof.
  intros (A & B & C). unfold snds, rcvs in *. rewrite flat_map_app in A, B. rewrite map_app in A. split; [exact (nodup_app_l _ _ A)|]. split; [exact (nodup_app_l _ _ B)|]. intros a f s R1 S1. apply C; apply in_or_app; now left.
Qed.
Lemma snds_in X s : In s (snds X) <-> In (ESend s) X.
Proof. unfold snds. rewrite in_flat_map. split; [intros ([s'|] & B & Y); [destruct Y as [->|[]]; exact B|destruct Y]|intros B; exists (ESend s); split; [exact B|now left]]. Qed.
Lemma rcvs_in X f : In f (rcvs X) <-> exists a, In (ERecv a f) X.
Proof. unfold rcvs. rewrite in_flat_map. split; [intros ([s'|a f'] & B & Y); [destruct Y|destruct Y as [->|[]]; now exists a]|intros [a B]; exists (ERecv a f); split; [exact B|now left]]. Qed.
Lemma pair_sums p L a t : forall E m, NoDup (map fst m) -> Forall (fun x => e_key (snd x) = fst x) m -> apart L (map snd m ++ E) ->
  sum (ev p L a t) (map snd (fold_left pair_off E m)) = sum (ev p L a t) (map snd m) + sum (ev p L a t) E /\
  (forall e, In e (map snd (fold_left pair_off E m)) -> In e (map snd m) \/ In e E).
Proof.
  induction E as [|e E IH]; intros m N F A; cbn [fold_left].
  - cbn [sum fold_right]. split; [lia|auto].
  - unfold pair_off at 2 4. destruct (get Z.eqb m (e_key e)) as [v|] eqn:G.
    + pose proof (get_in _ zeq _ _ _ G) as GI. assert (KV : e_key v = e_key e) by (rewrite Forall_forall in F; exact (F _ GI)).
      assert (PM : Permutation (map snd m) (v :: map snd (del Z.eqb m (e_key e)))) by (change (v :: map snd (del Z.eqb m (e_key e))) with (map snd ((e_key e, v) :: del Z.eqb m (e_key e))); apply Permutation_map; now apply perm_del; [exact zeq| |]).
      assert (AV : apart L ((v :: e :: map snd (del Z.eqb m (e_key e))) ++ E)).
      { refine (apart_perm L _ _ _ A). etransitivity; [apply Permutation_app_tail; exact PM|]. cbn. apply perm_skip. symmetry. apply (Permutation_middle (map snd (del Z.eqb m (e_key e))) E e). }
      assert (NE : Bool.eqb (is_send v) (is_send e) = false).
      { destruct AV as (X1 & X2 & _). destruct v as [s|b f], e as [s'|b' f']; cbn in KV |- *; try reflexivity; exfalso; cbn in X1, X2; rewrite KV in *; [inversion X1 as [|? ? Q]|inversion X2 as [|? ? Q]]; apply Q; now left. }
      rewrite NE. assert (Z0 : ev p L a t v + ev p L a t e = 0).
      { destruct AV as (_ & _ & X3). unfold ev. destruct v as [s|b f], e as [s'|b' f']; try discriminate NE; cbn in KV |- *.
        - destruct (X3 b' f' s) as [Q1 Q2]; [right; now left|now left|exact KV|]. rewrite Q1, Q2. destruct (b' =? a), (s_tok s =? t); lia.
        - destruct (X3 b f s') as [Q1 Q2]; [now left|right; now left|now rewrite KV|]. rewrite Q1, Q2. destruct (b =? a), (s_tok s' =? t); lia. }
      destruct (IH (del Z.eqb m (e_key e))) as [I1 I2].
      * now apply nodup_del; [exact zeq|].
      * apply Forall_forall. intros x X. apply in_del in X; [|exact zeq]. rewrite Forall_forall in F. apply F. tauto.
      * apply (apart_app L _ [v; e]). refine (apart_perm L _ _ _ AV). cbn. rewrite (Permutation_app_comm (map snd (del Z.eqb m (e_key e)) ++ E)). reflexivity.
      * rewrite I1. rewrite (sum_perm _ _ _ PM), !sum_cons. split; [lia|]. intros x X. destruct (I2 x X) as [Y|Y]; [left; apply (Permutation_in _ (Permutation_sym PM)); now right|right; now right].
    + assert (PE : map snd (put Z.eqb m (e_key e) e) = e :: map snd m) by (unfold put; cbn; now rewrite del_none).
      destruct (IH (put Z.eqb m (e_key e) e)) as [I1 I2].
      * now apply nodup_put; [exact zeq|].
      * constructor; [reflexivity|]. rewrite del_none by exact G. exact F.
      * rewrite PE. refine (apart_perm L _ _ _ A). symmetry. apply Permutation_middle.
      * rewrite I1, PE, !sum_cons. split; [lia|]. intros x X. destruct (I2 x X) as [Y|Y]; [rewrite PE in Y; destruct Y as [<-|Y]; [right; now left|now left]|right; now right].
Qed.
Lemma parts_apart L bs R : wf L -> Permutation L (bs ++ R) -> apart L (flat_map parts bs).
Proof.
  intros W P. assert (SUB : forall b, In b bs -> In b L) by (intros b B; apply (Permutation_in _ (Permutation_sym P)), in_or_app; now left).
  destruct (parts_sends bs) as [E1 E2]; [intros a h f subs B; destruct (wf_from L W a h f subs (SUB _ B)) as (G & Co & _); auto|]. split; [|split].
  - rewrite E1. assert (X : NoDup (map s_hash (sends (bs ++ R)))) by (apply sends_nodup; refine (Permutation_NoDup _ (wf_hash L W)); now apply perm_flat). rewrite sends_app, map_app in X. exact (nodup_app_l _ _ X).
  - rewrite E2. assert (X : NoDup (received (bs ++ R))) by (refine (Permutation_NoDup _ (wf_recv L W)); now apply perm_flat). rewrite received_app in X. exact (nodup_app_l _ _ X).
  - intros a f s X Y K. apply in_flat_map in X. destruct X as (b & B1 & B2). apply in_flat_map in Y. destruct Y as (c & C1 & C2). apply (parts_in L W b _ (SUB b B1)) in B2. destruct B2 as (h & subs & B3). apply (parts_in L W c _ (SUB c C1)) in C2. destruct (wf_look L a h f subs W B3) as (s' & Q1 & Q2 & Q3 & Q4). assert (s = s') as -> by (apply (same_send L s s' (wf_hash L W) C2 Q2); congruence). auto.
Qed.
Lemma unpaired_sums p L a t bs R : wf L -> Permutation L (bs ++ R) ->
  sum (ev p L a t) (unpaired bs) = sum (ev p L a t) (flat_map parts bs) /\ (forall e, In e (unpaired bs) -> In e (flat_map parts bs)).
Proof.
  intros W P. destruct (pair_sums p L a t (flat_map parts bs) [] (NoDup_nil _) (Forall_nil _) (parts_apart L bs R W P)) as [A B]. unfold RoadModel.unpaired. split.
  - rewrite (sum_perm _ _ _ (ORD _ _)), A. cbn [map sum fold_right]. lia.
  - intros e X. apply (Permutation_in _ (ORD _ _)) in X. destruct (B e X) as [[]|Y]. exact Y.
Qed.

(** ** The sums of a closed part of the chain are those of its pending sends *)
Lemma net_pending p L a t D R : wf L -> Permutation L (D ++ R) -> closed D -> sum (ev p L a t) (flat_map parts D) = sum p (of_token t (pending D a)).
Proof.
  intros W P C. pose proof (wf_perm L D R W P C) as WD. assert (SUB : forall b, In b D -> In b L) by (intros b B; apply (Permutation_in _ (Permutation_sym P)), in_or_app; now left).
  assert (SL : forall s, In s (sends D) -> In s (sends L)) by (intros s X; apply (Permutation_in _ (Permutation_sym (perm_flat (fun b => match b with BSend _ s => [s] | BRecv _ _ _ subs => subs end) _ _ P))); rewrite flat_map_app; apply in_or_app; now left).
  (* sends and receives apart *)
  assert (S1 : sum (ev p L a t) (flat_map parts D) = sum (w p a t) (sends D) - sum (fun f => match look L f with Some s => w p a t s | None => 0 end) (received D)).
  { rewrite sum_flat. unfold sends, received. rewrite !sum_flat. rewrite <- (Z.add_opp_r _ (sum _ D)). rewrite <- sum_opp, <- sum_plus. apply sum_ext. intros b B. destruct b as [x s|x h f subs]; cbn [RoadModel.parts].
    - cbn [sum fold_right]. unfold ev, w. cbn. destruct (s_to s =? a), (s_tok s =? t); cbn; lia.
    - destruct (wf_from L W x h f subs (SUB _ B)) as (G & Co & _). rewrite G, sum_cons. destruct (wf_look L x h f subs W (SUB _ B)) as (s & Q1 & Q2 & Q3 & Q4). cbn [sum fold_right]. rewrite Q1.
      assert (X : sum (ev p L a t) (if contract x then map ESend subs else []) = sum (w p a t) subs).
      { destruct (contract x); [|destruct subs; [reflexivity|]; exfalso; assert (false = true) by (apply Co; discriminate); discriminate]. rewrite sum_map. apply sum_ext. intros s' _. unfold ev, w. cbn. destruct (s_to s' =? a), (s_tok s' =? t); reflexivity. }
      rewrite X. unfold ev, w. cbn [e_owner tv]. rewrite Q1, Q4. destruct (x =? a), (s_tok s =? t); cbn; unfold sum; lia. }
  rewrite S1. (* the sends taken *)
  set (tk := fun s => existsb (Z.eqb (s_hash s)) (received D)).
  assert (S2 : sum (fun f => match look L f with Some s => w p a t s | None => 0 end) (received D) = sum (w p a t) (filter tk (sends D))).
  { assert (PT : Permutation (received D) (map s_hash (filter tk (sends D)))).
    { apply NoDup_Permutation; [exact (wf_recv D WD)| |].
      - pose proof (sends_nodup D (wf_hash D WD)) as N. clear - N. induction (sends D) as [|s r IH]; [constructor|]. cbn in N |- *. inversion_clear N as [|? ? X Y]. destruct (tk s); [|now apply IH]. cbn. constructor; [|now apply IH]. intros Z. apply X. apply in_map_iff in Z. destruct Z as (s' & Z1 & Z2). apply filter_In in Z2. apply in_map_iff. exists s'. tauto.
      - intros f. rewrite in_map_iff. split.
        + intros X. destruct (C f X) as (s & Q1 & Q2). exists s. split; [exact Q2|]. apply filter_In. split; [exact Q1|]. unfold tk. apply existsb_exists. exists f. split; [exact X|]. rewrite Q2. apply Z.eqb_refl.
        + intros (s & <- & X). apply filter_In in X. destruct X as [_ X]. unfold tk in X. apply existsb_exists in X. destruct X as (g & X1 & X2). apply Z.eqb_eq in X2. now rewrite X2. }
    rewrite (sum_perm _ _ _ PT), sum_map. apply sum_ext. intros s X. apply filter_In in X. rewrite (look_in L s (wf_hash L W)); [reflexivity|]. now apply SL. }
  rewrite S2. unfold of_token, pending. rewrite !sum_filter. rewrite <- (Z.add_opp_r (sum _ (sends D))), <- sum_opp, <- sum_plus. apply sum_ext. intros s _. unfold w. fold (tk s). destruct (s_to s =? a), (s_tok s =? t), (tk s); cbn; lia.
Qed.
End Road.
