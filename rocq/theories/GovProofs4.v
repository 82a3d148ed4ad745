From Verif Require Import Lib SchedModel StatsModel GovModel GovSpec GovProofs.

(** ** The reward of one day *)
Local Opaque reward_per_block stake_pre stake_main.
Lemma zlist_eqb_sym a b : zlist_eqb a b = zlist_eqb b a.
Proof. destruct (zlist_eqb a b) eqn:E; destruct (zlist_eqb b a) eqn:E2; auto; [apply zlist_eqb_eq in E; subst; rewrite zlist_eqb_refl in E2|apply zlist_eqb_eq in E2; subst; rewrite zlist_eqb_refl in E]; discriminate. Qed.
Lemma zlen_map {A B} (f : A -> B) l : zlen (map f l) = zlen l. Proof. unfold zlen. now rewrite map_length. Qed.
Lemma filter_keep {A} (f : A -> bool) l : (forall x, In x l -> f x = true) -> filter f l = l.
Proof. induction l as [|x l IH]; intro H; cbn; [auto|]. rewrite (H x (or_introl eq_refl)). f_equal. apply IH. intros y I. apply H. now right. Qed.
Lemma reward_pos : 0 < reward_per_block. Proof. Local Transparent reward_per_block. unfold reward_per_block. lia. Qed.
Lemma stake_pos b f i : 0 < stake_of b f i. Proof. Local Transparent stake_pre stake_main. unfold stake_of, stake_pre, stake_main. destruct (negb b); [lia|]. destruct (i <=? f); lia. Qed.
Local Opaque reward_per_block stake_pre stake_main.

Lemma zsum_nonneg {A} (f : A -> Z) l : Forall (fun x => 0 <= f x) l -> 0 <= zsum (map f l).
Proof. induction 1; cbn; lia. Qed.
Lemma zsum_le {A} (f h : A -> Z) l : (forall x, In x l -> f x <= h x) -> zsum (map f l) <= zsum (map h l).
Proof. induction l as [|x l IH]; intro H; cbn; [lia|]. pose proof (H x (or_introl eq_refl)). enough (zsum (map f l) <= zsum (map h l)) by lia. apply IH. intros y I. apply H. now right. Qed.
Lemma zsum_mul {A} k (f : A -> Z) l : zsum (map (fun x => k * f x) l) = k * zsum (map f l).
Proof. induction l as [|x l IH]; cbn [map zsum]; [lia|]. rewrite IH. lia. Qed.
Lemma zsum_add {A} (f h : A -> Z) l : zsum (map (fun x => f x + h x) l) = zsum (map f l) + zsum (map h l).
Proof. induction l as [|x l IH]; cbn [map zsum]; [lia|]. rewrite IH. lia. Qed.
Lemma zsum_zero {A} l : zsum (map (fun _ : A => 0) l) = 0.
Proof. induction l; cbn; lia. Qed.
Lemma zsum_ext {A} (f h : A -> Z) l : (forall x, In x l -> f x = h x) -> zsum (map f l) = zsum (map h l).
Proof. intro H. f_equal. now apply map_ext_in. Qed.
(** Each [x] belongs to at most one of distinct names. *)
Lemma zsum_classes {A} (cls : A -> name) (f : A -> Z) (l : list A) : Forall (fun x => 0 <= f x) l -> forall ns, NoDup ns ->
  zsum (map (fun n => zsum (map f (filter (fun x => zlist_eqb (cls x) n) l))) ns) <= zsum (map f l).
Proof.
  induction 1 as [|x l X F IH]; intros ns N; cbn [filter map zsum].
  - rewrite zsum_zero. lia.
  - specialize (IH ns N). assert (E : zsum (map (fun n => zsum (map f (if zlist_eqb (cls x) n then x :: filter (fun y => zlist_eqb (cls y) n) l else filter (fun y => zlist_eqb (cls y) n) l))) ns)
      = zsum (map (fun n => if zlist_eqb (cls x) n then f x else 0) ns) + zsum (map (fun n => zsum (map f (filter (fun y => zlist_eqb (cls y) n) l))) ns)).
    { rewrite <- zsum_add. apply zsum_ext. intros n _. destruct (zlist_eqb (cls x) n); cbn [map zsum]; lia. }
    rewrite E. enough (zsum (map (fun n => if zlist_eqb (cls x) n then f x else 0) ns) <= f x) by lia. clear - N X. induction N as [|n ns I N IH]; cbn [map zsum]; [lia|].
    destruct (zlist_eqb (cls x) n) eqn:E; [|lia]. apply zlist_eqb_eq in E. enough (zsum (map (fun m => if zlist_eqb (cls x) m then f x else 0) ns) = 0) by lia. rewrite (zsum_ext _ (fun _ => 0)); [apply zsum_zero|]. intros m M.
    destruct (zlist_eqb (cls x) m) eqn:E2; [|auto]. apply zlist_eqb_eq in E2. congruence.
Qed.
Lemma zsum_sub {A} (f : A -> Z) (p q : A -> bool) l : Forall (fun x => 0 <= f x) l -> (forall x, In x l -> p x = true -> q x = true) -> zsum (map f (filter p l)) <= zsum (map f (filter q l)).
Proof.
  induction 1 as [|x l X F IH]; intro H; cbn [filter]; [cbn; lia|]. assert (IH' : zsum (map f (filter p l)) <= zsum (map f (filter q l))) by (apply IH; intros y I; apply H; now right).
  pose proof (H x (or_introl eq_refl)) as HX. destruct (p x); destruct (q x); cbn [map zsum]; lia.
Qed.
Lemma zsum_filter_le {A} (f : A -> Z) p l : Forall (fun x => 0 <= f x) l -> zsum (map f (filter p l)) <= zsum (map f l).
Proof. induction 1 as [|x l X F IH]; cbn [filter map zsum]; [lia|]. destruct (p x); cbn [map zsum]; lia. Qed.

(** Distinct names each receive at most their part. *)
Fixpoint vget (n : name) (l : list (name * Z)) : option Z := match l with [] => None | x :: r => if zlist_eqb (fst x) n then Some (snd x) else vget n r end.
Lemma vget_in n l v : vget n l = Some v -> In (n, v) l.
Proof. induction l as [|[m x] l IH]; cbn; [easy|]. destruct (zlist_eqb m n) eqn:E; [apply zlist_eqb_eq in E; intros [= ->]; subst; auto|auto]. Qed.
Lemma vget_del n l : NoDup (map fst l) -> forall m v, vget n l = Some v -> m <> n -> vget m (filter (fun x => negb (zlist_eqb (fst x) n)) l) = vget m l.
Proof.
  intros _ m v _ D. induction l as [|[k x] l IH]; cbn; [auto|]. destruct (zlist_eqb k n) eqn:E; cbn.
  - apply zlist_eqb_eq in E. subst k. destruct (zlist_eqb n m) eqn:E2; [apply zlist_eqb_eq in E2; congruence|auto].
  - destruct (zlist_eqb k m); auto.
Qed.
Lemma vsum_del n l v (s : Z) : NoDup (map fst l) -> vget n l = Some v ->
  zsum (map (fun x => snd x + s) l) = v + s + zsum (map (fun x => snd x + s) (filter (fun x => negb (zlist_eqb (fst x) n)) l)).
Proof.
  induction l as [|[k x] l IH]; cbn [map zsum filter vget fst snd]; [easy|]. intro N. inversion N as [|? ? N1 N2]; subst. destruct (zlist_eqb k n) eqn:E; cbn [negb].
  - apply zlist_eqb_eq in E. subst k. intros [= ->]. rewrite filter_keep by (intros [j y] I; cbn; apply negb_true_iff, zlist_eqb_neq; intros ->; apply N1; apply in_map_iff; exists (n, y); auto). lia.
  - intro V. cbn [map zsum snd]. rewrite (IH N2 V). lia.
Qed.
Lemma vsum_le (s : Z) ns : NoDup ns -> forall l, 0 <= s -> NoDup (map fst l) -> Forall (fun x => 0 <= snd x) l ->
  zsum (map (fun n => match vget n l with Some v => v + s | None => 0 end) ns) <= zsum (map (fun x => snd x + s) l).
Proof.
  induction 1 as [|n ns I N IH]; intros l S NL F; cbn [map zsum].
  - apply zsum_nonneg. eapply Forall_impl; [|exact F]. cbn. lia.
  - destruct (vget n l) as [v|] eqn:V.
    + rewrite (vsum_del n l v s NL V). enough (zsum (map (fun n0 => match vget n0 l with Some v0 => v0 + s | None => 0 end) ns) <= zsum (map (fun x => snd x + s) (filter (fun x => negb (zlist_eqb (fst x) n)) l))) by lia.
      rewrite (zsum_ext _ (fun n0 => match vget n0 (filter (fun x => negb (zlist_eqb (fst x) n)) l) with Some v0 => v0 + s | None => 0 end)).
      2: { intros m M. rewrite (vget_del n l NL m v V); [auto|]. intros ->. contradiction. }
      apply IH; auto.
      * clear - NL. induction l as [|[k x] l IH]; cbn; [constructor|]. inversion NL as [|? ? N1 N2]; subst. destruct (zlist_eqb k n); cbn; [auto|]. constructor; [|auto]. intro H. apply N1. apply in_map_iff in H. destruct H as (y & E & H). apply filter_In in H. apply in_map_iff. exists y. tauto.
      * rewrite Forall_forall in *. intros x X. apply filter_In in X. apply F. tauto.
    + specialize (IH l S NL F). lia.
Qed.

(** The statistics of a day come from its producers. *)
Lemma add_sbp_fst n e f l : map fst (add_sbp n e f l) = map fst l.
Proof. unfold add_sbp. rewrite map_map. apply map_ext. intros x. destruct (zlist_eqb (fst x) n); auto. Qed.
Lemma get_sbp_add n e f l m : get_sbp m (add_sbp n e f l) = match get_sbp m l with Some s => Some (if zlist_eqb m n then {| sb_votes := sb_votes s; sb_num := wrap64 (sb_num s + f); sb_exp := wrap64 (sb_exp s + e) |} else s) | None => None end.
Proof.
  induction l as [|[k x] l IH]; cbn; [auto|]. destruct (zlist_eqb k n) eqn:E; cbn; destruct (zlist_eqb k m) eqn:E2; cbn; auto; apply zlist_eqb_eq in E2; subst k; now rewrite E.
Qed.
Definition nprod (c : Z -> name) (n : name) (l : list (Z * (Z * Z))) : Z := zsum (map (fun x => snd (snd x)) (filter (fun x => zlist_eqb (c (fst x)) n) l)).
Definition nexp (c : Z -> name) (n : name) (l : list (Z * (Z * Z))) : Z := zsum (map (fun x => fst (snd x)) (filter (fun x => zlist_eqb (c (fst x)) n) l)).
Definition tprod (l : list (Z * (Z * Z))) : Z := zsum (map (fun x => snd (snd x)) l).
Definition texp (l : list (Z * (Z * Z))) : Z := zsum (map (fun x => fst (snd x)) l).
Definition prod_ok (l : list (Z * (Z * Z))) : Prop := Forall (fun x => 0 <= snd (snd x) <= fst (snd x)) l.
Lemma prod_ok_le c n l : prod_ok l -> 0 <= nprod c n l <= nexp c n l /\ nexp c n l <= texp l /\ nprod c n l <= tprod l /\ 0 <= tprod l <= texp l.
Proof.
  intro P. unfold nprod, nexp, tprod, texp. assert (P1 : Forall (fun x : Z * (Z * Z) => 0 <= snd (snd x)) l) by (eapply Forall_impl; [|exact P]; cbn; lia). assert (P2 : Forall (fun x : Z * (Z * Z) => 0 <= fst (snd x)) l) by (eapply Forall_impl; [|exact P]; cbn; lia).
  pose proof (zsum_filter_le _ (fun x => zlist_eqb (c (fst x)) n) l P2). pose proof (zsum_filter_le _ (fun x => zlist_eqb (c (fst x)) n) l P1). pose proof (zsum_nonneg _ l P1).
  assert (Q : forall k, Forall (fun x : Z * (Z * Z) => 0 <= snd (snd x) <= fst (snd x)) k -> 0 <= zsum (map (fun x => snd (snd x)) k) <= zsum (map (fun x => fst (snd x)) k)) by (induction 1; cbn in *; lia).
  pose proof (Q l P). assert (PF : Forall (fun x : Z * (Z * Z) => 0 <= snd (snd x) <= fst (snd x)) (filter (fun x => zlist_eqb (c (fst x)) n) l)) by (apply Forall_forall; intros x X; apply filter_In in X; unfold prod_ok in P; rewrite Forall_forall in P; apply P; tauto).
  pose proof (Q _ PF). lia.
Qed.
Lemma fold_stats c l : prod_ok l -> forall st t, 0 <= t -> t + texp l < two64 -> (forall n s, get_sbp n st = Some s -> 0 <= sb_num s /\ 0 <= sb_exp s /\ sb_num s + texp l < two64 /\ sb_exp s + texp l < two64) ->
  let r := fold_left (fun acc (x : Z * (Z * Z)) => (add_sbp (c (fst x)) (fst (snd x)) (snd (snd x)) (fst acc), wrap64 (snd acc + snd (snd x)))) l (st, t) in
  map fst (fst r) = map fst st /\ snd r = t + tprod l /\
  forall n, get_sbp n (fst r) = match get_sbp n st with Some s => Some {| sb_votes := sb_votes s; sb_num := sb_num s + nprod c n l; sb_exp := sb_exp s + nexp c n l |} | None => None end.
Proof.
  induction 1 as [|x l X F IH]; intros st t T0 T1 ST; cbn [fold_left].
  - cbn. split; [auto|]. split; [lia|]. intro n. destruct (get_sbp n st) as [[a b d]|]; cbn; [|auto]. now rewrite !Z.add_0_r.
  - assert (TX : texp (x :: l) = fst (snd x) + texp l) by reflexivity. assert (TP : tprod (x :: l) = snd (snd x) + tprod l) by reflexivity. destruct (prod_ok_le (fun _ => []) [] l F) as (_ & _ & _ & TL).
    assert (W : forall y, 0 <= y < two64 -> wrap64 y = y) by (intros y Y; unfold wrap64; now apply Z.mod_small).
    cbn [fst snd]. rewrite (W (t + snd (snd x))) by lia. destruct (IH (add_sbp (c (fst x)) (fst (snd x)) (snd (snd x)) st) (t + snd (snd x))) as (H1 & H2 & H3); [lia|lia| |].
    { intros n s G. rewrite get_sbp_add in G. destruct (get_sbp n st) as [s0|] eqn:G0; [|discriminate]. specialize (ST n s0 G0). rewrite TX in ST. injection G as <-. destruct (zlist_eqb n (c (fst x))); cbn [sb_num sb_exp]; [rewrite !W by lia; lia|lia]. }
    cbv zeta in *. rewrite H1, H2, add_sbp_fst. split; [auto|]. split; [rewrite TP; lia|]. intro n. rewrite H3, get_sbp_add. destruct (get_sbp n st) as [s0|] eqn:G0; [|auto]. specialize (ST n s0 G0). rewrite TX in ST.
    unfold nprod, nexp. cbn [filter]. rewrite zlist_eqb_sym. destruct (zlist_eqb (c (fst x)) n) eqn:E; cbn [map zsum sb_votes sb_num sb_exp]; [|auto]. rewrite !W by lia. f_equal. f_equal; lia.
Qed.
Lemma get_sbp_init n l : get_sbp n (map (fun y => (fst y, {| sb_votes := snd y; sb_num := 0; sb_exp := 0 |})) l) = option_map (fun v => {| sb_votes := v; sb_num := 0; sb_exp := 0 |}) (vget n l).
Proof. induction l as [|[k v] l IH]; cbn; [auto|]. destruct (zlist_eqb k n); auto. Qed.
Lemma day_detail_spec regs i p v : day_ok p -> let d := day_detail regs i p v in
  d_index d = i /\ d_votesum d = v_total v /\ d_total d = tprod (p_sbps p) /\ zlen (d_stats d) = zlen (v_details v) /\
  forall n, get_sbp n (d_stats d) = option_map (fun x => {| sb_votes := x; sb_num := nprod (name_of regs) n (p_sbps p); sb_exp := nexp (name_of regs) n (p_sbps p) |}) (vget n (v_details v)).
Proof.
  intros (N & P & S & _) d. destruct (fold_stats (name_of regs) (p_sbps p) P (map (fun y => (fst y, {| sb_votes := snd y; sb_num := 0; sb_exp := 0 |})) (v_details v)) 0) as (H1 & H2 & H3); [lia|exact S| |].
  { intros n s G. rewrite get_sbp_init in G. destruct (vget n (v_details v)); [|discriminate]. injection G as <-. cbn [sb_num sb_exp]. fold (texp (p_sbps p)) in S. lia. }
  split; [auto|]. split; [auto|]. split; [exact H2|]. split.
  - subst d. unfold day_detail. cbn [d_stats]. cbv zeta in H1. rewrite <- (zlen_map fst), H1, map_map. cbn. now rewrite zlen_map.
  - intro n. subst d. unfold day_detail. cbn [d_stats]. cbv zeta in H3. rewrite H3, get_sbp_init. destruct (vget n (v_details v)); auto.
Qed.

(** The largest reward of [n] for day [i] given the names of addresses [h]. *)
Definition vcap (T D V s : Z) : Z := Z.quot (Z.quot ((V + s) * T * 50 * reward_per_block) D) 100.
Definition cap (days : Z -> option point) (fork : Z) (h : Z -> name) (n : name) (i : Z) : Z :=
  match days i with
  | Some p => match p_votes p with
      | Some v => match vget n (v_details v) with
          | Some V => vcap (tprod (p_sbps p)) (zlen (v_details v) * stake_of true fork i + v_total v) V (stake_of true fork i) + Z.quot (nprod h n (p_sbps p) * 50 * reward_per_block) 100
          | None => 0 end
      | None => 0 end
  | None => 0 end.
Lemma quot3_le X D m e : 0 <= X -> 0 < D -> 0 <= m <= e -> 0 < e -> 0 <= Z.quot (Z.quot (X * m) D) e <= Z.quot X D.
Proof.
  intros HX HD HM HE. rewrite !Z.quot_div_nonneg; try (apply Z.quot_pos; nia); try nia; try lia. split; [apply Z.div_pos; [apply Z.div_pos; nia|lia]|].
  rewrite Z.div_div by lia. transitivity (X * e / (D * e)); [apply Z.div_le_mono; nia|]. rewrite Z.div_mul_cancel_r by lia. lia.
Qed.
Lemma day_reward_nonneg d n s : 0 <= d_total d -> 0 < s -> 0 <= d_votesum d -> Forall (fun x => 0 <= sb_votes (snd x) /\ 0 <= sb_num (snd x) <= sb_exp (snd x)) (d_stats d) -> 0 <= fst (day_reward d n s) /\ 0 <= snd (day_reward d n s).
Proof.
  intros T S V F. unfold day_reward. destruct (get_sbp n (d_stats d)) as [x|] eqn:G; [|cbn; lia]. assert (I : In (n, x) (d_stats d)).
  { clear - G. induction (d_stats d) as [|[k y] l IH]; [discriminate|]. cbn in G. destruct (zlist_eqb k n) eqn:E; [apply zlist_eqb_eq in E; injection G as ->; subst; now left|right; auto]. }
  rewrite Forall_forall in F. destruct (F _ I) as [F1 F2]. cbn [snd] in F1, F2. pose proof reward_pos. destruct (Z.eqb_spec (sb_exp x) 0) as [E|E]; cbn [fst snd]; [lia|].
  assert (L : 1 <= zlen (d_stats d)) by (destruct (d_stats d); [contradiction|rewrite zlen_cons; pose proof (zlen_nonneg l); lia]).
  split; [|apply Z.quot_pos; nia]. apply Z.quot_pos; [|lia]. apply quot3_le; try lia; nia.
Qed.
Lemma day_reward_cap days fork h regs i p v n : days i = Some p -> p_votes p = Some v -> day_ok p -> n <> [] -> (forall a, name_of regs a <> [] -> h a = name_of regs a) ->
  let r := day_reward (day_detail regs i p v) n (stake_of true fork i) in 0 <= fst r + snd r <= cap days fork h n i.
Proof.
  intros ED EV OK NE HN r. subst r. destruct (day_detail_spec regs i p v OK) as (_ & D2 & D3 & D4 & D5). destruct OK as (N & P & S & VO). rewrite EV in VO. destruct VO as (V1 & V2 & V3).
  unfold cap. rewrite ED, EV. unfold day_reward. rewrite D2, D3, D4, D5. destruct (vget n (v_details v)) as [V|] eqn:G; cbn [option_map]; [|cbn; lia]. cbn [sb_votes sb_num sb_exp].
  assert (I : In (n, V) (v_details v)) by now apply vget_in. assert (L : 1 <= zlen (v_details v)) by (destruct (v_details v); [contradiction|rewrite zlen_cons; pose proof (zlen_nonneg l); lia]).
  rewrite Forall_forall in V2. pose proof (V2 _ I) as VP. cbn in VP. pose proof (stake_pos true fork i) as SP. pose proof reward_pos as RP. destruct (prod_ok_le (name_of regs) n _ P) as (A1 & A2 & A3 & A4).
  assert (VT : 0 <= v_total v) by (rewrite V3; apply zsum_nonneg; apply Forall_forall; auto).
  assert (NP : nprod (name_of regs) n (p_sbps p) <= nprod h n (p_sbps p)).
  { unfold nprod. apply zsum_sub; [eapply Forall_impl; [|exact P]; cbn; lia|]. intros x X E. apply zlist_eqb_eq in E. rewrite HN by congruence. rewrite E. apply zlist_eqb_refl. }
  assert (DP : 0 < zlen (v_details v) * stake_of true fork i + v_total v) by nia. set (D := zlen (v_details v) * stake_of true fork i + v_total v) in *. set (s := stake_of true fork i) in *. set (T := tprod (p_sbps p)) in *.
  set (m := nprod (name_of regs) n (p_sbps p)) in *. set (e := nexp (name_of regs) n (p_sbps p)) in *. set (m' := nprod h n (p_sbps p)) in *.
  assert (X0 : 0 <= (V + s) * T * 50 * reward_per_block) by (repeat apply Z.mul_nonneg_nonneg; lia).
  assert (B0 : 0 <= Z.quot (m * 50 * reward_per_block) 100 <= Z.quot (m' * 50 * reward_per_block) 100). { split; [apply Z.quot_pos; nia|apply Z.quot_le_mono; [lia|nia]]. }
  assert (V0 : 0 <= vcap T D V s) by (unfold vcap; apply Z.quot_pos; [apply Z.quot_pos; lia|lia]).
  destruct (Z.eqb_spec e 0) as [E|E]; cbn [fst snd]; [lia|]. destruct (quot3_le ((V + s) * T * 50 * reward_per_block) D m e) as [Q1 Q2]; [auto|auto|lia|lia|].
  assert (Q3 : 0 <= Z.quot (Z.quot (Z.quot ((V + s) * T * 50 * reward_per_block * m) D) e) 100 <= vcap T D V s). { split; [apply Z.quot_pos; lia|unfold vcap; apply Z.quot_le_mono; lia]. }
  lia.
Qed.
Lemma cap_nonneg days fork h n i : (forall p, days i = Some p -> day_ok p) -> 0 <= cap days fork h n i.
Proof.
  intro OK. unfold cap. destruct (days i) as [p|] eqn:ED; [|lia]. specialize (OK p eq_refl). destruct OK as (N & P & S & VO). destruct (p_votes p) as [v|]; [|lia]. destruct VO as (V1 & V2 & V3). destruct (vget n (v_details v)) as [V|] eqn:G; [|lia].
  assert (I : In (n, V) (v_details v)) by now apply vget_in. assert (L : 1 <= zlen (v_details v)) by (destruct (v_details v); [contradiction|rewrite zlen_cons; pose proof (zlen_nonneg l); lia]).
  rewrite Forall_forall in V2. pose proof (V2 _ I) as VP. cbn in VP. pose proof (stake_pos true fork i) as SP. pose proof reward_pos as RP. destruct (prod_ok_le h n _ P) as (A1 & A2 & A3 & A4).
  assert (VT : 0 <= v_total v) by (rewrite V3; apply zsum_nonneg; apply Forall_forall; auto).
  assert (0 <= Z.quot (nprod h n (p_sbps p) * 50 * reward_per_block) 100) by (apply Z.quot_pos; nia). assert (0 <= vcap (tprod (p_sbps p)) (zlen (v_details v) * stake_of true fork i + v_total v) V (stake_of true fork i)); [|lia].
  unfold vcap. apply Z.quot_pos; [apply Z.quot_pos; [repeat apply Z.mul_nonneg_nonneg; lia|nia]|lia].
Qed.
Lemma cap_mono days fork h h' n i : (forall p, days i = Some p -> day_ok p) -> n <> [] -> (forall a, h a <> [] -> h' a = h a) -> cap days fork h n i <= cap days fork h' n i.
Proof.
  intros OK NE H. unfold cap. destruct (days i) as [p|] eqn:ED; [|lia]. specialize (OK p eq_refl). destruct OK as (N & P & S & VO). destruct (p_votes p) as [v|]; [|lia]. destruct (vget n (v_details v)) as [V|] eqn:G; [|lia].
  enough (nprod h n (p_sbps p) * 50 * reward_per_block <= nprod h' n (p_sbps p) * 50 * reward_per_block) by (pose proof (Z.quot_le_mono _ _ 100 ltac:(lia) H0); lia). pose proof reward_pos. enough (nprod h n (p_sbps p) <= nprod h' n (p_sbps p)) by nia.
  unfold nprod. apply zsum_sub; [eapply Forall_impl; [|exact P]; cbn; lia|]. intros x X E. apply zlist_eqb_eq in E. rewrite H by congruence. rewrite E. apply zlist_eqb_refl.
Qed.
(** Over all names: at most the reward per block for each block of the day. *)
Lemma cap_total days fork h i ns : (forall p, days i = Some p -> day_ok p) -> NoDup ns -> zsum (map (fun n => cap days fork h n i) ns) <= reward_per_block * day_blocks days i.
Proof.
  intros OK N. unfold cap, day_blocks. destruct (days i) as [p|] eqn:ED; [|rewrite zsum_zero; lia]. specialize (OK p eq_refl). destruct OK as (ND & P & S & VO). pose proof reward_pos as RP. destruct (prod_ok_le h [] _ P) as (_ & _ & _ & A4). fold (tprod (p_sbps p)).
  destruct (p_votes p) as [v|]; [|rewrite zsum_zero; nia]. destruct VO as (V1 & V2 & V3). set (T := tprod (p_sbps p)) in *. set (s := stake_of true fork i). pose proof (stake_pos true fork i) as SP. fold s in SP.
  set (D := zlen (v_details v) * s + v_total v). assert (VT : 0 <= v_total v) by (rewrite V3; apply zsum_nonneg; auto). pose proof (zlen_nonneg (v_details v)) as LN.
  assert (DE : D = zsum (map (fun x => snd x + s) (v_details v))). { subst D. rewrite V3, zsum_add. clear. induction (v_details v) as [|x l IH]; cbn [map zsum]; [cbn; lia|]. rewrite zlen_cons. lia. }
  assert (B : zsum (map (fun n => match vget n (v_details v) with Some _ => Z.quot (nprod h n (p_sbps p) * 50 * reward_per_block) 100 | None => 0 end) ns) * 2 <= reward_per_block * T).
  { pose proof (zsum_classes (fun x : Z * (Z * Z) => h (fst x)) (fun x => snd (snd x)) (p_sbps p)) as C. specialize (C (Forall_impl _ (fun x H => proj1 H) P) ns N). fold T in C. fold (tprod (p_sbps p)) in C. fold T in C.
    assert (C2 : 2 * zsum (map (fun n => match vget n (v_details v) with Some _ => Z.quot (nprod h n (p_sbps p) * 50 * reward_per_block) 100 | None => 0 end) ns) <= reward_per_block * zsum (map (fun n => nprod h n (p_sbps p)) ns)).
    { rewrite <- !zsum_mul. apply zsum_le. intros n _. destruct (prod_ok_le h n _ P) as (A1 & _). destruct (vget n (v_details v)); [|nia]. rewrite Z.quot_div_nonneg by nia.
      replace (nprod h n (p_sbps p) * 50 * reward_per_block) with (nprod h n (p_sbps p) * reward_per_block * 50) by ring. pose proof (Z.mul_div_le (nprod h n (p_sbps p) * reward_per_block * 50) 100 ltac:(lia)). lia. }
    change (zsum (map (fun n => nprod h n (p_sbps p)) ns) <= T) in C. nia. }
  assert (A : zsum (map (fun n => match vget n (v_details v) with Some V => vcap T D V s | None => 0 end) ns) * 2 <= reward_per_block * T).
  { destruct (Z.eq_dec (zlen (v_details v)) 0) as [Z0|Z0].
    - destruct (v_details v); [|rewrite zlen_cons in Z0; pose proof (zlen_nonneg l); lia]. cbn [vget]. rewrite zsum_zero. nia.
    - assert (DP : 0 < D) by (subst D; nia). pose proof (vsum_le s ns N (v_details v) ltac:(lia) V1 V2) as C. rewrite <- DE in C.
      assert (C2 : (2 * D) * zsum (map (fun n => match vget n (v_details v) with Some V => vcap T D V s | None => 0 end) ns) <= (T * reward_per_block) * zsum (map (fun n => match vget n (v_details v) with Some V => V + s | None => 0 end) ns)).
      { rewrite <- !zsum_mul. apply zsum_le. intros n _. destruct (vget n (v_details v)) as [V|] eqn:G; [|lia]. apply vget_in in G. rewrite Forall_forall in V2. pose proof (V2 _ G) as VP. cbn in VP.
        unfold vcap. assert (X0 : 0 <= (V + s) * T * reward_per_block) by (repeat apply Z.mul_nonneg_nonneg; lia). replace ((V + s) * T * 50 * reward_per_block) with ((V + s) * T * reward_per_block * 50) by ring. set (X := (V + s) * T * reward_per_block) in *.
        rewrite Z.quot_div_nonneg; [|apply Z.quot_pos; lia|lia]. rewrite Z.quot_div_nonneg by lia. rewrite Z.div_div by lia. pose proof (Z.mul_div_le (X * 50) (D * 100) ltac:(lia)). replace (T * reward_per_block * (V + s)) with X by (subst X; ring). nia. }
      assert (C3 : T * reward_per_block * zsum (map (fun n => match vget n (v_details v) with Some V => V + s | None => 0 end) ns) <= T * reward_per_block * D) by (apply Z.mul_le_mono_nonneg_l; [nia|auto]).
      set (Q := zsum (map (fun n => match vget n (v_details v) with Some V => vcap T D V s | None => 0 end) ns)) in *. assert (D * (Q * 2) <= D * (reward_per_block * T)) by lia. eapply Z.mul_le_mono_pos_l; eauto. }
  rewrite (zsum_ext _ (fun n => match vget n (v_details v) with Some V => vcap T D V s | None => 0 end + match vget n (v_details v) with Some _ => Z.quot (nprod h n (p_sbps p) * 50 * reward_per_block) 100 | None => 0 end)) by (intros n _; destruct (vget n (v_details v)); lia).
  rewrite zsum_add. lia.
Qed.
