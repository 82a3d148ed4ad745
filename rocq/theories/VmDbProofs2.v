(** Proofs about the merging iterator. *)
From Verif Require Import Lib VmDbModel VmDbSpec VmDbProofs.
From Coq Require Import Sorted.

(** direction-generic order *)
Definition ltd (nx : bool) (a b : bytes) : bool := if nx then bltb a b else bltb b a.
Definition sortedd (nx : bool) (l : list kv) : Prop := StronglySorted (fun x y => ltd nx (fst x) (fst y) = true) l.
Lemma ltd_irrefl nx a : ltd nx a a = false.
Proof. destruct nx; apply bltb_irrefl. Qed.
Lemma ltd_trans nx a b c : ltd nx a b = true -> ltd nx b c = true -> ltd nx a c = true.
Proof. destruct nx; cbn; intros; eapply bltb_trans; eauto. Qed.
Lemma ltd_total nx a b : ltd nx a b = false -> ltd nx b a = false -> a = b.
Proof. destruct nx; cbn; intros; apply bltb_total; auto. Qed.
Lemma ltd_asym nx a b : ltd nx a b = true -> ltd nx b a = false.
Proof. destruct nx; cbn; apply bltb_asym. Qed.

Fixpoint dropw (bad : bytes -> bool) (l : list kv) : list kv :=
  match l with [] => [] | x :: r => if bad (fst x) then dropw bad r else l end.
Lemma dropw_in bad l x : bad (fst x) = false -> In x (dropw bad l) <-> In x l.
Proof.
  intro B. induction l as [|y l IH]; cbn [dropw]; [reflexivity|].
  destruct (bad (fst y)) eqn:E; [|reflexivity]. rewrite IH. cbn. split; auto. intros [->|H]; [congruence|auto].
Qed.
Lemma dropw_sub bad l x : In x (dropw bad l) -> In x l.
Proof.
  induction l as [|y l IH]; cbn [dropw]; [auto|]. destruct (bad (fst y)); cbn; auto.
Qed.
Lemma dropw_head bad l x r : dropw bad l = x :: r -> bad (fst x) = false.
Proof.
  induction l as [|y l IH]; cbn [dropw]; [discriminate|]. destruct (bad (fst y)) eqn:E; [apply IH|].
  intros [= <- _]. exact E.
Qed.
Lemma dropw_len bad l : (length (dropw bad l) <= length l)%nat.
Proof. induction l as [|y l IH]; cbn [dropw length]; [lia|]. destruct (bad (fst y)); cbn [length]; lia. Qed.
Lemma dropw_sorted nx bad l : sortedd nx l -> sortedd nx (dropw bad l).
Proof.
  unfold sortedd. induction 1 as [|y l S IH F]; cbn [dropw]; [constructor|].
  destruct (bad (fst y)); auto. now constructor.
Qed.

(** ** One slot *)
Definition rest (nx : bool) (c : cur) : list kv := if nx then c_ahead c else c_behind c.
Definition todo (nx clr : bool) (s : slot) : list kv :=
  match (if clr then None else s_key s) with
  | Some _ => push (c_here (s_cur s)) (rest nx (s_cur s))
  | None => rest nx (s_cur s)
  end.
Definition slot_ok (nx : bool) (s : slot) : Prop :=
  (forall k, s_key s = Some k -> exists v, c_here (s_cur s) = Some (k, v)) /\
  (exhausted nx s = true -> s_key s = None /\ rest nx (s_cur s) = []).

Lemma adv_fwd_spec bad al : forall bh,
  push (c_here (adv_fwd bad bh al)) (c_ahead (adv_fwd bad bh al)) = dropw bad al
  /\ c_all (adv_fwd bad bh al) = rev bh ++ al.
Proof.
  induction al as [|x al IH]; intro bh; cbn [adv_fwd dropw].
  - split; [reflexivity|]. unfold c_all. reflexivity.
  - destruct (bad (fst x)) eqn:E.
    + destruct (IH (x :: bh)) as [H1 H2]. split; [exact H1|]. rewrite H2. cbn [rev]. now rewrite <- app_assoc.
    + split; reflexivity.
Qed.
Lemma adv_fwd_none bad al : forall bh, c_here (adv_fwd bad bh al) = None -> c_ahead (adv_fwd bad bh al) = [].
Proof.
  induction al as [|x al IH]; intro bh; cbn [adv_fwd]; [reflexivity|].
  destruct (bad (fst x)); [apply IH|discriminate].
Qed.
Lemma adv_bwd_spec bad bh : forall al,
  push (c_here (adv_bwd bad bh al)) (c_behind (adv_bwd bad bh al)) = dropw bad bh
  /\ c_all (adv_bwd bad bh al) = rev bh ++ al.
Proof.
  induction bh as [|x bh IH]; intro al; cbn [adv_bwd dropw].
  - split; reflexivity.
  - destruct (bad (fst x)) eqn:E.
    + destruct (IH (x :: al)) as [H1 H2]. split; [exact H1|]. rewrite H2. cbn [rev]. now rewrite <- app_assoc.
    + split; [reflexivity|]. unfold c_all; cbn [rev c_behind c_here c_ahead push]. now rewrite <- app_assoc.
Qed.
Lemma adv_bwd_none bad bh : forall al, c_here (adv_bwd bad bh al) = None -> c_behind (adv_bwd bad bh al) = [].
Proof.
  induction bh as [|x bh IH]; intro al; cbn [adv_bwd]; [reflexivity|].
  destruct (bad (fst x)); [apply IH|discriminate].
Qed.

Definition moved (bad : bytes -> bool) (nx : bool) (c : cur) : cur :=
  if nx then adv_fwd bad (push (c_here c) (c_behind c)) (c_ahead c)
  else adv_bwd bad (c_behind c) (push (c_here c) (c_ahead c)).
Lemma moved_spec bad nx c :
  push (c_here (moved bad nx c)) (rest nx (moved bad nx c)) = dropw bad (rest nx c)
  /\ c_all (moved bad nx c) = c_all c
  /\ (c_here (moved bad nx c) = None -> rest nx (moved bad nx c) = []).
Proof.
  destruct nx; cbn [moved rest].
  - destruct (adv_fwd_spec bad (c_ahead c) (push (c_here c) (c_behind c))) as [H1 H2].
    split; [exact H1|]. split; [|apply adv_fwd_none]. rewrite H2. unfold c_all.
    destruct (c_here c); cbn [push rev]; [now rewrite <- app_assoc|reflexivity].
  - destruct (adv_bwd_spec bad (c_behind c) (push (c_here c) (c_ahead c))) as [H1 H2].
    split; [exact H1|]. split; [|apply adv_bwd_none]. rewrite H2. reflexivity.
Qed.

Definition run_slot (bad : bytes -> bool) (nx : bool) (s : slot) : slot :=
  if exhausted nx s then s else settle bad nx s.
Lemma settle_cases bad nx s : settle bad nx s =
  match s_key s with
  | Some k => if bad k then let c := moved bad nx (s_cur s) in
      match c_here c with Some x => mkSlot c (Some (fst x)) (s_stat s) | None => mkSlot c None (if nx then AtTail else AtHead) end else s
  | None => let c := moved bad nx (s_cur s) in
      match c_here c with Some x => mkSlot c (Some (fst x)) (s_stat s) | None => mkSlot c None (if nx then AtTail else AtHead) end
  end.
Proof. destruct nx; reflexivity. Qed.

Lemma run_slot_spec bad nx s : slot_ok nx s ->
  let s' := run_slot bad nx s in
  slot_ok nx s' /\ c_all (s_cur s') = c_all (s_cur s) /\
  match dropw bad (todo nx false s) with
  | [] => s_key s' = None /\ rest nx (s_cur s') = []
  | (k, v) :: r => s_key s' = Some k /\ c_here (s_cur s') = Some (k, v) /\ rest nx (s_cur s') = r
  end.
Proof.
  intros [Hk He] s'.
  assert (M : exhausted nx s = false -> forall t, t = (let c := moved bad nx (s_cur s) in
      match c_here c with Some x => mkSlot c (Some (fst x)) (s_stat s) | None => mkSlot c None (if nx then AtTail else AtHead) end) ->
    slot_ok nx t /\ c_all (s_cur t) = c_all (s_cur s) /\
    match dropw bad (rest nx (s_cur s)) with
    | [] => s_key t = None /\ rest nx (s_cur t) = []
    | (k, v) :: r => s_key t = Some k /\ c_here (s_cur t) = Some (k, v) /\ rest nx (s_cur t) = r
    end).
  { intros X t ->. cbv zeta. destruct (moved_spec bad nx (s_cur s)) as (H1 & H2 & H3).
    destruct (c_here (moved bad nx (s_cur s))) as [[k v]|] eqn:E.
    - cbn [push] in H1. rewrite <- H1. cbn [s_cur s_key fst]. split; [|split; [exact H2|repeat split; auto]].
      split; cbn [s_key s_cur].
      + intros k' [= <-]. eauto.
      + unfold exhausted in *. cbn [s_stat]. congruence.
    - cbn [push] in H1. specialize (H3 eq_refl). rewrite H3 in H1. rewrite <- H1.
      cbn [s_cur s_key]. split; [|split; [exact H2|split; auto]]. split; cbn [s_key s_cur]; [discriminate|auto]. }
  unfold s', run_slot, todo. destruct (exhausted nx s) eqn:X.
  - destruct (He eq_refl) as [K R]. rewrite K, R. cbn [dropw]. repeat split; auto.
  - rewrite settle_cases. destruct (s_key s) as [k|] eqn:K.
    + destruct (Hk k eq_refl) as [v Hv]. rewrite Hv. cbn [push dropw fst]. destruct (bad k) eqn:B.
      * now apply M.
      * rewrite K. split; [|repeat split; auto].
        split; [|rewrite X; discriminate]. rewrite K. intros k' [= <-]. eauto.
    + now apply M.
Qed.

(** ** The merging iterator *)
Definition clr (i : Z) (m : mi) (s : slot) : slot := if m_index m =? i then clear_key s else s.
Definition mi_ok (nx : bool) (A B : list kv) (m : mi) : Prop :=
  m_fwd m = nx /\ slot_ok nx (m_a m) /\ slot_ok nx (m_b m)
  /\ A = todo nx (m_index m =? 0) (m_a m) /\ B = todo nx (m_index m =? 1) (m_b m).
Definition pick (nx : bool) (A B : list kv) : option (bool * kv * list kv * list kv) :=
  match A, B with
  | [], [] => None
  | x :: r, [] => Some (true, x, r, [])
  | [], y :: t => Some (false, y, [], t)
  | x :: r, y :: t => if better nx (fst y) (fst x) then Some (false, y, x :: r, t) else Some (true, x, r, y :: t)
  end.

Lemma slot_ok_clear nx s : slot_ok nx s -> slot_ok nx (clear_key s).
Proof. intros [H1 H2]. split; cbn; [discriminate|]. intro X. split; auto. now apply H2. Qed.
Lemma slot_ok_clr nx i m s : slot_ok nx s -> slot_ok nx (clr i m s).
Proof. intro. unfold clr. destruct (m_index m =? i); auto using slot_ok_clear. Qed.
Lemma todo_clr nx i m s : todo nx false (clr i m s) = todo nx (m_index m =? i) s.
Proof. unfold clr, todo. destruct (m_index m =? i); reflexivity. Qed.
Lemma todo_keep nx k v s : s_key s = Some k -> c_here (s_cur s) = Some (k, v) -> todo nx false s = (k, v) :: rest nx (s_cur s).
Proof. intros H1 H2. unfold todo. now rewrite H1, H2. Qed.

Definition fit2 (nx : bool) (ka kb : option bytes) : bytes * Z :=
  let '(fit, i) := match ka with Some k => (k, 0) | None => ([], -1) end in
  match kb with Some k => if better nx k fit then (k, 1) else (fit, i) | None => (fit, i) end.
Lemma mi_step_eq nx m : m_fwd m = nx -> slot_ok nx (m_a m) -> slot_ok nx (m_b m) ->
  mi_step nx m =
  let bad k := m_del m k || zlist_eqb k (m_prev m) in
  let a' := run_slot bad nx (clr 0 m (m_a m)) in
  let b' := run_slot bad nx (clr 1 m (m_b m)) in
  let '(fit, i) := fit2 nx (s_key a') (s_key b') in
  if i <? 0 then (mkMi (m_del m) a' b' (-1) [] nx, false) else (mkMi (m_del m) a' b' i fit nx, true).
Proof.
  intros F Ha Hb. unfold mi_step. rewrite F, eqb_reflx. cbv zeta. fold (clr 0 m (m_a m)). fold (clr 1 m (m_b m)).
  assert (Q : forall i s, slot_ok nx s -> (if exhausted nx (clr i m s) then None else s_key (run_slot
       (fun k => m_del m k || zlist_eqb k (m_prev m)) nx (clr i m s))) = s_key (run_slot
       (fun k => m_del m k || zlist_eqb k (m_prev m)) nx (clr i m s))).
  { intros i s Hs. unfold run_slot. destruct (exhausted nx (clr i m s)) eqn:E; [|reflexivity].
    destruct (slot_ok_clr nx i m s Hs) as [_ H2]. now destruct (H2 E) as [-> _]. }
  pose proof (Q 0 _ Ha) as Qa. pose proof (Q 1 _ Hb) as Qb. unfold run_slot in Qa, Qb. cbv beta in Qa, Qb.
  rewrite Qa, Qb, F. unfold fit2, run_slot.
  match goal with |- context [match s_key ?x with Some k => (k, 0) | None => _ end] => destruct (s_key x) end;
    reflexivity.
Qed.

Ltac fin_todo := unfold todo; cbn [m_index m_a m_b]; 
  change (1 =? 0) with false; change (0 =? 1) with false; change (0 =? 0) with true; change (1 =? 1) with true; cbv iota;
  repeat match goal with H : s_key ?a = _ |- context [s_key ?a] => rewrite H end;
  repeat match goal with H : c_here ?a = _ |- context [c_here ?a] => rewrite H end; cbn [push]; congruence.
Ltac fin := split; [reflexivity|]; split; [
    split; [reflexivity|]; split; [assumption|]; split; [assumption|]; split; fin_todo|];
  split; [reflexivity|]; split; [reflexivity|]; split;
  [unfold mi_key; cbn [m_index m_a m_b]; 
   change (1 =? 0) with false; change (0 =? 0) with true; change (1 =? 1) with true; cbv iota; assumption|];
  intro Hne; unfold mi_value, mi_key; cbn [m_index m_a m_b];
   change (1 =? 0) with false; change (0 =? 0) with true; change (1 =? 1) with true; cbv iota;
  repeat match goal with H : s_key ?a = _ |- context [s_key ?a] => rewrite H end;
  repeat match goal with H : c_here ?a = _ |- context [c_here ?a] => rewrite H end;
  match goal with H : ?k <> [] |- match ?k with _ => _ end = _ => destruct k; [easy|reflexivity] end.
Lemma mi_step_spec nx A B m : mi_ok nx A B m ->
  let bad k := m_del m k || zlist_eqb k (m_prev m) in
  match pick nx (dropw bad A) (dropw bad B) with
  | None => snd (mi_step nx m) = false
  | Some (_, x, A', B') =>
    let m' := fst (mi_step nx m) in
    snd (mi_step nx m) = true /\ mi_ok nx A' B' m' /\ m_del m' = m_del m /\ m_prev m' = fst x
    /\ mi_key m' = Some (fst x) /\ (fst x <> [] -> mi_value m' = snd x)
  end.
Proof.
  intros (F & Ha & Hb & -> & ->) bad. rewrite (mi_step_eq nx m F Ha Hb). cbv zeta. fold bad.
  pose proof (run_slot_spec bad nx _ (slot_ok_clr nx 0 m _ Ha)) as (Oa & Ca & Sa).
  pose proof (run_slot_spec bad nx _ (slot_ok_clr nx 1 m _ Hb)) as (Ob & Cb & Sb).
  rewrite todo_clr in Sa, Sb.
  assert (exists a', a' = run_slot bad nx (clr 0 m (m_a m))) as [a' Da] by eauto.
  assert (exists b', b' = run_slot bad nx (clr 1 m (m_b m))) as [b' Db] by eauto.
  rewrite <- Da in Oa, Sa |- *. rewrite <- Db in Ob, Sb |- *. clear Da Db Ca Cb.
  destruct (dropw bad (todo nx (m_index m =? 0) (m_a m))) as [|[ka va] ra];
  destruct (dropw bad (todo nx (m_index m =? 1) (m_b m))) as [|[kb vb] rb]; cbn [pick fst snd].
  - destruct Sa as [-> _], Sb as [-> _]. reflexivity.
  - destruct Sa as [Ka Ra], Sb as (Kb & Hb' & Rb). rewrite Ka, Kb. unfold fit2, better.
    rewrite orb_true_r. change (1 <? 0) with false. cbv iota. cbn [fst snd]. fin.
  - destruct Sa as (Ka & Ha' & Ra), Sb as [Kb Rb]. rewrite Ka, Kb. unfold fit2.
    change (0 <? 0) with false. cbv iota. cbn [fst snd]. fin.
  - destruct Sa as (Ka & Ha' & Ra), Sb as (Kb & Hb' & Rb). rewrite Ka, Kb. unfold fit2.
    destruct (better nx kb ka) eqn:Bt.
    + change (1 <? 0) with false. cbv iota. cbn [fst snd]. fin.
    + change (0 <? 0) with false. cbv iota. cbn [fst snd]. fin.
Qed.

(** ** Everything an iterator lists *)
Definition keys (l : list kv) : list bytes := map fst l.
Definition reach_prev (nx : bool) (prev : bytes) (l : list kv) : Prop :=
  forall x, In x l -> prev = [] \/ ltd nx (fst x) prev = false.
Lemma in_keys x l : In x l -> In (fst x) (keys l).
Proof. apply in_map. Qed.

Lemma better_ne nx a b : b <> [] -> better nx a b = ltd nx a b.
Proof. intro H. unfold better, ltd. destruct b; [easy|]. now rewrite orb_false_r. Qed.

Lemma drain_spec nx : forall n A B m, mi_ok nx A B m -> (length A + length B < n)%nat ->
  sortedd nx A -> sortedd nx B -> reach_prev nx (m_prev m) A -> reach_prev nx (m_prev m) B ->
  (nx = true \/ ~ In [] (keys A) /\ ~ In [] (keys B)) ->
  let bad k := m_del m k || zlist_eqb k (m_prev m) in
  let L := drain (mi_step nx) n m in
  sortedd nx L /\
  forall k v, In (k, v) L <-> bad k = false /\ (In (k, v) A \/ In (k, v) B /\ ~ In k (keys A)).
Proof.
  induction n as [|n IH]; intros A B m Ok Ln SA SB PA PB Emp; [lia|].
  pose proof (mi_step_spec nx A B m Ok) as St. cbv zeta in *.
  set (bad := fun k => m_del m k || zlist_eqb k (m_prev m)) in *.
  assert (NE : forall x, In x A \/ In x B -> bad (fst x) = false -> fst x <> []).
  { intros x Hx Hb E0. destruct Emp as [->|[E1 E2]].
    - assert (Q : m_prev m = [] \/ ltd true (fst x) (m_prev m) = false) by (destruct Hx; auto).
      unfold bad in Hb. apply orb_false_iff in Hb as [_ Hb]. rewrite E0 in *. cbn [ltd] in Q.
      destruct (m_prev m); [now cbn in Hb|]. destruct Q; discriminate.
    - rewrite <- E0 in E1, E2. destruct Hx as [Hx|Hx]; apply in_keys in Hx; auto. }
  cbn [drain]. destruct (mi_step nx m) as [m' ok] eqn:Em. cbn [fst snd] in St.
  pose proof (dropw_sorted nx bad A SA) as SA'. pose proof (dropw_sorted nx bad B SB) as SB'.
  pose proof (dropw_len bad A) as LA. pose proof (dropw_len bad B) as LB.
  assert (InA : forall k v, bad k = false -> In (k, v) (dropw bad A) <-> In (k, v) A) by (intros; now apply dropw_in).
  assert (InB : forall k v, bad k = false -> In (k, v) (dropw bad B) <-> In (k, v) B) by (intros; now apply dropw_in).
  assert (SubA : forall x, In x (dropw bad A) -> In x A) by (intro; apply dropw_sub).
  assert (SubB : forall x, In x (dropw bad B) -> In x B) by (intro; apply dropw_sub).
  assert (KA : forall k, bad k = false -> In k (keys (dropw bad A)) <-> In k (keys A)).
  { intros k Hb. unfold keys. rewrite !in_map_iff. split; intros ([k1 v1] & E & H); cbn in E; subst; exists (k, v1); split; auto; now apply InA. }
  destruct (pick nx (dropw bad A) (dropw bad B)) as [[[[w x] A'] B']|] eqn:P.
  2:{ subst ok. split; [constructor|]. intros k v. split; [easy|]. intros [Hb H]. exfalso.
      destruct (dropw bad A) as [|? ?] eqn:EA; destruct (dropw bad B) as [|? ?] eqn:EB; cbn in P; try discriminate.
      2:{ destruct (better nx (fst k1) (fst k0)); discriminate. }
      destruct H as [H|[H _]]; [now apply InA in H|now apply InB in H]. }
  destruct St as (-> & Ok' & Del & Prev & Key & Val). rewrite Key.
  (* facts about the choice *)
  assert (Ch : bad (fst x) = false /\ fst x <> [] /\
     (forall y, In y A' \/ In y B' -> ltd nx (fst y) (fst x) = false) /\
     (length A' + length B' < n)%nat /\ sortedd nx A' /\ sortedd nx B' /\
     (forall y, In y A' -> In y (dropw bad A)) /\ (forall y, In y B' -> In y (dropw bad B)) /\
     (In x (dropw bad A) \/ In x (dropw bad B) /\ ~ In (fst x) (keys (dropw bad A))) /\
     (forall y, fst y <> fst x -> (In y A' <-> In y (dropw bad A)) /\ (In y B' <-> In y (dropw bad B)))).
  { destruct (dropw bad A) as [|a ra] eqn:EA; destruct (dropw bad B) as [|b rb] eqn:EB; cbn [pick] in P; try discriminate.
    - injection P as <- <- <- <-. pose proof (dropw_head _ _ _ _ EB) as Hb.
      inversion SB' as [|? ? S1 F1]; subst. rewrite Forall_forall in F1.
      assert (InBb : In b B) by (apply SubB; now left).
      split; [exact Hb|]. split; [apply NE; auto|]. split.
      { intros y [[]|Hy]. apply ltd_asym. now apply F1. }
      split; [cbn [length] in *; lia|]. split; [constructor|]. split; [exact S1|]. split; [easy|].
      split; [intros; now right|]. split; [right; split; [now left|easy]|].
      intros y Hy. split; [tauto|]. split; [now right|]. intros [->|]; [easy|auto].
    - injection P as <- <- <- <-. pose proof (dropw_head _ _ _ _ EA) as Ha.
      inversion SA' as [|? ? S1 F1]; subst. rewrite Forall_forall in F1.
      assert (InAa : In a A) by (apply SubA; now left).
      split; [exact Ha|]. split; [apply NE; auto|]. split.
      { intros y [Hy|[]]. apply ltd_asym. now apply F1. }
      split; [cbn [length] in *; lia|]. split; [exact S1|]. split; [constructor|]. split; [intros; now right|].
      split; [easy|]. split; [left; now left|].
      intros y Hy. split; [|tauto]. split; [now right|]. intros [->|]; [easy|auto].
    - pose proof (dropw_head _ _ _ _ EA) as Ha. pose proof (dropw_head _ _ _ _ EB) as Hb.
      inversion SA' as [|? ? S1 F1]; subst. inversion SB' as [|? ? S2 F2]; subst. rewrite Forall_forall in F1, F2.
      assert (InAa : In a A) by (apply SubA; now left). assert (InBb : In b B) by (apply SubB; now left).
      assert (Na : fst a <> []) by (apply NE; auto). assert (Nb : fst b <> []) by (apply NE; auto).
      rewrite (better_ne nx _ _ Na) in P. destruct (ltd nx (fst b) (fst a)) eqn:Lt; injection P as <- <- <- <-.
      + split; [exact Hb|]. split; [exact Nb|]. split.
        { intros y [[->|Hy]|Hy]; [now apply ltd_asym| |apply ltd_asym; now apply F2].
          apply ltd_asym. eapply ltd_trans; [exact Lt|]. now apply F1. }
        split; [cbn [length] in *; lia|]. split; [exact SA'|]. split; [exact S2|]. split; [auto|].
        split; [intros; now right|]. split.
        { right. split; [now left|]. intro H. unfold keys in H. apply in_map_iff in H as (y & Ey & [->|Hy]).
          - rewrite Ey, ltd_irrefl in Lt. discriminate.
          - apply F1 in Hy. rewrite Ey in Hy. rewrite (ltd_asym _ _ _ Lt) in Hy. discriminate. }
        intros y Hy. split; [tauto|]. split; [now right|]. intros [->|]; [easy|auto].
      + split; [exact Ha|]. split; [exact Na|]. split.
        { intros y [Hy|[->|Hy]]; [apply ltd_asym; now apply F1|exact Lt|].
          destruct (ltd nx (fst y) (fst a)) eqn:L2; [|reflexivity].
          apply F2 in Hy. rewrite (ltd_trans _ _ _ _ Hy L2) in Lt. discriminate. }
        split; [cbn [length] in *; lia|]. split; [exact S1|]. split; [exact SB'|]. split; [intros; now right|].
        split; [auto|]. split; [left; now left|].
        intros y Hy. split; [|tauto]. split; [now right|]. intros [->|]; [easy|auto]. }
  destruct Ch as (Cb & Cn & Cmin & Cl & CSA & CSB & CA & CB & Cx & Ciff).
  rewrite (Val Cn).
  assert (Rp : forall l, (l = A' \/ l = B') -> reach_prev nx (m_prev m') l).
  { intros l Hl y Hy. right. rewrite Prev. apply Cmin. destruct Hl; subst; auto. }
  assert (Emp' : nx = true \/ ~ In [] (keys A') /\ ~ In [] (keys B')).
  { destruct Emp as [|[E1 E2]]; [now left|right]. split; intro H; unfold keys in H; apply in_map_iff in H as (y & Ey & Hy).
    - apply E1. rewrite <- Ey. now apply in_keys, SubA, CA.
    - apply E2. rewrite <- Ey. now apply in_keys, SubB, CB. }
  specialize (IH A' B' m' Ok' Cl CSA CSB (Rp A' (or_introl eq_refl)) (Rp B' (or_intror eq_refl)) Emp').
  cbv zeta in IH. rewrite Del, Prev in IH. destruct IH as [IS IL].
  set (L := drain (mi_step nx) n m') in *.
  assert (Badx : forall k, bad k = m_del m k || zlist_eqb k (m_prev m)) by reflexivity.
  assert (Old : forall y, In y A' \/ In y B' -> fst y <> fst x -> m_del m (fst y) = false -> bad (fst y) = false).
  { intros y Hy Hne Hd. rewrite Badx, Hd. cbn [orb]. apply zlist_eqb_neq. intro E.
    (* y equals prev: then x would be before prev *)
    assert (Hx : m_prev m = [] \/ ltd nx (fst x) (m_prev m) = false).
    { destruct Cx as [Q|[Q _]]; [apply PA|apply PB]; auto. }
    assert (HyN : fst y <> []).
    { destruct Emp' as [Ex|[E1 E2]].
      - intro E0. assert (ltd nx (fst y) (fst x) = false) by (apply Cmin; auto). rewrite Ex in H. cbn in H. rewrite E0 in H.
        now rewrite bltb_nil_l in H.
      - intro E0. destruct Hy as [Hy|Hy]; apply in_keys in Hy; rewrite E0 in Hy; auto. }
    destruct Hx as [Hx|Hx]; [congruence|].
    apply Hne. apply (ltd_total nx); [apply Cmin; auto|]. now rewrite E. }
  split.
  - constructor; [exact IS|]. apply Forall_forall. intros [k v] Hkv. cbn [fst].
    apply IL in Hkv as [Hb Hin]. apply orb_false_iff in Hb as [_ Hb]. apply zlist_eqb_neq in Hb.
    assert (Q : ltd nx k (fst x) = false) by (apply (Cmin (k, v)); tauto).
    destruct (ltd nx (fst x) k) eqn:L2; [reflexivity|]. destruct Hb. now apply (ltd_total nx).
  - intros k v. cbn [In]. rewrite IL. split.
    + intros [E|[Hb Hin]].
      * destruct x as [k1 v1]. cbn [fst snd] in *. injection E as -> ->. split; [exact Cb|].
        rewrite <- (InA k v Cb), <- (InB k v Cb), <- (KA k Cb). exact Cx.
      * apply orb_false_iff in Hb as [Hb1 Hb2]. apply zlist_eqb_neq in Hb2.
        assert (Q : bad k = false) by (apply (Old (k, v)); auto; tauto).
        split; [exact Q|]. rewrite <- (InA k v Q), <- (InB k v Q), <- (KA k Q).
        destruct (Ciff (k, v) Hb2) as [C1 C2]. destruct Hin as [Hin|[Hin Hn]].
        { left. now apply C1. }
        { right. split; [now apply C2|]. intro H. apply Hn. unfold keys in *. apply in_map_iff in H as ([k1 v1] & E1 & H).
          cbn in E1. subst k1. apply in_map_iff. exists (k, v1). split; [reflexivity|]. now apply (Ciff (k, v1)). }
    + intros [Hb Hin]. destruct (zlist_eqb k (fst x)) eqn:Ek.
      * apply zlist_eqb_eq in Ek. left. destruct x as [k1 v1]. cbn [fst snd] in *. rewrite <- Ek in *. f_equal.
        rewrite <- (InA k v Hb), <- (InB k v Hb), <- (KA k Hb) in Hin.
        assert (Uq : forall l a b, sortedd nx l -> In (k, a) l -> In (k, b) l -> a = b).
        { intros l a b S. induction S as [|z l S IHS F]; [easy|]. rewrite Forall_forall in F.
          intros [->|H1] [E2|H2]; auto.
          - now injection E2.
          - apply F in H2. cbn [fst] in H2. now rewrite ltd_irrefl in H2.
          - subst z. apply F in H1. cbn [fst] in H1. now rewrite ltd_irrefl in H1. }
        destruct Cx as [Cx|[Cx1 Cx2]]; destruct Hin as [Hin|[Hin Hn]].
        { exact (Uq _ _ _ SA' Cx Hin). }
        { exfalso. apply Hn. apply in_keys in Cx. exact Cx. }
        { exfalso. apply Cx2. apply in_keys in Hin. exact Hin. }
        { exact (Uq _ _ _ SB' Cx1 Hin). }
      * right. apply zlist_eqb_neq in Ek as Ek'. rewrite Badx in Hb.
        assert (Hd : m_del m k = false) by now apply orb_false_iff in Hb.
        split; [apply orb_false_iff; auto|]. rewrite <- Badx in Hb.
        rewrite <- (InA k v Hb), <- (InB k v Hb), <- (KA k Hb) in Hin.
        destruct (Ciff (k, v) Ek') as [C1 C2]. destruct Hin as [Hin|[Hin Hn]].
        { left. now apply C1. }
        { right. split; [now apply C2|]. intro H. apply Hn. unfold keys in *. apply in_map_iff in H as ([k1 v1] & E1 & H).
          cbn in E1. subst k1. apply in_map_iff. exists (k, v1). split; [reflexivity|]. now apply CA. }
Qed.
