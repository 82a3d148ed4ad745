From Verif Require Import Lib FlushModel FlushSpec FlushProofs.

(** ** The redo log *)
Definition entry_ok (flag : list Z) (ids : list (list Z)) (e : list Z * list Z) : Prop :=
  length (fst e) = hash_size /\ In (fst e) ids /\ fst e <> flag /\ zlen (snd e) < 2 ^ 32.
Lemma be4 x : 0 <= x < 2 ^ 32 -> be_val (be_bytes 4 x) = x.
Proof. intro H. apply be_val_bytes. exact H. Qed.
Lemma existsb_in id ids : In id ids -> existsb (zlist_eqb id) ids = true.
Proof. intro H. apply existsb_exists. exists id. split; [auto|apply zlist_eqb_refl]. Qed.
Lemma firstn_exact {A} (a b : list A) n : length a = n -> firstn n (a ++ b) = a.
Proof. intros <-. rewrite firstn_app, Nat.sub_diag, firstn_O, firstn_all, app_nil_r. reflexivity. Qed.
Lemma skipn_exact {A} (a b : list A) n : length a = n -> skipn n (a ++ b) = b.
Proof. intros <-. rewrite skipn_app, Nat.sub_diag, skipn_O, skipn_all. reflexivity. Qed.
Lemma scan_S f flag ids l : scan (S f) flag ids l =
    if (length l <? hash_size)%nat then Some ([], false) else
    let id := firstn hash_size l in
    let r := skipn hash_size l in
    if zlist_eqb id flag then
      match scan f flag ids r with Some (es, _) => Some (es, true) | None => None end
    else if negb (existsb (zlist_eqb id) ids) then None else
    if (length r <? 4)%nat then Some ([], false) else
    let n := Z.to_nat (be_val (firstn 4 r)) in
    let r' := skipn 4 r in
    if (length r' <? n)%nat then Some ([], false) else
    match scan f flag ids (skipn n r') with Some (es, b) => Some ((id, firstn n r') :: es, b) | None => None end.
Proof. reflexivity. Qed.
Lemma scan_short f flag ids l : (length l < hash_size)%nat -> scan f flag ids l = Some ([], false).
Proof. intro H. destruct f; [reflexivity|]. rewrite scan_S. replace (length l <? hash_size)%nat with true by (symmetry; now apply Nat.ltb_lt). reflexivity. Qed.
Lemma enc_entry_eq e : enc_entry e = fst e ++ be_bytes 4 (zlen (snd e) mod 2 ^ 32) ++ snd e. Proof. reflexivity. Qed.
Lemma enc_entry_length e : length (enc_entry e) = (length (fst e) + 4 + length (snd e))%nat.
Proof. unfold enc_entry. rewrite !app_length, be_bytes_length. lia. Qed.
Lemma scan_full flag ids es : length flag = hash_size -> Forall (entry_ok flag ids) es ->
  forall f, (length (concat (map enc_entry es) ++ flag) < f)%nat -> scan f flag ids (concat (map enc_entry es) ++ flag) = Some (es, true).
Proof.
  intros HF. induction 1 as [|e es (E1 & E2 & E3 & E4) _ IH]; intros f Hf; (destruct f as [|f]; [lia|]); rewrite scan_S; cbn [map concat app] in *.
  - replace (length flag <? hash_size)%nat with false by (symmetry; apply Nat.ltb_ge; lia). cbv zeta.
    rewrite (firstn_all2 flag), (skipn_all2 flag), zlist_eqb_refl by lia. rewrite scan_short by (cbn; unfold hash_size; lia). reflexivity.
  - rewrite <- app_assoc in *. rewrite app_length, enc_entry_length in Hf. rewrite (app_length (enc_entry e)), enc_entry_length.
    replace (length (fst e) + 4 + length (snd e) + length (concat (map enc_entry es) ++ flag) <? hash_size)%nat with false by (symmetry; apply Nat.ltb_ge; lia).
    rewrite (enc_entry_eq e), <- !app_assoc. rewrite firstn_exact, skipn_exact by exact E1. cbv zeta.
    replace (zlist_eqb (fst e) flag) with false by (symmetry; now apply zlist_eqb_neq). rewrite existsb_in by exact E2. cbn [negb].
    assert (L4 : length (be_bytes 4 (zlen (snd e) mod 2 ^ 32)) = 4%nat) by apply be_bytes_length.
    match goal with |- context[(length ?x <? 4)%nat] => assert (LX : (4 <= length x)%nat) by (rewrite app_length, L4; lia); replace (length x <? 4)%nat with false by (symmetry; now apply Nat.ltb_ge) end.
    rewrite firstn_exact, skipn_exact by exact L4. pose proof (zlen_nonneg (snd e)). rewrite be4 by (apply Z.mod_pos_bound; lia).
    rewrite Z.mod_small by lia. replace (Z.to_nat (zlen (snd e))) with (length (snd e)) by (unfold zlen; lia). rewrite app_length.
    replace (length (snd e) + length (concat (map enc_entry es) ++ flag) <? length (snd e))%nat with false by (symmetry; apply Nat.ltb_ge; lia).
    rewrite firstn_exact, skipn_exact by reflexivity. rewrite IH by lia. now destruct e.
Qed.
Lemma firstn_cut {A} n (a b : list A) : (length a <= n)%nat -> firstn n (a ++ b) = a ++ firstn (n - length a) b.
Proof. intro H. rewrite firstn_app, firstn_all2 by exact H. reflexivity. Qed.
Lemma scan_prefix flag ids es : length flag = hash_size -> Forall (entry_ok flag ids) es ->
  forall n f, (n < length (concat (map enc_entry es) ++ flag))%nat -> (n < f)%nat ->
  exists es', scan f flag ids (firstn n (concat (map enc_entry es) ++ flag)) = Some (es', false).
Proof.
  intros HF. induction 1 as [|e es (E1 & E2 & E3 & E4) _ IH]; intros n f Hn Hf; cbn [map concat app] in *.
  - exists []. apply scan_short. rewrite firstn_length. lia.
  - rewrite <- app_assoc in *. rewrite app_length, enc_entry_length in Hn. rewrite (enc_entry_eq e), <- !app_assoc.
    destruct (Nat.lt_ge_cases n hash_size) as [C|C]; [exists []; apply scan_short; rewrite firstn_length; lia|].
    rewrite firstn_cut by lia. destruct f as [|f]; [lia|]. rewrite scan_S.
    replace (length (fst e ++ _) <? hash_size)%nat with false by (symmetry; apply Nat.ltb_ge; rewrite app_length; lia).
    rewrite firstn_exact, skipn_exact by exact E1. cbv zeta.
    replace (zlist_eqb (fst e) flag) with false by (symmetry; now apply zlist_eqb_neq). rewrite existsb_in by exact E2. cbn [negb]. rewrite E1.
    assert (L4 : length (be_bytes 4 (zlen (snd e) mod 2 ^ 32)) = 4%nat) by apply be_bytes_length.
    match goal with |- context[(?x <? 4)%nat] => destruct (x <? 4)%nat eqn:E end; [eauto|]. apply Nat.ltb_ge in E. rewrite firstn_length in E.
    rewrite firstn_cut by lia. rewrite L4. rewrite (skipn_exact (be_bytes 4 _) _ 4 L4). rewrite (firstn_exact (be_bytes 4 _) _ 4 L4).
    pose proof (zlen_nonneg (snd e)). rewrite be4 by (apply Z.mod_pos_bound; lia). rewrite Z.mod_small by lia. replace (Z.to_nat (zlen (snd e))) with (length (snd e)) by (unfold zlen; lia).
    match goal with |- context[(?x <? length (snd e))%nat] => destruct (x <? length (snd e))%nat eqn:E5 end; [eauto|]. apply Nat.ltb_ge in E5. rewrite firstn_length in E5.
    rewrite firstn_cut by lia. rewrite skipn_exact by reflexivity.
    destruct (IH (n - hash_size - 4 - length (snd e))%nat f ltac:(lia) ltac:(lia)) as [es' ->]. eauto.
Qed.
Lemma entries_ok flag ids logs : ids_ok flag ids -> length logs = length ids -> Forall (fun l => zlen l < 2 ^ 32) logs ->
  Forall (entry_ok flag ids) (entries_of (combine ids logs)).
Proof.
  intros [L _ _ N] HL F. apply Forall_forall. intros [id l] H. apply filter_In in H as [H _].
  pose proof (in_combine_l _ _ _ _ H) as H1. pose proof (in_combine_r _ _ _ _ H) as H2. rewrite Forall_forall in *.
  repeat split; cbn; auto. intros ->. auto.
Qed.
Lemma load_full flag ids logs : ids_ok flag ids -> length logs = length ids -> Forall (fun l => zlen l < 2 ^ 32) logs ->
  load_redo flag ids (full_log flag ids logs) = entries_of (combine ids logs).
Proof.
  intros I HL F. unfold load_redo, full_log, enc_log. rewrite scan_full; [reflexivity|apply I|now apply entries_ok|lia].
Qed.
Lemma load_prefix flag ids logs n : ids_ok flag ids -> length logs = length ids -> Forall (fun l => zlen l < 2 ^ 32) logs ->
  (n < length (full_log flag ids logs))%nat -> load_redo flag ids (firstn n (full_log flag ids logs)) = [].
Proof.
  intros I HL F H. unfold load_redo, full_log, enc_log in *.
  destruct (scan_prefix flag ids (entries_of (combine ids logs)) ltac:(apply I) (entries_ok _ _ _ I HL F) n
    (S (length (firstn n (concat (map enc_entry (entries_of (combine ids logs))) ++ flag)))) H) as [es' ->]; [|reflexivity].
  rewrite firstn_length. lia.
Qed.

(** ** The flusher *)
Lemma set_nth_get {A} i (x : A) : forall l j, nth_error (set_nth i x l) j = if (i =? j)%nat then match nth_error l i with Some _ => Some x | None => None end else nth_error l j.
Proof.
  unfold set_nth. induction i as [|i IH]; intros [|y l] [|j]; cbn; try reflexivity; try (destruct (i =? j)%nat; reflexivity).
  rewrite <- (IH l j). reflexivity.
Qed.
Lemma set_nth_length {A} i (x : A) : forall l, length (set_nth i x l) = length l.
Proof. unfold set_nth. induction i as [|i IH]; intros [|y l]; cbn; auto. Qed.
Lemma pos_of_nth id : forall l k i, pos_of id l k = Some i -> exists j, i = (k + j)%nat /\ nth_error l j = Some id.
Proof.
  induction l as [|x l IH]; intros k i H; [discriminate|]. cbn in H. destruct (zlist_eqb id x) eqn:E.
  - injection H as <-. apply zlist_eqb_eq in E. subst. exists 0%nat. split; [lia|reflexivity].
  - destruct (IH _ _ H) as (j & -> & Hj). exists (S j). split; [lia|exact Hj].
Qed.
Lemma nodup_nth {A} (l : list A) i j x : NoDup l -> nth_error l i = Some x -> nth_error l j = Some x -> i = j.
Proof.
  intros N H1 H2. rewrite NoDup_nth_error in N. apply N; [apply nth_error_Some; congruence|congruence].
Qed.
Lemma combine_nth_error {A B} : forall (a : list A) (b : list B) x y, In (x, y) (combine a b) -> exists i, nth_error a i = Some x /\ nth_error b i = Some y.
Proof.
  induction a as [|u a IH]; intros [|v b] x y H; try contradiction. destruct H as [[= -> ->]|H]; [exists 0%nat; auto|].
  destruct (IH _ _ _ H) as [i Hi]. exists (S i). exact Hi.
Qed.
Section Proof.
Context {D : Type} (eqv : D -> D -> Prop) (dpatch : list Z -> D -> D) (torn : list Z -> D -> D -> Prop) (flag : list Z) (ids : list (list Z)).
Context (DO : disk_ok eqv dpatch torn) (IO : ids_ok flag ids).
Definition upd (id : list Z) (es : list (list Z * list Z)) (d : D) : D := fold_left (fun d e => if zlist_eqb (fst e) id then dpatch (snd e) d else d) es d.
Lemma absorb_snoc id g es d : absorb dpatch id (g ++ [es]) d = upd id es (absorb dpatch id g d).
Proof. unfold absorb. rewrite fold_left_app. reflexivity. Qed.
Lemma upd_notin id es : forall d, ~ In id (map fst es) -> upd id es d = d.
Proof.
  induction es as [|e es IH]; intros d H; [reflexivity|]. cbn in *. replace (zlist_eqb (fst e) id) with false by (symmetry; apply zlist_eqb_neq; tauto). apply IH. tauto.
Qed.
Lemma entries_in id : forall is logs, In id (map fst (entries_of (combine is logs))) -> In id is.
Proof. intros is logs H. apply in_map_iff in H as ([x y] & <- & H). apply filter_In in H as [H _]. eapply in_combine_l; eauto. Qed.
Lemma upd_entries : forall is logs i id d, NoDup is -> length logs = length is -> Forall (fun l => zlen l < 2 ^ 32) logs -> nth_error is i = Some id ->
  eqv (upd id (entries_of (combine is logs)) d) (dpatch (nth i logs []) d).
Proof.
  induction is as [|x is IH]; intros [|l logs] i id d N HL F Hi; try discriminate; [destruct i; discriminate|].
  inversion N as [|? ? N1 N2]. subst. inversion F as [|? ? F1 F2]. subst. cbn [combine entries_of filter snd]. rewrite Z.mod_small by (pose proof (zlen_nonneg l); lia).
  destruct i as [|i]; cbn [nth_error] in Hi.
  - injection Hi as ->. cbn [nth]. destruct (0 <? zlen l) eqn:E.
    + cbn [upd fold_left fst snd]. rewrite zlist_eqb_refl. fold (upd id (filter (fun e => 0 <? zlen (snd e) mod 2 ^ 32) (combine is logs)) (dpatch l d)).
      rewrite upd_notin; [apply (do_refl _ _ _ DO)|]. intro H. apply N1. eapply entries_in. exact H.
    + rewrite upd_notin by (intro H; apply N1; eapply entries_in; exact H). destruct l; [apply (do_sym _ _ _ DO), (do_empty _ _ _ DO)|rewrite zlen_cons in E; pose proof (zlen_nonneg l); lia].
  - assert (NX : x <> id) by (intros ->; apply N1; eapply nth_error_In; eauto). cbn [nth].
    destruct (0 <? zlen l); [|apply IH; auto]. cbn [upd fold_left fst]. replace (zlist_eqb x id) with false by (symmetry; now apply zlist_eqb_neq). apply IH; auto.
Qed.

Variable ds0 : list D.
Definition base (g : list (list (list Z * list Z))) (i : nat) : option D :=
  match nth_error ids i, nth_error ds0 i with Some id, Some d0 => Some (absorb dpatch id g d0) | _, _ => None end.
Definition clean (g : list (list (list Z * list Z))) (ds : list D) : Prop := forall i d b, nth_error ds i = Some d -> base g i = Some b -> eqv d b.
Definition partly (g : list (list (list Z * list Z))) (logs : list (list Z)) (todo : nat -> Prop) (ds : list D) : Prop :=
  forall i d b, nth_error ds i = Some d -> base g i = Some b ->
  eqv (dpatch (nth i logs []) d) (dpatch (nth i logs []) b) /\ (~ todo i -> eqv d (dpatch (nth i logs []) b)).
Definition logs_ok (bg : list (list (list Z))) (logs : list (list Z)) : Prop := In logs bg /\ length logs = length ids /\ Forall (fun l => zlen l < 2 ^ 32) logs.
Definition finv (s : @fstate D) : Prop :=
  length (fs_disks s) = length ids /\
  Forall (fun g => exists logs, In logs (fs_begun s) /\ g = entries_of (combine ids logs)) (fs_gen s) /\
  match fs_phase s with
  | Idle => fs_log s = [] /\ clean (fs_gen s) (fs_disks s)
  | Logging logs => logs_ok (fs_begun s) logs /\ (exists n, fs_log s = firstn n (full_log flag ids logs)) /\ clean (fs_gen s) (fs_disks s)
  | Committing logs todo => logs_ok (fs_begun s) logs /\ fs_log s = full_log flag ids logs /\ partly (fs_gen s) logs (fun i => In i todo) (fs_disks s)
  | Down => (load_redo flag ids (fs_log s) = [] /\ clean (fs_gen s) (fs_disks s)) \/
            (exists logs, logs_ok (fs_begun s) logs /\ fs_log s = full_log flag ids logs /\ partly (fs_gen s) logs (fun _ => True) (fs_disks s))
  | Redoing es rest => (es = [] /\ rest = [] /\ load_redo flag ids (fs_log s) = [] /\ clean (fs_gen s) (fs_disks s)) \/
            (exists logs, logs_ok (fs_begun s) logs /\ fs_log s = full_log flag ids logs /\ es = entries_of (combine ids logs) /\
             (exists done, es = done ++ rest) /\
             partly (fs_gen s) logs (fun i => exists id, nth_error ids i = Some id /\ In id (map fst rest)) (fs_disks s))
  end.
Lemma clean_partly g logs (T : nat -> Prop) ds : (forall i, (i < length ids)%nat -> T i) -> length ds = length ids -> clean g ds -> partly g logs T ds.
Proof.
  intros HT HL H i d b H1 H2. split; [apply (do_proper _ _ _ DO); eauto|]. intro N. exfalso. apply N, HT. rewrite <- HL. apply nth_error_Some. congruence.
Qed.
Lemma partly_weak g logs (T T' : nat -> Prop) ds : (forall i, T i -> T' i) -> partly g logs T ds -> partly g logs T' ds.
Proof. intros HT H i d b H1 H2. destruct (H i d b H1 H2) as [A B]. split; [auto|]. intro N. apply B. intro. apply N. auto. Qed.
Lemma partly_set g logs T ds i d d' (T' : nat -> Prop) : partly g logs T ds -> nth_error ds i = Some d ->
  eqv (dpatch (nth i logs []) d') (dpatch (nth i logs []) d) -> (T' i \/ eqv d' (dpatch (nth i logs []) d)) -> (forall j, j <> i -> T j -> T' j) ->
  partly g logs T' (set_nth i d' ds).
Proof.
  intros H Hd E1 E2 HT j e b H1 H2. rewrite set_nth_get, Hd in H1. destruct (i =? j)%nat eqn:E.
  - apply Nat.eqb_eq in E. subst j. injection H1 as <-. destruct (H i d b Hd H2) as [A B]. split.
    + eapply do_trans; eauto.
    + intro N. destruct E2 as [E2|E2]; [contradiction|]. eapply do_trans; eauto.
  - apply Nat.eqb_neq in E. destruct (H j e b H1 H2) as [A B]. split; [auto|]. intro N. apply B. intro. apply N. apply HT; auto.
Qed.
Lemma partly_done g logs T ds : (forall i, ~ T i) -> length logs = length ids -> Forall (fun l => zlen l < 2 ^ 32) logs ->
  partly g logs T ds -> clean (g ++ [entries_of (combine ids logs)]) ds.
Proof.
  intros HT HL F H i d b H1 H2. unfold base in H2. destruct (nth_error ids i) as [id|] eqn:E1; [|discriminate]. destruct (nth_error ds0 i) as [d0|] eqn:E2; [|discriminate].
  injection H2 as <-. rewrite absorb_snoc. destruct (H i d (absorb dpatch id g d0) H1) as [_ B]; [unfold base; now rewrite E1, E2|].
  eapply do_trans; [exact DO|apply B, HT|]. apply (do_sym _ _ _ DO). apply upd_entries; auto. apply (io_nodup _ _ IO).
Qed.
Lemma entries_empty_clean g logs ds (T : nat -> Prop) : (forall i, ~ T i) -> length logs = length ids -> Forall (fun l => zlen l < 2 ^ 32) logs ->
  entries_of (combine ids logs) = [] -> partly g logs T ds -> clean g ds.
Proof.
  intros HT HL F HE H i d b H1 H2. pose proof (partly_done g logs T ds HT HL F H i d) as C. rewrite HE in C. unfold base in *.
  destruct (nth_error ids i) as [id|] eqn:E1; [|discriminate]. destruct (nth_error ds0 i) as [d0|] eqn:E2; [|discriminate]. injection H2 as <-.
  specialize (C _ H1 eq_refl). rewrite absorb_snoc in C. exact C.
Qed.
Lemma finv_down ds lg g bg p : finv (mkF ds lg p g bg) -> finv (mkF ds lg Down g bg).
Proof.
  intros (HL & HG & HP). split; [exact HL|]. split; [exact HG|]. cbn [fs_phase fs_log fs_disks fs_gen fs_begun] in *. destruct p.
  - destruct HP as [-> HP]. left. split; [reflexivity|exact HP].
  - destruct HP as ((LO1 & LO2 & LO3) & [n ->] & HC). destruct (Nat.lt_ge_cases n (length (full_log flag ids logs))) as [C|C].
    + left. split; [apply load_prefix; auto|exact HC].
    + right. exists logs. rewrite firstn_all2 by exact C. split; [split; auto|]. split; [reflexivity|]. apply clean_partly; auto.
  - destruct HP as (LO & -> & HC). right. exists logs. split; [auto|]. split; [auto|]. eapply partly_weak; [|exact HC]. auto.
  - exact HP.
  - destruct HP as [(-> & -> & HE & HC)|(logs & LO & -> & -> & _ & HC)]; [left; auto|]. right. exists logs. split; [auto|]. split; [auto|].
    eapply partly_weak; [|exact HC]. auto.
Qed.
Lemma fstep_inv s s' : fstep dpatch torn flag ids s s' -> finv s -> finv s'.
Proof.
  intro H. destruct H as [ds lg g bg logs HL F|ds lg g bg logs n E|ds lg g bg logs E|ds lg g bg logs|ds lg g bg logs a i b d Hd|ds lg g bg logs a i b d d' Hd HT
    |ds lg g bg logs todo|ds lg g bg logs|ds lg g bg p|ds lg g bg|ds lg g bg es id l r i d Hi Hd|ds lg g bg es id l r i d d' Hi Hd HT|ds lg g bg es];
    intro I; pose proof I as (IL & IG & IP); cbn [fs_phase fs_log fs_disks fs_gen fs_begun] in *; (split; [cbn [fs_disks]; rewrite ?set_nth_length; exact IL|]); cbn [fs_phase fs_log fs_disks fs_gen fs_begun].
  - split; [eapply Forall_impl; [|exact IG]; cbn; intros x (y & Y1 & Y2); exists y; split; [apply in_or_app; auto|auto]|].
    destruct IP as [_ IP]. split; [split; [apply in_or_app; right; now left|auto]|]. split; [exists 0%nat; reflexivity|exact IP].
  - split; [exact IG|]. destruct IP as (A & _ & C). split; [auto|]. split; [exists (S n); reflexivity|exact C].
  - split; [exact IG|]. destruct IP as (A & _ & C). split; [auto|]. split; [auto|]. apply clean_partly; auto. intros i Hi. apply in_seq. lia.
  - split; [exact IG|]. destruct IP as (A & _ & C). auto.
  - split; [exact IG|]. destruct IP as (A & B & C). split; [auto|]. split; [auto|]. eapply partly_set; [exact C|exact Hd|apply (do_again _ _ _ DO)|right; apply (do_refl _ _ _ DO)|].
    cbn. intros j Hj H. apply in_app_or in H as [H|[H|H]]; [apply in_or_app; auto|congruence|apply in_or_app; auto].
  - split; [exact IG|]. destruct IP as (A & B & C). split; [auto|]. split; [auto|]. eapply partly_set; [exact C|exact Hd|apply (do_torn _ _ _ DO); exact HT|left; apply in_or_app; right; now left|auto].
  - split; [exact IG|]. destruct IP as ((A1 & A2 & A3) & -> & C). right. exists logs. rewrite load_full by auto. split; [split; auto|]. split; [auto|]. split; [auto|].
    split; [exists []; reflexivity|]. intros i d b H1 H2. destruct (C i d b H1 H2) as [C1 C2]. split; [exact C1|]. intro N.
    (* the log of i is empty *)
    unfold base in H2. destruct (nth_error ids i) as [id|] eqn:E1; [|discriminate].
    assert (EQ : upd id (entries_of (combine ids logs)) d = d) by (apply upd_notin; intro; apply N; eauto).
    pose proof (upd_entries ids logs i id d (io_nodup _ _ IO) A2 A3 E1) as U. rewrite EQ in U. eapply do_trans; [exact DO|exact U|exact C1].
  - destruct IP as ((A1 & A2 & A3) & -> & C). split.
    + apply Forall_app. split; [exact IG|]. repeat constructor. exists logs. auto.
    + split; [auto|]. eapply partly_done; [|exact A2|exact A3|exact C]. auto.
  - apply (proj2 (finv_down _ _ _ _ _ I)).
  - split; [exact IG|]. destruct IP as [(A & B)|(logs & (A1 & A2 & A3) & -> & C)].
    + left. rewrite A. auto.
    + right. exists logs. rewrite load_full by auto. split; [split; auto|]. split; [auto|]. split; [auto|]. split; [exists []; reflexivity|].
      intros i d b H1 H2. destruct (C i d b H1 H2) as [C1 C2]. split; [exact C1|]. intro N.
      unfold base in H2. destruct (nth_error ids i) as [id|] eqn:E1; [|discriminate].
      assert (EQ : upd id (entries_of (combine ids logs)) d = d) by (apply upd_notin; intro; apply N; eauto).
      pose proof (upd_entries ids logs i id d (io_nodup _ _ IO) A2 A3 E1) as U. rewrite EQ in U. eapply do_trans; [exact DO|exact U|exact C1].
  - split; [exact IG|]. destruct IP as [(_ & E & _)|(logs & A & B & -> & (done & C) & P)]; [discriminate|]. right. exists logs.
    split; [auto|]. split; [auto|]. split; [auto|]. split; [exists (done ++ [(id, l)]); rewrite <- app_assoc; exact C|].
    destruct (pos_of_nth _ _ _ _ Hi) as (i' & E & Hid). cbn in E. subst i'.
    assert (EL : nth i logs [] = l).
    { assert (In (id, l) (combine ids logs)) as HI. { assert (In (id, l) (entries_of (combine ids logs))) as HI by (rewrite C; apply in_or_app; right; now left). now apply filter_In in HI. }
      apply combine_nth_error in HI as (j & J1 & J2). rewrite (nodup_nth ids i j id (io_nodup _ _ IO) Hid J1). now apply nth_error_nth. }
    eapply partly_set; [exact P|exact Hd|rewrite EL; apply (do_again _ _ _ DO)|right; rewrite EL; apply (do_refl _ _ _ DO)|].
    cbn. intros j Hj (id' & J1 & [<-|J2]); [destruct Hj; eapply nodup_nth; eauto; apply (io_nodup _ _ IO)|eauto].
  - split; [exact IG|]. destruct IP as [(_ & E & _)|(logs & A & B & -> & (done & C) & P)]; [discriminate|]. right. exists logs.
    split; [auto|]. split; [auto|]. split; [auto|]. split; [exists done; exact C|].
    destruct (pos_of_nth _ _ _ _ Hi) as (i' & E & Hid). cbn in E. subst i'.
    assert (EL : nth i logs [] = l).
    { assert (In (id, l) (combine ids logs)) as HI. { assert (In (id, l) (entries_of (combine ids logs))) as HI by (rewrite C; apply in_or_app; right; now left). now apply filter_In in HI. }
      apply combine_nth_error in HI as (j & J1 & J2). rewrite (nodup_nth ids i j id (io_nodup _ _ IO) Hid J1). now apply nth_error_nth. }
    eapply partly_set; [exact P|exact Hd|rewrite EL; apply (do_torn _ _ _ DO); exact HT|left; exists id; split; [exact Hid|now left]|auto].
  - destruct IP as [(-> & _ & _ & C)|(logs & (A1 & A2 & A3) & -> & EE & _ & P)]; [auto|].
    assert (NT : forall i : nat, ~ (exists id, nth_error ids i = Some id /\ In id (map fst (@nil (list Z * list Z))))) by (intros i (id & _ & [])).
    destruct es as [|e es].
    + split; [exact IG|]. split; [auto|]. eapply entries_empty_clean; [exact NT|exact A2|exact A3|congruence|exact P].
    + rewrite EE. split; [apply Forall_app; split; [exact IG|]; repeat constructor; exists logs; auto|]. split; [auto|]. eapply partly_done; [exact NT|exact A2|exact A3|exact P].
Qed.
Lemma freach_inv s : freach dpatch torn flag ids ds0 s -> finv s.
Proof.
  induction 1 as [HL|s s' _ IH HS]; [|eapply fstep_inv; eauto]. split; [exact HL|]. split; [constructor|]. split; [reflexivity|].
  intros i d b H1 H2. unfold base in H2. cbn in *. rewrite H1 in H2. destruct (nth_error ids i); [|discriminate]. injection H2 as <-. apply (do_refl _ _ _ DO).
Qed.
End Proof.

(** ** Kinds of database *)
Lemma kv_ok : disk_ok kv_eqv kv_patch kv_torn.
Proof.
  split; unfold kv_eqv.
  - reflexivity.
  - intros d e H k. now rewrite H.
  - intros d e f H1 H2 k. now rewrite H1, H2.
  - intros l d e H k. unfold kv_patch. destruct (load l); [|apply H]. rewrite !apply_look. now rewrite H.
  - intros l d k. unfold kv_patch. destruct (load l) as [ops|]; [|reflexivity]. rewrite !(apply_look ops). destruct (look ops k); reflexivity.
  - intros l d d' [->| ->] k; [reflexivity|]. unfold kv_patch. destruct (load l) as [ops|]; [|reflexivity]. rewrite !(apply_look ops). destruct (look ops k); reflexivity.
  - reflexivity.
Qed.
Lemma head_length s (d : list Z) : length (firstn s d ++ repeat 0 (s - length d)) = s.
Proof. rewrite app_length, firstn_length, repeat_length. lia. Qed.
Lemma overwrite_eq s w d : w <> [] -> overwrite s w d = (firstn s d ++ repeat 0 (s - length d)) ++ w ++ skipn (s + length w) d.
Proof. intro H. unfold overwrite. destruct w; [congruence|]. now rewrite <- app_assoc. Qed.
Lemma over_prefix s w h t : w <> [] -> length h = s -> overwrite s w (h ++ t) = h ++ w ++ skipn (length w) t.
Proof.
  intros Hw <-. rewrite overwrite_eq by exact Hw. rewrite firstn_exact by reflexivity. rewrite app_length.
  replace (length h - (length h + length t))%nat with 0%nat by lia. cbn [repeat]. rewrite app_nil_r. f_equal. f_equal.
  rewrite skipn_app, skipn_all2 by lia. cbn [app]. f_equal. lia.
Qed.
Lemma skipn_skipn' {A} n : forall m (l : list A), skipn m (skipn n l) = skipn (n + m) l.
Proof. induction n as [|n IH]; intros m l; [reflexivity|]. destruct l as [|x l]; [now rewrite !skipn_nil|]. cbn [skipn Nat.add]. apply IH. Qed.
Lemma over_over_part s w n d : overwrite s w (overwrite s (firstn n w) d) = overwrite s w d.
Proof.
  destruct (firstn n w) as [|x p] eqn:E; [reflexivity|]. assert (Hw : w <> []) by (intros ->; destruct n; discriminate).
  rewrite (overwrite_eq s (x :: p)) by discriminate. rewrite <- E. rewrite over_prefix by (auto; apply head_length). rewrite overwrite_eq by exact Hw. f_equal. f_equal.
  rewrite skipn_app, firstn_length, skipn_all2 by (rewrite firstn_length; lia). cbn [app]. rewrite skipn_skipn'. f_equal. lia.
Qed.
Lemma over_cut s w t d : (s + length w <= t)%nat -> (w = [] -> True) -> firstn t (overwrite s w (firstn t (overwrite s w d))) = firstn t (overwrite s w d).
Proof.
  intros H _. destruct w as [|x w]; [cbn [overwrite]; rewrite firstn_firstn; f_equal; lia|].
  assert (Hw : x :: w <> []) by discriminate. rewrite (overwrite_eq s (x :: w) d) by exact Hw. rewrite (firstn_cut t) by (rewrite head_length; lia). rewrite head_length.
  rewrite over_prefix by (auto; apply head_length). rewrite (firstn_cut t) by (rewrite head_length; lia). rewrite head_length. f_equal.
  rewrite (firstn_cut (t - s) (x :: w)) by lia. rewrite (firstn_cut (t - s) (x :: w)) by lia. f_equal. rewrite skipn_exact by reflexivity. rewrite firstn_firstn. f_equal. lia.
Qed.
Lemma over_cut' s w t m d : (s + length w <= t)%nat -> (t <= m)%nat -> firstn t (overwrite s w (firstn m (overwrite s w d))) = firstn t (overwrite s w d).
Proof.
  intros H Hm. destruct w as [|x w]; [cbn [overwrite]; rewrite firstn_firstn; f_equal; lia|].
  assert (Hw : x :: w <> []) by discriminate. rewrite (overwrite_eq s (x :: w) d) by exact Hw. rewrite (firstn_cut m) by (rewrite head_length; lia). rewrite head_length.
  rewrite over_prefix by (auto; apply head_length). rewrite !(firstn_cut t) by (rewrite head_length; lia). rewrite head_length. f_equal.
  rewrite !(firstn_cut (t - s) (x :: w)) by lia. f_equal. rewrite (firstn_cut (m - s) (x :: w)) by lia. rewrite skipn_exact by reflexivity. rewrite firstn_firstn. f_equal. lia.
Qed.
Lemma file_fit size l : (file_data size l = [] \/ (file_start size l + length (file_data size l) <= file_target size l)%nat).
Proof. unfold file_data. destruct (Nat.le_gt_cases (file_target size l) (file_start size l)); [left; replace (_ - _)%nat with 0%nat by lia; reflexivity|right; rewrite firstn_length; lia]. Qed.
Lemma file_ok size : disk_ok (@eq (list Z)) (file_patch size) (file_torn size).
Proof.
  split; try congruence.
  - intros l d. unfold file_patch. destruct (length l <? 24)%nat; [reflexivity|]. destruct (file_fit size l) as [->|F]; [cbn [overwrite]; rewrite firstn_firstn; f_equal; lia|].
    apply over_cut; auto.
  - intros l d d' (HL & HT). unfold file_patch. replace (length l <? 24)%nat with false by (symmetry; now apply Nat.ltb_ge).
    destruct HT as [[n ->]|(m & Hm & ->)]; [now rewrite over_over_part|].
    destruct (file_fit size l) as [->|F]; [cbn [overwrite]; rewrite firstn_firstn; f_equal; lia|]. now apply over_cut'.
  - reflexivity.
Qed.
