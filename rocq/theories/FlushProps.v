(** Flushing and recovery: what readers see, what a restart shows, and atomicity over several databases (C41, C42). *)
From Verif Require Import Lib FlushModel FlushSpec FlushProofs FlushProofs2.

(** ** One database *)
(** Whatever has been written, confirmed, rolled back, flushed or interrupted, a reader sees exactly the writes made. *)
Theorem flush_invisible s p r c d : sreach s p r c d -> forall k, get s k = r k.
Proof. intros H. apply (si_get _ _ _ _ _ (sreach_inv _ _ _ _ _ H)). Qed.
(** A restart at any moment shows exactly what the last committed flush contained. *)
Theorem restart_shows_flushed s p r c d : sreach s p r c d -> forall k, get (restart s) k = d k.
Proof. intros H k. apply (si_disk _ _ _ _ _ (sreach_inv _ _ _ _ _ H)). Qed.
(** A reader sees what is confirmed with the writes of the unconfirmed blocks on top. *)
Theorem reads_confirmed_and_pending s p r c d : sreach s p r c d -> forall k, get s k = apply (unc_all (st_unc s)) c k.
Proof. intros H k. pose proof (sreach_inv _ _ _ _ _ H) as I. rewrite (si_get _ _ _ _ _ I). symmetry. apply (si_ref _ _ _ _ _ I). Qed.
(** A flush never panics, changes nothing that is read, and afterwards a restart shows everything confirmed. *)
Theorem flush_makes_confirmed_durable s r c d : sreach s SIdle r c d -> exists s', flush_once true true s = Some s' /\
  (forall k, get s' k = get s k) /\ (forall k, get (restart s') k = c k) /\ sreach s' SIdle r c c.
Proof.
  intros H. pose proof (sreach_inv _ _ _ _ _ H) as I. pose proof (si_phase _ _ _ _ _ I) as P. cbn in P.
  destruct (prepare s) as [s1|] eqn:E; [|unfold prepare in E; rewrite P in E; discriminate].
  exists (after_commit (commit s1)). split; [unfold flush_once; rewrite E; reflexivity|].
  assert (H' : sreach (after_commit (commit s1)) SIdle r c c) by (eapply s_after, s_commit, s_prepare; eauto).
  split; [|split; [|exact H']].
  - intro k. rewrite (flush_invisible _ _ _ _ _ H'), (flush_invisible _ _ _ _ _ H). reflexivity.
  - apply (restart_shows_flushed _ _ _ _ _ H').
Qed.
(** What is durable is always a state that was confirmed: with a flush under way a restart shows the old or the new one. *)
Theorem interrupted_flush_old_or_new s r c d s1 : sreach s SIdle r c d -> prepare s = Some s1 ->
  (forall k, get (restart s1) k = d k) /\ (forall k, get (restart (commit s1)) k = c k).
Proof.
  intros H E. assert (H1 : sreach s1 (SPrep c) r c d) by (eapply s_prepare; eauto). split.
  - apply (restart_shows_flushed _ _ _ _ _ H1).
  - eapply (restart_shows_flushed _ _ _ _ _ (s_commit _ _ _ _ _ H1)).
Qed.

(** ** The redo log *)
(** A batch read back from its dump is the batch. *)
Theorem batch_dump_load ops : Forall op_ok ops -> load (dump ops) = Some ops.
Proof. intros H. unfold load. now apply decode_dump. Qed.
(** Redoing from the log writes what committing would have written, and redoing after a commit changes nothing. *)
Theorem redo_same_as_commit s : Forall op_ok (flushing s) -> patch s (dump (flushing s)) = Some (commit s).
Proof. intros H. unfold patch. rewrite batch_dump_load by exact H. reflexivity. Qed.
Theorem redo_after_commit s : Forall op_ok (flushing s) -> exists s', patch (commit s) (dump (flushing s)) = Some s' /\
  forall k, st_disk s' k = st_disk (commit s) k.
Proof.
  intros H. unfold patch. rewrite batch_dump_load by exact H. eexists. split; [reflexivity|]. intro k. cbn.
  rewrite !apply_look. destruct (look (flushing s) k); reflexivity.
Qed.
(** The complete log gives back every database's part; a log cut anywhere gives nothing. *)
Theorem redo_log_complete flag ids logs : ids_ok flag ids -> length logs = length ids -> Forall (fun l => zlen l < 2 ^ 32) logs ->
  load_redo flag ids (full_log flag ids logs) = filter (fun e => negb (zlist_eqb (snd e) [])) (combine ids logs).
Proof.
  intros I L F. rewrite (load_full _ _ _ I L F). unfold entries_of. apply filter_ext_in. intros [i l] H. cbn [snd].
  apply in_combine_r in H. rewrite Forall_forall in F. specialize (F l H). rewrite Z.mod_small by (pose proof (zlen_nonneg l); lia).
  destruct l as [|x l]; [reflexivity|]. cbn [zlist_eqb negb]. rewrite zlen_cons. pose proof (zlen_nonneg l). lia.
Qed.
Theorem redo_log_cut flag ids logs n : ids_ok flag ids -> length logs = length ids -> Forall (fun l => zlen l < 2 ^ 32) logs ->
  (n < length (full_log flag ids logs))%nat -> load_redo flag ids (firstn n (full_log flag ids logs)) = [].
Proof. intros. now apply load_prefix. Qed.

(** ** Several databases *)
Lemma node_ok size : disk_ok node_eqv (node_patch size) (node_torn size).
Proof.
  destruct kv_ok as [a1 a2 a3 a4 a5 a6 a7]. destruct (file_ok size) as [b1 b2 b3 b4 b5 b6 b7].
  split; intros; repeat match goal with x : (kv + list Z)%type |- _ => destruct x end; cbn in *; try contradiction; eauto.
Qed.
Section Atomic.
Context {D : Type} (eqv : D -> D -> Prop) (dpatch : list Z -> D -> D) (torn : list Z -> D -> D -> Prop) (flag : list Z) (ids : list (list Z)).
Context (DO : disk_ok eqv dpatch torn) (IO : ids_ok flag ids).
Lemma atomic ds0 s : freach dpatch torn flag ids ds0 s -> fs_phase s = Idle ->
  forall i id d0 d, nth_error ids i = Some id -> nth_error ds0 i = Some d0 -> nth_error (fs_disks s) i = Some d ->
  eqv d (absorb dpatch id (fs_gen s) d0).
Proof.
  intros H P i id d0 d H1 H2 H3. pose proof (freach_inv eqv dpatch torn flag ids DO IO ds0 s H) as (_ & _ & F). rewrite P in F. destruct F as [_ F].
  apply (F i d); [exact H3|]. unfold base. rewrite H1, H2. reflexivity.
Qed.
Lemma begun ds0 s : freach dpatch torn flag ids ds0 s -> forall g, In g (fs_gen s) -> exists logs, In logs (fs_begun s) /\
  g = entries_of (combine ids logs).
Proof. intros H g Hg. pose proof (freach_inv eqv dpatch torn flag ids DO IO ds0 s H) as (_ & F & _). rewrite Forall_forall in F. auto. Qed.
Lemma gens_grow s s' : fstep dpatch torn flag ids s s' -> exists t, fs_gen s' = fs_gen s ++ t.
Proof.
  intros H. destruct H; cbn [fs_gen]; try (exists []; now rewrite app_nil_r); [eexists; reflexivity|].
  destruct es; [exists []; now rewrite app_nil_r|eexists; reflexivity].
Qed.
(** once the complete log is synced *)
Lemma committed_stays logs g s s' : length logs = length ids -> Forall (fun l => zlen l < 2 ^ 32) logs ->
  until_idle dpatch torn flag ids s s' -> fs_gen s = g -> fs_log s = full_log flag ids logs ->
  match fs_phase s with Committing l _ => l = logs | Down => True | Redoing es _ => es = entries_of (combine ids logs) | _ => False end ->
  fs_gen s' = g ++ [entries_of (combine ids logs)] \/ entries_of (combine ids logs) = [] /\ fs_gen s' = g.
Proof.
  intros L F U. assert (LD : load_redo flag ids (full_log flag ids logs) = entries_of (combine ids logs)) by (apply load_full; auto).
  induction U as [s P|s s1 s2 P ST U IH]; intros Hg Hl Hp; [rewrite P in Hp; contradiction|].
  destruct ST; cbn [fs_phase fs_gen fs_log] in *; try contradiction; subst;
    try (apply IH; auto; congruence).
  - inversion U as [t _|? ? ? N]; subst; [left; reflexivity|cbn in N; congruence].
  - inversion U as [t _|? ? ? N]; subst; [|cbn in N; congruence]. cbn [fs_gen].
    destruct (entries_of (combine ids logs)); [right|left]; auto.
Qed.
Lemma cut_leaves s s' : until_idle dpatch torn flag ids s s' -> load_redo flag ids (fs_log s) = [] ->
  match fs_phase s with Down => True | Redoing es _ => es = [] | _ => False end -> fs_gen s' = fs_gen s.
Proof.
  intros U. induction U as [s P|s s1 s2 P ST U IH]; intros Hl Hp; [reflexivity|].
  destruct ST; cbn [fs_phase fs_gen fs_log] in *; try contradiction; subst; try (apply IH; auto; congruence).
  inversion U as [t _|? ? ? N]; subst; [reflexivity|cbn in N; congruence].
Qed.
Lemma pos_of_some id : forall l k, In id l -> exists j, pos_of id l k = Some (k + j)%nat /\ (j < length l)%nat.
Proof.
  induction l as [|x l IH]; intros k H; [contradiction|]. cbn. destruct (zlist_eqb id x) eqn:E; [exists 0%nat; split; [f_equal; lia|lia]|].
  destruct H as [->|H]; [rewrite zlist_eqb_refl in E; discriminate|]. destruct (IH (S k) H) as (j & Hj & LT). exists (S j). rewrite Hj. split; [f_equal; lia|lia].
Qed.
Lemma redo_runs lg g bg es : forall rest ds, length ds = length ids -> Forall (fun e => In (fst e) ids) rest ->
  exists s', until_idle dpatch torn flag ids (mkF ds lg (Redoing es rest) g bg) s' /\ fs_phase s' = Idle.
Proof.
  induction rest as [|[id l] rest IH]; intros ds L F.
  - eexists. split; [eapply ui_step; [cbn; discriminate|apply fs_recovered|apply ui_here; reflexivity]|reflexivity].
  - inversion F as [|? ? F1 F2]. subst. cbn in F1. destruct (pos_of_some id ids 0 F1) as (j & Hj & LT). cbn in Hj. rewrite <- L in LT.
    destruct (nth_error ds j) as [d|] eqn:E; [|apply nth_error_None in E; lia].
    destruct (IH (set_nth j (dpatch l d) ds)) as (s' & U & P); [now rewrite set_nth_length|exact F2|].
    exists s'. split; [|exact P]. eapply ui_step; [cbn; discriminate|eapply fs_redo; eauto|exact U].
Qed.
Lemma recovers ds0 s : freach dpatch torn flag ids ds0 s -> fs_phase s = Down -> exists s', until_idle dpatch torn flag ids s s' /\ fs_phase s' = Idle.
Proof.
  intros H P. pose proof (freach_inv eqv dpatch torn flag ids DO IO ds0 s H) as (L & _ & F). rewrite P in F. destruct s as [ds lg p g bg]. cbn in *. subst p.
  assert (FE : Forall (fun e => In (fst e) ids) (load_redo flag ids lg)).
  { destruct F as [[-> _]|(logs & (_ & L1 & L2) & -> & _)]; [constructor|]. rewrite load_full by auto. apply Forall_forall. intros e He.
    eapply entries_in. apply in_map. exact He. }
  destruct (redo_runs lg g bg (load_redo flag ids lg) (load_redo flag ids lg) ds L FE) as (s' & U & Q). exists s'. split; [|exact Q].
  eapply ui_step; [cbn; discriminate|apply fs_load|exact U].
Qed.
End Atomic.

(** The databases of a node (leveldb databases and block files) flushed together: after any history of flushes, crashes at
    any point (also in the middle of a write and during recovery) and recoveries, all of them contain exactly the same
    flushes, each of them completely. *)
Theorem flush_atomic size flag ids ds0 s : ids_ok flag ids -> freach (node_patch size) (node_torn size) flag ids ds0 s -> fs_phase s = Idle ->
  forall i id d0 d, nth_error ids i = Some id -> nth_error ds0 i = Some d0 -> nth_error (fs_disks s) i = Some d ->
  node_eqv d (absorb (node_patch size) id (fs_gen s) d0).
Proof. intros IO. apply (atomic node_eqv); auto using node_ok. Qed.
(** These flushes are flushes that were started, with what each database handed over then. *)
Theorem flush_only_started size flag ids ds0 s : ids_ok flag ids -> freach (node_patch size) (node_torn size) flag ids ds0 s ->
  forall g, In g (fs_gen s) -> exists logs, In logs (fs_begun s) /\ g = entries_of (combine ids logs).
Proof. intros IO. apply (begun node_eqv); auto using node_ok. Qed.
(** A finished flush is never lost again. *)
Theorem flush_never_lost size flag ids s s' : fstep (node_patch size) (node_torn size) flag ids s s' -> exists t, fs_gen s' = fs_gen s ++ t.
Proof. apply gens_grow. Qed.
(** Once the redo log is synced the flush is decided: however it goes on, crashes and repeated recoveries included, it is
    finished the next time the flusher is idle. *)
Theorem flush_decided size flag ids ds0 s s' logs todo : ids_ok flag ids -> freach (node_patch size) (node_torn size) flag ids ds0 s ->
  fs_phase s = Committing logs todo -> until_idle (node_patch size) (node_torn size) flag ids s s' ->
  fs_gen s' = fs_gen s ++ [entries_of (combine ids logs)] \/ entries_of (combine ids logs) = [] /\ fs_gen s' = fs_gen s.
Proof.
  intros IO H P U. pose proof (freach_inv node_eqv (node_patch size) (node_torn size) flag ids (node_ok size) IO ds0 s H) as (_ & _ & F).
  rewrite P in F. destruct F as ((_ & L & B) & E & _). eapply committed_stays; eauto. rewrite P. reflexivity.
Qed.
(** A crash before the log is complete leaves every database as it was before the flush. *)
Theorem flush_undecided size flag ids ds0 s s1 s' logs : ids_ok flag ids -> freach (node_patch size) (node_torn size) flag ids ds0 s ->
  fs_phase s = Logging logs -> fs_log s <> full_log flag ids logs -> s1 = mkF (fs_disks s) (fs_log s) Down (fs_gen s) (fs_begun s) ->
  until_idle (node_patch size) (node_torn size) flag ids s1 s' -> fs_gen s' = fs_gen s.
Proof.
  intros IO H P N -> U. pose proof (freach_inv node_eqv (node_patch size) (node_torn size) flag ids (node_ok size) IO ds0 s H) as (_ & _ & F).
  rewrite P in F. destruct F as ((_ & L & B) & (n & E) & _). apply (cut_leaves _ _ _ _ _ _ U); cbn [fs_log fs_phase]; [|exact I].
  rewrite E. apply load_prefix; auto. destruct (Nat.lt_ge_cases n (length (full_log flag ids logs))); [assumption|]. exfalso. apply N. rewrite E. now apply firstn_all2.
Qed.
(** Recovery always comes to an end. *)
Theorem recovery_possible size flag ids ds0 s : ids_ok flag ids -> freach (node_patch size) (node_torn size) flag ids ds0 s -> fs_phase s = Down ->
  exists s', until_idle (node_patch size) (node_torn size) flag ids s s' /\ fs_phase s' = Idle.
Proof. intros IO. apply (recovers node_eqv); auto using node_ok. Qed.

(** ** Where the code is wrong *)
(** WriteDirectly (used to remove a transaction from an account's waiting list) next to an unconfirmed block that wrote the
    same key: the next flush undoes the direct write. *)
Theorem direct_write_undone_refuted : exists s k s', get s k = None /\ flush_once true true s = Some s' /\ get s' k <> None /\
  s = write_direct (write_block (open_store (fun _ => None)) 1 [WPut k [7]]) [WDel k].
Proof.
  exists (write_direct (write_block (open_store (fun _ => None)) 1 [WPut [1; 2] [7]]) [WDel [1; 2]]), [1; 2]. eexists.
  split; [reflexivity|]. split; [reflexivity|]. split; [|reflexivity]. vm_compute. discriminate.
Qed.
(** When writing the redo log fails, the next flush panics. *)
Theorem log_failure_panics_refuted : forall s s', flush_once false true s = Some s' -> flush_once true true s' = None.
Proof. intros s s'. unfold flush_once, prepare. destruct (st_flush s); [discriminate|]. intros [= <-]. reflexivity. Qed.
Example log_failure_ex : exists s', flush_once false true (open_store (fun _ => None)) = Some s'.
Proof. eexists. reflexivity. Qed.
(** When writing to a database fails, what is being flushed cannot be read until the redo that follows. *)
Theorem failed_commit_window_refuted : exists s r c d s1 k, sreach s SIdle r c d /\ prepare s = Some s1 /\ get s k = Some [7] /\ get (after_commit s1) k = None.
Proof.
  exists (write_direct (open_store (fun _ => None)) [WPut [1] [7]]). do 4 eexists. exists [1]. split; [|split; [reflexivity|split; reflexivity]].
  apply s_direct; [apply s_open|]. intros k (o & [] & _).
Qed.
(** A power failure after a finished flush can leave the databases with different flushes, and there is no redo log left. *)
Definition idA : list Z := repeat 1 32. Definition idB : list Z := repeat 2 32. Definition flagZ : list Z := repeat 9 32.
Lemma ids_ex : ids_ok flagZ [idA; idB].
Proof.
  split; [repeat constructor|reflexivity| |intros [H|[H|[]]]; discriminate].
  constructor; [intros [H|[]]; discriminate|constructor; [intros []|constructor]].
Qed.
Definition lgA := dump [WPut [5] [6]].
Definition none : kv := fun _ => None.
Lemma log_reach {D} (dp : list Z -> D -> D) tr flag ids ds0 g bg ds logs : freach dp tr flag ids ds0 (mkF ds [] Idle g bg) -> length logs = length ids ->
  Forall (fun l => zlen l < 2 ^ 32) logs -> forall n, freach dp tr flag ids ds0 (mkF ds (firstn n (full_log flag ids logs)) (Logging logs) g (bg ++ [logs])).
Proof.
  intros H L F. induction n as [|n IH].
  - eapply fr_step; [exact H|]. apply fs_prepare; auto.
  - eapply fr_step; [exact IH|]. apply fs_write. reflexivity.
Qed.
Lemma synced_reach {D} (dp : list Z -> D -> D) tr flag ids ds0 g bg ds logs : freach dp tr flag ids ds0 (mkF ds [] Idle g bg) -> length logs = length ids ->
  Forall (fun l => zlen l < 2 ^ 32) logs -> freach dp tr flag ids ds0 (mkF ds (full_log flag ids logs) (Committing logs (seq 0 (length ids))) g (bg ++ [logs])).
Proof.
  intros H L F. eapply fr_step; [|apply fs_synced; reflexivity]. rewrite <- (firstn_all (full_log flag ids logs)) at 1. now apply log_reach.
Qed.
Theorem power_loss_refuted : exists s ds', freach kv_patch kv_torn flagZ [idA; idB] [none; none] s /\ fs_phase s = Idle /\ fs_log s = [] /\
  power_loss [idA; idB] (fs_gen s) [none; none] ds' /\
  ~ (exists n, forall i id d', nth_error [idA; idB] i = Some id -> nth_error ds' i = Some d' -> kv_eqv d' (absorb kv_patch id (firstn n (fs_gen s)) none)).
Proof.
  exists (mkF [apply [WPut [5] [6]] none; apply [WPut [5] [6]] none] [] Idle [[(idA, lgA); (idB, lgA)]] [[lgA; lgA]]), [apply [WPut [5] [6]] none; none]. split.
  - eapply fr_step; [|apply (fs_finish kv_patch kv_torn flagZ [idA; idB] _ (full_log flagZ [idA; idB] [lgA; lgA]) [] _ [lgA; lgA])].
    eapply fr_step; [|apply (fs_commit kv_patch kv_torn flagZ [idA; idB] [apply [WPut [5] [6]] none; none] _ [] _ [lgA; lgA] [] 1 [] none); reflexivity].
    eapply fr_step; [|apply (fs_commit kv_patch kv_torn flagZ [idA; idB] [none; none] _ [] _ [lgA; lgA] [] 0 [1%nat] none); reflexivity].
    apply (synced_reach kv_patch kv_torn flagZ [idA; idB] [none; none] [] [] [none; none] [lgA; lgA]); [apply fr_init; reflexivity|reflexivity|].
    repeat constructor.
  - split; [reflexivity|]. split; [reflexivity|]. split.
    + split; [reflexivity|]. intros [|[|[|i]]] id d0 d' H1 H2 H3; try discriminate; injection H1 as <-; injection H2 as <-; injection H3 as <-.
      * exists 1%nat. vm_compute. reflexivity.
      * exists 0%nat. reflexivity.
    + intros (n & H). pose proof (H 0%nat _ _ eq_refl eq_refl [5]) as HA. pose proof (H 1%nat _ _ eq_refl eq_refl [5]) as HB.
      destruct n as [|n]; [vm_compute in HA; discriminate|]. cbn [fs_gen firstn] in HB. rewrite firstn_nil in HB. vm_compute in HB. discriminate.
Qed.

(** ** Histories that meet the hypotheses *)
Definition k1 : list Z := [1]. Definition k2 : list Z := [2].
Definition hist1 := write_block (write_block (open_store none) 10 [WPut k1 [1]]) 11 [WPut k2 [2]; WPut k1 [3]].
Example store_ex : exists s r c d s', sreach s SIdle r c d /\ flush_once true true s = Some s' /\ get s k1 = Some [3] /\ get s' k1 = Some [3] /\
  get (restart s') k1 = Some [1] /\ get (restart s') [9] = Some [9] /\ get (restart s') k2 = None.
Proof.
  destruct (write_snapshot hist1 [WPut [9] [9]] [10]) as [s|] eqn:E; [|discriminate].
  assert (R : exists r c, sreach s SIdle r c none).
  { do 2 eexists. eapply (s_snapshot hist1 SIdle _ _ _ [WPut [9] [9]] [10] s); [do 2 eapply s_block; apply s_open|exact E| |].
    - split; [|exact I]. intros a e b H1 H2. destruct a as [|x a]; [intros k (o & [] & _)|]. exfalso. revert H1 H2. cbn.
      destruct a as [|y a]; [intros [= <- <- <-]|intros [= <- <- H1]; destruct a; discriminate]. discriminate.
    - revert E. cbn. intros [= <-]. cbn. intros k (o & [<-|[<-|[]]] & <-) (o2 & [<-|[]] & H); discriminate. }
  destruct R as (r & c & R). exists s, r, c, none. destruct (flush_once true true s) as [s'|] eqn:F; [|revert E F; cbn; intros [= <-]; discriminate].
  exists s'. split; [exact R|]. split; [reflexivity|]. revert E F. cbn. intros [= <-] [= <-]. vm_compute. auto 6.
Qed.
Example rollback_ex : exists s r c d, sreach s SIdle r c d /\ get s k1 = None /\ st_unc s <> [] /\ get s k2 = Some [5].
Proof.
  exists (rollback_blocks (write_block (write_block (open_store none) 10 [WPut k1 [1]]) 11 [WPut k2 [5]]) [WDel k1] [10]).
  do 3 eexists. split; [|split; [reflexivity|split; [discriminate|reflexivity]]].
  apply s_undo; [do 2 eapply s_block; apply s_open|]. intro k. cbn. unfold apply1. cbn. destruct (zlist_eqb k k1) eqn:E; [|reflexivity].
  apply zlist_eqb_eq in E. subst. reflexivity.
Qed.
Example dump_ex : load (dump [WPut (repeat 7 200) [1; 2]; WDel [3]; WPut [] []]) = Some [WPut (repeat 7 200) [1; 2]; WDel [3]; WPut [] []] /\
  Forall op_ok [WPut (repeat 7 200) [1; 2]; WDel [3]; WPut [] []].
Proof. split; [vm_compute; reflexivity|]. repeat constructor. Qed.
(** a flush of a leveldb database and the block files that crashes with one database written and the other half written, and
    recovers *)
Definition lgF : list Z := be_bytes 8 1 ++ be_bytes 4 0 ++ be_bytes 8 1 ++ be_bytes 4 3 ++ [1; 2; 3].
Definition ds_ex : list (kv + list Z) := [inl none; inr []].
Definition crashed_ex : @fstate (kv + list Z) := mkF [inl (apply [WPut [5] [6]] none); inr [1; 2]] (full_log flagZ [idA; idB] [lgA; lgF]) Down [] [[lgA; lgF]].
Example crash_ex : freach (node_patch 100) (node_torn 100) flagZ [idA; idB] ds_ex crashed_ex /\
  exists s', freach (node_patch 100) (node_torn 100) flagZ [idA; idB] ds_ex s' /\ fs_phase s' = Idle /\ length (fs_gen s') = 1%nat /\
  nth_error (fs_disks s') 1 = Some (inr [1; 2; 3]).
Proof.
  assert (C : freach (node_patch 100) (node_torn 100) flagZ [idA; idB] ds_ex crashed_ex).
  { eapply fr_step; [|apply (fs_crash _ _ _ _ _ _ _ _ (Committing [lgA; lgF] [1%nat]))].
    eapply fr_step; [|apply (fs_torn (node_patch 100) (node_torn 100) flagZ [idA; idB] [inl (apply [WPut [5] [6]] none); inr []] (full_log flagZ [idA; idB] [lgA; lgF]) [] [[lgA; lgF]] [lgA; lgF] [] 1 [] (inr []) (inr [1; 2])); [reflexivity|]].
    - eapply fr_step; [|apply (fs_commit (node_patch 100) (node_torn 100) flagZ [idA; idB] ds_ex _ [] _ [lgA; lgF] [] 0 [1%nat] (inl none)); reflexivity].
      apply (synced_reach (node_patch 100) (node_torn 100) flagZ [idA; idB] ds_ex [] [] ds_ex [lgA; lgF]); [apply fr_init; reflexivity|reflexivity|].
      repeat constructor.
    - cbn. split; [vm_compute; lia|]. left. exists 2%nat. vm_compute. reflexivity. }
  split; [exact C|].
  pose proof (fr_step _ _ _ _ _ _ _ C (fs_load _ _ _ _ _ _ _ _)) as C1. clear C.
  replace (load_redo flagZ [idA; idB] (full_log flagZ [idA; idB] [lgA; lgF])) with [(idA, lgA); (idB, lgF)] in C1 by (vm_compute; reflexivity).
  pose proof (fr_step _ _ _ _ _ _ _ C1 (fs_redo (node_patch 100) (node_torn 100) flagZ [idA; idB] [inl (apply [WPut [5] [6]] none); inr [1; 2]]
    _ _ _ _ idA lgA _ 0 (inl (apply [WPut [5] [6]] none)) eq_refl eq_refl)) as C2. clear C1.
  pose proof (fr_step _ _ _ _ _ _ _ C2 (fs_redo (node_patch 100) (node_torn 100) flagZ [idA; idB] [inl (kv_patch lgA (apply [WPut [5] [6]] none)); inr [1; 2]]
    _ _ _ _ idB lgF _ 1 (inr [1; 2]) eq_refl eq_refl)) as C3. clear C2.
  pose proof (fr_step _ _ _ _ _ _ _ C3 (fs_recovered _ _ _ _ _ _ _ _ _)) as C4. clear C3.
  eexists. split; [exact C4|]. vm_compute. auto.
Qed.

Print Assumptions flush_invisible.
Print Assumptions restart_shows_flushed.
Print Assumptions reads_confirmed_and_pending.
Print Assumptions flush_makes_confirmed_durable.
Print Assumptions interrupted_flush_old_or_new.
Print Assumptions batch_dump_load.
Print Assumptions redo_same_as_commit.
Print Assumptions redo_after_commit.
Print Assumptions redo_log_complete.
Print Assumptions redo_log_cut.
Print Assumptions flush_atomic.
Print Assumptions flush_only_started.
Print Assumptions flush_never_lost.
Print Assumptions flush_decided.
Print Assumptions flush_undecided.
Print Assumptions recovery_possible.
Print Assumptions direct_write_undone_refuted.
Print Assumptions log_failure_panics_refuted.
Print Assumptions failed_commit_window_refuted.
Print Assumptions power_loss_refuted.
