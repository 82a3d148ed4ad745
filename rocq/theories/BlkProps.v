(** * The block files keep the log: C59, C60, C61 *)
From Verif Require Import Lib BlkModel BlkSpec BlkProofs BlkProofs2 BlkProofs3 BlkProofs4 BlkProofs5 BlkProofs6.
Import ListNotations.

(** C59: appending, cutting back within what the cache allows, flushing, giving a flush up,
    committing it and restarting never fail. *)
Theorem steps_succeed fs cl s g o : 0 < fs -> 1 <= cl -> reach fs cl s g -> allowed fs cl s g o -> exists s', fstep fs cl s o = Some s'.
Proof. intros FS CL R A. destruct (step_ok fs cl FS CL s g o (reach_inv fs cl FS CL s g R) A) as (s' & E & _). now exists s'. Qed.
(** C59: what is written goes to the end of the log, and the location handed out is that end. *)
Theorem written_at_end fs cl s g b l s' : 0 < fs -> 1 <= cl -> reach fs cl s g -> fm_write fs cl s b = Some (l, s') -> loc_ok fs l /\ pos fs l = zlen (g_now g).
Proof.
  intros FS CL R E. destruct (reach_latest fs cl FS CL s g R) as [A B]. unfold fm_write in E. destruct (write_loop fs cl (2 * length b + 2) s b); [|discriminate]. injection E as <- _. split; assumption.
Qed.
(** C59: reading anywhere gives exactly the bytes of the log, wherever they are kept, and beyond
    the end it says so. *)
Theorem read_exact fs cl s g l n : 0 < fs -> 1 <= cl -> reach fs cl s g -> loc_ok fs l -> 0 <= n ->
  (pos fs l + n <= zlen (g_now g) -> exists l', read fs s l n = Done l' (firstn (Z.to_nat n) (skipn (Z.to_nat (pos fs l)) (g_now g))) /\ loc_ok fs l' /\ pos fs l' = pos fs l + n) /\
  (zlen (g_now g) < pos fs l + n -> 0 < n -> read fs s l n = Eof).
Proof.
  intros FS CL R O N. pose proof (reach_read fs cl FS CL s g l n R O N) as X. destruct (Z.leb_spec (pos fs l + n) (zlen (g_now g))); split; intros; try lia; now apply X.
Qed.
(** C59: a block is read back from the location it was written at, with the place of the next. *)
Theorem block_read_back fs cl s g l u rest : 0 < fs -> 1 <= cl -> reach fs cl s g -> loc_ok fs l -> unit_ok u ->
  skipn (Z.to_nat (pos fs l)) (g_now g) = frame u ++ rest ->
  (exists l', fm_read fs s l = Done l' (fst u :: snd u) /\ loc_ok fs l' /\ pos fs l' = pos fs l + zlen (frame u)) /\
  (exists l', next_location fs s l = Some l' /\ loc_ok fs l' /\ pos fs l' = pos fs l + zlen (frame u)).
Proof. intros FS CL. now apply block_read. Qed.
(** C59: in particular it can be read as soon as it is written. *)
Theorem block_written_read fs cl s g u l s' : 0 < fs -> 1 <= cl -> reach fs cl s g -> allowed fs cl s g (OWrite (frame u)) -> unit_ok u -> fm_write fs cl s (frame u) = Some (l, s') ->
  exists l', fm_read fs s' l = Done l' (fst u :: snd u).
Proof.
  intros FS CL R A U E. destruct (written_at_end fs cl s g _ l s' FS CL R E) as [O P].
  assert (R' : reach fs cl s' (lstep fs g (OWrite (frame u)))) by (apply (R_step fs cl s g (OWrite (frame u)) s' R A); cbn [fstep]; now rewrite E).
  destruct (block_read_back fs cl s' _ l u [] FS CL R' O U) as ((l' & X & _) & _); [|now exists l'].
  cbn [lstep g_now]. rewrite P. rewrite drop_app_ge by lia. now rewrite Z.sub_diag, app_nil_r.
Qed.

(** C60: how the bytes are cut into pieces makes no difference to what the parser finds. *)
Theorem pieces_irrelevant p ps qs : concat ps = concat qs -> feed_all p ps = feed_all p qs.
Proof. intro E. now rewrite !feed_all_concat, E. Qed.
(** C60: it finds exactly the blocks that were put in. *)
Theorem parse_exact us ps : Forall unit_ok us -> concat ps = bytes_of us -> snd (feed_all parser0 ps) = us.
Proof. intros F E. rewrite feed_all_concat, E. unfold parser0. now destruct (eat_units us 0 F) as (sz & ->). Qed.
(** C60: a range of the log is read as the blocks from its first location to its last, in
    chunks. *)
Theorem range_exact fs cl s g l e us u x rest : 0 < fs -> 1 <= cl -> reach fs cl s g -> loc_ok fs l -> loc_ok fs e -> loc_lt e l = false ->
  Forall unit_ok us -> unit_ok u -> g_now g = x ++ bytes_of us ++ frame u ++ rest -> pos fs l = zlen x -> pos fs e = zlen x + zlen (bytes_of us) ->
  exists cs, read_blocks fs s l (Some e) = Some cs /\ chunked cs (us ++ [u]).
Proof. intros FS CL R Ol Oe L. apply lt_le in L. now apply blocks_between with (cl := cl) (g := g). Qed.
(** C60: and up to the end; what a rollback hands back is the same. *)
Theorem tail_exact fs cl s g l us x : 0 < fs -> 1 <= cl -> reach fs cl s g -> loc_ok fs l -> loc_lt (latest s) l = false ->
  Forall unit_ok us -> g_now g = x ++ bytes_of us -> pos fs l = zlen x ->
  (exists cs, read_blocks fs s l None = Some cs /\ chunked cs us) /\ (exists cs, blocks_from fs s l = Some cs /\ chunked cs us).
Proof. intros FS CL R O L. apply lt_le in L. now apply (blocks_to_end fs cl FS CL s g l us x R O). Qed.
(** C59: a chunk can be written, and each of its blocks is then read from the location handed out
    for it. *)
Theorem chunk_written fs cl s g abs sb : 0 < fs -> 1 <= cl -> reach fs cl s g -> Forall unit_ok (map (fun b => (1, b)) abs ++ [(2, sb)]) ->
  allowed fs cl s g (OWrite (bytes_of (map (fun b => (1, b)) abs ++ [(2, sb)]))) ->
  exists ls s', write_chunk fs cl s abs sb = Some (ls, s') /\ reach fs cl s' (lstep fs g (OWrite (bytes_of (map (fun b => (1, b)) abs ++ [(2, sb)])))) /\
  Forall2 (fun l u => exists l', fm_read fs s' l = Done l' (fst u :: snd u)) ls (map (fun b => (1, b)) abs ++ [(2, sb)]).
Proof.
  intros FS CL R F A. destruct (units_written fs cl FS CL _ s g R A) as (ls & s' & E & R' & P). exists ls, s'. split; [exact E|]. split; [exact R'|]. apply (placed_read fs cl FS CL s' _ R' _ _ (g_now g) [] F P). cbn [lstep g_now]. now rewrite app_nil_r.
Qed.
(** C60: a chunk is read back whole from the location of its first block. *)
Theorem chunk_exact fs cl s g abs sb l x rest fuel : 0 < fs -> 1 <= cl -> reach fs cl s g -> Forall unit_ok (map (fun b => (1, b)) abs ++ [(2, sb)]) -> loc_ok fs l -> pos fs l = zlen x ->
  g_now g = x ++ bytes_of (map (fun b => (1, b)) abs ++ [(2, sb)]) ++ rest -> (length abs < fuel)%nat ->
  exists l', read_chunk fs fuel s l [] = Some (abs, sb, l') /\ loc_ok fs l' /\ pos fs l' = zlen x + zlen (bytes_of (map (fun b => (1, b)) abs ++ [(2, sb)])).
Proof. intros FS CL R F O P E N. exact (chunk_read fs cl FS CL s g R abs sb l x rest [] fuel F O P E N). Qed.
(** Chunks determine the blocks, and the blocks the chunks. *)
Theorem chunked_unique cs cs' us : Forall unit_ok us -> chunked cs us -> chunked cs' us -> cs = cs'.
Proof.
  intros _ (A & B & C) (A' & B' & C'). rewrite <- A' in A. clear A' us. revert cs' A B' C'. induction cs as [|[a o] r IH]; intros cs' A B' C'.
  - destruct cs' as [|[a' o'] r']; [reflexivity|]. exfalso. unfold unchunk in A. cbn in A. pose proof (Forall_inv C') as N. destruct a'; [destruct o'; [discriminate|now apply N]|discriminate].
  - destruct cs' as [|[a' o'] r']; [exfalso; unfold unchunk in A; cbn in A; pose proof (Forall_inv C) as N; destruct a; [destruct o; [discriminate|now apply N]|discriminate]|].
    assert (KEY : forall (a a' : list (list Z)) o o' X X', map (fun b => (1, b)) a ++ (match o with Some b => [(2, b)] | None => [] end) ++ X = map (fun b => (1, b)) a' ++ (match o' with Some b => [(2, b)] | None => [] end) ++ X' ->
       (o = None -> X = []) -> (o' = None -> X' = []) -> a = a' /\ o = o' /\ X = X').
    { clear. induction a as [|x a IH]; intros [|x' a'] o o' X X' E N N'; cbn [map app] in E.
      - destruct o as [y|], o' as [y'|]; cbn in E; [injection E as -> ->; auto|rewrite N' in E by reflexivity; discriminate|rewrite N in E by reflexivity; discriminate|rewrite N, N' by reflexivity; auto].
      - destruct o as [y|]; cbn in E; [discriminate|]. rewrite N in E by reflexivity. discriminate.
      - destruct o' as [y|]; cbn in E; [discriminate|]. rewrite N' in E by reflexivity. discriminate.
      - injection E as -> E. destruct (IH a' o o' X X' E N N') as (-> & -> & ->). auto. }
    unfold unchunk in A. cbn [map concat fst snd] in A. rewrite <- !app_assoc in A. apply KEY in A.
    + destruct A as (-> & -> & A). f_equal. apply IH; try exact (Forall_inv_tail C); try exact (Forall_inv_tail C'); [|exact A|].
      * destruct r; [constructor|exact (Forall_inv_tail B)].
      * destruct r'; [constructor|exact (Forall_inv_tail B')].
    + intros ->. destruct r; [reflexivity|]. exfalso. now apply (Forall_inv B).
    + intros ->. destruct r'; [reflexivity|]. exfalso. now apply (Forall_inv B').
Qed.

(** C61: a process that ends at any point outside a commit finds the flushed log again: every byte
    of it and nothing else. *)
Theorem crash_keeps_flushed fs cl s g : 0 < fs -> 1 <= cl -> reach fs cl s g ->
  exists s', start fs cl (f_disk s) = Some s' /\ reach fs cl s' (Log (g_disk g) (g_disk g) None) /\
  forall l n, loc_ok fs l -> 0 <= n -> pos fs l + n <= zlen (g_disk g) -> exists l', read fs s' l n = Done l' (firstn (Z.to_nat n) (skipn (Z.to_nat (pos fs l)) (g_disk g))).
Proof.
  intros FS CL R. destruct (steps_succeed fs cl s g OCrash FS CL R Logic.I) as (s' & E). exists s'. split; [exact E|]. assert (R' : reach fs cl s' (Log (g_disk g) (g_disk g) None)) by exact (R_step fs cl s g OCrash s' R Logic.I E). split; [exact R'|].
  intros l n O N L. destruct (read_exact fs cl s' _ l n FS CL R' O N) as [X _]. destruct (X L) as (l' & Y & _). now exists l'.
Qed.
(** C61: one that ends in the middle of a commit, after any number of changes of the directory and
    any part of the next, finds what the flush was to write, with the help of the redo log. *)
Theorem commit_survives fs cl s g k j t : 0 < fs -> 1 <= cl -> reach fs cl s g -> allowed fs cl s g (OCrashIn k j) -> g_fly g = Some t ->
  exists s', fstep fs cl s (OCrashIn k j) = Some s' /\ reach fs cl s' (Log t t None) /\
  forall l n, loc_ok fs l -> 0 <= n -> pos fs l + n <= zlen t -> exists l', read fs s' l n = Done l' (firstn (Z.to_nat n) (skipn (Z.to_nat (pos fs l)) t)).
Proof.
  intros FS CL R A T. destruct (steps_succeed fs cl s g (OCrashIn k j) FS CL R A) as (s' & E). exists s'. split; [exact E|].
  assert (R' : reach fs cl s' (Log t t None)) by (pose proof (R_step fs cl s g (OCrashIn k j) s' R A E) as R'; cbn [lstep] in R'; now rewrite T in R'). split; [exact R'|].
  intros l n O N L. destruct (read_exact fs cl s' _ l n FS CL R' O N) as [X _]. destruct (X L) as (l' & Y & _). now exists l'.
Qed.

(** ** Histories *)
Fixpoint play (fs cl : Z) (s : fstate) (g : log) (os : list fop) : option (fstate * log) :=
  match os with
  | [] => Some (s, g)
  | o :: r => match fstep fs cl s o with Some s' => play fs cl s' (lstep fs g o) r | None => None end
  end.
Fixpoint plays (fs cl : Z) (s : fstate) (g : log) (os : list fop) : Prop :=
  match os with
  | [] => True
  | o :: r => allowed fs cl s g o /\ match fstep fs cl s o with Some s' => plays fs cl s' (lstep fs g o) r | None => False end
  end.
Lemma play_reach fs cl : forall os s g s' g', reach fs cl s g -> plays fs cl s g os -> play fs cl s g os = Some (s', g') -> reach fs cl s' g'.
Proof.
  induction os as [|o r IH]; intros s g s' g' R P E; cbn in *; [injection E as <- <-; exact R|]. destruct P as [A P]. destruct (fstep fs cl s o) as [s1|] eqn:F; [|discriminate]. exact (IH s1 _ s' g' (R_step fs cl s g o s1 R A F) P E).
Qed.
Definition s0 (fs cl : Z) : fstate := match start fs cl [] with Some s => s | None => FState [] [] (Loc 0 0) (Loc 0 0) None end.
Definition g0 := Log [] [] None.
Ltac history os := eapply (play_reach _ _ os); [apply R_new; reflexivity|vm_compute; repeat split; try discriminate|vm_compute; reflexivity].
(** A log of five files of four bytes: written, flushed, cut back, written again; a flush is given
    up, and one goes through although the process ends in the middle of it. *)
Example story : exists s g, reach 4 3 s g /\ g_now g = [1; 2; 3; 4; 5; 6; 20; 21; 22; 23; 24; 25; 26; 27] /\ g_disk g = g_now g /\ read 4 s (Loc 2 1) 5 = Done (Loc 3 2) [6; 20; 21; 22; 23].
Proof.
  eexists. eexists. split; [history [OWrite [1; 2; 3; 4; 5; 6; 7; 8; 9; 10]; OPrepare; OWrite [11; 12]; OCommit; OWrite [13; 14]; ODelete (Loc 2 2); OWrite [20; 21; 22]; OPrepare; OCancel; OWrite [23; 24; 25; 26; 27]; OPrepare; OCrashIn 2 1]|]. repeat split; vm_compute; reflexivity.
Qed.
Example blocks_story : exists s g l e, reach 7 2 s g /\ pos 7 l = 6 /\ pos 7 e = 13 /\ loc_ok 7 l /\ loc_ok 7 e /\
  read_blocks 7 s l (Some e) = Some [([[5; 6]], Some [7])] /\ blocks_from 7 s l = Some [([[5; 6]], Some [7]); ([[8]], None)] /\ fm_read 7 s e = Done (Loc 3 5) [2; 7] /\ read_chunk 7 3 s (Loc 1 0) [] = Some ([[4]; [5; 6]], [7], Loc 3 5).
Proof.
  eexists. eexists. exists (Loc 1 6), (Loc 2 6). split; [history [OWrite (frame (1, [4])); OWrite (frame (1, [5; 6])); OPrepare; OCommit; OWrite (frame (2, [7])); OWrite (frame (1, [8]))]|]. repeat split; try (vm_compute; reflexivity); vm_compute; discriminate.
Qed.

(** ** What does not hold *)
(** C59: after a restart the log cannot be cut back by more than one file: the process panics. *)
Theorem cut_back_refuted : exists fs cl s g l, 0 < fs /\ 1 <= cl /\ reach fs cl s g /\ g_disk g = g_now g /\ loc_ok fs l /\ pos fs l < zlen (g_now g) /\ delete_to fs cl s l = None.
Proof.
  exists 2, 10. eexists. eexists. exists (Loc 1 1). split; [lia|]. split; [lia|]. split; [history [OWrite [1; 2; 3; 4; 5]; OPrepare; OCommit; OCrash]|]. repeat split; vm_compute; try reflexivity; discriminate.
Qed.
(** C61: nor can a commit be recovered once it has made two new files. *)
Theorem recovery_refuted : exists fs cl s g k j, 0 < fs /\ 1 <= cl /\ reach fs cl s g /\ g_fly g <> None /\ fstep fs cl s (OCrashIn k j) = None.
Proof.
  exists 2, 10. eexists. eexists. exists 6%nat, O. split; [lia|]. split; [lia|]. split; [history [OWrite [1; 2; 3; 4; 5]; OPrepare]|]. split; [discriminate|vm_compute; reflexivity].
Qed.
(** C61: when the log is cut back into an earlier file while a flush is under way and written
    again, zeros are committed in place of the bytes flushed before. *)
Theorem hole_refuted : exists fs cl s g l b s1 s2 s3 s4 t x, 0 < fs /\ 1 <= cl /\ reach fs cl s g /\ g_fly g = Some t /\ loc_ok fs l /\
  delete_to fs cl s l = Some s1 /\ fstep fs cl s1 (OWrite b) = Some s2 /\ commit fs s2 = Some s3 /\ start fs cl (f_disk s3) = Some s4 /\ read fs s4 (Loc 1 0) (zlen t) = Done (latest s4) x /\ x <> t.
Proof.
  exists 4, 10. eexists. eexists. exists (Loc 1 2), [9; 9; 9; 9; 9; 9]. eexists. eexists. eexists. eexists. eexists. eexists. split; [lia|]. split; [lia|]. split; [history [OWrite [1; 2; 3; 4; 5; 6; 7]; OPrepare; OCommit; OWrite [8; 8]; OPrepare]|].
  split; [reflexivity|]. split; [split; cbn; lia|]. split; [vm_compute; reflexivity|]. split; [vm_compute; reflexivity|]. split; [vm_compute; reflexivity|]. split; [vm_compute; reflexivity|]. split; [vm_compute; reflexivity|discriminate].
Qed.
(** C59: when more than the cache holds is written while a flush is under way, its first file is
    gone before it was flushed, and the commit fails. *)
Theorem evicted_refuted : exists fs cl s g b s1, 0 < fs /\ 1 <= cl /\ reach fs cl s g /\ f_fly s <> None /\ fstep fs cl s (OWrite b) = Some s1 /\ commit fs s1 = None.
Proof.
  exists 2, 2. eexists. eexists. exists [7; 8; 9; 10]. eexists. split; [lia|]. split; [lia|]. split; [history [OWrite [1; 2; 3; 4; 5; 6]; OPrepare]|]. split; [discriminate|]. split; vm_compute; reflexivity.
Qed.
(** C60: a block of no bytes is not found. *)
Theorem empty_block_refuted : exists u, fst u = 1 /\ snd (feed_all parser0 [frame u]) = [].
Proof. exists (1, []). split; reflexivity. Qed.

Print Assumptions steps_succeed.
Print Assumptions written_at_end.
Print Assumptions read_exact.
Print Assumptions block_read_back.
Print Assumptions block_written_read.
Print Assumptions pieces_irrelevant.
Print Assumptions parse_exact.
Print Assumptions range_exact.
Print Assumptions tail_exact.
Print Assumptions chunk_written.
Print Assumptions chunk_exact.
Print Assumptions chunked_unique.
Print Assumptions crash_keeps_flushed.
Print Assumptions commit_survives.
Print Assumptions cut_back_refuted.
Print Assumptions recovery_refuted.
Print Assumptions hole_refuted.
Print Assumptions evicted_refuted.
Print Assumptions empty_block_refuted.
