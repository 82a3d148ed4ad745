From Verif Require Import Lib.
From Verif Require RoadModel RoadProofs ChainProofs.
Import RoadProofs.
From Verif Require Import IdxModel IdxSpec IdxProofs IdxProofs2 IdxProofs3 IdxProofs4 IdxProofs5 IdxProofs6 IdxProofs7.
From Coq Require Import Permutation Sorted.
Import ListNotations.

(** ** The invariant *)
Definition improper (ops : list wop) : Prop := forall o, In o ops -> ~ proper (wkey o).
Definition entry (b : blk) (e : Z * list wop) : Prop := fst e = b_hash b /\ exists c, improper c /\ snd e = c ++ insert_ops b.
Definition plain (k : key) : Prop := match k with KRoad _ _ | KConf _ _ | KAddr _ | KId _ => False | _ => True end.
Definition known (S0 : list seg) (U : list blk) (h n : Z) : Prop :=
  exists b, In h (creates b) /\ ((exists g, In g S0 /\ In b (g_blocks g) /\ n = sb_height (g_sb g)) \/ (In b U /\ n = 0)).
Record inv (x : idx) (S0 : list seg) (U : list blk) (sv : list seg) : Prop := {
  v_wf : wf S0 U; v_swf : wf sv []; v_nd : NoDup (map fst (st_disk (i_store x)));
  v_disk : good (st_disk (i_store x)) sv [];
  v_snap : good (apply (st_snap (i_store x)) (st_disk (i_store x))) S0 [];
  v_mem : good (view (i_store x)) S0 U;
  v_unc : Forall2 entry U (st_unc (i_store x));
  v_cache : forall k v, get keq (i_cache x) k = Some v -> plain k /\ get keq (view (i_store x)) k = Some v;
  v_conf : forall h n, get Z.eqb (i_confirm x) h = Some n -> known S0 U h n }.
Lemma inv_ok x S0 U sv : inv x S0 U sv -> okx x S0 U.
Proof. intros V. constructor; [apply (v_wf _ _ _ _ V)|apply nodup_apply; apply (v_nd _ _ _ _ V)|apply (v_mem _ _ _ _ V)|]. intros k v E. now apply (v_cache _ _ _ _ V). Qed.
Lemma good_improper d c S0 U : improper c -> good d S0 U -> good (apply c d) S0 U.
Proof. intros I0 G k P v. rewrite get_out; [now apply G|]. intros o O E. apply (I0 o O). now rewrite E. Qed.
Lemma improper_create x a : improper (create_ops x a).
Proof. unfold create_ops. intros o. destruct (has_account x a); [intros []|]. intros [<-|[<-|[]]]; cbn; auto. Qed.
Lemma cached_plain o : cached o = true -> plain (wkey o).
Proof. destruct o as [[] v|[]]; cbn; try discriminate; auto. Qed.
(** The cache follows *)
Lemma cache_step ops cache d :
  (forall k v, get keq cache k = Some v -> plain k /\ get keq d k = Some v) ->
  (forall o, In o ops -> cached o = true \/ ~ plain (wkey o) \/ (get keq cache (wkey o) = None /\ forall o', In o' ops -> wkey o' = wkey o -> cached o' = false)) ->
  forall k v, get keq (apply (filter cached ops) cache) k = Some v -> plain k /\ get keq (apply ops d) k = Some v.
Proof.
  intros C H. assert (G : forall all l, (forall o, In o l -> In o all) -> (forall o, In o all -> cached o = true \/ ~ plain (wkey o) \/ (get keq cache (wkey o) = None /\ forall o', In o' all -> wkey o' = wkey o -> cached o' = false)) ->
    forall k v, get keq (apply (filter cached l) cache) k = Some v -> plain k /\ get keq (apply l d) k = Some v).
  { clear H ops. intros all. induction l as [|o l IH] using rev_ind; intros IN H k v; [apply C|]. assert (IN' : forall o, In o l -> In o all) by (intros; apply IN; apply in_or_app; now left). assert (IO : In o all) by (apply IN; apply in_or_app; right; now left).
    rewrite filter_app, !apply_app. change (apply [o] (apply l d)) with (apply1 (apply l d) o). rewrite get_apply1. cbn [filter]. destruct (cached o) eqn:Co.
    - change (apply [o] (apply (filter cached l) cache)) with (apply1 (apply (filter cached l) cache) o). rewrite get_apply1. destruct (keq (wkey o) k) eqn:E; [|now apply IH]. intros X. apply keq_spec in E. subst k. split; [now apply cached_plain|exact X].
    - change (apply [] (apply (filter cached l) cache)) with (apply (filter cached l) cache). intros X. destruct (keq (wkey o) k) eqn:E; [|now apply IH]. exfalso. apply keq_spec in E. destruct (H o IO) as [Q|[Q|[Q1 Q2]]]; [congruence| |].
      + destruct (IH IN' H k v X) as [P _]. subst k. contradiction.
      + subst k. rewrite get_out in X; [congruence|]. intros o' O' E. apply filter_In in O'. destruct O' as [O1 O2]. rewrite (Q2 o' (IN' o' O1) E) in O2. discriminate. }
  now apply (G ops ops).
Qed.
(** ** Adding a block *)
Lemma remember_fold hs : forall l h, get Z.eqb (fold_left (fun l h => remember h 0 l) hs l) h = if in_dec Z.eq_dec h hs then Some 0 else get Z.eqb l h.
Proof.
  induction hs as [|g hs IH]; intros l h; [reflexivity|]. cbn [fold_left]. rewrite IH. destruct (in_dec Z.eq_dec h hs) as [H|H]; destruct (in_dec Z.eq_dec h (g :: hs)) as [H'|H']; try reflexivity.
  - destruct H'. now right.
  - unfold remember. rewrite (get_put _ zeq). destruct H' as [->|H']; [now rewrite Z.eqb_refl|contradiction].
  - unfold remember. rewrite (get_put _ zeq). destruct (Z.eqb_spec g h) as [->|]; [destruct H'; now left|reflexivity].
Qed.
Lemma creates_hash b h : In h (creates b) -> In h (hashes b).
Proof.
  destruct b as [a n s|a n h' f subs]; cbn.
  - destruct (s_create s); cbn; tauto.
  - intros H. right. apply in_map_iff in H. destruct H as (x & <- & X). apply filter_In in X. apply in_map. tauto.
Qed.
Theorem inv_insert x S0 U sv b : inv x S0 U sv -> wf S0 (U ++ [b]) -> inv (insert x b) S0 (U ++ [b]) sv.
Proof.
  intros V W. pose proof (wf_fresh _ _ _ W) as F. constructor; try exact W; try exact (v_swf _ _ _ _ V); try exact (v_nd _ _ _ _ V); try exact (v_disk _ _ _ _ V); try exact (v_snap _ _ _ _ V); unfold insert; cbn [i_store i_cache i_confirm write_block st_disk st_mem st_snap st_unc view].
  - unfold view. cbn [st_mem st_disk write_block write_snapshot rollback_blocks]. rewrite !apply_app. apply good_add; [exact W|]. apply good_improper; [apply improper_create|]. apply (v_mem _ _ _ _ V).
  - apply Forall2_app; [apply (v_unc _ _ _ _ V)|]. constructor; [|constructor]. split; [reflexivity|]. exists (create_ops x (b_addr b)). split; [apply improper_create|reflexivity].
  - unfold view. cbn [st_mem st_disk write_block write_snapshot rollback_blocks]. rewrite apply_app. apply cache_step; [apply (v_cache _ _ _ _ V)|]. intros o O. apply in_app_or in O. destruct O as [O|O].
    + right. left. apply improper_create in O. destruct (wkey o); cbn in *; tauto.
    + apply ops_iff in O. destruct O as [(h' & Q & ->)|[->|[(s & X & [->| ->])|(a' & f & r & T & [->| ->])]]]; try (left; reflexivity); try (right; left; cbn; tauto). right. right. cbn [wkey]. split.
      * destruct (get keq (i_cache x) (KBlock (b_addr b) (b_height b))) as [v|] eqn:E; [|reflexivity]. apply (v_cache _ _ _ _ V) in E. destruct E as [_ E]. apply (v_mem _ _ _ _ V) in E; [|exact Logic.I]. exfalso.
        destruct v; try contradiction; cbn in E; [destruct E as (c & C & A & N & _)|destruct E as (g & c & G & C & A & N & _)]; (apply (f_pos _ _ F c); [apply in_bb; eauto|exact A|exact N]).
      * intros o' O' E. apply in_app_or in O'. destruct O' as [O'|O']; [apply improper_create in O'; rewrite E in O'; now destruct O'|]. apply ops_iff in O'. destruct O' as [(h' & Q & ->)|[->|[(s & X & [->| ->])|(a' & f & r & T & [->| ->])]]]; try discriminate. reflexivity.
  - intros h n. rewrite remember_fold. destruct (in_dec Z.eq_dec h (creates b)) as [H|H].
    + intros [= <-]. exists b. split; [exact H|]. right. split; [apply in_or_app; right; now left|reflexivity].
    + intros E. apply (v_conf _ _ _ _ V) in E. destruct E as (c & C & [Q|[Q E]]); exists c; (split; [exact C|]); [now left|right]. split; [apply in_or_app; now left|exact E].
Qed.
Lemma inv_inserts sv S0 bs : forall x U, inv x S0 U sv -> wf S0 (U ++ bs) -> inv (fold_left insert bs x) S0 (U ++ bs) sv.
Proof.
  induction bs as [|b bs IH]; intros x U V W; cbn [fold_left]; [now rewrite app_nil_r|]. replace (U ++ b :: bs) with ((U ++ [b]) ++ bs) in * by now rewrite <- app_assoc. apply IH; [|exact W]. apply inv_insert; [exact V|]. now apply wf_prefix in W.
Qed.
(** ** The batches of unconfirmed blocks *)
Lemma unc_get_ok U l b : Forall2 entry U l -> NoDup (map b_hash U) -> In b U -> exists c, improper c /\ unc_get (b_hash b) l = c ++ insert_ops b.
Proof.
  intros F. unfold unc_get. induction F as [|c e U l E F IH]; [intros _ []|]. cbn. intros N. inversion_clear N as [|? ? X Y]. intros [->|B].
  - destruct E as (E1 & c & C & E2). rewrite E1, Z.eqb_refl. eauto.
  - destruct E as (E1 & _). rewrite E1. destruct (Z.eqb_spec (b_hash c) (b_hash b)) as [E|]; [|auto]. destruct X. rewrite E. now apply in_map.
Qed.
Lemma apply_get_unc S0 l bs : forall V d, (forall b, In b bs -> exists c, improper c /\ unc_get (b_hash b) l = c ++ insert_ops b) -> wf S0 (V ++ bs) -> good d S0 V ->
  good (apply (flat_map (fun h => unc_get h l) (map b_hash bs)) d) S0 (V ++ bs).
Proof.
  induction bs as [|b bs IH]; intros V d H W G; cbn [map flat_map]; [now rewrite app_nil_r|]. replace (V ++ b :: bs) with ((V ++ [b]) ++ bs) in * by now rewrite <- app_assoc. rewrite apply_app. apply IH; [intros; apply H; now right|exact W|]. destruct (H b (or_introl eq_refl)) as (c & C & ->). rewrite apply_app. apply good_add; [now apply wf_prefix in W|]. now apply good_improper.
Qed.
Lemma apply_all_unc S0 U l : Forall2 entry U l -> forall V d, wf S0 (V ++ U) -> good d S0 V -> good (apply (unc_all l) d) S0 (V ++ U).
Proof.
  unfold unc_all. induction 1 as [|b e U l E F IH]; intros V d W G; cbn [map concat]; [now rewrite app_nil_r|]. replace (V ++ b :: U) with ((V ++ [b]) ++ U) in * by now rewrite <- app_assoc. rewrite apply_app. apply IH; [exact W|]. destruct E as (_ & c & C & ->). rewrite apply_app. apply good_add; [now apply wf_prefix in W|]. now apply good_improper.
Qed.
Lemma unc_rm_ok U l h : Forall2 entry U l -> Forall2 entry (filter (fun b => negb (b_hash b =? h)) U) (unc_rm h l).
Proof. unfold unc_rm. induction 1 as [|b e U l E F IH]; cbn; [constructor|]. assert (X := E). destruct X as (E1 & _). rewrite E1. destruct (b_hash b =? h); cbn; [exact IH|now constructor]. Qed.
Lemma filter_filter {A} (p q : A -> bool) l : filter p (filter q l) = filter (fun x => q x && p x) l.
Proof. induction l as [|x l IH]; cbn; [reflexivity|]. destruct (q x); cbn; [destruct (p x); now rewrite IH|exact IH]. Qed.
Lemma unc_rms_ok hs : forall U l, Forall2 entry U l -> Forall2 entry (filter (fun b => negb (existsb (fun h => h =? b_hash b) hs)) U) (fold_left (fun u h => unc_rm h u) hs l).
Proof.
  induction hs as [|h hs IH]; intros U l F; cbn [fold_left existsb].
  - replace (filter _ U) with U; [exact F|]. clear. induction U as [|b U IH]; cbn; [reflexivity|f_equal; exact IH].
  - specialize (IH _ _ (unc_rm_ok U l h F)). rewrite filter_filter in IH. erewrite filter_ext; [exact IH|]. intros b. rewrite (Z.eqb_sym h). now rewrite negb_orb.
Qed.
Lemma tops_nd S0 U : wf S0 U -> NoDup (map b_hash U).
Proof.
  intros W. pose proof (c_hash _ _ W) as N. unfold bb in N. rewrite flat_map_app in N. apply nd_app_r in N. clear - N. induction U as [|b U IH]; cbn; [constructor|]. cbn in N. constructor; [|apply IH; now apply nd_app_r in N]. intros H. apply in_map_iff in H. destruct H as (c & E & C). apply (nd_app_ht _ _ (b_hash b) N (hs_self b)). apply in_flat_map. exists c. split; [exact C|]. rewrite <- E. apply hs_self.
Qed.
Lemma same_top U b c : NoDup (map b_hash U) -> In b U -> In c U -> b_hash b = b_hash c -> b = c.
Proof.
  induction U as [|u U IH]; [intros _ []|]. cbn. intros N. inversion_clear N as [|? ? X Y]. intros [->|B] [->|C] E; [reflexivity| | |auto]; destruct X; [rewrite E|rewrite <- E]; now apply in_map.
Qed.
Lemma out_filter U q : NoDup (map b_hash U) -> filter (fun b => negb (existsb (fun h => h =? b_hash b) (map b_hash (filter q U)))) U = filter (fun b => negb (q b)) U.
Proof.
  intros N. apply filter_ext_in. intros b B. f_equal. destruct (q b) eqn:Q.
  - apply existsb_exists. exists (b_hash b). split; [apply in_map; now apply filter_In|apply Z.eqb_refl].
  - destruct (existsb _ _) eqn:E; [|reflexivity]. apply existsb_exists in E. destruct E as (h & H & E). apply Z.eqb_eq in E. subst h. apply in_map_iff in H. destruct H as (c & E & C). apply filter_In in C. destruct C as [C Qc]. rewrite (same_top U c b) in Qc; auto. congruence.
Qed.
(** ** A snapshot block *)
Lemma tops_fold n bs : forall l h, NoDup (map b_hash bs) -> get Z.eqb (fold_left (fun l b => if top_create b then remember (b_hash b) n l else l) bs l) h = if existsb (fun b => top_create b && (b_hash b =? h)) bs then Some n else get Z.eqb l h.
Proof.
  induction bs as [|b bs IH]; intros l h N; [reflexivity|]. cbn in N. inversion_clear N as [|? ? X Y]. cbn [fold_left existsb]. rewrite IH by exact Y. destruct (existsb _ bs) eqn:E; [now rewrite orb_true_r|]. rewrite orb_false_r. destruct (top_create b); cbn [andb]; [|reflexivity]. unfold remember. rewrite (get_put _ zeq). reflexivity.
Qed.
Theorem inv_snap w s loc locs : inv (w_idx w) (w_log w) (w_unc w) (w_saved w) -> snapshots w s ->
  inv (w_idx (snap w s loc locs)) (w_log (snap w s loc locs)) (w_unc (snap w s loc locs)) (w_saved (snap w s loc locs)).
Proof.
  intros V SN. pose proof (v_wf _ _ _ _ V) as W. destruct (wf_snap w s loc locs W SN) as [W1 W2]. unfold snap. cbn [w_idx w_log w_unc w_saved]. set (x := w_idx w) in *. set (S0 := w_log w) in *. set (U := w_unc w) in *. set (q := confirms (sb_content s)) in *. set (bs := filter q U) in *. set (rest := filter (fun b => negb (q b)) U) in *. set (g := Seg bs s loc locs) in *.
  pose proof (tops_nd _ _ W) as NT. assert (PM : forall b, In b U <-> In b (bs ++ rest)) by (intros b; split; apply Permutation_in; [|apply Permutation_sym]; apply filter_perm).
  constructor; try exact W2; try exact (v_swf _ _ _ _ V); try exact (v_nd _ _ _ _ V); try exact (v_disk _ _ _ _ V); try exact (v_snap _ _ _ _ V); unfold snapshot; cbn [i_store i_cache i_confirm write_snapshot st_disk st_mem st_snap st_unc view].
  - rewrite !apply_app. apply (good_snapshot S0 g []); [now apply (wf_prefix _ [] rest)|]. cbn [g_blocks g]. rewrite app_nil_r. apply (apply_get_unc S0 (st_unc (i_store x)) bs []); [|now apply wf_prefix in W1|apply (v_snap _ _ _ _ V)]. intros b B. apply (unc_get_ok U); [apply (v_unc _ _ _ _ V)|exact NT|]. unfold bs in B. apply filter_In in B. tauto.
  - unfold view. cbn [st_mem st_disk write_block write_snapshot rollback_blocks]. rewrite apply_app. apply (good_snapshot S0 g rest); [exact W2|]. cbn [g_blocks g]. apply (good_perm _ _ U); [exact PM|apply (v_mem _ _ _ _ V)].
  - unfold rest. rewrite <- (out_filter U q NT). apply unc_rms_ok. apply (v_unc _ _ _ _ V).
  - unfold view. cbn [st_mem st_disk write_block write_snapshot rollback_blocks]. rewrite apply_app. apply cache_step; [apply (v_cache _ _ _ _ V)|]. intros o O. apply snap_iff in O. destruct O as [->|[->|[(? & ? & _ & ->)|(b & _ & ->)]]]; try (left; reflexivity). right. left. cbn. tauto.
  - assert (NB : NoDup (map b_hash bs)) by (apply wf_prefix in W1; now apply tops_nd in W1). intros h n. rewrite tops_fold by exact NB. destruct (existsb _ bs) eqn:E.
    + intros [= <-]. apply existsb_exists in E. destruct E as (b & B & E). apply andb_true_iff in E. destruct E as [E1 E2]. apply Z.eqb_eq in E2. subst h. exists b. split; [destruct b as [a m y|]; cbn in *; [|discriminate]; rewrite E1; now left|]. left. exists g. split; [apply in_or_app; right; now left|]. split; [exact B|reflexivity].
    + intros E'. apply (v_conf _ _ _ _ V) in E'. destruct E' as (c & C & [(g' & G & Q & ->)|[Q ->]]); exists c; (split; [exact C|]).
      * left. exists g'. split; [apply in_or_app; now left|auto].
      * right. split; [|reflexivity]. apply PM in Q. apply in_app_or in Q. destruct Q as [Q|Q]; [|exact Q]. exfalso. assert (T : top_create c && (b_hash c =? h) = true).
        { destruct c as [a m y|a m r f subs]; cbn in *.
          - destruct (s_create y); [|destruct C]. destruct C as [<-|[]]. now rewrite Z.eqb_refl.
          - assert (Fs : Forall (fun s => s_create s = false) subs) by (apply (c_subs _ _ W a m r f); apply in_bb; right; unfold bs in Q; apply filter_In in Q; tauto). apply in_map_iff in C. destruct C as (y & _ & Y). apply filter_In in Y. rewrite Forall_forall in Fs. destruct Y as [Y1 Y2]. rewrite (Fs y Y1) in Y2. discriminate. }
        assert (X : existsb (fun b => top_create b && (b_hash b =? h)) bs = true) by (apply existsb_exists; eauto). congruence.
Qed.
(** ** Deleting unconfirmed blocks *)
Lemma iblocks_map bs : iblocks (map IBlock bs) = bs. Proof. unfold iblocks. induction bs as [|b bs IH]; cbn; [reflexivity|now rewrite IH]. Qed.
Lemma isbs_map bs : isbs (map IBlock bs) = []. Proof. unfold isbs. induction bs as [|b bs IH]; cbn; [reflexivity|exact IH]. Qed.
Lemma forget_ok hs : forall l h, get Z.eqb (forget l hs) h = if in_dec Z.eq_dec h hs then None else get Z.eqb l h.
Proof.
  unfold forget. induction hs as [|g hs IH]; intros l h; [reflexivity|]. cbn [fold_left]. rewrite IH. destruct (in_dec Z.eq_dec h hs) as [H|H]; destruct (in_dec Z.eq_dec h (g :: hs)) as [H'|H']; try reflexivity.
  - destruct H'. now right.
  - rewrite (get_del _ zeq). destruct H' as [->|H']; [now rewrite Z.eqb_refl|contradiction].
  - rewrite (get_del _ zeq). destruct (Z.eqb_spec g h) as [->|]; [destruct H'; now left|reflexivity].
Qed.
Lemma rollback_cached P : chainlike (iblocks P) -> forall o, In o (rollback_ops P) -> cached o = true \/ ~ plain (wkey o).
Proof.
  intros CH o. unfold rollback_ops. assert (G : forall P o0 w, (forall b, In b (iblocks P) -> kept b) -> In w (fst (undo_all o0 P)) -> cached w = true \/ ~ plain (wkey w)).
  { clear. induction P as [|i P IH]; intros o0 w KP; cbn; [intros []|]. assert (KP' : forall b, In b (iblocks P) -> kept b) by (intros b B; apply KP; cbn; apply in_or_app; now right). destruct (undo o0 i) as [ops o1] eqn:EU. specialize (IH o1 w KP'). destruct (undo_all o1 P) as [ops2 o2]. cbn. intros H. apply in_app_or in H. destruct H as [H|H]; [|now apply IH]. destruct i as [b|s].
    - assert (KB : kept b) by (apply KP; cbn; now left). assert (H' : In w (fst (undo o0 (IBlock b)))) by now rewrite EU. apply undo_iff in H'; [|exact KB]. destruct H' as [(h' & X & ->)|[->|(? & ? & ? & T' & [[_ ->]|[Q' [->| ->]]])]]; auto; right; cbn; tauto.
    - cbn in EU. injection EU as <- _. destruct H as [<-|[<-|H]]; auto. apply in_map_iff in H. destruct H as (c & <- & _). right. cbn. tauto. }
  specialize (G P [] o (k_kept _ CH)). destruct (undo_all [] P) as [ops open]. cbn in G. intros H. apply in_app_or in H. destruct H as [H|H]; [now apply G|]. apply in_flat_map in H. destruct H as (e & _ & [<-|[<-|[]]]); [right; cbn; tauto|now left].
Qed.
Theorem inv_delete x S0 U sv bs : inv x S0 U sv ->
  (exists q, bs = filter q U) ->
  (forall b y, In b bs -> In y (sends b) -> forall a n h subs, In (BRecv a n h (Some (s_hash y)) subs) U -> In (BRecv a n h (Some (s_hash y)) subs) bs) ->
  (forall b, In b bs -> kept b) -> inv (delete x bs) S0 (without U bs) sv.
Proof.
  intros V (q & EQ) DC KP. pose proof (v_wf _ _ _ _ V) as W. pose proof (tops_nd _ _ W) as NT.
  assert (EW : without U bs = filter (fun b => negb (q b)) U).
  { rewrite <- (out_filter U q NT). unfold without. apply filter_ext. intros b. f_equal. rewrite EQ. clear. generalize (filter q U). intros m. induction m as [|c l IH]; cbn [existsb map]; [reflexivity|]. rewrite IH. reflexivity. }
  assert (IQ : forall b, In b bs <-> In b U /\ q b = true) by (intros b; rewrite EQ; apply filter_In).
  assert (KE : keeps U (fun b => negb (q b))).
  { intros a n h f subs c y B Qb C Y E. destruct (q c) eqn:Qc; [|reflexivity]. exfalso. assert (X : In (BRecv a n h (Some f) subs) bs) by (subst f; apply (DC c y); auto; apply IQ; auto). apply IQ in X. destruct X as [_ X]. rewrite X in Qb. discriminate. }
  assert (W' : wf S0 (without U bs)) by (rewrite EW; now apply wf_filter).
  assert (SB : forall b, In b bs -> In b (bb S0 U)) by (intros b B; apply in_bb; right; apply IQ in B; tauto).
  assert (CH : chainlike bs).
  { constructor; auto.
    - pose proof (c_hash _ _ W) as N. unfold bb in N. rewrite flat_map_app in N. apply nd_app_r in N. rewrite EQ. now apply nd_flat_filter.
    - pose proof (c_taken _ _ W) as N. unfold taken, bb in N. rewrite flat_map_app in N. apply nd_app_r in N. rewrite EQ. unfold taken. now apply nd_flat_filter.
    - intros l b r a f h E T (t & c' & y' & C' & Y' & E' & _). rewrite EQ in E. destruct (filter_split _ _ _ _ _ E) as (u1 & u2 & EU & -> & _ & Q). pose proof (c_from _ _ W (flat_map g_blocks S0 ++ u1) b u2) as A. unfold bb in A. rewrite EU, <- app_assoc in A. specialize (A eq_refl). destruct T as (n & subs & ->). cbn in A. destruct A as (c & y & C & Y & Ey & Ty).
      exists a, c, y. split; [|auto]. assert (CB : In c (bb S0 U)) by (unfold bb; rewrite EU; apply in_app_or in C; apply in_or_app; destruct C as [C|C]; [now left|right; apply in_or_app; now left]). assert (c = c') by (apply (same_block (bb S0 U) f); [apply (c_hash _ _ W)|exact CB|now apply SB|rewrite <- Ey; now apply hs_send|rewrite <- E'; now apply hs_send]). subst c'.
      apply in_app_or in C. destruct C as [C|C].
      + exfalso. pose proof (c_hash _ _ W) as N. unfold bb in N. apply (apart _ _ c N C). apply IQ in C'. tauto.
      + apply filter_In. split; [exact C|]. apply IQ in C'. tauto. }
  set (P := map IBlock bs). assert (ED : iblocks P = bs) by apply iblocks_map.
  constructor; try exact W'; try exact (v_swf _ _ _ _ V); try exact (v_nd _ _ _ _ V); try exact (v_disk _ _ _ _ V); try exact (v_snap _ _ _ _ V); unfold delete; cbn [i_store i_cache i_confirm rollback_blocks st_disk st_mem st_snap st_unc view].
  - unfold view. cbn [st_mem st_disk write_block write_snapshot rollback_blocks]. rewrite apply_app. apply (good_undo S0 [] U (without U bs) P); rewrite ?app_nil_r, ?ED; auto.
    + apply (v_mem _ _ _ _ V).
    + unfold P. rewrite isbs_map. intros s. split; [intros []|intros (? & [] & _)].
    + intros b. rewrite EW, filter_In, IQ. destruct (q b); cbn; intuition congruence.
    + intros g b [].
    + intros g b G B C. apply IQ in C. pose proof (c_hash _ _ W) as N. unfold bb in N. apply (apart _ _ b N); [apply in_flat_map; eauto|tauto].
    + intros f t (c & y & C & Y & E & _) a n h subs H. subst f. apply in_bb in H. destruct H as [(g & G & H)|H]; [|now apply (DC c y)]. exfalso.
      apply in_split in H. destruct H as (l & r & EH). apply in_split in G. destruct G as (g1 & g2 & EG). pose proof (c_from _ _ W (flat_map g_blocks g1 ++ l) (BRecv a n h (Some (s_hash y)) subs) (r ++ flat_map g_blocks g2 ++ U)) as A. unfold bb in A. rewrite EG, flat_map_app in A. cbn [flat_map] in A. rewrite EH in A. rewrite <- !app_assoc in A. specialize (A eq_refl). cbn in A. destruct A as (c' & y' & C' & Y' & E' & _).
      assert (CF : In c' (flat_map g_blocks S0)).
      { rewrite EG, flat_map_app. cbn [flat_map]. rewrite EH. apply in_or_app. apply in_app_or in C'. destruct C' as [C'|C']; [now left|right]. apply in_or_app. left. apply in_or_app. now left. }
      assert (c' = c) by (apply (same_block (bb S0 U) (s_hash y)); [apply (c_hash _ _ W)|apply in_or_app; now left|now apply SB|rewrite <- E'; now apply hs_send|now apply hs_send]). subst c'. pose proof (c_hash _ _ W) as N. unfold bb in N. apply (apart _ _ c N CF). apply IQ in C. tauto.
  - rewrite EW, <- (out_filter U q NT), <- EQ. apply unc_rms_ok. apply (v_unc _ _ _ _ V).
  - unfold view. cbn [st_mem st_disk write_block write_snapshot rollback_blocks]. rewrite apply_app. apply cache_step; [apply (v_cache _ _ _ _ V)|]. intros o O. destruct (rollback_cached P) with (o := o) as [X|X]; auto. now rewrite ED.
  - intros h n. rewrite forget_ok. destruct (in_dec Z.eq_dec h (flat_map creates bs)) as [H|H]; [discriminate|]. intros E. apply (v_conf _ _ _ _ V) in E. destruct E as (c & C & [Q|[Q E]]); exists c; (split; [exact C|]); [now left|right]. split; [|exact E]. rewrite EW. apply filter_In. split; [exact Q|]. destruct (q c) eqn:Qc; [|reflexivity]. destruct H. apply in_flat_map. exists c. split; [apply IQ; auto|exact C].
Qed.
