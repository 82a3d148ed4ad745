From Verif Require Import Lib.
From Verif Require RoadModel RoadProofs.
Import RoadProofs.
From Verif Require Import IdxModel IdxSpec IdxProofs IdxProofs2 IdxProofs3 IdxProofs4.
From Coq Require Import Permutation Sorted.
Import ListNotations.

(** ** The whole rollback *)
Lemma open_iff (o : open_t) w : NoDup (map fst o) -> In w (flat_map (fun e => [WDel (KRoad (snd e) (fst e)); WDel (KRecv (fst e))]) o) <-> exists s t, get Z.eqb o s = Some t /\ (w = WDel (KRoad t s) \/ w = WDel (KRecv s)).
Proof.
  intros N. rewrite in_flat_map. split.
  - intros ([s t] & O & H). exists s, t. split; [now apply (in_get _ zeq)|]. cbn in H. destruct H as [<-|[<-|[]]]; auto.
  - intros (s & t & G & H). exists (s, t). split; [now apply (get_in _ zeq)|]. cbn. destruct H as [->| ->]; auto.
Qed.
Lemma sentany_dec D s : sentany D s \/ ~ sentany D s.
Proof.
  destruct (in_dec Z.eq_dec s (flat_map (fun b => map s_hash (sends b)) D)) as [H|H].
  - left. apply in_flat_map in H. destruct H as (b & B & H). apply in_map_iff in H. destruct H as (x & E & X). exists (s_to x), b, x. auto.
  - right. intros (t & b & x & B & X & E & _). apply H. apply in_flat_map. exists b. split; [exact B|]. apply in_map_iff. eauto.
Qed.
Record rolled (P : list item) (d d' : db) : Prop := {
  r_hash : forall h, changed (In h (flat_map hashes (iblocks P))) None (get keq d' (KHash h)) (get keq d (KHash h));
  r_block : forall a n, changed (In (a, n) (map pos (iblocks P))) None (get keq d' (KBlock a n)) (get keq d (KBlock a n));
  r_recv1 : forall s, sentany (iblocks P) s -> get keq d' (KRecv s) = None;
  r_recv2 : forall s, ~ sentany (iblocks P) s -> changed (In s (taken (iblocks P))) (Some VOpen) (get keq d' (KRecv s)) (get keq d (KRecv s));
  r_road1 : forall t s, sent (iblocks P) s t -> ~ In s (taken (iblocks P)) -> get keq d' (KRoad t s) = None;
  r_road2 : forall t s, ~ (sent (iblocks P) s t /\ ~ In s (taken (iblocks P))) -> changed (takenby (iblocks P) t s /\ ~ sentany (iblocks P) s) (Some VNil) (get keq d' (KRoad t s)) (get keq d (KRoad t s));
  r_conf : forall a n, changed (exists s, In s (isbs P) /\ In (a, n) (sb_content s)) None (get keq d' (KConf a n)) (get keq d (KConf a n));
  r_sb : forall h, changed (exists s, In s (isbs P) /\ sb_hash s = h) None (get keq d' (KSb h)) (get keq d (KSb h));
  r_sbat : forall n, changed (exists s, In s (isbs P) /\ sb_height s = n) None (get keq d' (KSbAt n)) (get keq d (KSbAt n)) }.
Lemma rolled_ok P d : chainlike (iblocks P) -> rolled P d (apply (rollback_ops P) d).
Proof.
  intros CH. pose proof (undo_spec P CH) as U. unfold rollback_ops. destruct (undo_all [] P) as [ops o]. cbn [fst snd] in U. rewrite apply_app. set (d1 := apply ops d).
  set (fin := flat_map (fun e => [WDel (KRoad (snd e) (fst e)); WDel (KRecv (fst e))]) o). assert (IFF : forall w, In w fin <-> exists s t, get Z.eqb o s = Some t /\ (w = WDel (KRoad t s) \/ w = WDel (KRecv s))) by (intros w; apply open_iff; apply (u_nd _ _ _ U)).
  assert (NOT : forall k, match k with KRoad _ _ | KRecv _ => False | _ => True end -> get keq (apply fin d1) k = get keq d1 k).
  { intros k K. apply get_out. intros w Hw E. apply IFF in Hw. destruct Hw as (s & t & _ & [->| ->]); cbn in E; subst k; destruct K. }
  constructor.
  - intros h. rewrite (NOT (KHash h) Logic.I). apply (u_hash _ _ _ U).
  - intros a n. rewrite (NOT (KBlock a n) Logic.I). apply (u_block _ _ _ U).
  - intros s Q. destruct (in_dec Z.eq_dec s (taken (iblocks P))) as [T|T].
    + destruct (get_last fin d1 (KRecv s)) as [(l & w & r & E & K & _ & ->)|[_ ->]].
      * assert (Hw : In w fin) by (rewrite E; apply in_or_app; right; now left). apply IFF in Hw. now destruct Hw as (s' & t & _ & [->| ->]).
      * destruct (u_recv _ _ _ U d s) as [A _]. apply A; assumption.
    + destruct Q as (t & Q). assert (G : get Z.eqb o s = Some t) by (apply (u_open _ _ _ U); tauto). apply (get_in_op fin d1 (WDel (KRecv s))); [apply IFF; exists s, t; auto|]. intros w Hw _. apply IFF in Hw. now destruct Hw as (s' & t' & _ & [->| ->]).
  - intros s Q. rewrite get_out.
    + destruct (u_recv _ _ _ U d s) as [A B]. split; [intros T; now apply A|exact B].
    + intros w Hw E. apply IFF in Hw. destruct Hw as (s' & t & G & [->| ->]); [discriminate|]. cbn in E. injection E as ->. apply Q. exists t. apply (u_open _ _ _ U) in G. tauto.
  - intros t s Q T. apply (get_in_op fin d1 (WDel (KRoad t s))); [apply IFF; exists s, t; split; [apply (u_open _ _ _ U); tauto|auto]|]. intros w Hw _. apply IFF in Hw. now destruct Hw as (s' & t' & _ & [->| ->]).
  - intros t s Q. rewrite get_out; [apply (u_road _ _ _ U)|]. intros w Hw E. apply IFF in Hw. destruct Hw as (s' & t' & G & [->| ->]); [|discriminate]. cbn in E. injection E as -> ->. apply Q. now apply (u_open _ _ _ U).
  - intros a n. rewrite (NOT (KConf a n) Logic.I). apply (u_conf _ _ _ U).
  - intros h. rewrite (NOT (KSb h) Logic.I). apply (u_sb _ _ _ U).
  - intros n. rewrite (NOT (KSbAt n) Logic.I). apply (u_sbat _ _ _ U).
Qed.
Lemma recv_same L a n h f subs a' n' h' subs' : NoDup (taken L) -> In (BRecv a n h (Some f) subs) L -> In (BRecv a' n' h' (Some f) subs') L -> BRecv a n h (Some f) subs = BRecv a' n' h' (Some f) subs'.
Proof.
  intros N H K. induction L as [|b L IH]; [destruct H|]. cbn in N. destruct H as [->|H], K as [K|K].
  - exact K.
  - exfalso. cbn in N. inversion_clear N as [|? ? X _]. apply X. apply taken_iff. now exists h', a', n', subs'.
  - exfalso. subst b. cbn in N. inversion_clear N as [|? ? X _]. apply X. apply taken_iff. now exists h, a, n, subs.
  - apply IH; auto. now apply nd_app_r in N.
Qed.
Theorem good_undo S1 T U U1 P d : wf (S1 ++ T) U -> good d (S1 ++ T) U -> chainlike (iblocks P) ->
  (forall s, In s (isbs P) <-> exists g, In g T /\ g_sb g = s) ->
  (forall b, In b U1 <-> In b U /\ ~ In b (iblocks P)) ->
  (forall g b, In g T -> In b (g_blocks g) -> In b (iblocks P)) ->
  (forall g b, In g S1 -> In b (g_blocks g) -> ~ In b (iblocks P)) ->
  (forall b, In b (iblocks P) -> In b (bb (S1 ++ T) U)) ->
  (forall f t, sent (iblocks P) f t -> forall a n h subs, In (BRecv a n h (Some f) subs) (bb (S1 ++ T) U) -> In (BRecv a n h (Some f) subs) (iblocks P)) ->
  good (apply (rollback_ops P) d) S1 U1.
Proof.
  intros W G CH HS HU HT HK HD HC k PK v. pose proof (rolled_ok P d CH) as X. set (d' := apply (rollback_ops P) d) in *. set (D := iblocks P) in *. set (L := bb (S1 ++ T) U) in *.
  assert (RL : forall b, In b (bb S1 U1) <-> In b L /\ ~ In b D).
  { intros b. unfold L. rewrite !in_bb, HU. split.
    - intros [(g & A & B)|[A B]]; [split; [left; exists g; split; [apply in_or_app; now left|exact B]|now apply (HK g)]|split; [now right|exact B]].
    - intros ([(g & A & B)|A] & C); [|right; auto]. apply in_app_or in A. destruct A as [A|A]; [left; eauto|]. destruct C. now apply (HT g). }
  pose proof (c_hash _ _ W) as N. fold L in N.
  assert (SR : forall s t, sent (bb S1 U1) s t <-> sent L s t /\ ~ sentany D s).
  { intros s t. split.
    - intros (b & x & B & Y & E & F). apply RL in B. destruct B as [B NB]. split; [exists b, x; auto|]. intros (t' & c & y & C & Y' & E' & _). apply NB. rewrite (same_block L s b c N B (HD c C)); [exact C| |]; [rewrite <- E|rewrite <- E']; now apply hs_send.
    - intros ((b & x & B & Y & E & F) & NS). exists b, x. split; [|auto]. apply RL. split; [exact B|]. intros C. apply NS. exists t, b, x. auto. }
  assert (RR : forall s r, received_at (bb S1 U1) s r -> received_at L s r /\ ~ In s (taken D) /\ ~ sentany D s).
  { intros s r (a & n & subs & H). apply RL in H. destruct H as [H NH]. split; [now exists a, n, subs|]. split.
    - intros Q. apply taken_iff in Q. destruct Q as (r' & a' & n' & subs' & H'). apply NH. rewrite (recv_same L _ _ _ _ _ _ _ _ _ (c_taken _ _ W) H (HD _ H')). exact H'.
    - intros (t & Q). apply NH. now apply (HC s t). }
  assert (RI : forall s r, received_at L s r -> ~ In s (taken D) -> received_at (bb S1 U1) s r).
  { intros s r (a & n & subs & H) Q. exists a, n, subs. apply RL. split; [exact H|]. intros C. apply Q. apply taken_iff. now exists r, a, n, subs. }
  assert (LT : forall s, In s (taken D) -> In s (taken L)).
  { intros s Q. apply taken_iff in Q. destruct Q as (r & a & n & subs & H). apply taken_iff. exists r, a, n, subs. now apply HD. }
  destruct k as [h|a n|s|a n|t s|h|n|a|i]; try contradiction.
  - destruct (r_hash _ _ _ X h) as [A B]. fold D in A, B. destruct (in_dec Z.eq_dec h (flat_map hashes D)) as [H|H].
    + rewrite (A H). destruct v; cbn; split; try discriminate; try (now intros []). intros (b & Bb & Hh & _). exfalso. apply RL in Bb. destruct Bb as [Bb NB]. apply in_flat_map in H. destruct H as (c & C & Hc). apply NB. rewrite (same_block L h b c N Bb (HD c C) Hh Hc). exact C.
    + rewrite (B H), (G _ PK v). destruct v; try reflexivity. cbn. split; intros (b & Bb & Hh & Q); exists b; (split; [|auto]).
      * apply RL. split; [exact Bb|]. intros C. apply H. apply in_flat_map. eauto.
      * now apply RL in Bb.
  - destruct (r_block _ _ _ X a n) as [A B]. fold D in A, B. destruct (in_dec (fun x y : Z * Z => ltac:(decide equality; apply Z.eq_dec)) (a, n) (map pos D)) as [H|H].
    + rewrite (A H). apply in_map_iff in H. destruct H as (c & Ec & C). injection Ec as <- <-.
      assert (NO : forall b, In b (bb S1 U1) -> b_addr b = b_addr c -> b_height b = b_height c -> False).
      { intros b Bb E1 E2. apply RL in Bb. destruct Bb as [Bb NB]. apply NB. rewrite (same_at L b c (c_order _ _ W) Bb (HD c C) E1 E2). exact C. }
      destruct v as [ |h|h l| | | | |]; cbn; split; try discriminate; try (now intros []).
      * intros (b & Bb & E1 & E2 & _). destruct (NO b); auto. apply in_bb. now right.
      * intros (g & b & Gg & Bb & E1 & E2 & _). destruct (NO b); auto. apply in_bb. left. eauto.
    + rewrite (B H), (G _ PK v). assert (ND : forall b, In b D -> b_addr b = a -> b_height b = n -> False) by (intros b Hb E1 E2; apply H; apply in_map_iff; exists b; unfold pos; split; [congruence|exact Hb]). destruct v as [ |h|h l| | | | |]; try reflexivity; cbn.
      * split; intros (b & Bb & E1 & E2 & Q); exists b; (split; [|auto]); [apply HU; split; [exact Bb|]; intros C; now apply (ND b)|now apply HU in Bb].
      * split; intros (g & b & Gg & Bb & E1 & E2 & Q); exists g, b; (split; [|auto]); [|apply in_or_app; now left]. apply in_app_or in Gg. destruct Gg as [Gg|Gg]; [exact Gg|]. destruct (ND b); auto. now apply (HT g).
  - destruct (sentany_dec D s) as [SD|SD].
    + rewrite (r_recv1 _ _ _ X s SD). destruct v; cbn; split; try discriminate; try (now intros []).
      * intros ((t & Q) & _). apply SR in Q. tauto.
      * intros Q. apply RR in Q. tauto.
    + destruct (r_recv2 _ _ _ X s SD) as [A B]. fold D in A, B. destruct (in_dec Z.eq_dec s (taken D)) as [TD|TD].
      * rewrite (A TD). destruct v; cbn; split; try discriminate; try (now intros []); intros Q.
        -- destruct (taken_sent _ _ s W (LT s TD)) as (t & Q'). fold L in Q'. split; [exists t; now apply SR|]. intros r Y. apply RR in Y. tauto.
        -- apply RR in Q. tauto.
      * rewrite (B TD), (G _ PK v). destruct v; try reflexivity; cbn; fold L.
        -- split; intros ((t & Q) & Q'); (split; [exists t|]); [apply SR; tauto| |apply SR in Q; tauto|]; intros r Y; apply (Q' r); [apply RR in Y; tauto|now apply RI].
        -- split; [intros Q; now apply RI|intros Q; apply RR in Q; tauto].
  - destruct (r_conf _ _ _ X a n) as [A B]. destruct (in_dec (fun x y : Z * Z => ltac:(decide equality; apply Z.eq_dec)) (a, n) (flat_map sb_content (isbs P))) as [H|H].
    + apply in_flat_map in H. rewrite (A H). destruct H as (s & Hs & Hc). apply HS in Hs. destruct Hs as (g & Gg & <-). destruct v; cbn; split; try discriminate; try (now intros []). intros (g' & Gg' & C & _). exfalso.
      destruct (c_named _ _ W g a n) as (b & Bb & E1 & E2); [apply in_or_app; now right|exact Hc|]. destruct (c_named _ _ W g' a n) as (b' & Bb' & E1' & E2'); [apply in_or_app; now left|exact C|].
      apply (HK g' b' Gg' Bb'). rewrite (same_at L b' b (c_order _ _ W)); try congruence; [now apply (HT g)| |]; unfold L; apply in_bb; left; eexists; split; try eassumption; apply in_or_app; auto.
    + rewrite B by (intros (s & Hs & Hc); apply H; apply in_flat_map; eauto). rewrite (G _ PK v). destruct v; try reflexivity; cbn. split; intros (g & Gg & C & Q); exists g; (split; [|auto]); [|apply in_or_app; now left]. apply in_app_or in Gg. destruct Gg as [Gg|Gg]; [exact Gg|]. destruct H. apply in_flat_map. exists (g_sb g). split; [apply HS; eauto|exact C].
  - destruct (sentany_dec D s) as [SD|SD].
    + assert (NF : forall v', fact S1 U1 (KRoad t s) v' -> False) by (intros v'; destruct v'; cbn; try (now intros []); intros (Q & _); apply SR in Q; tauto).
      assert (E : get keq d' (KRoad t s) = None).
      { destruct SD as (t' & SD). destruct (in_dec Z.eq_dec s (taken D)) as [TD|TD].
        - destruct (r_road2 _ _ _ X t s) as [_ B]; [fold D; tauto|]. rewrite B by (intros (_ & Y); apply Y; now exists t'). destruct (get keq d (KRoad t s)) as [v'|] eqn:Ev; [|reflexivity]. exfalso. apply G in Ev; [|exact Logic.I]. destruct v'; try contradiction. destruct Ev as (_ & Q). apply LT in TD. apply taken_iff in TD. destruct TD as (r & TD). now apply (Q r).
        - destruct (Z.eq_dec t t') as [->|Et]; [now apply (r_road1 _ _ _ X)|]. assert (SL : sent L s t') by (destruct SD as (b & x & Bb & Q); exists b, x; auto).
          destruct (r_road2 _ _ _ X t s) as [_ B].
          { fold D. intros (Q & _). apply Et. apply (sent_one D s t t' (k_nd _ CH) Q SD). }
          rewrite B by (intros (_ & Y); apply Y; now exists t'). destruct (get keq d (KRoad t s)) as [v'|] eqn:Ev; [|reflexivity]. exfalso. apply G in Ev; [|exact Logic.I]. destruct v'; try contradiction. destruct Ev as (Q & _). apply Et. apply (sent_one L s t t' N Q SL). }
      rewrite E. split; [discriminate|]. intros Q. now apply NF in Q.
    + destruct (r_road2 _ _ _ X t s) as [A B]; [fold D; intros (Q & _); apply SD; now exists t|]. fold D in A, B. destruct (in_dec Z.eq_dec s (taken D)) as [TD|TD].
      * pose proof TD as TD'. apply taken_iff in TD'. destruct TD' as (r & a & n & subs & H). pose proof (recv_sent _ _ _ _ _ _ _ W (HD _ H)) as QS. fold L in QS. destruct (Z.eq_dec a t) as [->|Ea].
        -- rewrite A by (split; [exists (BRecv t n r (Some s) subs), r; split; [exact H|now exists n, subs]|exact SD]). destruct v; cbn; split; try discriminate; try (now intros []). intros _. split; [now apply SR|]. intros r' Q. apply RR in Q. tauto.
        -- rewrite B.
           2:{ intros ((b & r' & Bb & n' & subs' & ->) & _). pose proof (recv_same L _ _ _ _ _ _ _ _ _ (c_taken _ _ W) (HD _ H) (HD _ Bb)). congruence. }
           rewrite (G _ PK v). destruct v; try reflexivity. cbn. fold L. split; intros (Q & _); exfalso; apply Ea; [|apply SR in Q; destruct Q as [Q _]]; exact (sent_one L s a t N QS Q).
      * rewrite B by (intros (Y & _); apply takenby_taken in Y; contradiction). rewrite (G _ PK v). destruct v; try reflexivity. cbn. fold L. rewrite SR. split; intros (Q & Q'); (split; [tauto|]); intros r Y; apply (Q' r); [apply RR in Y; tauto|now apply RI].
  - destruct (r_sb _ _ _ X h) as [A B]. destruct (in_dec Z.eq_dec h (map sb_hash (isbs P))) as [H|H].
    + apply in_map_iff in H. destruct H as (s & E & Hs). rewrite A by eauto. apply HS in Hs. destruct Hs as (g & Gg & <-). destruct v; cbn; split; try discriminate; try (now intros []). intros (g' & Gg' & C & _). exfalso. destruct (sorted_in _ _ _ _ _ (c_sbs _ _ W) Gg' Gg). congruence.
    + rewrite B by (intros (s & Hs & Hc); apply H; apply in_map_iff; eauto). rewrite (G _ PK v). destruct v; try reflexivity; cbn. split; intros (g & Gg & C & Q); exists g; (split; [|auto]); [|apply in_or_app; now left]. apply in_app_or in Gg. destruct Gg as [Gg|Gg]; [exact Gg|]. destruct H. apply in_map_iff. exists (g_sb g). split; [exact C|apply HS; eauto].
  - destruct (r_sbat _ _ _ X n) as [A B]. destruct (in_dec Z.eq_dec n (map sb_height (isbs P))) as [H|H].
    + apply in_map_iff in H. destruct H as (s & E & Hs). rewrite A by eauto. apply HS in Hs. destruct Hs as (g & Gg & <-). destruct v; cbn; split; try discriminate; try (now intros []). intros (g' & Gg' & C & _). exfalso. destruct (sorted_in _ _ _ _ _ (c_sbs _ _ W) Gg' Gg). lia.
    + rewrite B by (intros (s & Hs & Hc); apply H; apply in_map_iff; eauto). rewrite (G _ PK v). destruct v; try reflexivity; cbn. split; intros (g & Gg & C & Q); exists g; (split; [|auto]); [|apply in_or_app; now left]. apply in_app_or in Gg. destruct Gg as [Gg|Gg]; [exact Gg|]. destruct H. apply in_map_iff. exists (g_sb g). split; [exact C|apply HS; eauto].
Qed.
Print Assumptions good_undo.
