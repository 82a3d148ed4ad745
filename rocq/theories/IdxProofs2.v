From Verif Require Import Lib.
From Verif Require RoadModel RoadProofs.
Import RoadProofs.
From Verif Require Import IdxModel IdxSpec IdxProofs.
From Coq Require Import Permutation Sorted.
Import ListNotations.

(** ** A block more *)
Definition takes (b : blk) (a f h : Z) : Prop := exists n subs, b = BRecv a n h (Some f) subs.
Lemma ops_iff b o : In o (insert_ops b) <->
  (exists h, In h (hashes b) /\ o = WPut (KHash h) (VAt (b_addr b) (b_height b))) \/ o = WPut (KBlock (b_addr b) (b_height b)) (VHash (b_hash b)) \/
  (exists x, In x (sends b) /\ (o = WPut (KRecv (s_hash x)) VOpen \/ o = WPut (KRoad (s_to x) (s_hash x)) VNil)) \/
  (exists a f h, takes b a f h /\ (o = WPut (KRecv f) (VBy h) \/ o = WDel (KRoad a f))).
Proof.
  destruct b as [a n s|a n h from subs]; unfold insert_ops, takes; cbn [b_addr b_height b_hash hashes sends].
  - split.
    + intros [<-|[<-|[<-|[<-|[]]]]]; [left; exists (s_hash s); split; [now left|reflexivity]|auto| |]; right; right; left; exists s; (split; [now left|auto]).
    + intros [(h & [<-|[]] & ->)|[->|[(x & [<-|[]] & [->| ->])|(a' & f & h & (m & subs & E) & _)]]]; cbn; auto 10. discriminate.
  - rewrite !in_app_iff, in_flat_map. split.
    + intros [[<-|[<-|[]]]|[H|(x & X & H)]].
      * left. exists h. split; [now left|reflexivity].
      * auto.
      * right; right; right. destruct from as [f|]; [|destruct H]. exists a, f, h. split; [now exists n, subs|]. destruct H as [<-|[<-|[]]]; auto.
      * destruct H as [<-|[<-|[<-|[]]]].
        -- right; right; left. exists x. auto.
        -- left. exists (s_hash x). split; [right; now apply in_map|reflexivity].
        -- right; right; left. exists x. auto.
    + intros [(h' & [<-|H] & ->)|[->|[(x & X & [->| ->])|(a' & f & h' & (m & subs' & E) & H)]]].
      * left. now left.
      * right. right. apply in_map_iff in H. destruct H as (x & <- & X). exists x. split; [exact X|]. right. now left.
      * left. right. now left.
      * right. right. exists x. split; [exact X|]. now left.
      * right. right. exists x. split; [exact X|]. right. right. now left.
      * right. left. injection E as <- <- <- -> <-. destruct H as [->| ->]; [now left|right; now left].
Qed.
Lemma wf_prefix S0 U V : wf S0 (U ++ V) -> wf S0 U.
Proof.
  assert (EB : bb S0 (U ++ V) = bb S0 U ++ V) by (unfold bb; apply app_assoc). assert (IB : forall b, In b (bb S0 U) -> In b (bb S0 (U ++ V))) by (intros b H; rewrite EB; apply in_or_app; now left).
  intros [H1 H2 H3 H4 H5 H6 H7 H8 H9 H10 H11 H12]. rewrite EB in H1, H3, H4, H5. constructor; auto.
  - rewrite flat_map_app in H1. now apply nodup_app_l in H1.
  - clear - H3. induction (bb S0 U) as [|b L IH]; [constructor|]. inversion_clear H3 as [|? ? X Y]. constructor; [now apply IH|]. rewrite Forall_forall in *. intros c C. apply Y. apply in_or_app. now left.
  - intros l b r E. apply (H4 l b (r ++ V)). rewrite E, <- app_assoc. reflexivity.
  - unfold taken in H5. rewrite flat_map_app in H5. now apply nodup_app_l in H5.
  - intros a n h f subs H. apply (H6 a n h f subs). auto.
  - intros a n h subs H. destruct (H12 a n h subs (IB _ H)) as [X|[X Y]]; [now left|]. right. split; [exact X|]. subst S0. exact H.
Qed.
Lemma sent_snoc L b s t : sent (L ++ [b]) s t <-> sent L s t \/ exists x, In x (sends b) /\ s_hash x = s /\ s_to x = t.
Proof.
  unfold sent. split.
  - intros (c & x & C & Q). apply in_app_or in C. destruct C as [C|[<-|[]]]; [left; now exists c, x|right; now exists x].
  - intros [(c & x & C & Q)|(x & Q)]; [exists c, x|exists b, x]; (split; [apply in_or_app; auto using in_eq|exact Q]).
Qed.
Lemma recv_snoc L b s r : received_at (L ++ [b]) s r <-> received_at L s r \/ exists a, takes b a s r.
Proof.
  unfold received_at, takes. split.
  - intros (a & n & subs & H). apply in_app_or in H. destruct H as [H|[H|[]]]; [left; now exists a, n, subs|right; now exists a, n, subs].
  - intros [(a & n & subs & H)|(a & n & subs & ->)]; exists a, n, subs; apply in_or_app; [now left|right; now left].
Qed.
Record fresh (L : list blk) (b : blk) : Prop := {
  f_nd : NoDup (hashes b); f_new : forall h, In h (hashes b) -> forall c, In c L -> ~ In h (hashes c);
  f_pos : forall c, In c L -> b_addr c = b_addr b -> b_height c <> b_height b;
  f_after : after L b; f_take : forall a f h, takes b a f h -> ~ In f (taken L);
  f_old : forall f, In f (taken L) -> exists t, sent L f t; f_one : forall s t u, sent L s t -> sent L s u -> t = u }.
Lemma wf_fresh S0 U b : wf S0 (U ++ [b]) -> fresh (bb S0 U) b.
Proof.
  intros W. pose proof (wf_prefix _ _ _ W) as W0. destruct W as [H1 H2 H3 H4 H5 H6 H7 H8 H9 H10 H11 H12]. rewrite bb_snoc in *. constructor.
  - apply (block_nd (bb S0 U ++ [b])); [exact H1|]. apply in_or_app. right. now left.
  - intros h H c C X. rewrite flat_map_app in H1. apply (nd_app_ht _ _ h H1); [apply in_flat_map; eauto|]. cbn. now rewrite app_nil_r.
  - intros c C A E. assert (c = b) by (apply (same_at _ c b H3); auto; apply in_or_app; auto using in_eq). subst c. apply in_split in C. destruct C as (l & r & EL). rewrite EL in H1. rewrite flat_map_app in H1. rewrite flat_map_app in H1. cbn in H1. rewrite app_nil_r in H1. apply (nd_app_ht _ _ (b_hash b) H1); [|apply hs_self]. apply in_or_app. right. apply in_or_app. left. apply hs_self.
  - apply (H4 _ _ []). reflexivity.
  - intros a f h (n & subs & ->) X. unfold taken in H5. rewrite flat_map_app in H5. apply (nd_app_ht _ _ f H5 X). cbn. now left.
  - intros f X. now apply (taken_sent S0 U).
  - intros s t u. apply sent_one. apply (c_hash _ _ W0).
Qed.
Section Add.
  Context (L : list blk) (b : blk) (F : fresh L b).
  Lemma own_not_taken x a f h : In x (sends b) -> takes b a f h -> s_hash x <> f.
  Proof.
    intros X T E. pose proof (f_after _ _ F) as A. destruct T as (n & subs & ->). destruct (sent_hash _ _ _ A) as (c & C & H). refine (f_new _ _ F f _ c C H). rewrite <- E. now apply (hs_send (BRecv a n h (Some f) subs)).
  Qed.
  Context (d : db).
  Let d' := apply (insert_ops b) d.
  Lemma add_hash h : In h (hashes b) -> get keq d' (KHash h) = Some (VAt (b_addr b) (b_height b)).
  Proof.
    intros H. apply (get_in_op (insert_ops b) d (WPut (KHash h) (VAt (b_addr b) (b_height b)))); [apply ops_iff; left; now exists h|].
    intros o O E. apply ops_iff in O. destruct O as [(h' & _ & ->)|[->|[(x & _ & [->| ->])|(a & f & r & _ & [->| ->])]]]; cbn in *; congruence.
  Qed.
  Lemma add_hash' h : ~ In h (hashes b) -> get keq d' (KHash h) = get keq d (KHash h).
  Proof.
    intros H. apply get_out. intros o O E. apply ops_iff in O. destruct O as [(h' & Q & ->)|[->|[(x & _ & [->| ->])|(a & f & r & _ & [->| ->])]]]; cbn in *; try discriminate. now injection E as ->.
  Qed.
  Lemma add_block : get keq d' (KBlock (b_addr b) (b_height b)) = Some (VHash (b_hash b)).
  Proof.
    apply (get_in_op (insert_ops b) d (WPut (KBlock (b_addr b) (b_height b)) (VHash (b_hash b)))); [apply ops_iff; auto|].
    intros o O E. apply ops_iff in O. destruct O as [(h' & _ & ->)|[->|[(x & _ & [->| ->])|(a & f & r & _ & [->| ->])]]]; cbn in *; congruence.
  Qed.
  Lemma add_block' a n : (a, n) <> (b_addr b, b_height b) -> get keq d' (KBlock a n) = get keq d (KBlock a n).
  Proof.
    intros H. apply get_out. intros o O E. apply ops_iff in O. destruct O as [(h' & Q & ->)|[->|[(x & _ & [->| ->])|(a' & f & r & _ & [->| ->])]]]; cbn in *; try discriminate. congruence.
  Qed.
  Lemma add_open x : In x (sends b) -> get keq d' (KRecv (s_hash x)) = Some VOpen.
  Proof.
    intros X. apply (get_in_op (insert_ops b) d (WPut (KRecv (s_hash x)) VOpen)); [apply ops_iff; right; right; left; exists x; auto|].
    intros o O E. apply ops_iff in O. destruct O as [(h' & _ & ->)|[->|[(y & _ & [->| ->])|(a & f & r & T & [->| ->])]]]; cbn in *; try congruence. destruct (own_not_taken x a f r X T). congruence.
  Qed.
  Lemma add_by a f h : takes b a f h -> get keq d' (KRecv f) = Some (VBy h).
  Proof.
    intros T. apply (get_in_op (insert_ops b) d (WPut (KRecv f) (VBy h))); [apply ops_iff; right; right; right; exists a, f, h; auto|].
    intros o O E. apply ops_iff in O. destruct O as [(h' & _ & ->)|[->|[(y & Y & [->| ->])|(a' & f' & r & T' & [->| ->])]]]; cbn in *; try congruence.
    - destruct (own_not_taken y a f h Y T). congruence.
    - destruct T as (n & subs & ->), T' as (n' & subs' & E'). congruence.
  Qed.
  Lemma add_recv' s : (forall x, In x (sends b) -> s_hash x <> s) -> (forall a h, ~ takes b a s h) -> get keq d' (KRecv s) = get keq d (KRecv s).
  Proof.
    intros H1 H2. apply get_out. intros o O E. apply ops_iff in O. destruct O as [(h' & Q & ->)|[->|[(x & X & [->| ->])|(a' & f & r & T & [->| ->])]]]; cbn in *; try discriminate; injection E as E; [now apply (H1 x)|]. subst f. now apply (H2 a' r).
  Qed.
  Lemma add_road x : In x (sends b) -> get keq d' (KRoad (s_to x) (s_hash x)) = Some VNil.
  Proof.
    intros X. apply (get_in_op (insert_ops b) d (WPut (KRoad (s_to x) (s_hash x)) VNil)); [apply ops_iff; right; right; left; exists x; auto|].
    intros o O E. apply ops_iff in O. destruct O as [(h' & _ & ->)|[->|[(y & _ & [->| ->])|(a & f & r & T & [->| ->])]]]; cbn in *; try congruence. destruct (own_not_taken x a f r X T). congruence.
  Qed.
  Lemma add_gone a f h : takes b a f h -> get keq d' (KRoad a f) = None.
  Proof.
    intros T. apply (get_in_op (insert_ops b) d (WDel (KRoad a f))); [apply ops_iff; right; right; right; exists a, f, h; auto|].
    intros o O E. apply ops_iff in O. destruct O as [(h' & _ & ->)|[->|[(y & Y & [->| ->])|(a' & f' & r & T' & [->| ->])]]]; cbn in *; try congruence.
    destruct (own_not_taken y a f h Y T). congruence.
  Qed.
  Lemma add_road' t s : (forall x, In x (sends b) -> s_hash x = s -> s_to x <> t) -> (forall h, ~ takes b t s h) -> get keq d' (KRoad t s) = get keq d (KRoad t s).
  Proof.
    intros H1 H2. apply get_out. intros o O E. apply ops_iff in O. destruct O as [(h' & Q & ->)|[->|[(x & X & [->| ->])|(a' & f & r & T & [->| ->])]]]; cbn in *; try discriminate; injection E as E1 E2; [now apply (H1 x)|]. subst. now apply (H2 r).
  Qed.
  Lemma add_other k : match k with KConf _ _ | KSb _ | KSbAt _ => True | _ => False end -> get keq d' k = get keq d k.
  Proof.
    intros H. apply get_out. intros o O E. apply ops_iff in O. destruct O as [(h' & Q & ->)|[->|[(x & X & [->| ->])|(a' & f & r & T & [->| ->])]]]; cbn in E; subst k; destruct H.
  Qed.
End Add.
Lemma sends_dec b s : (exists x, In x (sends b) /\ s_hash x = s) \/ (forall x, In x (sends b) -> s_hash x <> s).
Proof. destruct (in_dec Z.eq_dec s (map s_hash (sends b))) as [H|H]; [left; apply in_map_iff in H; destruct H as (x & A & B); eauto|right]. intros x X E. apply H. rewrite <- E. now apply in_map. Qed.
Lemma takes_dec b s : (exists a h, takes b a s h) \/ forall a h, ~ takes b a s h.
Proof.
  destruct b as [|a n h [f|] subs]; [right; intros ? ? (? & ? & E); discriminate| |right; intros ? ? (? & ? & E); discriminate].
  destruct (Z.eq_dec f s) as [->|E]; [left; exists a, h, n, subs; reflexivity|right]. intros ? ? (? & ? & X). congruence.
Qed.
Ltac other_v v := destruct v; try (split; [discriminate|intros []]; fail).
Theorem good_add S0 U b d : wf S0 (U ++ [b]) -> good d S0 U -> good (apply (insert_ops b) d) S0 (U ++ [b]).
Proof.
  intros W G k P v. pose proof (wf_fresh _ _ _ W) as F. set (L := bb S0 U) in *. assert (FN : forall h, In h (hashes b) -> forall w, get keq d (KHash h) = Some w -> False).
  { intros h H w E. apply G in E; [|exact Logic.I]. destruct w; try destruct E. destruct H0 as (Q & X & _). exact (f_new _ _ F h H _ Q X). }
  assert (NS : forall s t, sent L s t -> forall x, In x (sends b) -> s_hash x <> s).
  { intros s t Q x X E. destruct (sent_hash _ _ _ Q) as (c & C & H). apply (f_new _ _ F s) with (c := c); auto. rewrite <- E. now apply hs_send. }
  assert (NR : forall s r, received_at L s r -> forall x, In x (sends b) -> s_hash x <> s).
  { intros s r Q x X. assert (T : In s (taken L)) by (apply taken_iff; now exists r). destruct (f_old _ _ F s T) as (t & Q'). now apply (NS s t). }
  destruct k as [h|a n|s|a n|t s|h|n|a|i]; try contradiction; try (rewrite add_other by exact Logic.I; apply (G _ P v)).
  - destruct (in_dec Z.eq_dec h (hashes b)) as [H|H].
    + rewrite (add_hash b d h H). destruct v as [a n| | | | | | |]; try (split; [discriminate|intros []]; fail). cbn. rewrite ?bb_snoc. split.
      * intros [= <- <-]. exists b. split; [apply in_or_app; right; now left|auto].
      * intros (c & C & X & <- & <-). apply in_app_or in C. destruct C as [C|[<-|[]]]; [|reflexivity]. destruct (f_new _ _ F h H c C X).
    + rewrite (add_hash' b d h H). rewrite (G _ P v). destruct v as [a n| | | | | | |]; try reflexivity. cbn. rewrite ?bb_snoc. split; intros (c & C & X & Q).
      * exists c. split; [apply in_or_app; now left|auto].
      * apply in_app_or in C. destruct C as [C|[<-|[]]]; [now exists c|contradiction].
  - destruct (Z.eq_dec a (b_addr b)) as [Ea|Ea]; [destruct (Z.eq_dec n (b_height b)) as [En|En]|].
    + subst a n. rewrite (add_block b d). destruct v as [ |h|h l| | | | |]; try (split; [discriminate|intros []]; fail); cbn.
      * split; [intros [= <-]; exists b; split; [apply in_or_app; right; now left|auto]|]. intros (c & C & A & N & <-). apply in_app_or in C. destruct C as [C|[<-|[]]]; [|reflexivity]. destruct (f_pos _ _ F c); auto. unfold L, bb. apply in_or_app. now right.
      * split; [discriminate|]. intros (g & c & C & B & A & N & _). destruct (f_pos _ _ F c); auto. unfold L, bb. apply in_or_app. left. apply in_flat_map. eauto.
    + rewrite add_block' by congruence. rewrite (G _ P v). destruct v; try reflexivity. cbn. split; intros (c & C & Q); exists c; (split; [|exact Q]); [apply in_or_app; now left|]. apply in_app_or in C. destruct C as [C|[<-|[]]]; [exact C|]. destruct Q as (Q1 & Q2 & _). congruence.
    + rewrite add_block' by congruence. rewrite (G _ P v). destruct v; try reflexivity. cbn. split; intros (c & C & Q); exists c; (split; [|exact Q]); [apply in_or_app; now left|]. apply in_app_or in C. destruct C as [C|[<-|[]]]; [exact C|]. destruct Q as (Q1 & Q2 & _). congruence.
  - destruct (sends_dec b s) as [(x & X & <-)|HS]; [|destruct (takes_dec b s) as [(a & h & T)|HT]].
    + rewrite (add_open L b F d x X). destruct v as [ | | | |r| | |]; try (split; [discriminate|intros []]; fail); cbn; rewrite ?bb_snoc.
      * split; [intros _|reflexivity]. split; [exists (s_to x); apply sent_snoc; right; eauto|]. intros r Q. rewrite ?bb_snoc in Q. apply recv_snoc in Q. destruct Q as [Q|(a & T)]; [now apply (NR _ _ Q x X)|]. now apply (own_not_taken L b F x a (s_hash x) r).
      * split; [discriminate|]. intros Q. apply recv_snoc in Q. destruct Q as [Q|(a & T)]; [destruct (NR _ _ Q x X); reflexivity|]. now destruct (own_not_taken L b F x a (s_hash x) r X T).
    + rewrite (add_by L b F d a s h T). assert (NT := f_take _ _ F a s h T). rewrite taken_iff in NT. destruct v as [ | | | |r| | |]; try (split; [discriminate|intros []]; fail); cbn; rewrite ?bb_snoc.
      * split; [discriminate|]. intros (_ & Q). destruct (Q h). rewrite ?bb_snoc. apply recv_snoc. right. now exists a.
      * split; [intros [= <-]; apply recv_snoc; right; now exists a|]. intros Q. apply recv_snoc in Q. destruct Q as [Q|(a' & n & subs & E)]; [destruct NT; eauto|]. destruct T as (n' & subs' & ->). congruence.
    + rewrite add_recv' by assumption. rewrite (G _ P v). destruct v as [ | | | |r| | |]; try reflexivity; cbn; rewrite ?bb_snoc.
      * assert (E1 : (exists t, sent (bb S0 U) s t) <-> exists t, sent (bb S0 U ++ [b]) s t).
        { split; intros (t & Q); exists t; [apply sent_snoc; now left|]. apply sent_snoc in Q. destruct Q as [Q|(x & X & E & _)]; [exact Q|]. now destruct (HS x X). }
        assert (E2 : forall r, received_at (bb S0 U) s r <-> received_at (bb S0 U ++ [b]) s r).
        { intros r. rewrite recv_snoc. split; [now left|]. intros [Q|(a & T)]; [exact Q|]. now destruct (HT a r). }
        rewrite E1. split; intros (Q1 & Q2); (split; [exact Q1|]); intros r Q; apply (Q2 r); [rewrite ?bb_snoc in Q; now apply E2|rewrite ?bb_snoc; now apply E2].
      * rewrite recv_snoc. split; [now left|]. intros [Q|(a & T)]; [exact Q|]. now destruct (HT a r).
  - destruct (sends_dec b s) as [(x & X & E)|HS].
    + destruct (Z.eq_dec (s_to x) t) as [Et|Et].
      * subst t s. rewrite (add_road L b F d x X). destruct v; try (split; [discriminate|intros []]; fail); cbn; rewrite ?bb_snoc. split; [intros _|reflexivity].
        split; [apply sent_snoc; right; eauto|]. intros r Q. rewrite ?bb_snoc in Q. apply recv_snoc in Q. destruct Q as [Q|(a & T)]; [now apply (NR _ _ Q x X)|]. now apply (own_not_taken L b F x a (s_hash x) r).
      * subst s. rewrite add_road'.
        2:{ intros y Y Ey. assert (y = x) by (apply (same_send b); auto; apply (f_nd _ _ F)). congruence. }
        2:{ intros h T. now apply (own_not_taken L b F x t (s_hash x) h). }
        rewrite (G _ P v). destruct v; try reflexivity. cbn. split; intros (Q & _); exfalso; [now apply (NS _ _ Q x X)|]. rewrite ?bb_snoc in Q. apply sent_snoc in Q. destruct Q as [Q|(y & Y & Ey & Ty)]; [now apply (NS _ _ Q x X)|]. assert (y = x) by (apply (same_send b); auto; apply (f_nd _ _ F)). congruence.
    + destruct (takes_dec b s) as [(a & h & T)|HT].
      * destruct (Z.eq_dec a t) as [->|Et].
        -- rewrite (add_gone L b F d t s h T). destruct v; try (split; [discriminate|intros []]; fail); cbn. split; [discriminate|]. intros (_ & Q). destruct (Q h). rewrite ?bb_snoc. apply recv_snoc. right. now exists t.
        -- rewrite add_road'; [|intros x X E; destruct (HS x X E)|intros h' (n & subs & ->); destruct T as (? & ? & ?); congruence].
           rewrite (G _ P v). destruct v; try reflexivity. cbn. split; intros (Q & Q'); exfalso.
           ++ pose proof (f_after _ _ F) as A. destruct T as (n & subs & ->). cbn in A. apply Et. exact (f_one _ _ F s a t A Q).
           ++ apply (Q' h). rewrite ?bb_snoc. apply recv_snoc. right. now exists a.
      * rewrite add_road'; [|intros x X E; destruct (HS x X E)|intros h; apply HT]. rewrite (G _ P v). destruct v; try reflexivity. cbn. rewrite ?bb_snoc, sent_snoc. split.
        -- intros (Q & Q'). split; [now left|]. intros r X. rewrite ?bb_snoc in X. apply recv_snoc in X. destruct X as [X|(a & X)]; [now apply (Q' r)|now apply (HT a r)].
        -- intros ([Q|(x & X & E & _)] & Q'); [|now destruct (HS x X)]. split; [exact Q|]. intros r X. apply (Q' r). rewrite ?bb_snoc. apply recv_snoc. now left.
Qed.
Print Assumptions good_add.
