From Verif Require Import Lib.
From Verif Require RoadModel RoadProofs.
Import RoadProofs.
From Verif Require Import IdxModel IdxSpec IdxProofs IdxProofs2 IdxProofs3.
From Coq Require Import Permutation Sorted.
Import ListNotations.

(** ** Taking blocks back *)
Definition iblocks (P : list item) : list blk := flat_map (fun i => match i with IBlock b => [b] | ISnap _ => [] end) P.
Definition isbs (P : list item) : list sb := flat_map (fun i => match i with ISnap s => [s] | IBlock _ => [] end) P.
Definition kept (b : blk) : Prop := match b with BRecv _ _ _ None _ => False | _ => True end.
Record chainlike (D : list blk) : Prop := {
  k_nd : NoDup (flat_map hashes D); k_taken : NoDup (taken D); k_kept : forall b, In b D -> kept b;
  k_order : forall l b r a f h, D = l ++ b :: r -> takes b a f h -> (exists t, sent D f t) -> exists t, sent l f t }.
Lemma chainlike_prefix D b : chainlike (D ++ [b]) -> chainlike D.
Proof.
  intros [A B C E]. constructor.
  - rewrite flat_map_app in A. now apply nodup_app_l in A.
  - unfold taken in *. rewrite flat_map_app in B. now apply nodup_app_l in B.
  - intros c H. apply C. apply in_or_app. now left.
  - intros l c r a f h Ed T (t & Q). apply (E l c (r ++ [b]) a f h); [rewrite Ed, <- app_assoc; reflexivity|exact T|]. exists t. apply sent_snoc. now left.
Qed.
Definition fill (xs : list send) (o : open_t) : open_t := fold_left (fun o s => put Z.eqb o (s_hash s) (s_to s)) xs o.
Lemma fill_out xs : forall o s, ~ In s (map s_hash xs) -> get Z.eqb (fill xs o) s = get Z.eqb o s.
Proof.
  induction xs as [|x xs IH]; intros o s H; [reflexivity|]. change (fill (x :: xs) o) with (fill xs (put Z.eqb o (s_hash x) (s_to x))). rewrite IH by (intros X; apply H; now right). rewrite (get_put _ zeq). destruct (Z.eqb_spec (s_hash x) s) as [E|]; [|reflexivity]. destruct H. now left.
Qed.
Lemma fill_in xs : NoDup (map s_hash xs) -> forall o x, In x xs -> get Z.eqb (fill xs o) (s_hash x) = Some (s_to x).
Proof.
  induction xs as [|y xs IH]; intros N o x [].
  - subst y. change (fill (x :: xs) o) with (fill xs (put Z.eqb o (s_hash x) (s_to x))). cbn in N. inversion_clear N as [|? ? A B]. rewrite fill_out by exact A. now rewrite (get_put _ zeq), Z.eqb_refl.
  - change (fill (y :: xs) o) with (fill xs (put Z.eqb o (s_hash y) (s_to y))). apply IH; [|assumption]. cbn in N. now inversion_clear N.
Qed.
Lemma fill_nodup xs : forall o, NoDup (map fst o) -> NoDup (map fst (fill xs o)).
Proof. induction xs as [|x xs IH]; intros o N; [exact N|]. apply IH. now apply (nodup_put _ zeq). Qed.
Lemma sends_nd b : NoDup (hashes b) -> NoDup (map s_hash (sends b)).
Proof. destruct b; cbn; [intros _; repeat constructor; intros []|]. intros N. now inversion_clear N. Qed.
(** What a block does to the list of open sends. *)
Definition shut (o : open_t) (b : blk) : open_t := match b with BRecv _ _ _ (Some f) _ => match get Z.eqb o f with Some _ => del Z.eqb o f | None => o end | _ => o end.
Lemma undo_open o b : kept b -> snd (undo o (IBlock b)) = fill (sends b) (shut o b).
Proof. destruct b as [a n s|a n h [f|] subs]; cbn; [reflexivity| |intros []]. intros _. now destruct (get Z.eqb o f). Qed.
Lemma undo_iff o b w : kept b -> In w (fst (undo o (IBlock b))) <->
  (exists h, In h (hashes b) /\ w = WDel (KHash h)) \/ w = WDel (KBlock (b_addr b) (b_height b)) \/
  exists a f h, takes b a f h /\ ((exists t, get Z.eqb o f = Some t) /\ w = WDel (KRecv f) \/ get Z.eqb o f = None /\ (w = WPut (KRoad a f) VNil \/ w = WPut (KRecv f) VOpen)).
Proof.
  unfold takes. destruct b as [a n s|a n h [f|] subs]; cbn [kept]; [intros _| |intros []].
  - cbn. split.
    + intros [<-|[<-|[]]]; [left; exists (s_hash s); auto|auto].
    + intros [(h & [<-|[]] & ->)|[->|(? & ? & ? & (? & ? & E) & _)]]; auto. discriminate.
  - intros _. assert (E : fst (undo o (IBlock (BRecv a n h (Some f) subs))) = [WDel (KHash h); WDel (KBlock a n)] ++ match get Z.eqb o f with Some _ => [WDel (KRecv f)] | None => [WPut (KRoad a f) VNil; WPut (KRecv f) VOpen] end ++ map (fun s => WDel (KHash (s_hash s))) subs) by (cbn; destruct (get Z.eqb o f); reflexivity).
    rewrite E. clear E. cbn [hashes b_addr b_height]. rewrite !in_app_iff. split.
    + intros [[<-|[<-|[]]]|[H|H]].
      * left. exists h. split; [now left|reflexivity].
      * auto.
      * right. right. exists a, f, h. split; [now exists n, subs|]. destruct (get Z.eqb o f) as [t|]; [left; destruct H as [<-|[]]; split; [now exists t|reflexivity]|right; split; [reflexivity|]; destruct H as [<-|[<-|[]]]; auto].
      * apply in_map_iff in H. destruct H as (x & <- & X). left. exists (s_hash x). split; [right; now apply in_map|reflexivity].
    + intros [(h' & [<-|H] & ->)|[->|(a' & f' & h' & (m & subs' & E) & H)]].
      * left. now left.
      * right. right. apply in_map_iff in H. destruct H as (x & <- & X). apply in_map_iff. now exists x.
      * left. right. now left.
      * injection E as <- <- <- <- <-. right. left. destruct H as [[(t & ->) ->]|[-> [->| ->]]]; cbn; auto.
Qed.
Definition pos (b : blk) : Z * Z := (b_addr b, b_height b).
Definition takenby (D : list blk) (t s : Z) : Prop := exists b h, In b D /\ takes b t s h.
Definition sentany (D : list blk) (s : Z) : Prop := exists t, sent D s t.
Definition changed (P : Prop) (v : option val) (x y : option val) : Prop := (P -> x = v) /\ (~ P -> x = y).
Record undone (P : list item) (ops : list wop) (o : open_t) : Prop := {
  u_nd : NoDup (map fst o);
  u_open : forall s t, get Z.eqb o s = Some t <-> sent (iblocks P) s t /\ ~ In s (taken (iblocks P));
  u_hash : forall d h, changed (In h (flat_map hashes (iblocks P))) None (get keq (apply ops d) (KHash h)) (get keq d (KHash h));
  u_block : forall d a n, changed (In (a, n) (map pos (iblocks P))) None (get keq (apply ops d) (KBlock a n)) (get keq d (KBlock a n));
  u_recv : forall d s, (In s (taken (iblocks P)) -> (sentany (iblocks P) s -> get keq (apply ops d) (KRecv s) = None) /\ (~ sentany (iblocks P) s -> get keq (apply ops d) (KRecv s) = Some VOpen)) /\ (~ In s (taken (iblocks P)) -> get keq (apply ops d) (KRecv s) = get keq d (KRecv s));
  u_road : forall d t s, changed (takenby (iblocks P) t s /\ ~ sentany (iblocks P) s) (Some VNil) (get keq (apply ops d) (KRoad t s)) (get keq d (KRoad t s));
  u_conf : forall d a n, changed (exists s, In s (isbs P) /\ In (a, n) (sb_content s)) None (get keq (apply ops d) (KConf a n)) (get keq d (KConf a n));
  u_sb : forall d h, changed (exists s, In s (isbs P) /\ sb_hash s = h) None (get keq (apply ops d) (KSb h)) (get keq d (KSb h));
  u_sbat : forall d n, changed (exists s, In s (isbs P) /\ sb_height s = n) None (get keq (apply ops d) (KSbAt n)) (get keq d (KSbAt n)) }.
Lemma undo_all_snoc P i : forall o, undo_all o (P ++ [i]) = (fst (undo_all o P) ++ fst (undo (snd (undo_all o P)) i), snd (undo (snd (undo_all o P)) i)).
Proof.
  induction P as [|j P IH]; intros o; cbn [app undo_all].
  - cbn [undo_all fst snd]. destruct (undo o i) as [a b]. cbn [fst snd app]. rewrite app_nil_r. reflexivity.
  - destruct (undo o j) as [a b]. rewrite IH. destruct (undo_all b P) as [c e]. cbn [fst snd]. now rewrite app_assoc.
Qed.
Lemma taken_snoc D b s : In s (taken (D ++ [b])) <-> In s (taken D) \/ exists a h, takes b a s h.
Proof.
  unfold taken. rewrite flat_map_app, in_app_iff. cbn. rewrite app_nil_r. split; (intros [H|H]; [now left|right]).
  - destruct b as [|a n h [f|] subs]; try destruct H. { subst f. exists a, h, n, subs. reflexivity. } destruct H.
  - destruct H as (a & h & n & subs & ->). now left.
Qed.
Lemma takenby_taken D t s : takenby D t s -> In s (taken D).
Proof. intros (b & h & B & n & subs & ->). apply taken_iff. now exists h, t, n, subs. Qed.
Lemma changed_mono (P Q : Prop) v x y z : changed P v x y -> (P -> Q) -> (Q -> P \/ z = v) -> (~ Q -> z = x) -> (P -> z = v) -> changed Q v z y.
Proof. intros [A B] H1 H2 H3 H4. split; [intros q; destruct (H2 q); auto|]. intros nq. rewrite (H3 nq). apply B. auto. Qed.
Theorem undo_spec P : chainlike (iblocks P) -> undone P (fst (undo_all [] P)) (snd (undo_all [] P)).
Proof.
  induction P as [|i P IH] using rev_ind.
  - intros _. constructor; cbn; try (intros; split; [intros X|intros _; reflexivity]); try (now destruct X); try (now destruct X as (? & [] & _)); try (now destruct X as ((? & ? & [] & _) & _)).
    + constructor.
    + intros s t. split; [discriminate|]. intros ((b & x & [] & _) & _).
  - unfold iblocks at 1. rewrite flat_map_app. fold (iblocks P). rewrite undo_all_snoc. destruct (undo_all [] P) as [ops o]. cbn [fst snd] in *. destruct i as [b|s].
    + cbn [flat_map app]. intros CH. specialize (IH (chainlike_prefix _ _ CH)). set (D := iblocks P) in *.
      assert (ED : iblocks (P ++ [IBlock b]) = D ++ [b]) by (unfold iblocks; rewrite flat_map_app; reflexivity).
      assert (ES : isbs (P ++ [IBlock b]) = isbs P) by (unfold isbs; rewrite flat_map_app; cbn; now rewrite app_nil_r).
      assert (KB : kept b) by (apply (k_kept _ CH); apply in_or_app; right; now left).
      assert (NB : NoDup (hashes b)) by (apply (block_nd (D ++ [b])); [apply (k_nd _ CH)|apply in_or_app; right; now left]).
      assert (NEW : forall h c, In h (hashes b) -> In c D -> In h (hashes c) -> False).
      { intros h c H C X. pose proof (k_nd _ CH) as N. rewrite flat_map_app in N. apply (nd_app_ht _ _ h N); [apply in_flat_map; eauto|]. cbn. now rewrite app_nil_r. }
      assert (NS : forall s t x, sent D s t -> In x (sends b) -> s_hash x = s -> False).
      { intros s t x Q X E. destruct (sent_hash _ _ _ Q) as (c & C & H). apply (NEW s c); auto. rewrite <- E. now apply hs_send. }
      assert (ORD : forall s x, In s (taken D) -> In x (sends b) -> s_hash x = s -> False).
      { intros s x T X E. apply taken_iff in T. destruct T as (r & a & n & subs & H). apply in_split in H. destruct H as (l & r' & EL).
        destruct (k_order _ CH l (BRecv a n r (Some s) subs) (r' ++ [b]) a s r) as (t & Q); [rewrite EL, <- app_assoc; reflexivity|now exists n, subs|exists (s_to x); apply sent_snoc; right; eauto|].
        destruct Q as (c & y & C & Y). apply (NS s t x); auto. exists c, y. split; [rewrite EL; apply in_or_app; now left|exact Y]. }
      assert (OWN : forall a f h x, takes b a f h -> In x (sends b) -> s_hash x = f -> False).
      { intros a f h x T X E. destruct (k_order _ CH D b [] a f h) as (t & Q); [reflexivity|exact T|exists (s_to x); apply sent_snoc; right; eauto|]. now apply (NS f t x). }
      assert (NT : forall a f h, takes b a f h -> ~ In f (taken D)).
      { intros a f h (n & subs & ->) X. pose proof (k_taken _ CH) as N. unfold taken in N. rewrite flat_map_app in N. apply (nd_app_ht _ _ f N X). cbn. now left. }
      assert (SD : forall s, In s (taken D) -> (sentany (D ++ [b]) s <-> sentany D s)).
      { intros s T. split; intros (t & Q); exists t; [|apply sent_snoc; now left]. apply sent_snoc in Q. destruct Q as [Q|(x & X & E & _)]; [exact Q|]. now destruct (ORD s x). }
      assert (SF : forall a f h, takes b a f h -> (sentany (D ++ [b]) f <-> exists t, get Z.eqb o f = Some t)).
      { intros a f h T. split; intros (t & Q); exists t.
        - apply sent_snoc in Q. destruct Q as [Q|(x & X & E & _)]; [|now destruct (OWN a f h x)]. apply (u_open _ _ _ IH). split; [exact Q|]. now apply (NT a f h).
        - apply (u_open _ _ _ IH) in Q. apply sent_snoc. left. tauto. }
      set (ops2 := fst (undo o (IBlock b))). constructor; rewrite ?ED, ?ES; try (intros d; rewrite apply_app; set (d1 := apply ops d)).
      * rewrite undo_open by exact KB. apply fill_nodup. destruct b as [|a n h [f|] subs]; cbn [shut]; try apply (u_nd _ _ _ IH). destruct (get Z.eqb o f); [apply (nodup_del _ zeq)|]; apply (u_nd _ _ _ IH).
      * intros s t. rewrite undo_open by exact KB. rewrite sent_snoc, taken_snoc. destruct (sends_dec b s) as [(x & X & E)|HS].
        -- subst s. rewrite (fill_in _ (sends_nd _ NB) _ x X). split.
           ++ intros [= <-]. split; [right; eauto|]. intros [T|(a & h & T)]; [now apply (ORD _ x T)|now apply (OWN _ _ _ x T)].
           ++ intros ([Q|(y & Y & Ey & <-)] & _); [destruct (NS _ _ x Q X eq_refl)|]. f_equal. now rewrite (same_send b x y).
        -- rewrite fill_out by (intros X; apply in_map_iff in X; destruct X as (x & E & X); now apply (HS x)). destruct (takes_dec b s) as [(a & h & T)|HT].
           ++ assert (E : get Z.eqb (shut o b) s = None).
              { destruct T as (n & subs & ->). cbn [shut]. destruct (get Z.eqb o s) eqn:Eg; [|exact Eg]. now rewrite (get_del _ zeq), Z.eqb_refl. }
              rewrite E. split; [discriminate|]. intros (_ & X). destruct X. right. eauto.
           ++ assert (E : get Z.eqb (shut o b) s = get Z.eqb o s).
              { destruct b as [|a n h [f|] subs]; try reflexivity. cbn [shut]. destruct (get Z.eqb o f) eqn:Eg; [|reflexivity]. rewrite (get_del _ zeq). destruct (Z.eqb_spec f s) as [->|]; [|reflexivity]. destruct (HT a h). now exists n, subs. }
              rewrite E, (u_open _ _ _ IH). split; intros (Q & X).
              ** split; [now left|]. intros [Y|(a & h & Y)]; [now apply X|now apply (HT a h)].
              ** split; [|intros Y; apply X; now left]. destruct Q as [Q|(x & Y & E' & _)]; [exact Q|]. now destruct (HS x Y).
      * intros h. rewrite flat_map_app. cbn [flat_map]. rewrite app_nil_r. pose proof (u_hash _ _ _ IH d h) as U. fold D d1 in U. destruct (in_dec Z.eq_dec h (hashes b)) as [H|H].
        -- split; [intros _|intros X; destruct X; apply in_or_app; now right]. apply (get_in_op ops2 d1 (WDel (KHash h))); [apply undo_iff; [exact KB|]; left; eauto|]. intros w Hw E. apply undo_iff in Hw; [|exact KB]. destruct Hw as [(h' & _ & ->)|[->|(? & ? & ? & _ & [[_ ->]|[_ [->| ->]]])]]; try discriminate. reflexivity.
        -- rewrite get_out by (intros w Hw E; apply undo_iff in Hw; [|exact KB]; destruct Hw as [(h' & X & ->)|[->|(? & ? & ? & _ & [[_ ->]|[_ [->| ->]]])]]; try discriminate; cbn in E; congruence).
           destruct U as [U1 U2]. split; intros X; [apply U1; apply in_app_or in X; tauto|apply U2; intros Y; apply X; apply in_or_app; now left].
      * intros a n. rewrite map_app. pose proof (u_block _ _ _ IH d a n) as U. fold D d1 in U. destruct (in_dec (fun x y : Z * Z => ltac:(decide equality; apply Z.eq_dec)) (a, n) (map pos [b])) as [H|H].
        -- split; [intros _|intros X; destruct X; apply in_or_app; now right]. destruct H as [E|[]]. injection E as <- <-. apply (get_in_op ops2 d1 (WDel (KBlock (b_addr b) (b_height b)))); [apply undo_iff; [exact KB|]; right; now left|]. intros w Hw E. apply undo_iff in Hw; [|exact KB]. destruct Hw as [(h' & _ & ->)|[->|(? & ? & ? & _ & [[_ ->]|[_ [->| ->]]])]]; try discriminate. reflexivity.
        -- rewrite get_out by (intros w Hw E; apply undo_iff in Hw; [|exact KB]; destruct Hw as [(h' & X & ->)|[->|(? & ? & ? & _ & [[_ ->]|[_ [->| ->]]])]]; try discriminate; cbn in E; apply H; left; unfold pos; congruence).
           destruct U as [U1 U2]. split; intros X; [apply U1; apply in_app_or in X; tauto|apply U2; intros Y; apply X; apply in_or_app; now left].
      * intros s. pose proof (u_recv _ _ _ IH d s) as U. fold D d1 in U. rewrite taken_snoc. destruct (takes_dec b s) as [(a & h & T)|HT].
        -- split; [intros _|intros X; destruct X; right; eauto]. rewrite (SF a s h T). split; intros Q.
           ++ apply (get_in_op ops2 d1 (WDel (KRecv s))); [apply undo_iff; [exact KB|]; right; right; exists a, s, h; auto|]. intros w Hw E. apply undo_iff in Hw; [|exact KB]. destruct Hw as [(h' & _ & ->)|[->|(? & f' & ? & T' & [[_ ->]|[Q' [->| ->]]])]]; try discriminate; [reflexivity|]. cbn in E. injection E as ->. destruct Q as (t & Q). congruence.
           ++ apply (get_in_op ops2 d1 (WPut (KRecv s) VOpen)); [apply undo_iff; [exact KB|]; right; right; exists a, s, h; split; [exact T|]; right; split; [|now right]; destruct (get Z.eqb o s); [destruct Q; eauto|reflexivity]|]. intros w Hw E. apply undo_iff in Hw; [|exact KB]. destruct Hw as [(h' & _ & ->)|[->|(? & f' & ? & T' & [[Q' ->]|[_ [->| ->]]])]]; try discriminate; [|reflexivity]. cbn in E. injection E as ->. contradiction.
        -- rewrite get_out by (intros w Hw E; apply undo_iff in Hw; [|exact KB]; destruct Hw as [(h' & X & ->)|[->|(? & ? & ? & T' & [[_ ->]|[_ [->| ->]]])]]; try discriminate; cbn in E; injection E as ->; now apply HT in T').
           destruct U as [U1 U2]. split.
           ++ intros [T|(a & h & T)]; [|now destruct (HT a h)]. rewrite (SD s T). apply U1. exact T.
           ++ intros X. apply U2. intros T. apply X. now left.
      * intros t s. pose proof (u_road _ _ _ IH d t s) as U. fold D d1 in U.
        assert (TB : takenby (D ++ [b]) t s <-> takenby D t s \/ exists h, takes b t s h).
        { split; [intros (c & h & C & T); apply in_app_or in C; destruct C as [C|[<-|[]]]; [left; now exists c, h|right; now exists h]|]. intros [(c & h & C & T)|(h & T)]; [exists c, h; split; [apply in_or_app; now left|exact T]|exists b, h; split; [apply in_or_app; right; now left|exact T]]. }
        destruct (takes_dec b s) as [(a & h & T)|HT].
        -- assert (NB' : ~ takenby D t s) by (intros X; apply takenby_taken in X; now apply (NT a s h)). destruct U as [_ U2]. specialize (U2 ltac:(tauto)). unfold changed; rewrite TB, (SF a s h T). destruct (get Z.eqb o s) as [u|] eqn:Eg.
           ++ split; [intros (_ & X); destruct X; eauto|intros _]. rewrite get_out; [exact U2|]. intros w Hw E. apply undo_iff in Hw; [|exact KB]. destruct Hw as [(h' & X & ->)|[->|(? & ? & ? & T' & [[_ ->]|[Q' [->| ->]]])]]; try discriminate. cbn in E. injection E as -> ->. congruence.
           ++ destruct (Z.eq_dec a t) as [->|Ea].
              ** split; [intros _|intros X; destruct X; split; [right; eauto|intros (u & X); discriminate]]. apply (get_in_op ops2 d1 (WPut (KRoad t s) VNil)); [apply undo_iff; [exact KB|]; right; right; exists t, s, h; auto|]. intros w Hw E. apply undo_iff in Hw; [|exact KB]. destruct Hw as [(h' & _ & ->)|[->|(? & f' & ? & T' & [[Q' ->]|[_ [->| ->]]])]]; try discriminate. reflexivity.
              ** split; [intros ([X|(h' & n' & subs' & E)] & _); [contradiction|]; destruct T as (n & subs & ->); congruence|intros _]. rewrite get_out; [exact U2|]. intros w Hw E. apply undo_iff in Hw; [|exact KB]. destruct Hw as [(h' & X & ->)|[->|(? & ? & ? & T' & [[_ ->]|[Q' [->| ->]]])]]; try discriminate. cbn in E. injection E as -> ->. destruct T as (n & subs & ->), T' as (? & ? & ?). congruence.
        -- rewrite get_out by (intros w Hw E; apply undo_iff in Hw; [|exact KB]; destruct Hw as [(h' & X & ->)|[->|(? & ? & ? & T' & [[_ ->]|[_ [->| ->]]])]]; try discriminate; cbn in E; injection E as -> ->; now apply HT in T').
           destruct U as [U1 U2]. unfold changed; rewrite TB. split.
           ++ intros ([X|(h & X)] & Y); [|now destruct (HT t h)]. apply U1. split; [exact X|]. intros Z'. apply Y. apply (SD s); [now apply takenby_taken in X|exact Z'].
           ++ intros X. apply U2. intros (Y & Z'). apply X. split; [now left|]. intros Q. apply Z'. apply (SD s); [now apply takenby_taken in Y|exact Q].
      * intros a n. rewrite get_out by (intros w Hw E; apply undo_iff in Hw; [|exact KB]; destruct Hw as [(h' & X & ->)|[->|(? & ? & ? & T' & [[_ ->]|[_ [->| ->]]])]]; discriminate). apply (u_conf _ _ _ IH).
      * intros h. rewrite get_out by (intros w Hw E; apply undo_iff in Hw; [|exact KB]; destruct Hw as [(h' & X & ->)|[->|(? & ? & ? & T' & [[_ ->]|[_ [->| ->]]])]]; discriminate). apply (u_sb _ _ _ IH).
      * intros n. rewrite get_out by (intros w Hw E; apply undo_iff in Hw; [|exact KB]; destruct Hw as [(h' & X & ->)|[->|(? & ? & ? & T' & [[_ ->]|[_ [->| ->]]])]]; discriminate). apply (u_sbat _ _ _ IH).
    + cbn [flat_map app]. rewrite app_nil_r. intros CH. specialize (IH CH).
      assert (ED : iblocks (P ++ [ISnap s]) = iblocks P) by (unfold iblocks; rewrite flat_map_app; cbn; now rewrite app_nil_r).
      assert (ES : isbs (P ++ [ISnap s]) = isbs P ++ [s]) by (unfold isbs; rewrite flat_map_app; reflexivity).
      set (ops2 := fst (undo o (ISnap s))). assert (IFF : forall w, In w ops2 <-> w = WDel (KSb (sb_hash s)) \/ w = WDel (KSbAt (sb_height s)) \/ exists a n, In (a, n) (sb_content s) /\ w = WDel (KConf a n)).
      { intros w. cbn. rewrite in_map_iff. split.
        - intros [<-|[<-|([a n] & <- & X)]]; auto. right. right. now exists a, n.
        - intros [->|[->|(a & n & X & ->)]]; auto. right. right. now exists (a, n). }
      constructor; rewrite ?ED, ?ES; try (intros d; rewrite apply_app; set (d1 := apply ops d)).
      * apply (u_nd _ _ _ IH).
      * apply (u_open _ _ _ IH).
      * intros h. rewrite get_out by (intros w Hw E; apply IFF in Hw; destruct Hw as [->|[->|(? & ? & _ & ->)]]; discriminate). apply (u_hash _ _ _ IH).
      * intros a n. rewrite get_out by (intros w Hw E; apply IFF in Hw; destruct Hw as [->|[->|(? & ? & _ & ->)]]; discriminate). apply (u_block _ _ _ IH).
      * intros h. rewrite get_out by (intros w Hw E; apply IFF in Hw; destruct Hw as [->|[->|(? & ? & _ & ->)]]; discriminate). apply (u_recv _ _ _ IH).
      * intros t h. rewrite get_out by (intros w Hw E; apply IFF in Hw; destruct Hw as [->|[->|(? & ? & _ & ->)]]; discriminate). apply (u_road _ _ _ IH).
      * intros a n. pose proof (u_conf _ _ _ IH d a n) as U. fold d1 in U. destruct (in_dec (fun x y : Z * Z => ltac:(decide equality; apply Z.eq_dec)) (a, n) (sb_content s)) as [H|H].
        -- split; [intros _|intros X; destruct X; exists s; split; [apply in_or_app; right; now left|exact H]]. apply (get_in_op ops2 d1 (WDel (KConf a n))); [apply IFF; right; right; eauto|]. intros w Hw E. apply IFF in Hw. now destruct Hw as [->|[->|(? & ? & _ & ->)]].
        -- rewrite get_out by (intros w Hw E; apply IFF in Hw; destruct Hw as [->|[->|(? & ? & X & ->)]]; try discriminate; cbn in E; congruence). destruct U as [U1 U2]. split; intros X.
           ++ apply U1. destruct X as (s' & X & Y). apply in_app_or in X. destruct X as [X|[<-|[]]]; [eauto|contradiction].
           ++ apply U2. intros (s' & Y & Z'). apply X. exists s'. split; [apply in_or_app; now left|exact Z'].
      * intros h. pose proof (u_sb _ _ _ IH d h) as U. fold d1 in U. destruct (Z.eq_dec (sb_hash s) h) as [H|H].
        -- split; [intros _|intros X; destruct X; exists s; split; [apply in_or_app; right; now left|exact H]]. subst h. apply (get_in_op ops2 d1 (WDel (KSb (sb_hash s)))); [apply IFF; now left|]. intros w Hw E. apply IFF in Hw. now destruct Hw as [->|[->|(? & ? & _ & ->)]].
        -- rewrite get_out by (intros w Hw E; apply IFF in Hw; destruct Hw as [->|[->|(? & ? & X & ->)]]; try discriminate; cbn in E; congruence). destruct U as [U1 U2]. split; intros X.
           ++ apply U1. destruct X as (s' & X & Y). apply in_app_or in X. destruct X as [X|[<-|[]]]; [eauto|contradiction].
           ++ apply U2. intros (s' & Y & Z'). apply X. exists s'. split; [apply in_or_app; now left|exact Z'].
      * intros n. pose proof (u_sbat _ _ _ IH d n) as U. fold d1 in U. destruct (Z.eq_dec (sb_height s) n) as [H|H].
        -- split; [intros _|intros X; destruct X; exists s; split; [apply in_or_app; right; now left|exact H]]. subst n. apply (get_in_op ops2 d1 (WDel (KSbAt (sb_height s)))); [apply IFF; right; now left|]. intros w Hw E. apply IFF in Hw. now destruct Hw as [->|[->|(? & ? & _ & ->)]].
        -- rewrite get_out by (intros w Hw E; apply IFF in Hw; destruct Hw as [->|[->|(? & ? & X & ->)]]; try discriminate; cbn in E; congruence). destruct U as [U1 U2]. split; intros X.
           ++ apply U1. destruct X as (s' & X & Y). apply in_app_or in X. destruct X as [X|[<-|[]]]; [eauto|contradiction].
           ++ apply U2. intros (s' & Y & Z'). apply X. exists s'. split; [apply in_or_app; now left|exact Z'].
Qed.
