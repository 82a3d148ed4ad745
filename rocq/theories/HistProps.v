(** The state of a snapshot read from the byte keys of the store (C57). *)
From Verif Require Import Lib VmDbModel VmDbSpec VmDbProofs VmDbProofs2 VmDbProofs3 HistModel HistSpec HistProofs.
From Coq Require Import Sorted.

Lemma height_u64 h : is_height h -> u64 h.
Proof. unfold is_height, max_u64, u64, two64. lia. Qed.
Local Hint Resolve height_u64 : core.
Lemma app_inv_len {A} (a : list A) : forall b x y, length a = length b -> a ++ x = b ++ y -> a = b /\ x = y.
Proof.
  induction a as [|u a IH]; intros [|v b] x y L E; try discriminate; [auto|]. cbn in L, E. injection L as L. injection E as -> E. destruct (IH b x y L E) as [-> ->]. auto.
Qed.
Lemma firstn_exact {A} (a b : list A) n : length a = n -> firstn n (a ++ b) = a.
Proof. intros <-. rewrite firstn_app, firstn_all, Nat.sub_diag. cbn. apply app_nil_r. Qed.
Lemma skipn_exact {A} (a b : list A) n : length a = n -> skipn n (a ++ b) = b.
Proof. intros <-. rewrite skipn_app, skipn_all, Nat.sub_diag. reflexivity. Qed.
Lemma enc_len k : (length k <= 32)%nat -> length (enc_key k) = 33%nat.
Proof. intro H. unfold enc_key. rewrite !app_length, repeat_length. cbn [length]. lia. Qed.
Lemma stor_stem_len a k : is_addr a -> is_skey k -> length (stor_stem a k) = 55%nat.
Proof. intros [_ A] [_ K]. unfold stor_stem. cbn [length]. rewrite app_length, A, enc_len by assumption. reflexivity. Qed.
Lemma stor_stem_inj a k a' k' : is_addr a -> is_addr a' -> is_skey k -> is_skey k' -> stor_stem a k = stor_stem a' k' -> a = a' /\ k = k'.
Proof.
  intros [_ A] [_ A'] [_ K] [_ K'] E. unfold stor_stem in E. injection E as E.
  apply app_inv_len in E as [-> E]; [|congruence]. split; [reflexivity|]. apply enc_inj; auto; unfold zlen; lia.
Qed.
Lemma bal_stem_len a t : is_addr a -> is_token t -> length (bal_stem a t) = 32%nat.
Proof. intros [_ A] [_ T]. unfold bal_stem. cbn [length]. rewrite app_length, A, T. reflexivity. Qed.
Lemma bal_stem_inj a t a' t' : is_addr a -> is_addr a' -> bal_stem a t = bal_stem a' t' -> a = a' /\ t = t'.
Proof.
  intros [_ A] [_ A'] E. unfold bal_stem in E. injection E as E.
  apply app_inv_len in E as [-> E]; [|congruence]. auto.
Qed.
Lemma stem_lt a k k' : is_skey k -> is_skey k' -> bltb (stor_stem a k) (stor_stem a k') = bltb k k'.
Proof.
  intros [B L] [B' L']. unfold stor_stem. change (2 :: a ++ enc_key k) with ((2 :: a) ++ enc_key k). change (2 :: a ++ enc_key k') with ((2 :: a) ++ enc_key k').
  rewrite bltb_app. apply enc_order; auto; unfold zlen; lia.
Qed.
Lemma store_sorted db : store_ok db -> sortedd true db.
Proof. intros [A _]. now apply sorted_fwd, ascending_sorted. Qed.

(** ** Reading a value *)
Theorem value_found db n a k : store_ok db -> is_height n -> is_addr a -> is_skey k ->
  newest_value db n a k (value_at db n a k) \/ ((forall v, ~ newest_value db n a k v) /\ value_at db n a k = []).
Proof.
  intros OK Hn Ha Hk. unfold value_at. set (lo := stor_key a k 0). set (hi := stor_key a k (wrap64 (n + 1))).
  assert (W : wrap64 (n + 1) = n + 1) by (unfold wrap64, is_height, max_u64, two64 in *; apply Z.mod_small; lia).
  assert (U : u64 (n + 1)) by (unfold is_height, max_u64, two64, u64 in *; lia).
  set (R := filter (fun x => negb (bltb (fst x) lo) && bltb (fst x) hi) db).
  assert (RI : forall e, In e R <-> In e db /\ exists h, 0 <= h <= n /\ fst e = stor_key a k h).
  { intro e. unfold R. rewrite filter_In. split.
    - intros [I C]. split; [assumption|]. apply andb_true_iff in C as [C1 C2]. apply negb_true_iff in C1.
      assert (F : exists r, fst e = 2 :: r).
      { unfold lo, hi, stor_key, stor_stem in C1, C2. cbn [app] in C1, C2. destruct (fst e) as [|x r]; [discriminate|]. exists r. f_equal. cbn [bltb] in C1, C2.
        destruct (x <? 2) eqn:E1; [discriminate|]. destruct (2 <? x) eqn:E2; [discriminate|]. lia. }
      destruct F as [r F]. destruct OK as (_ & OS & _). destruct (OS e r I F) as (a' & k' & h & E & Ha' & Hk' & Hh).
      rewrite E in *. unfold lo, hi, stor_key in *. rewrite W in C2.
      apply key_lt in C2; auto; [|rewrite !stor_stem_len; auto].
      assert (C3 : ~ (bltb (stor_stem a' k') (stor_stem a k) = true \/ (stor_stem a' k' = stor_stem a k /\ h < 0))).
      { intro X. apply (key_lt _ _ h 0) in X; auto; [congruence|rewrite !stor_stem_len; auto|unfold u64; lia]. }
      destruct C2 as [C2|[C2 C4]]; [tauto|]. rewrite C2. exists h. split; [|reflexivity]. unfold is_height in Hh. lia.
    - intros (I & h & Hh & E). split; [assumption|]. rewrite E. unfold lo, hi, stor_key. rewrite W. assert (Uh : u64 h) by (unfold is_height, max_u64, two64, u64 in *; lia).
      apply andb_true_iff. split.
      + apply negb_true_iff. destruct (bltb _ _) eqn:B; [|reflexivity]. apply key_lt in B as [B|[_ B]]; auto; [rewrite bltb_irrefl in B; discriminate|lia|unfold u64; lia].
      + apply key_lt; auto. right. split; [reflexivity|lia]. }
  cbv zeta. fold R. set (v := match c_here (c_last (c_start R)) with Some x => snd x | None => [] end).
  assert (V : v = match hd_error (rev R) with Some x => snd x | None => [] end) by (unfold v; now rewrite last_here).
  clearbody v. destruct (hd_error (rev R)) as [e|] eqn:E; subst v.
  - left. apply hd_rev in E as [l' ER]. assert (Ie : In e R) by (rewrite ER; apply in_or_app; right; now left).
    destruct (proj1 (RI e) Ie) as (Id & h & Hh & Ee). exists h. split; [unfold is_height in *; lia|]. split; [lia|]. rewrite <- Ee. split; [rewrite <- surjective_pairing; assumption|].
    intros h' v' Hh' Ln' I'. assert (IR : In (stor_key a k h', v') R) by (apply RI; split; [assumption|]; exists h'; split; [unfold is_height in *; lia|reflexivity]).
    assert (SR : sortedd true R) by (apply filter_sorted, store_sorted, OK). rewrite ER in SR, IR. destruct (sorted_last _ _ _ SR IR) as [Q|Q].
    + subst e. cbn [fst] in Ee. unfold stor_key in Ee. apply key_inj in Ee as [_ ->]; auto; [lia|unfold is_height, max_u64, two64, u64 in *; lia].
    + cbn [fst] in Q. rewrite Ee in Q. unfold stor_key in Q. apply key_lt in Q as [Q|[_ Q]]; auto; [rewrite bltb_irrefl in Q; discriminate|lia|unfold is_height, max_u64, two64, u64 in *; lia].
  - right. apply hd_rev_none in E. split; [|reflexivity]. intros v (h & Hh & Ln & I & _). assert (IR : In (stor_key a k h, v) R) by (apply RI; split; [assumption|]; exists h; split; [unfold is_height in *; lia|reflexivity]).
    rewrite E in IR. destruct IR.
Qed.

(** ** Reading a balance *)
Lemma range4 k : bytes_ok k -> in_range [4] k = true <-> exists r, k = 4 :: r.
Proof. intro B. assert (B4 : bytes_ok [4]) by (constructor; [unfold is_byte; lia|constructor]). rewrite (in_range_prefix [4] k B4 B). reflexivity. Qed.
Lemma bal_parts a t h : is_addr a -> is_token t ->
  length (bal_key a t h) = 40%nat /\ firstn 21 (skipn 1 (bal_key a t h)) = a /\ firstn 10 (skipn 22 (bal_key a t h)) = t.
Proof.
  intros Ha Ht. split; [unfold bal_key; rewrite app_length, (bal_stem_len a t Ha Ht), be_bytes_length; reflexivity|].
  destruct Ha as [_ A], Ht as [_ T]. unfold bal_key, bal_stem. cbn [app]. rewrite !skipn_cons, <- app_assoc. split.
  - change (skipn 0 (a ++ t ++ be_bytes 8 h)) with (a ++ t ++ be_bytes 8 h). now apply firstn_exact.
  - rewrite (skipn_exact _ _ _ A). now apply firstn_exact.
Qed.
Theorem balance_found db n a t : store_ok db -> is_height n -> is_addr a -> is_token t ->
  match balance_at db n a t with
  | Some v => newest_balance db n a t v
  | None => forall v, ~ newest_balance db n a t v
  end.
Proof.
  intros OK Hn Ha Ht. unfold balance_at.
  assert (W : wrap64 (n + 1) = n + 1) by (unfold wrap64, is_height, max_u64, two64 in *; apply Z.mod_small; lia). rewrite W. clear W.
  assert (U : u64 (n + 1)) by (unfold is_height, max_u64, two64, u64 in *; lia).
  set (R := filter (fun x => in_range [4] (fst x)) db).
  assert (RI : forall e, In e R <-> In e db /\ exists a' t' h, fst e = bal_key a' t' h /\ is_addr a' /\ is_token t' /\ is_height h).
  { intro e. unfold R. rewrite filter_In. destruct OK as (_ & _ & OB & OY). split.
    - intros [I C]. split; [assumption|]. apply range4 in C as [r C]; [|now apply OY]. now apply (OB e r).
    - intros (I & a' & t' & h & E & _). split; [assumption|]. apply range4; [now apply OY|]. rewrite E. eexists. reflexivity. }
  assert (SR : sortedd true R) by (apply filter_sorted, store_sorted, OK).
  assert (shaped : forall e, In e R -> exists s h, fst e = s ++ be_bytes 8 h /\ length s = 32%nat /\ 0 <= h < max_u64).
  { intros e I. apply RI in I as (_ & a' & t' & h & E & Ha' & Ht' & Hh). exists (bal_stem a' t'), h. split; [exact E|]. split; [now apply bal_stem_len|exact Hh]. }
  assert (IN : forall h v, is_height h -> In (bal_key a t h, v) db -> In (bal_key a t h, v) R).
  { intros h v Hh I. apply RI. split; [assumption|]. exists a, t, h. auto. }
  destruct (seek_split (bal_key a t (n + 1)) R (c_start R) SR eq_refl) as (lo & hi & EL & Hlo & Hhi & ->). rewrite prev_split.
  pose proof (below 32 R SR shaped n Hn (bal_stem a t) (n + 1) lo hi (bal_stem_len a t Ha Ht) U EL Hlo) as BL.
  assert (LOW : forall h v, is_height h -> h <= n -> In (bal_key a t h, v) R -> In (bal_key a t h, v) lo).
  { intros h v Hh Ln I. rewrite EL in I. apply in_app_iff in I as [I|I]; [assumption|]. exfalso. specialize (Hhi _ I). cbn [fst] in Hhi. unfold bal_key in Hhi.
    enough (bltb (bal_stem a t ++ be_bytes 8 h) (bal_stem a t ++ be_bytes 8 (n + 1)) = true) by congruence. apply key_lt; auto. right. split; [reflexivity|lia]. }
  destruct (hd_error (rev lo)) as [e|] eqn:E.
  - apply hd_rev in E as [l' Elo]. assert (Ie : In e lo) by (rewrite Elo; apply in_or_app; right; now left).
    assert (IR : In e R) by (rewrite EL; apply in_or_app; now left). destruct (proj1 (RI e) IR) as (Id & a' & t' & h & Ee & Ha' & Ht' & Hh).
    destruct (bal_parts a' t' h Ha' Ht') as (P1 & P2 & P3). rewrite Ee in *. rewrite P1, P2, P3. cbn [Nat.eqb andb].
    unfold bal_key in BL at 1. rewrite stem_app in BL.
    destruct (zlist_eqb a' a && zlist_eqb t' t) eqn:Q.
    + apply andb_true_iff in Q as [Q1 Q2]. apply zlist_eqb_eq in Q1, Q2. subst a' t'. rewrite zlist_eqb_refl in BL. destruct BL as (h2 & E2 & Hh2 & M).
      unfold bal_key in E2. apply key_inj in E2 as [_ <-]; auto; [|unfold is_height, max_u64, two64, u64 in *; lia].
      exists h. split; [assumption|]. split; [lia|]. rewrite <- Ee. split; [rewrite <- surjective_pairing; assumption|]. intros h' v' Hh' Ln' I'. apply (M (bal_key a t h', v') h'); auto.
    + destruct (zlist_eqb (bal_stem a' t') (bal_stem a t)) eqn:Q2.
      { apply zlist_eqb_eq in Q2. apply bal_stem_inj in Q2 as [-> ->]; auto. now rewrite !zlist_eqb_refl in Q. }
      intros v (h2 & Hh2 & Ln & I & _). apply (BL (bal_key a t h2, v) h2); auto.
  - intros v (h & Hh & Ln & I & _). subst lo. exact (LOW h v Hh Ln (IN h v Hh I)).
Qed.

(** ** Iterating over the storage of a contract *)
Definition rend (e : kv) : kv := (dec_key (skipn 22 (fst e)), snd e).
Lemma rend_key a k h v : is_addr a -> is_skey k -> rend (stor_key a k h, v) = (k, v).
Proof.
  intros [_ A] [_ K]. unfold rend. cbn [fst snd]. f_equal. unfold stor_key, stor_stem. cbn [app]. rewrite skipn_cons, <- app_assoc.
  rewrite (skipn_exact a _ 21 A).
  pose proof (enc_len k K) as EL. unfold dec_key. rewrite app_nth1 by lia. rewrite firstn_app. replace (nth 32 (enc_key k) 0) with (zlen k).
  - unfold zlen. rewrite Nat2Z.id. rewrite EL. replace (length k - 33)%nat with O by lia. cbn [firstn]. rewrite app_nil_r. unfold enc_key. rewrite firstn_app, Nat.sub_diag. cbn [firstn]. rewrite app_nil_r. apply firstn_all.
  - unfold enc_key. rewrite app_assoc, app_nth2; rewrite app_length, repeat_length; [|lia]. now replace (32 - (length k + (32 - length k)))%nat with O by lia.
Qed.
Lemma entry_rend s : si_entry s = option_map rend (c_here (si_cur s)).
Proof. unfold si_entry. now destruct (c_here (si_cur s)). Qed.
Lemma listing_raw n nx : forall f s, listing f n nx s = map rend (raw n f nx s).
Proof.
  induction f as [|f IH]; intro s; [reflexivity|]. cbn [listing raw]. destruct (si_ok (si_step n nx s)); [|reflexivity].
  rewrite entry_rend. destruct (c_here (si_cur (si_step n nx s))); [|reflexivity]. cbn [option_map map]. now rewrite IH.
Qed.
Lemma listing_from_raw n nx f s : listing_from f n nx s = map rend (raw_from n f nx s).
Proof.
  unfold listing_from, raw_from. destruct (si_ok s); [|reflexivity]. rewrite entry_rend. destruct (c_here (si_cur s)); [|reflexivity]. cbn [option_map map]. now rewrite listing_raw.
Qed.

Section Iterator.
Context (db : list kv) (OK : store_ok db) (n : Z) (Hn : is_height n) (a : bytes) (Ha : is_addr a) (p : bytes) (Bp : bytes_ok p) (Lp : (length p <= 32)%nat).
Let L := filter (fun x => in_range (2 :: a ++ p) (fst x)) db.
Lemma matches_enc k : is_skey k -> has_prefix p (enc_key k) <-> matches p k.
Proof.
  intros [_ K]. unfold matches, enc_key. rewrite app_assoc. set (q := k ++ repeat 0 (32 - length k)). assert (Q : length q = 32%nat) by (unfold q; rewrite app_length, repeat_length; lia). split.
  - intros [r E]. apply app_split in E as [E|(s & -> & E)]; [exact E|]. assert (s = []) by (rewrite app_length in Lp; destruct s; [reflexivity|cbn in Lp; lia]). subst s. exists []. now rewrite !app_nil_r.
  - intros [r ->]. exists (r ++ [zlen k]). now rewrite app_assoc.
Qed.
Lemma bp2 : bytes_ok (2 :: a ++ p).
Proof. constructor; [unfold is_byte; lia|]. apply Forall_app. split; [apply Ha|exact Bp]. Qed.
Lemma in_L e : In e L <-> In e db /\ exists k h, fst e = stor_key a k h /\ is_skey k /\ is_height h /\ matches p k.
Proof.
  unfold L. rewrite filter_In. destruct OK as (_ & OS & _ & OY). split.
  - intros [I C]. split; [assumption|]. apply in_range_prefix in C; [|apply bp2|now apply OY]. destruct C as [r C]. cbn [app] in C.
    destruct (OS e _ I C) as (a' & k & h & E & Ha' & Hk & Hh). rewrite E in C. unfold stor_key, stor_stem in C. cbn [app] in C. injection C as C. rewrite <- !app_assoc in C.
    apply app_inv_len in C as [-> C]; [|destruct Ha as [_ A], Ha' as [_ A']; congruence].
    exists k, h. split; [assumption|]. split; [assumption|]. split; [assumption|]. apply (matches_enc k Hk).
    apply app_split in C as [C|(s & Ep & _)]; [exact C|]. exfalso. apply (f_equal (@length Z)) in Ep. rewrite app_length, (enc_len k) in Ep by apply Hk. lia.
  - intros (I & k & h & E & Hk & Hh & M). split; [assumption|]. apply in_range_prefix; [apply bp2|now apply OY|]. rewrite E. apply (matches_enc k Hk) in M as [r M].
    exists (r ++ be_bytes 8 h). unfold stor_key, stor_stem. rewrite M. cbn [app]. now rewrite <- !app_assoc.
Qed.
Lemma L_sorted : sortedd true L.
Proof. apply filter_sorted, store_sorted, OK. Qed.
Lemma L_shaped e : In e L -> exists s h, fst e = s ++ be_bytes 8 h /\ length s = 55%nat /\ 0 <= h < max_u64.
Proof. intro I. apply in_L in I as (_ & k & h & E & Hk & Hh & _). exists (stor_stem a k), h. split; [exact E|]. split; [now apply stor_stem_len|exact Hh]. Qed.
Lemma hit_stem t e : hit L n t e -> exists k h, t = stor_stem a k /\ fst e = stor_key a k h /\ is_skey k /\ matches p k /\ is_height h /\ newest_value db n a k (snd e).
Proof.
  intros (I & h & E & Hh & M). pose proof I as I0. apply in_L in I as (Id & k & h' & E' & Hk & Hh' & Mt). assert (Q : is_height h) by (unfold is_height in *; lia).
  rewrite E' in E. unfold stor_key in E.
  assert (T : stor_stem a k = t) by (rewrite <- (stem_app (stor_stem a k) h'), E; apply stem_app). subst t. apply key_inj in E as [_ ->]; auto.
  exists k, h. split; [reflexivity|]. split; [assumption|]. split; [assumption|]. split; [assumption|]. split; [assumption|]. exists h. split; [assumption|]. split; [lia|]. rewrite <- E'. split; [rewrite <- surjective_pairing; assumption|].
  intros h' v' Hq' Lq' I'. apply (M (stor_key a k h', v') h'); [|reflexivity|unfold is_height in *; lia]. apply in_L. split; [assumption|]. exists k, h'. auto.
Qed.
Lemma hit_of k v : is_skey k -> matches p k -> newest_value db n a k v -> exists h, hit L n (stor_stem a k) (stor_key a k h, v).
Proof.
  intros Hk Mt (h & Hh & Ln & I & M). exists h. split; [apply in_L; split; [assumption|]; exists k, h; auto|]. exists h. split; [reflexivity|]. split; [unfold is_height in *; lia|].
  intros [k' v'] h' I' E' Hh'. cbn [fst] in E'. subst k'. apply in_L in I' as [I' _]. apply (M h' v'); [unfold is_height in *; lia|lia|exact I'].
Qed.
Lemma listed (o : bytes -> Prop) l : (forall e, In e l <-> exists t, o t /\ hit L n t e) ->
  forall k v, In (k, v) (map rend l) <-> is_skey k /\ matches p k /\ o (stor_stem a k) /\ newest_value db n a k v.
Proof.
  intros H k v. rewrite in_map_iff. split.
  - intros (e & E & I). apply H in I as (t & Ot & Ht). destruct (hit_stem t e Ht) as (k' & h & -> & Ee & Hk & Mt & Hh & N). destruct e as [x y]. cbn [fst snd] in *. subst x. rewrite rend_key in E by assumption. injection E as -> ->. auto.
  - intros (Hk & Mt & Ok & N). destruct (hit_of k v Hk Mt N) as [h Hh]. exists (stor_key a k h, v). split; [now apply rend_key|]. apply H. now exists (stor_stem a k).
Qed.
Lemma rend_sorted nx l : sortedd nx l -> (forall e, In e l -> exists t, hit L n t e) -> sortedd nx (map rend l).
Proof.
  intros S H. induction S as [|e l S IH F]; [constructor|]. cbn [map]. constructor; [apply IH; intros; apply H; now right|].
  apply Forall_forall. intros y I. apply in_map_iff in I as (e' & <- & I). rewrite Forall_forall in F. specialize (F e' I).
  destruct (H e (or_introl eq_refl)) as [t Ht]. destruct (H e' (or_intror I)) as [t' Ht']. pose proof Ht as Ht0. pose proof Ht' as Ht0'.
  apply hit_stem in Ht as (k & h & Et & Ee & Hk & _ & Hh & _). apply hit_stem in Ht' as (k' & h' & Et' & Ee' & Hk' & _ & Hh' & _).
  assert (NE : stor_stem a k <> stor_stem a k').
  { intro Q. subst t t'. rewrite <- Q in Ht0'. pose proof (hit_unique 55 L L_sorted L_shaped n (stor_stem a k) e e' Ht0 Ht0'). subst e'. rewrite ltd_irrefl in F. discriminate. }
  destruct e as [x v], e' as [x' v']. cbn [fst] in *. subst x x'. rewrite !rend_key by assumption. cbn [fst]. unfold stor_key in F.
  destruct nx; cbn [ltd] in *; apply key_lt in F as [F|[F _]]; auto; try (rewrite !stor_stem_len; auto; fail); try congruence; now rewrite stem_lt in F.
Qed.
Lemma new_at : at_stem 55 L None (si_new db a p).
Proof. repeat split. Qed.
Lemma keeps_L s o : c_all (si_cur s) = L -> c_all (si_cur (sdo n a s o)) = L.
Proof.
  intro E. rewrite <- E. clear E.
  assert (NX : forall c, c_all (c_next c) = c_all c).
  { intro c. unfold c_next, c_all. destruct (c_ahead c) as [|x r], (c_here c); cbn [c_behind c_here c_ahead push rev app]; rewrite ?app_nil_r; try reflexivity; now rewrite <- app_assoc. }
  assert (SP : forall key c, c_all (fst (set_pointer n key c)) = c_all c).
  { intros key c. unfold set_pointer. destruct (c_here (c_seek _ c)) as [e|] eqn:E.
    - destruct (_ && _); cbn [fst]; rewrite ?prev_all; apply seek_all.
    - cbn [fst]. rewrite c_last_all. apply seek_all. }
  assert (LP : forall f nx s, c_all (si_cur (si_loop f n nx s)) = c_all (si_cur s)).
  { induction f as [|f IH]; intros nx s'; [reflexivity|]. destruct (si_ok s') eqn:EO; [|cbn [si_loop]; now rewrite EO].
    rewrite loop_S by assumption. assert (M : c_all (moved_to nx s') = c_all (si_cur s')).
    { unfold moved_to. destruct (si_last s') as [|x y]; [destruct nx; [apply NX|apply prev_all]|]. cbv zeta. destruct nx; [apply seek_all|].
      destruct (c_here (c_seek _ (si_cur s'))); [rewrite prev_all|]; apply seek_all. }
    destruct (c_here (moved_to nx s')) as [e|]; [|exact M]. unfold land. cbv zeta. cbn [fst snd]. destruct (snd (set_pointer n (fst e) (moved_to nx s'))).
    - cbn [si_cur]. now rewrite SP.
    - rewrite IH. cbn [si_cur]. now rewrite SP. }
  destruct o as [| | |k]; cbn [sdo]; unfold si_step, si_to_last, si_seek, land; cbv zeta; cbn [fst snd]; try apply LP.
  - destruct (c_here (c_last (si_cur s))) as [e|]; cbn [si_cur]; [|apply c_last_all]. destruct (snd (set_pointer _ _ _)); [cbn [si_cur]|unfold si_step; rewrite LP; cbn [si_cur]]; rewrite SP; apply c_last_all.
  - destruct (c_here (c_seek _ (si_cur s))) as [e|]; cbn [si_cur]; [|apply seek_all]. destruct (snd (set_pointer _ _ _)); [cbn [si_cur]|unfold si_step; rewrite LP; cbn [si_cur]]; rewrite SP; apply seek_all.
Qed.
Lemma used_L os : c_all (si_cur (fold_left (sdo n a) os (si_new db a p))) = L.
Proof. assert (G : forall s, c_all (si_cur s) = L -> c_all (si_cur (fold_left (sdo n a) os s)) = L) by (induction os as [|o os IH]; intros s E; [assumption|]; apply IH, keeps_L, E). now apply G. Qed.
Lemma L_le : (length L <= length db)%nat.
Proof. unfold L. clear. induction db as [|x l IH]; cbn; [lia|]. destruct (in_range _ _); cbn; lia. Qed.
Lemma asc l : sortedd true l -> ascending l.
Proof. intro S. now apply ascending_sorted, sorted_fwd. Qed.
Lemma desc l : sortedd false l -> descending l.
Proof.
  intro S. unfold descending. induction S as [|x l S IH F]; [constructor|]. constructor; [assumption|]. rewrite Forall_forall in *. intros y I. apply bltb_before. now apply (F y).
Qed.

(** Stepping a new iterator forwards passes exactly the keys with the prefix that have a value at
    a height up to the snapshot's, each once, in order, with the newest such value. *)
Theorem snapshot_iteration_forward f : (length db < f)%nat ->
  let l := listing f n true (si_new db a p) in
  ascending l /\ forall k v, In (k, v) l <-> is_skey k /\ matches p k /\ newest_value db n a k v.
Proof.
  intros F l. unfold l. rewrite listing_raw. pose proof L_le as LL.
  destruct (raw_spec 55 L L_sorted L_shaped n Hn true f None (si_new db a p) new_at (or_introl eq_refl)) as [S I].
  { eapply Nat.le_lt_trans; [|exact F]. eapply Nat.le_trans; [apply filt_len|exact LL]. }
  split.
  - apply asc, rend_sorted; [assumption|]. intros e J. apply I in J as (t & _ & Ht). now exists t.
  - intros k v. rewrite (listed (fun t => beyond true None t = true) _ I). cbn. tauto.
Qed.
(** After any use, going to the last entry and stepping backwards passes all of them in reverse. *)
Theorem snapshot_iteration_backward f os : (length db < f)%nat ->
  let l := listing_from f n false (sdo n a (fold_left (sdo n a) os (si_new db a p)) SLast) in
  descending l /\ forall k v, In (k, v) l <-> is_skey k /\ matches p k /\ newest_value db n a k v.
Proof.
  intros F l. unfold l. rewrite listing_from_raw. pose proof L_le as LL. cbn [sdo].
  destruct (raw_from_spec 55 L L_sorted L_shaped n Hn false (fun _ => True) f _ (to_last_spec 55 L L_sorted L_shaped n Hn _ (used_L os))) as [S I]; [auto|eapply Nat.le_lt_trans; [exact LL|exact F]|].
  split.
  - apply desc, rend_sorted; [assumption|]. intros e J. apply I in J as (t & _ & Ht). now exists t.
  - intros k v. rewrite (listed (fun _ => True) _ I). tauto.
Qed.
(** After any use, seeking a key and stepping forwards passes those that are not below it. *)
Theorem snapshot_iteration_seek f os k0 : (length db < f)%nat -> is_skey k0 ->
  let l := listing_from f n true (sdo n a (fold_left (sdo n a) os (si_new db a p)) (SSeek k0)) in
  ascending l /\ forall k v, In (k, v) l <-> is_skey k /\ matches p k /\ ~ before k k0 /\ newest_value db n a k v.
Proof.
  intros F Hk0 l. unfold l. rewrite listing_from_raw. pose proof L_le as LL. cbn [sdo].
  destruct (raw_from_spec 55 L L_sorted L_shaped n Hn true _ f _ (seek_spec 55 L L_sorted L_shaped n Hn _ a k0 (used_L os) (stor_stem_len a k0 Ha Hk0))) as [S I].
  { intros t u H1 H2. cbn [ltd] in H2. destruct (bltb u (stor_stem a k0)) eqn:Q; [|reflexivity]. rewrite (bltb_trans _ _ _ H2 Q) in H1. discriminate. }
  { eapply Nat.le_lt_trans; [exact LL|exact F]. }
  split.
  - apply asc, rend_sorted; [assumption|]. intros e J. apply I in J as (t & _ & Ht). now exists t.
  - intros k v. rewrite (listed (fun t => bltb t (stor_stem a k0) = false) _ I). split; intros (A & B & C & D); repeat split; auto; try apply A.
    + intro X. apply bltb_before in X. rewrite stem_lt in C by assumption. congruence.
    + rewrite stem_lt by assumption. destruct (bltb k k0) eqn:X; [|reflexivity]. apply bltb_before in X. contradiction.
Qed.
(** Where an iterator stands after any use. *)
Definition stands (s : sit) : Prop := c_all (si_cur s) = L /\
  (si_ok s = true -> at_stem 55 L None s \/ exists t e, hit L n t e /\ c_here (si_cur s) = Some e /\ at_stem 55 L (Some t) s).
Lemma sdo_stands s o : sop_ok o -> stands s -> stands (sdo n a s o).
Proof.
  intros Ho [A B]. split; [now apply keeps_L|]. destruct o as [| | |k]; cbn [sdo].
  - destruct (si_ok s) eqn:E; [|unfold si_step; cbn [si_loop]; rewrite E; cbn [negb]; congruence]. destruct (B eq_refl) as [AT|(t & e & _ & _ & AT)].
    + destruct (step_spec 55 L L_sorted L_shaped n Hn true None s AT (or_introl eq_refl)) as [_ Q]. intro O. rewrite O in Q. destruct Q as (t & e & _ & H1 & H2 & H3 & _). right. now exists t, e.
    + destruct (step_spec 55 L L_sorted L_shaped n Hn true (Some t) s AT (or_introl eq_refl)) as [_ Q]. intro O. rewrite O in Q. destruct Q as (t' & e' & _ & H1 & H2 & H3 & _). right. now exists t', e'.
  - destruct (si_ok s) eqn:E; [|unfold si_step; cbn [si_loop]; rewrite E; cbn [negb]; congruence]. destruct (B eq_refl) as [AT|(t & e & _ & _ & AT)].
    + destruct AT as (_ & _ & EL & EC). unfold si_step. rewrite loop_S by assumption. unfold moved_to. rewrite EL, EC. cbn. discriminate.
    + destruct (step_spec 55 L L_sorted L_shaped n Hn false (Some t) s AT (stem_set false t)) as [_ Q]. intro O. rewrite O in Q. destruct Q as (t' & e' & _ & H1 & H2 & H3 & _). right. now exists t', e'.
  - destruct (to_last_spec 55 L L_sorted L_shaped n Hn s A) as [_ Q]. intro O. rewrite O in Q. destruct Q as (t' & e' & _ & H1 & H2 & H3 & _). right. now exists t', e'.
  - destruct (seek_spec 55 L L_sorted L_shaped n Hn s a k A (stor_stem_len a k Ha Ho)) as [_ Q]. intro O. rewrite O in Q. destruct Q as (t' & e' & _ & H1 & H2 & H3 & _). right. now exists t', e'.
Qed.
Lemma used_stands os : Forall sop_ok os -> stands (fold_left (sdo n a) os (si_new db a p)).
Proof.
  assert (G : forall s, Forall sop_ok os -> stands s -> stands (fold_left (sdo n a) os s)).
  { induction os as [|o os IH]; intros s F S; [assumption|]. inversion F; subst. apply IH; [assumption|]. now apply sdo_stands. }
  intro F. apply G; [assumption|]. split; [reflexivity|]. intros _. left. apply new_at.
Qed.
(** Turning round returns to the entry before. *)
Theorem snapshot_iteration_turns os e nx : Forall sop_ok os -> let s := fold_left (sdo n a) os (si_new db a p) in
  si_ok s = true -> si_entry s = Some e -> si_ok (si_step n nx s) = true ->
  si_ok (si_step n (negb nx) (si_step n nx s)) = true /\ si_entry (si_step n (negb nx) (si_step n nx s)) = Some e.
Proof.
  intros F s O E O2. destruct (used_stands os F) as [A B]. fold s in A, B. destruct (B O) as [AT|(t & r & Ht & Er & AT)].
  { destruct AT as (_ & _ & _ & EC). unfold si_entry in E. rewrite EC in E. discriminate. }
  rewrite entry_rend, Er in E. cbn [option_map] in E.
  destruct (step_spec 55 L L_sorted L_shaped n Hn nx (Some t) s AT (stem_set nx t)) as [_ Q]. rewrite O2 in Q. destruct Q as (t2 & r2 & B2 & H2 & Er2 & AT2 & M2). cbn [beyond] in B2, M2.
  destruct (step_spec 55 L L_sorted L_shaped n Hn (negb nx) (Some t2) _ AT2 (stem_set (negb nx) t2)) as [_ Q].
  assert (NG : forall x y, ltd (negb nx) x y = ltd nx y x) by (intros x y; destruct nx; reflexivity).
  assert (NM : ~ missing L n t) by (intro M; destruct Ht as (I & h & Eh & Hh & _); specialize (M r h I Eh); unfold is_height in Hn; lia).
  destruct (si_ok (si_step n (negb nx) (si_step n nx s))).
  - split; [reflexivity|]. destruct Q as (t3 & r3 & B3 & H3 & Er3 & _ & M3). cbn [beyond] in B3, M3. rewrite entry_rend, Er3. rewrite <- E. cbn [option_map]. f_equal. f_equal.
    rewrite NG in B3. destruct (ltd nx t t3) eqn:Q1.
    { exfalso. specialize (M2 t3 Q1 B3). destruct H3 as (I & h & Eh & Hh & _). specialize (M2 r3 h I Eh). unfold is_height in Hn. lia. }
    destruct (ltd nx t3 t) eqn:Q2; [exfalso; apply NM, M3; rewrite NG; assumption|].
    rewrite <- (ltd_total _ _ _ Q1 Q2) in H3. apply (hit_unique 55 L L_sorted L_shaped n t); assumption.
  - exfalso. apply NM. apply Q. cbn [beyond]. now rewrite NG.
Qed.
End Iterator.

(** ** An example *)
Definition addr1 : bytes := repeat 1 21.
Definition addr2 : bytes := repeat 2 21.
Definition tok : bytes := repeat 7 10.
Definition store1 : list kv :=
  [(stor_key addr1 [5] 3, [50]); (stor_key addr1 [5] 8, []); (stor_key addr1 [5; 0] 9, [7]); (stor_key addr1 [6] 2, [60]); (stor_key addr1 [6] 4, [61]);
   (stor_key addr2 [5] 1, [9]); (bal_key addr1 tok 2, [1; 0]); (bal_key addr1 tok 6, [2; 0])].
Lemma store1_ok : store_ok store1.
Proof.
  assert (B1 : is_addr addr1) by (split; [unfold addr1; cbn; repeat constructor; unfold is_byte; lia|reflexivity]).
  assert (B2 : is_addr addr2) by (split; [unfold addr2; cbn; repeat constructor; unfold is_byte; lia|reflexivity]).
  assert (BT : is_token tok) by (split; [unfold tok; cbn; repeat constructor; unfold is_byte; lia|reflexivity]).
  assert (BK : forall x, 0 <= x < 256 -> is_skey [x]) by (intros x H; split; [repeat constructor; unfold is_byte; lia|cbn; lia]).
  assert (BK2 : is_skey [5; 0]) by (split; [repeat constructor; unfold is_byte; lia|cbn; lia]).
  assert (H : forall h, 0 <= h < 100 -> is_height h) by (intros h Q; unfold is_height, max_u64, two64; lia).
  split; [|split; [|split]].
  - apply ascending_sorted. unfold sorted, store1. repeat (constructor; [|repeat constructor; vm_compute; reflexivity]). constructor.
  - intros e r I E. unfold store1 in I. cbn [In] in I.
    repeat (destruct I as [<-|I]; [cbn [fst]; try (exfalso; vm_compute in E; discriminate); eexists; eexists; eexists; (split; [reflexivity|split; [assumption|split; [first [assumption|apply BK; lia]|apply H; lia]]])|]). destruct I.
  - intros e r I E. unfold store1 in I. cbn [In] in I.
    repeat (destruct I as [<-|I]; [cbn [fst]; try (exfalso; vm_compute in E; discriminate); eexists; eexists; eexists; (split; [reflexivity|split; [assumption|split; [assumption|apply H; lia]]])|]). destruct I.
  - intros e I. unfold store1 in I. cbn [In] in I.
    assert (FB : forall l, forallb (fun x => (0 <=? x) && (x <? 256)) l = true -> bytes_ok l).
    { intros l Q. rewrite forallb_forall in Q. apply Forall_forall. intros x Hx. specialize (Q x Hx). unfold is_byte. lia. }
    apply FB. repeat (destruct I as [<-|I]; [vm_compute; reflexivity|]). destruct I.
Qed.
Example store1_reads :
  map (fun n => value_at store1 n addr1 [5]) [2; 3; 7; 8; 20] = [[]; [50]; [50]; []; []] /\
  map (fun n => balance_at store1 n addr1 tok) [1; 2; 5; 6; 9] = [None; Some [1; 0]; Some [1; 0]; Some [2; 0]; Some [2; 0]] /\
  listing 20 5 true (si_new store1 addr1 []) = [([5], [50]); ([6], [61])] /\
  listing 20 9 true (si_new store1 addr1 [5]) = [([5], []); ([5; 0], [7])] /\
  listing_from 20 5 false (sdo 5 addr1 (si_new store1 addr1 []) SLast) = [([6], [61]); ([5], [50])].
Proof. vm_compute. repeat split. Qed.
(** Once the end has been reported, stepping back finds nothing (iteration.go:180-183), although
    the iterators of the store itself go back to their last entry. *)
Theorem snapshot_iteration_back_from_end_refuted : exists db n a os k v, store_ok db /\
  let s := fold_left (sdo n a) os (si_new db a []) in
  si_ok s = false /\ newest_value db n a k v /\ listing 20 n false s = [].
Proof.
  exists store1, 5, addr1, [SNext; SNext; SNext], [6], [61]. split; [apply store1_ok|]. cbv zeta. split; [vm_compute; reflexivity|]. split; [|vm_compute; reflexivity].
  exists 4. split; [unfold is_height, max_u64, two64; lia|]. split; [lia|]. split; [unfold store1; cbn [In]; auto 10|].
  intros h' v' Hh' L' I. destruct (Z.eq_dec h' 5) as [->|]; [|lia]. exfalso. apply (in_map fst) in I. vm_compute in I.
  repeat (destruct I as [I|I]; [discriminate|]). destruct I.
Qed.
Print Assumptions value_found.
Print Assumptions balance_found.
Print Assumptions snapshot_iteration_forward.
Print Assumptions snapshot_iteration_backward.
Print Assumptions snapshot_iteration_seek.
Print Assumptions snapshot_iteration_turns.
Print Assumptions snapshot_iteration_back_from_end_refuted.
