(** The seeks on history keys find the newest entry up to a height; the snapshot iterator visits
    each stem that has one. *)
From Verif Require Import Lib VmDbModel VmDbSpec VmDbProofs VmDbProofs2 VmDbProofs3 HistModel.
From Coq Require Import Sorted.

(** * The order of keys *)
Lemma bltb_same_len a : forall b c d, length a = length b ->
  bltb (a ++ c) (b ++ d) = true <-> bltb a b = true \/ (a = b /\ bltb c d = true).
Proof.
  induction a as [|x a IH]; intros [|y b] c d L; try discriminate; cbn [app bltb].
  - split; [right; auto|intros [H|[_ H]]; [discriminate|auto]].
  - cbn in L. injection L as L. destruct (x <? y) eqn:E1; [intuition congruence|]. destruct (y <? x) eqn:E2.
    + split; [discriminate|]. intros [H|[H _]]; [discriminate|]. injection H as -> _. lia.
    + assert (x = y) by lia. subst y. rewrite (IH b c d L). split; intros [H|[H1 H2]]; auto; right; split; auto; congruence.
Qed.
Lemma be_lt m : forall x y, 0 <= x < 256 ^ Z.of_nat m -> 0 <= y < 256 ^ Z.of_nat m ->
  bltb (be_bytes m x) (be_bytes m y) = true <-> x < y.
Proof.
  induction m as [|m IH]; intros x y Hx Hy; cbn [be_bytes].
  - change (256 ^ Z.of_nat 0) with 1 in *. cbn. split; [discriminate|lia].
  - rewrite bltb_same_len by now rewrite !be_bytes_length.
    replace (256 ^ Z.of_nat (S m)) with (256 * 256 ^ Z.of_nat m) in * by (rewrite Nat2Z.inj_succ, Z.pow_succ_r by lia; ring).
    assert (Qx : 0 <= x / 256 < 256 ^ Z.of_nat m) by (split; [apply Z.div_pos; lia|apply Z.div_lt_upper_bound; lia]).
    assert (Qy : 0 <= y / 256 < 256 ^ Z.of_nat m) by (split; [apply Z.div_pos; lia|apply Z.div_lt_upper_bound; lia]).
    rewrite (IH _ _ Qx Qy). cbn [bltb]. split.
    + intros [H|[H1 H2]]; [lia|]. apply (f_equal be_val) in H1. rewrite !be_val_bytes in H1 by assumption.
      destruct (x mod 256 <? y mod 256) eqn:E; [lia|]. destruct (y mod 256 <? x mod 256); discriminate.
    + intro H. destruct (Z.lt_ge_cases (x / 256) (y / 256)) as [?|?]; [auto|]. right. assert (E : x / 256 = y / 256) by lia. split; [now rewrite E|].
      replace (x mod 256 <? y mod 256) with true by lia. reflexivity.
Qed.
Definition u64 (x : Z) : Prop := 0 <= x < 2 ^ 64.
Lemma be8_lt x y : u64 x -> u64 y -> bltb (be_bytes 8 x) (be_bytes 8 y) = true <-> x < y.
Proof. intros Hx Hy. apply be_lt; exact Hx || exact Hy. Qed.
Lemma be8_inj x y : u64 x -> u64 y -> be_bytes 8 x = be_bytes 8 y -> x = y.
Proof. intros Hx Hy E. apply (f_equal be_val) in E. now rewrite !be_val_bytes in E by (exact Hx || exact Hy). Qed.
(** Keys are ordered by stem, then by height. *)
Lemma key_lt s t x y : length s = length t -> u64 x -> u64 y ->
  bltb (s ++ be_bytes 8 x) (t ++ be_bytes 8 y) = true <-> bltb s t = true \/ (s = t /\ x < y).
Proof. intros L Hx Hy. rewrite bltb_same_len, be8_lt; tauto. Qed.
Lemma stem_app s h : stem (s ++ be_bytes 8 h) = s.
Proof.
  unfold stem. rewrite app_length, be_bytes_length. replace (length s + 8 - 8)%nat with (length s + 0)%nat by lia.
  rewrite firstn_app_2. cbn. apply app_nil_r.
Qed.
Lemma height_app s h : u64 h -> height_of (s ++ be_bytes 8 h) = h.
Proof.
  intro H. unfold height_of. rewrite app_length, be_bytes_length. replace (length s + 8 - 8)%nat with (length s) by lia.
  rewrite skipn_app, skipn_all, Nat.sub_diag. cbn [app skipn]. apply be_val_bytes. exact H.
Qed.
Lemma key_inj s t x y : length s = length t -> u64 x -> u64 y -> s ++ be_bytes 8 x = t ++ be_bytes 8 y -> s = t /\ x = y.
Proof.
  intros L Hx Hy E. assert (s = t) by (rewrite <- (stem_app s x), E; apply stem_app). subst. split; [reflexivity|]. apply app_inv_head in E. now apply be8_inj.
Qed.
Lemma bltb_le_trans a b c : bltb b a = false -> bltb b c = true -> bltb a c = true.
Proof.
  intros H1 H2. destruct (bltb a b) eqn:E; [now apply (bltb_trans a b c)|]. now rewrite (bltb_total _ _ E H1).
Qed.

(** * Cursors *)
Lemma seek_split k L c : sortedd true L -> c_all c = L -> exists lo hi, L = lo ++ hi /\
  (forall e, In e lo -> bltb (fst e) k = true) /\ (forall e, In e hi -> bltb (fst e) k = false) /\
  c_seek k c = mkCur (rev lo) (hd_error hi) (tl hi).
Proof.
  intros S <-. unfold c_seek. generalize dependent (c_all c). intros L S.
  assert (G : forall bh, exists lo hi, L = lo ++ hi /\ (forall e, In e lo -> bltb (fst e) k = true) /\ (forall e, In e hi -> bltb (fst e) k = false) /\
    seek_loop k bh L = mkCur (rev lo ++ bh) (hd_error hi) (tl hi)).
  { induction L as [|x L IH]; intro bh; cbn [seek_loop].
    - exists [], []. cbn. repeat split; auto; intros ? [].
    - inversion S as [|? ? S' F]; subst. rewrite Forall_forall in F. destruct (bltb (fst x) k) eqn:E.
      + destruct (IH S' (x :: bh)) as (lo & hi & -> & A & B & ->). exists (x :: lo), hi. repeat split; auto.
        * intros e [<-|I]; auto.
        * cbn [rev]. now rewrite <- app_assoc.
      + exists [], (x :: L). repeat split; try (intros ? []; fail). intros e [<-|I]; [assumption|].
        specialize (F e I). cbn in F. destruct (bltb (fst e) k) eqn:E2; [|reflexivity]. rewrite (bltb_trans _ _ _ F E2) in E. discriminate. }
  destruct (G []) as (lo & hi & E & A & B & C). exists lo, hi. rewrite app_nil_r in C. auto.
Qed.
Lemma seek_all k c : c_all (c_seek k c) = c_all c.
Proof. unfold c_seek. rewrite seek_loop_adv, adv_fwd_all. reflexivity. Qed.
Lemma all_split lo hi : c_all (mkCur (rev lo) (hd_error hi) (tl hi)) = lo ++ hi.
Proof. unfold c_all. cbn [c_behind c_here c_ahead]. rewrite rev_involutive. destruct hi; reflexivity. Qed.
Lemma prev_all c : c_all (c_prev c) = c_all c.
Proof.
  unfold c_prev, c_all. destruct (c_behind c) as [|x r]; cbn [c_behind c_here c_ahead rev push app]; [reflexivity|]. now rewrite <- app_assoc.
Qed.
Lemma prev_split lo hi : c_here (c_prev (mkCur (rev lo) (hd_error hi) (tl hi))) = hd_error (rev lo).
Proof. unfold c_prev. cbn [c_behind]. destruct (rev lo); reflexivity. Qed.
Lemma last_here c : c_here (c_last c) = hd_error (rev (c_all c)).
Proof. unfold c_last. destruct (rev (c_all c)); reflexivity. Qed.
Lemma hd_rev {A} (l : list A) e : hd_error (rev l) = Some e -> exists l', l = l' ++ [e].
Proof. intro H. destruct (rev l) as [|x r] eqn:E; [discriminate|]. injection H as ->. exists (rev r). rewrite <- (rev_involutive l), E. reflexivity. Qed.
Lemma hd_rev_none {A} (l : list A) : hd_error (rev l) = None -> l = [].
Proof. intro H. destruct (rev l) eqn:E; [|discriminate]. rewrite <- (rev_involutive l), E. reflexivity. Qed.
Lemma sorted_last l e x : sortedd true (l ++ [e]) -> In x (l ++ [e]) -> x = e \/ bltb (fst x) (fst e) = true.
Proof.
  intros S I. apply in_app_iff in I as [I|[<-|[]]]; [right|now left].
  induction l as [|y l IH]; [destruct I|]. cbn in S. inversion S as [|? ? S' F]; subst. destruct I as [<-|I]; [|auto].
  rewrite Forall_forall in F. apply F. apply in_or_app. right. now left.
Qed.
Lemma sorted_parts lo hi : sortedd true (lo ++ hi) -> sortedd true lo /\ sortedd true hi.
Proof.
  induction lo as [|x lo IH]; intro S; [split; [constructor|assumption]|]. cbn in S. inversion S as [|? ? S' F]; subst. destruct (IH S') as [A B]. split; [|assumption].
  constructor; [assumption|]. rewrite Forall_forall in *. intros y Hy. apply F. apply in_or_app. now left.
Qed.
Lemma sorted_first x l e : sortedd true (x :: l) -> In e (x :: l) -> e = x \/ bltb (fst x) (fst e) = true.
Proof. intros S [->|I]; [now left|]. inversion S as [|? ? S' F]; subst. rewrite Forall_forall in F. right. now apply F. Qed.

(** * Entries of one history *)
Section History.
Context (m : nat) (L : list kv) (SL : sortedd true L).
Context (shaped : forall e, In e L -> exists s h, fst e = s ++ be_bytes 8 h /\ length s = m /\ 0 <= h < max_u64).
Context (n : Z) (Hn : 0 <= n < max_u64).
Lemma small_u64 h : 0 <= h < max_u64 -> u64 h.
Proof. unfold max_u64, u64, two64. lia. Qed.
Lemma max_ok : u64 max_u64.
Proof. unfold max_u64, u64, two64. lia. Qed.
Lemma zero_ok : u64 0.
Proof. unfold u64. lia. Qed.
Local Hint Resolve small_u64 max_ok zero_ok : core.

(** The newest entry of the stem up to height [n]. *)
Definition hit (s : bytes) (e : kv) : Prop :=
  In e L /\ exists h, fst e = s ++ be_bytes 8 h /\ 0 <= h <= n /\
  forall e' h', In e' L -> fst e' = s ++ be_bytes 8 h' -> 0 <= h' <= n -> h' <= h.
Definition missing (s : bytes) : Prop := forall e h, In e L -> fst e = s ++ be_bytes 8 h -> 0 <= h < max_u64 -> n < h.
Lemma same_key e e' : In e L -> In e' L -> fst e = fst e' -> e = e'.
Proof.
  clear shaped Hn. intros I I' E. revert SL I I'. induction L as [|x l IH]; intros SL I I'; [destruct I|]. inversion SL as [|? ? S' F]; subst. rewrite Forall_forall in F.
  destruct I as [<-|I], I' as [<-|I']; auto.
  - specialize (F _ I'). cbn in F. rewrite E, bltb_irrefl in F. discriminate.
  - specialize (F _ I). cbn in F. rewrite E, bltb_irrefl in F. discriminate.
Qed.
Lemma hit_unique s e e' : hit s e -> hit s e' -> e = e'.
Proof.
  intros (I & h & E & B & M) (I' & h' & E' & B' & M'). apply same_key; auto. rewrite E, E'. f_equal. f_equal.
  pose proof (M _ _ I' E' B'). pose proof (M' _ _ I E B). lia.
Qed.

(** The last entry below a key of the stem is of the stem whenever some entry below is. *)
Lemma below s x lo hi : length s = m -> u64 x -> L = lo ++ hi ->
  (forall e, In e lo -> bltb (fst e) (s ++ be_bytes 8 x) = true) ->
  match hd_error (rev lo) with
  | Some e => if zlist_eqb (stem (fst e)) s
              then exists h, fst e = s ++ be_bytes 8 h /\ 0 <= h < x /\ forall e' h', In e' lo -> fst e' = s ++ be_bytes 8 h' -> u64 h' -> h' <= h
              else forall e' h', In e' lo -> fst e' = s ++ be_bytes 8 h' -> u64 h' -> False
  | None => lo = []
  end.
Proof.
  intros Ls Hx EL Hlo. destruct (hd_error (rev lo)) as [e|] eqn:E; [|now apply hd_rev_none].
  apply hd_rev in E as [l' ->]. assert (Ie : In e (l' ++ [e])) by (apply in_or_app; right; now left).
  assert (IL : forall z, In z (l' ++ [e]) -> In z L) by (intros z Hz; rewrite EL; apply in_or_app; now left).
  assert (Slo : sortedd true (l' ++ [e])) by (rewrite EL in SL; now apply sorted_parts in SL).
  destruct (shaped e (IL e Ie)) as (t & h & Ee & Lt & Hh). rewrite Ee, stem_app.
  destruct (zlist_eqb t s) eqn:Q.
  - apply zlist_eqb_eq in Q. subst t. exists h. split; [reflexivity|]. pose proof (Hlo e Ie) as B. rewrite Ee in B. apply key_lt in B as [B|[_ B]]; auto; [rewrite bltb_irrefl in B; discriminate|].
    split; [lia|]. intros e' h' I' E' H'. destruct (sorted_last _ _ _ Slo I') as [->|B'].
    + rewrite Ee in E'. apply key_inj in E' as [_ ->]; auto. lia.
    + rewrite E', Ee in B'. apply key_lt in B' as [B'|[_ B']]; auto; [rewrite bltb_irrefl in B'; discriminate|lia].
  - intros e' h' I' E' H'. assert (N : t <> s) by (intros ->; rewrite zlist_eqb_refl in Q; discriminate).
    pose proof (Hlo e Ie) as B. rewrite Ee in B. apply key_lt in B as [B|[B _]]; auto; [|congruence].
    destruct (sorted_last _ _ _ Slo I') as [->|B'].
    + rewrite Ee in E'. apply key_inj in E' as [-> _]; auto. congruence.
    + rewrite E', Ee in B'. apply key_lt in B' as [B'|[B' _]]; auto; [|congruence]. rewrite (bltb_asym _ _ B') in B. discriminate.
Qed.

Lemma set_pointer_spec c s key : c_all c = L -> length s = m -> stem key = s ->
  let r := set_pointer n key c in c_all (fst r) = L /\
  if snd r then exists e, c_here (fst r) = Some e /\ hit s e else missing s.
Proof.
  intros Ec Ls Es. unfold set_pointer. rewrite Es.
  destruct (seek_split (s ++ be_bytes 8 n) L c SL Ec) as (lo & hi & EL & Hlo & Hhi & ->). assert (Un : u64 n) by auto.
  pose proof (below s n lo hi Ls Un EL Hlo) as BL.
  assert (IL : forall z, In z lo -> In z L) by (intros z Hz; rewrite EL; apply in_or_app; now left).
  assert (IH : forall z, In z hi -> In z L) by (intros z Hz; rewrite EL; apply in_or_app; now right).
  assert (CA : c_all (mkCur (rev lo) (hd_error hi) (tl hi)) = L) by (rewrite EL; apply all_split).
  assert (HI : forall e h, In e hi -> fst e = s ++ be_bytes 8 h -> 0 <= h < max_u64 -> n <= h).
  { intros e h I E H. specialize (Hhi e I). rewrite E in Hhi. destruct (Z.lt_ge_cases h n) as [C|C]; [|lia]. exfalso. enough (bltb (s ++ be_bytes 8 h) (s ++ be_bytes 8 n) = true) by congruence. apply key_lt; auto. }
  (* what holds once the exact height is known to be absent *)
  assert (PV : (forall e h, In e hi -> fst e = s ++ be_bytes 8 h -> 0 <= h < max_u64 -> n < h) ->
     if match hd_error (rev lo) with Some e' => zlist_eqb (stem (fst e')) s | None => false end
     then exists e, hd_error (rev lo) = Some e /\ hit s e else missing s).
  { intro HS. destruct (hd_error (rev lo)) as [e|] eqn:E.
    - destruct (zlist_eqb (stem (fst e)) s) eqn:Q.
      + destruct BL as (h & Ee & Hh & M). exists e. split; [reflexivity|]. apply hd_rev in E as [l' Elo]. assert (Ie : In e lo) by (rewrite Elo; apply in_or_app; right; now left).
        split; [auto|]. exists h. split; [assumption|]. split; [lia|]. intros e' h' I' E' H'. rewrite EL in I'. apply in_app_iff in I' as [I'|I']; [apply (M e'); auto; apply small_u64; lia|].
        specialize (HS e' h' I' E'). lia.
      + intros e' h' I' E' H'. rewrite EL in I'. apply in_app_iff in I' as [I'|I']; [|now apply (HS e')]. destruct (BL e' h' I' E'); auto.
    - subst lo. intros e' h' I' E' H'. rewrite EL in I'. cbn in I'. now apply (HS e'). }
  cbv zeta. cbn [c_here]. destruct hi as [|x hi]; cbn [hd_error].
  - cbn [fst snd]. rewrite c_last_all. split; [assumption|]. rewrite last_here. pose proof (all_split lo []) as AS. cbn [hd_error tl] in AS |- *. rewrite AS, app_nil_r. apply PV. intros ? ? [].
  - destruct (shaped x (IH x (or_introl eq_refl))) as (t & h & Ex & Lt & Hh). rewrite Ex, stem_app, height_app by auto.
    destruct (zlist_eqb t s && (h <=? n)) eqn:Q.
    + cbn [fst snd c_here]. split; [assumption|]. apply andb_true_iff in Q as [Q1 Q2]. apply zlist_eqb_eq in Q1. subst t. exists x. split; [reflexivity|].
      pose proof (HI x h (or_introl eq_refl) Ex Hh). assert (h = n) by lia. subst h. split; [apply IH; now left|]. exists n. split; [assumption|]. split; [lia|]. lia.
    + cbn [fst snd]. rewrite prev_all. split; [assumption|]. change (Some x) with (hd_error (x :: hi)). rewrite prev_split. apply PV.
      intros e h' I' E' H'. pose proof (HI e h' I' E' H') as G. destruct (Z.eq_dec h' n) as [->|]; [|lia]. exfalso.
      (* the exact height would be the first one at or above *)
      assert (X : e = x).
      { rewrite EL in SL. apply sorted_parts in SL as [_ S2]. destruct (sorted_first _ _ _ S2 I') as [?|B]; [assumption|]. exfalso. specialize (Hhi x (or_introl eq_refl)). rewrite E' in B. congruence. }
      subst e. rewrite Ex in E'. apply key_inj in E' as [-> ->]; auto; [|congruence]. rewrite zlist_eqb_refl in Q. cbn in Q. lia.
Qed.

(** * Moving to another stem *)
Definition beyond (nx : bool) (o : option bytes) (t : bytes) : bool := match o with Some s => ltd nx s t | None => true end.
(** [st] stands at stem [o]; a fresh iterator at none. *)
Definition at_stem (o : option bytes) (st : sit) : Prop :=
  c_all (si_cur st) = L /\ si_ok st = true /\
  match o with
  | None => si_last st = [] /\ si_cur st = c_start L
  | Some s => length s = m /\ (exists h, si_last st = s ++ be_bytes 8 h) /\ exists e, In e L /\ stem (fst e) = s
  end.
Definition moved_to (nx : bool) (st : sit) : cur :=
  match si_last st with
  | [] => if nx then c_next (si_cur st) else c_prev (si_cur st)
  | _ =>
      let c1 := c_seek (stem (si_last st) ++ be_bytes 8 (if nx then max_u64 else 0)) (si_cur st) in
      if nx then c1 else match c_here c1 with Some _ => c_prev c1 | None => c1 end
  end.
Lemma move_spec nx o st : at_stem o st -> (nx = true \/ o <> None) ->
  c_all (moved_to nx st) = L /\
  match c_here (moved_to nx st) with
  | None => forall e, In e L -> beyond nx o (stem (fst e)) = false
  | Some e => In e L /\ beyond nx o (stem (fst e)) = true /\
      forall e', In e' L -> beyond nx o (stem (fst e')) = true -> ltd nx (stem (fst e')) (stem (fst e)) = false
  end.
Proof.
  intros (Ec & Eo & A) D. unfold moved_to. destruct o as [s|].
  - destruct A as (Ls & (h0 & El) & e0 & I0 & S0). destruct (si_last st) as [|b r] eqn:EE.
    { exfalso. apply (f_equal (@length Z)) in El. rewrite app_length, be_bytes_length in El. cbn in El. lia. }
    rewrite El, stem_app. clear El EE b r. destruct nx.
    + destruct (seek_split (s ++ be_bytes 8 max_u64) L _ SL Ec) as (lo & hi & EL & Hlo & Hhi & ->). split; [rewrite EL; apply all_split|]. cbn [c_here].
      assert (IL : forall z, In z lo -> In z L) by (intros z Hz; rewrite EL; apply in_or_app; now left).
      assert (IH : forall z, In z hi -> In z L) by (intros z Hz; rewrite EL; apply in_or_app; now right).
      assert (GL : forall e, In e lo -> bltb s (stem (fst e)) = false).
      { intros e I. specialize (Hlo e I). destruct (shaped e (IL e I)) as (t & h & Ee & Lt & Hh). rewrite Ee in *. rewrite stem_app. apply key_lt in Hlo as [B|[-> _]]; auto; [now apply bltb_asym|apply bltb_irrefl|congruence]. }
      assert (GH : forall e, In e hi -> bltb s (stem (fst e)) = true).
      { intros e I. specialize (Hhi e I). destruct (shaped e (IH e I)) as (t & h & Ee & Lt & Hh). rewrite Ee in *. rewrite stem_app.
        destruct (bltb s t) eqn:B; [reflexivity|]. exfalso. enough (bltb (t ++ be_bytes 8 h) (s ++ be_bytes 8 max_u64) = true) by congruence. apply key_lt; auto; [congruence|].
        destruct (bltb t s) eqn:B2; [now left|]. right. split; [symmetry; now apply bltb_total|lia]. }
      destruct hi as [|x hi]; cbn [hd_error beyond ltd].
      * intros e I. apply GL. rewrite EL, app_nil_r in I. exact I.
      * split; [apply IH; now left|]. split; [apply GH; now left|]. intros e' I' B'. rewrite EL in I'. apply in_app_iff in I' as [I'|I']; [rewrite (GL e' I') in B'; discriminate|].
        pose proof SL as SL'. rewrite EL in SL'. apply sorted_parts in SL' as [_ S2]. destruct (sorted_first _ _ _ S2 I') as [->|Q]; [apply bltb_irrefl|].
        destruct (shaped x (IH x (or_introl eq_refl))) as (t & h & Ex & Lt & Hh). destruct (shaped e' (IH e' I')) as (t' & h' & Ee & Lt' & Hh'). rewrite Ex, Ee in *. rewrite !stem_app.
        apply key_lt in Q as [Q|[-> Q]]; auto; [now apply bltb_asym|apply bltb_irrefl|congruence].
    + destruct (seek_split (s ++ be_bytes 8 0) L _ SL Ec) as (lo & hi & EL & Hlo & Hhi & ->). cbn [c_here].
      assert (IL : forall z, In z lo -> In z L) by (intros z Hz; rewrite EL; apply in_or_app; now left).
      assert (IH : forall z, In z hi -> In z L) by (intros z Hz; rewrite EL; apply in_or_app; now right).
      assert (GL : forall e, In e lo -> bltb (stem (fst e)) s = true).
      { intros e I. specialize (Hlo e I). destruct (shaped e (IL e I)) as (t & h & Ee & Lt & Hh). rewrite Ee in *. rewrite stem_app. apply key_lt in Hlo as [B|[_ B]]; auto; [lia|congruence]. }
      assert (GH : forall e, In e hi -> bltb (stem (fst e)) s = false).
      { intros e I. specialize (Hhi e I). destruct (shaped e (IH e I)) as (t & h & Ee & Lt & Hh). rewrite Ee in *. rewrite stem_app.
        destruct (bltb t s) eqn:B; [|reflexivity]. exfalso. enough (bltb (t ++ be_bytes 8 h) (s ++ be_bytes 8 0) = true) by congruence. apply key_lt; auto; congruence. }
      destruct hi as [|x hi].
      { exfalso. rewrite EL, app_nil_r in I0. specialize (GL e0 I0). rewrite S0, bltb_irrefl in GL. discriminate. }
      change (match hd_error (x :: hi) with Some _ => c_prev (mkCur (rev lo) (hd_error (x :: hi)) (tl (x :: hi))) | None => mkCur (rev lo) (hd_error (x :: hi)) (tl (x :: hi)) end)
        with (c_prev (mkCur (rev lo) (hd_error (x :: hi)) (tl (x :: hi)))).
      rewrite prev_all, prev_split. split; [rewrite EL; apply all_split|]. cbn [beyond ltd]. destruct (hd_error (rev lo)) as [e|] eqn:E.
      * apply hd_rev in E as [l' Elo]. assert (Ie : In e lo) by (rewrite Elo; apply in_or_app; right; now left). split; [auto|]. split; [auto|].
        intros e' I' B'. rewrite EL in I'. apply in_app_iff in I' as [I'|I']; [|rewrite (GH e' I') in B'; discriminate].
        pose proof SL as SL'. rewrite EL in SL'. apply sorted_parts in SL' as [S1 _]. rewrite Elo in S1, I'. destruct (sorted_last _ _ _ S1 I') as [->|Q]; [apply bltb_irrefl|].
        destruct (shaped e (IL e Ie)) as (t & h & Ex & Lt & Hh). rewrite <- Elo in I'. destruct (shaped e' (IL e' I')) as (t' & h' & Ee & Lt' & Hh'). rewrite Ex, Ee in *. rewrite !stem_app.
        apply key_lt in Q as [Q|[-> Q]]; auto; [now apply bltb_asym|apply bltb_irrefl|congruence].
      * apply hd_rev_none in E. subst lo. intros e I. rewrite EL in I. cbn [app] in I. now apply GH.
  - destruct A as [-> ->]. destruct D as [->|D]; [|congruence]. unfold c_next, c_start. cbn [c_ahead c_here c_behind push].
    destruct L as [|x l] eqn:EL; cbn [c_here]; [split; [reflexivity|intros e []]|]. split; [reflexivity|]. split; [now left|]. split; [reflexivity|].
    intros e' I' _. destruct (sorted_first _ _ _ SL I') as [->|Q]; [apply bltb_irrefl|]. cbn [ltd].
    destruct (shaped x (or_introl eq_refl)) as (t & h & Ex & Lt & Hh). destruct (shaped e' I') as (t' & h' & Ee & Lt' & Hh'). rewrite Ex, Ee in *. rewrite !stem_app.
    apply key_lt in Q as [Q|[-> Q]]; auto; [now apply bltb_asym|apply bltb_irrefl|congruence].
Qed.

Lemma stem_set nx (t : bytes) : nx = true \/ Some t <> None.
Proof. right. discriminate. Qed.
Lemma loop_S f nx st : si_ok st = true -> si_loop (S f) n nx st =
  match c_here (moved_to nx st) with
  | None => mkSit (moved_to nx st) false (match si_last st with [] => [] | _ => stem (si_last st) ++ be_bytes 8 (if nx then max_u64 else 0) end)
  | Some e => let r := land n e (moved_to nx st) in if snd r then fst r else si_loop f n nx (fst r)
  end.
Proof. intro H. cbn [si_loop]. rewrite H. reflexivity. Qed.
Definition left_over (nx : bool) (o : option bytes) : nat := length (filter (fun e => beyond nx o (stem (fst e))) L).
Lemma filt_len {A} (f : A -> bool) l : (length (filter f l) <= length l)%nat.
Proof. induction l as [|x l IH]; cbn; [lia|]. destruct (f x); cbn; lia. Qed.
Lemma filter_le {A} (f g : A -> bool) l : (forall x, In x l -> f x = true -> g x = true) -> (length (filter f l) <= length (filter g l))%nat.
Proof.
  induction l as [|x l IH]; intro H; cbn; [lia|]. assert (IHl : (length (filter f l) <= length (filter g l))%nat) by (apply IH; intros; apply H; [now right|assumption]).
  destruct (f x) eqn:E; [rewrite (H x (or_introl eq_refl) E); cbn; lia|]. destruct (g x); cbn; lia.
Qed.
Lemma filter_lt {A} (f g : A -> bool) l x : (forall y, In y l -> f y = true -> g y = true) -> In x l -> f x = false -> g x = true -> (length (filter f l) < length (filter g l))%nat.
Proof.
  intros H I F G. apply in_split in I as (l1 & l2 & ->). rewrite !filter_app, !app_length. cbn [filter]. rewrite F, G. cbn [length].
  pose proof (filter_le f g l1) as PA. pose proof (filter_le f g l2) as PB. assert (A' := PA (fun y I E => H y (in_or_app _ _ _ (or_introl I)) E)).
  assert (B' := PB (fun y I E => H y (in_or_app _ (x :: l2) _ (or_intror (in_cons x y l2 I))) E)). lia.
Qed.
Lemma beyond_trans nx o t u : beyond nx o t = true -> ltd nx t u = true -> beyond nx o u = true.
Proof. destruct o; cbn; [|reflexivity]. apply ltd_trans. Qed.
(** Stepping goes to the next stem that has an entry up to the height, at that entry, or reports the end. *)
Lemma loop_spec nx : forall f o st, at_stem o st -> (nx = true \/ o <> None) -> (left_over nx o < f)%nat ->
  let st' := si_loop f n nx st in c_all (si_cur st') = L /\
  if si_ok st' then
    exists t e, beyond nx o t = true /\ hit t e /\ c_here (si_cur st') = Some e /\ at_stem (Some t) st' /\
      forall u, beyond nx o u = true -> ltd nx u t = true -> missing u
  else forall u, beyond nx o u = true -> missing u.
Proof.
  induction f as [|f IH]; intros o st A D F; [lia|]. cbv zeta. rewrite loop_S by apply A.
  destruct (move_spec nx o st A D) as [MA MS]. destruct (c_here (moved_to nx st)) as [e|] eqn:EH.
  - destruct MS as (Ie & Be & Me). destruct (shaped e Ie) as (t & h & Ee & Lt & Hh). rewrite Ee, stem_app in Be.
    assert (Me' : forall u, beyond nx o u = true -> ltd nx u t = true -> missing u).
    { intros u B1 B2 e' h' I' E' H'. specialize (Me e' I'). rewrite E', Ee, !stem_app in Me. rewrite (Me B1) in B2. discriminate. }
    unfold land. cbv zeta. cbn [fst snd].
    destruct (set_pointer_spec (moved_to nx st) t (fst e) MA Lt) as [PA PS]; [rewrite Ee; apply stem_app|].
    assert (AT : at_stem (Some t) (mkSit (fst (set_pointer n (fst e) (moved_to nx st))) true (stem (fst e) ++ be_bytes 8 n))).
    { split; [assumption|]. split; [reflexivity|]. split; [assumption|]. cbn [si_last]. split; [exists n; now rewrite Ee, stem_app|]. exists e. split; [assumption|]. rewrite Ee. apply stem_app. }
    destruct (snd (set_pointer n (fst e) (moved_to nx st))) eqn:ES.
    + cbn [si_cur si_ok]. split; [assumption|]. destruct PS as (e' & He' & Hit). exists t, e'. auto.
    + assert (LO : (left_over nx (Some t) < f)%nat).
      { enough (left_over nx (Some t) < left_over nx o)%nat by lia. unfold left_over. apply filter_lt with (x := e).
        - intros y _ By. cbn in By. now apply (beyond_trans nx o t).
        - assumption.
        - rewrite Ee, stem_app. cbn. apply ltd_irrefl.
        - now rewrite Ee, stem_app. }
      destruct (IH (Some t) _ AT (stem_set nx t) LO) as [RA RS]. split; [exact RA|].
      assert (Miss : forall u, beyond nx o u = true -> beyond nx (Some t) u = true \/ missing u).
      { intros u B1. destruct (ltd nx u t) eqn:Q; [right; now apply Me'|]. destruct (ltd nx t u) eqn:Q2; [now left|]. right. now rewrite <- (ltd_total _ _ _ Q2 Q). }
      destruct (si_ok _).
      * destruct RS as (t' & e' & B & Hit & EH' & AT' & M). exists t', e'. split; [now apply (beyond_trans nx o t)|]. split; [assumption|]. split; [assumption|]. split; [assumption|].
        intros u B1 B2. destruct (Miss u B1) as [B3|]; [|assumption]. now apply M.
      * intros u B1. destruct (Miss u B1) as [B3|]; [|assumption]. now apply RS.
  - cbn [si_cur si_ok]. split; [assumption|]. intros u Bu e h I E H. specialize (MS e I). rewrite E, stem_app in MS. congruence.
Qed.
Lemma step_spec nx o st : at_stem o st -> (nx = true \/ o <> None) ->
  let st' := si_step n nx st in c_all (si_cur st') = L /\
  if si_ok st' then
    exists t e, beyond nx o t = true /\ hit t e /\ c_here (si_cur st') = Some e /\ at_stem (Some t) st' /\
      forall u, beyond nx o u = true -> ltd nx u t = true -> missing u
  else forall u, beyond nx o u = true -> missing u.
Proof.
  intros A D. apply loop_spec; auto. rewrite (proj1 A). enough (left_over nx o <= length L)%nat by lia. apply filt_len.
Qed.
(** Everything the iterator passes when it is stepped to the end. *)
Fixpoint raw (f : nat) (nx : bool) (st : sit) : list kv :=
  match f with
  | O => []
  | S f => let st' := si_step n nx st in
    if si_ok st' then match c_here (si_cur st') with Some e => e :: raw f nx st' | None => [] end else []
  end.
Lemma raw_spec nx : forall f o st, at_stem o st -> (nx = true \/ o <> None) -> (left_over nx o < f)%nat ->
  sortedd nx (raw f nx st) /\ forall e, In e (raw f nx st) <-> exists t, beyond nx o t = true /\ hit t e.
Proof.
  induction f as [|f IH]; intros o st A D F; [lia|]. cbn [raw]. destruct (step_spec nx o st A D) as [SA SS]. destruct (si_ok (si_step n nx st)).
  - destruct SS as (t & e & B & Hit & EH & AT & M). rewrite EH. destruct Hit as (Ie & h & Ee & Hh & Mx).
    assert (Ht : 0 <= h < max_u64) by lia. assert (Hit : hit t e) by (split; [assumption|exists h; auto]).
    assert (Lt : length t = m) by apply AT.
    destruct (IH (Some t) _ AT (stem_set nx t)) as [RS RI].
    { enough (left_over nx (Some t) < left_over nx o)%nat by lia. unfold left_over. apply filter_lt with (x := e).
      - intros y _ By. cbn in By. now apply (beyond_trans nx o t).
      - assumption.
      - rewrite Ee, stem_app. cbn. apply ltd_irrefl.
      - now rewrite Ee, stem_app. }
    split.
    + constructor; [assumption|]. apply Forall_forall. intros e' I'. apply RI in I' as (u & Bu & (I'' & h' & Ee' & Hh' & _)). destruct (shaped e' I'') as (u' & h'' & Q & Lu & Hh'').
      assert (u' = u) by (rewrite <- (stem_app u' h''), <- Q, Ee'; apply stem_app). subst u'. rewrite Ee, Ee'. cbn in Bu.
      destruct nx; cbn [ltd] in *; apply key_lt; auto; try congruence; apply small_u64; lia.
    + intro e'. cbn [In]. rewrite RI. split.
      * intros [<-|(u & Bu & Hu)]; [now exists t|]. exists u. split; [now apply (beyond_trans nx o t)|assumption].
      * intros (u & Bu & Hu). destruct (ltd nx t u) eqn:Q; [right; now exists u|]. left. destruct (ltd nx u t) eqn:Q2.
        { exfalso. specialize (M u Bu Q2). destruct Hu as (Iu & hu & Eu & Hhu & _). specialize (M e' hu Iu Eu). lia. }
        rewrite <- (ltd_total _ _ _ Q Q2) in Hu. now apply (hit_unique t).
  - split; [constructor|]. intro e. split; [intros []|]. intros (u & Bu & (Iu & hu & Eu & Hhu & _)). specialize (SS u Bu e hu Iu Eu). lia.
Qed.
(** Landing on an entry: at the newest entry of its stem, or on from there. *)
Definition settled (nx : bool) (o : bytes -> Prop) (st : sit) : Prop :=
  c_all (si_cur st) = L /\
  if si_ok st then exists t e, o t /\ hit t e /\ c_here (si_cur st) = Some e /\ at_stem (Some t) st /\ forall u, o u -> ltd nx u t = true -> missing u
  else forall u, o u -> missing u.
Lemma land_spec nx (o : bytes -> Prop) c e : c_all c = L -> In e L -> o (stem (fst e)) ->
  (forall u, o u -> ltd nx u (stem (fst e)) = true -> missing u) -> (forall t u, o t -> ltd nx t u = true -> o u) ->
  settled nx o (let r := land n e c in if snd r then fst r else si_step n nx (fst r)).
Proof.
  intros Ec Ie Oe Mo To. destruct (shaped e Ie) as (t & h & Ee & Lt & Hh). unfold land. cbv zeta. cbn [fst snd].
  destruct (set_pointer_spec c t (fst e) Ec Lt) as [PA PS]; [rewrite Ee; apply stem_app|].
  assert (AT : at_stem (Some t) (mkSit (fst (set_pointer n (fst e) c)) true (stem (fst e) ++ be_bytes 8 n))).
  { split; [assumption|]. split; [reflexivity|]. split; [assumption|]. cbn [si_last]. split; [exists n; now rewrite Ee, stem_app|]. exists e. split; [assumption|]. rewrite Ee. apply stem_app. }
  rewrite Ee, stem_app in Oe, Mo. destruct (snd (set_pointer n (fst e) c)).
  - split; [assumption|]. cbn [si_ok si_cur]. destruct PS as (e' & He' & Hit). exists t, e'. auto.
  - destruct (step_spec nx (Some t) _ AT (stem_set nx t)) as [RA RS]. split; [exact RA|].
    assert (Miss : forall u, o u -> ltd nx t u = true \/ missing u).
    { intros u B1. destruct (ltd nx u t) eqn:Q; [right; now apply Mo|]. destruct (ltd nx t u) eqn:Q2; [now left|]. right. now rewrite <- (ltd_total _ _ _ Q2 Q). }
    destruct (si_ok _).
    + destruct RS as (t' & e' & B & Hit & EH' & AT' & M). cbn in B. exists t', e'. split; [now apply (To t)|]. split; [assumption|]. split; [assumption|]. split; [assumption|].
      intros u B1 B2. destruct (Miss u B1) as [B3|]; [|assumption]. now apply M.
    + intros u B1. destruct (Miss u B1) as [B3|]; [|assumption]. now apply RS.
Qed.
(** The current entry and all that follow. *)
Definition raw_from (f : nat) (nx : bool) (st : sit) : list kv :=
  if si_ok st then match c_here (si_cur st) with Some e => e :: raw f nx st | None => [] end else [].
Lemma raw_from_spec nx o f st : settled nx o st -> (forall t u, o t -> ltd nx t u = true -> o u) -> (length L < f)%nat ->
  sortedd nx (raw_from f nx st) /\ forall e, In e (raw_from f nx st) <-> exists t, o t /\ hit t e.
Proof.
  intros [SA SS] To F. unfold raw_from. destruct (si_ok st).
  - destruct SS as (t & e & B & Hit & EH & AT & M). rewrite EH.
    destruct (raw_spec nx f (Some t) st AT (stem_set nx t)) as [RS RI].
    { enough (left_over nx (Some t) <= length L)%nat by lia. apply filt_len. }
    pose proof Hit as (Ie & h & Ee & Hh & Mx). assert (Ht : 0 <= h < max_u64) by lia. assert (Lt : length t = m) by apply AT.
    split.
    + constructor; [assumption|]. apply Forall_forall. intros e' I'. apply RI in I' as (u & Bu & (I'' & h' & Ee' & Hh' & _)). destruct (shaped e' I'') as (u' & h'' & Q & Lu & Hh'').
      assert (u' = u) by (rewrite <- (stem_app u' h''), <- Q, Ee'; apply stem_app). subst u'. rewrite Ee, Ee'. cbn in Bu.
      destruct nx; cbn [ltd] in *; apply key_lt; auto; try congruence; apply small_u64; lia.
    + intro e'. cbn [In]. rewrite RI. split.
      * intros [<-|(u & Bu & Hu)]; [now exists t|]. exists u. split; [now apply (To t)|assumption].
      * intros (u & Bu & Hu). destruct (ltd nx t u) eqn:Q; [right; now exists u|]. left. destruct (ltd nx u t) eqn:Q2.
        { exfalso. specialize (M u Bu Q2). destruct Hu as (Iu & hu & Eu & Hhu & _). specialize (M e' hu Iu Eu). lia. }
        rewrite <- (ltd_total _ _ _ Q Q2) in Hu. now apply (hit_unique t).
  - split; [constructor|]. intro e. split; [intros []|]. intros (u & Bu & (Iu & hu & Eu & Hhu & _)). specialize (SS u Bu e hu Iu Eu). lia.
Qed.
Lemma to_last_spec st : c_all (si_cur st) = L -> settled false (fun _ => True) (si_to_last n st).
Proof.
  intro Ec. unfold si_to_last. rewrite last_here, Ec. destruct (hd_error (rev L)) as [e|] eqn:E.
  - apply hd_rev in E as [l' EL]. assert (Ie : In e L) by (rewrite EL; apply in_or_app; right; now left). apply land_spec; auto; [now rewrite c_last_all|].
    intros u _ Q. cbn [ltd] in Q. intros e' h' I' E' H'. exfalso. destruct (shaped e Ie) as (t & h & Ee & Lt & Hh). destruct (shaped e' I') as (u' & h2 & Q2 & Lu & Hh2).
    assert (u' = u) by (rewrite <- (stem_app u' h2), <- Q2, E'; apply stem_app). subst u'. rewrite Ee, stem_app in Q.
    assert (SL' := SL). rewrite EL in SL', I'. destruct (sorted_last _ _ _ SL' I') as [->|B].
    + rewrite Ee in E'. apply key_inj in E' as [-> _]; auto; [|congruence]. rewrite bltb_irrefl in Q. discriminate.
    + rewrite E', Ee in B. apply key_lt in B as [B|[B _]]; auto; [rewrite (bltb_asym _ _ B) in Q; discriminate|subst; rewrite bltb_irrefl in Q; discriminate|congruence].
  - apply hd_rev_none in E. split; cbn [si_cur si_ok]; [now rewrite c_last_all|]. intros u _ e h I. rewrite E in I. destruct I.
Qed.
Lemma seek_spec st a k : c_all (si_cur st) = L -> length (stor_stem a k) = m ->
  settled true (fun t => bltb t (stor_stem a k) = false) (si_seek n a k st).
Proof.
  intros Ec Ls. unfold si_seek, stor_key. destruct (seek_split (stor_stem a k ++ be_bytes 8 0) L _ SL Ec) as (lo & hi & EL & Hlo & Hhi & ->). cbn [c_here].
  assert (IL : forall z, In z lo -> In z L) by (intros z Hz; rewrite EL; apply in_or_app; now left).
  assert (IH : forall z, In z hi -> In z L) by (intros z Hz; rewrite EL; apply in_or_app; now right).
  set (s := stor_stem a k) in *.
  assert (GL : forall e, In e lo -> bltb (stem (fst e)) s = true).
  { intros e I. specialize (Hlo e I). destruct (shaped e (IL e I)) as (t & h & Ee & Lt & Hh). rewrite Ee in *. rewrite stem_app. apply key_lt in Hlo as [B|[_ B]]; auto; [lia|congruence]. }
  assert (GH : forall e, In e hi -> bltb (stem (fst e)) s = false).
  { intros e I. specialize (Hhi e I). destruct (shaped e (IH e I)) as (t & h & Ee & Lt & Hh). rewrite Ee in *. rewrite stem_app.
    destruct (bltb t s) eqn:B; [|reflexivity]. exfalso. enough (bltb (t ++ be_bytes 8 h) (s ++ be_bytes 8 0) = true) by congruence. apply key_lt; auto; congruence. }
  destruct hi as [|x hi].
  - split; cbn [hd_error si_cur si_ok]; [rewrite EL; apply (all_split lo [])|]. intros u Bu e h I E H. rewrite EL, app_nil_r in I. specialize (GL e I). rewrite E, stem_app in GL. congruence.
  - cbn [hd_error]. apply land_spec.
    + rewrite EL. apply (all_split lo (x :: hi)).
    + apply IH. now left.
    + apply GH. now left.
    + intros u Bu Q e' h' I' E' H'. exfalso. rewrite EL in I'. apply in_app_iff in I' as [I'|I']; [specialize (GL e' I'); rewrite E', stem_app in GL; congruence|].
      assert (SL' := SL). rewrite EL in SL'. apply sorted_parts in SL' as [_ S2]. destruct (sorted_first _ _ _ S2 I') as [->|B].
      * rewrite E', stem_app in Q. cbn in Q. rewrite bltb_irrefl in Q. discriminate.
      * destruct (shaped x (IH x (or_introl eq_refl))) as (t & h & Ex & Lt & Hh). destruct (shaped e' (IH e' I')) as (u' & h2 & Q2 & Lu & Hh2).
        assert (u' = u) by (rewrite <- (stem_app u' h2), <- Q2, E'; apply stem_app). subst u'. rewrite Ex, stem_app in Q. cbn [ltd] in Q. rewrite Ex, E' in B.
        apply key_lt in B as [B|[B _]]; auto; [rewrite (bltb_asym _ _ B) in Q; discriminate|subst; rewrite bltb_irrefl in Q; discriminate|congruence].
    + intros t u H1 H2. cbn [ltd] in H2. destruct (bltb u s) eqn:Q; [|reflexivity]. rewrite (bltb_trans _ _ _ H2 Q) in H1. discriminate.
Qed.
End History.
