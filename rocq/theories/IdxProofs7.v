From Verif Require Import Lib.
From Verif Require RoadModel RoadProofs ChainProofs.
Import RoadProofs.
From Verif Require Import IdxModel IdxSpec IdxProofs IdxProofs2 IdxProofs3 IdxProofs4 IdxProofs5 IdxProofs6.
From Coq Require Import Permutation Sorted.
Import ListNotations.

(** ** What the queries read *)
Record okx (x : idx) (S0 : list seg) (U : list blk) : Prop := {
  q_wf : wf S0 U; q_nd : NoDup (map fst (view (i_store x))); q_good : good (view (i_store x)) S0 U;
  q_cache : forall k v, get keq (i_cache x) k = Some v -> get keq (view (i_store x)) k = Some v }.
Lemma place_perm x l : Permutation (x :: l) (place x l).
Proof. induction l as [|y l IH]; cbn; [reflexivity|]. destruct (fst x <=? fst y); [reflexivity|]. eapply Permutation_trans; [apply perm_swap|]. now constructor. Qed.
Lemma place_sorted x l : StronglySorted (fun x y => fst x <= fst y) l -> StronglySorted (fun x y => fst x <= fst y) (place x l).
Proof.
  induction 1 as [|y l H IH F]; cbn; [repeat constructor|]. destruct (Z.leb_spec (fst x) (fst y)) as [E|E].
  - constructor; [now constructor|]. constructor; [exact E|]. rewrite Forall_forall in *. intros z Hz. specialize (F z Hz). lia.
  - constructor; [exact IH|]. rewrite Forall_forall in *. intros z Hz. apply (Permutation_in _ (Permutation_sym (place_perm x l))) in Hz. destruct Hz as [<-|Hz]; [lia|now apply F].
Qed.
Definition picked (f : key -> option Z) (d : db) : list (Z * val) := flat_map (fun e => match f (fst e) with Some i => [(i, snd e)] | None => [] end) d.
Lemma walk_perm f d : Permutation (picked f d) (walk f d).
Proof. unfold walk. fold (picked f d). induction (picked f d) as [|x l IH]; cbn; [reflexivity|]. eapply Permutation_trans; [apply perm_skip, IH|apply place_perm]. Qed.
Lemma walk_sorted f d : StronglySorted (fun x y => fst x <= fst y) (walk f d).
Proof. unfold walk. fold (picked f d). induction (picked f d) as [|x l IH]; cbn; [constructor|now apply place_sorted]. Qed.
Lemma walk_in f d i v : In (i, v) (walk f d) <-> exists k, In (k, v) d /\ f k = Some i.
Proof.
  assert (In (i, v) (walk f d) <-> In (i, v) (picked f d)) as -> by (split; apply Permutation_in; [apply Permutation_sym|]; apply walk_perm). unfold picked. rewrite in_flat_map. split.
  - intros ([k w] & H & E). cbn in E. destruct (f k) eqn:F; [|destruct E]. destruct E as [E|[]]. injection E as -> ->. now exists k.
  - intros (k & H & F). exists (k, v). split; [exact H|]. cbn. rewrite F. now left.
Qed.
Lemma walk_nd f d : NoDup (map fst d) -> (forall k k' i, f k = Some i -> f k' = Some i -> k = k') -> NoDup (map fst (walk f d)).
Proof.
  intros N J. apply (Permutation_NoDup (Permutation_map fst (walk_perm f d))). induction d as [|[k v] d IH]; cbn; [constructor|]. cbn in N. inversion_clear N as [|? ? X Y]. destruct (f k) as [i|] eqn:F; [|now apply IH]. cbn. constructor; [|now apply IH].
  intros H. apply in_map_iff in H. destruct H as ([i' v'] & E & H). cbn in E. subst i'. apply in_flat_map in H. destruct H as ([k' w] & H & E'). cbn in E'. destruct (f k') eqn:F'; [|destruct E']. destruct E' as [E'|[]]. injection E' as -> ->. apply X. rewrite (J k k' i F F'). now apply (in_map fst) in H.
Qed.
Lemma sorted_lt l : StronglySorted (fun x y : Z * val => fst x <= fst y) l -> NoDup (map fst l) -> StronglySorted Z.lt (map fst l).
Proof.
  induction 1 as [|x l H IH F]; cbn; [constructor|]. intros N. inversion_clear N as [|? ? X Y]. constructor; [now apply IH|]. rewrite Forall_forall in *. intros z Hz. apply in_map_iff in Hz. destruct Hz as (y & <- & Hy). specialize (F y Hy). assert (fst x <> fst y); [|lia]. intros E. apply X. rewrite E. now apply in_map.
Qed.
Lemma page_ok l : forall lo hi i, 0 <= i -> page lo hi i l = firstn (Z.to_nat (hi - Z.max lo i)) (skipn (Z.to_nat (lo - i)) l).
Proof.
  induction l as [|x l IH]; intros lo hi i I0; cbn [page]; [now rewrite skipn_nil, firstn_nil|]. destruct (Z.leb_spec lo i) as [A|A].
  - replace (Z.to_nat (lo - i)) with 0%nat by lia. cbn [skipn]. replace (Z.max lo i) with i by lia. destruct (Z.leb_spec hi i) as [B|B].
    + now replace (Z.to_nat (hi - i)) with 0%nat by lia.
    + replace (Z.to_nat (hi - i)) with (Datatypes.S (Z.to_nat (hi - (i + 1)))) by lia. cbn [firstn]. rewrite IH by lia. replace (Z.to_nat (lo - (i + 1))) with 0%nat by lia. cbn [skipn]. now replace (Z.max lo (i + 1)) with (i + 1) by lia.
  - rewrite IH by lia. replace (Z.to_nat (lo - i)) with (Datatypes.S (Z.to_nat (lo - (i + 1)))) by lia. cbn [skipn]. now replace (Z.max lo (i + 1)) with (Z.max lo i) by lia.
Qed.
Section Queries.
  Context (x : idx) (S0 : list seg) (U : list blk) (K : okx x S0 U).
  Let d := view (i_store x).
  Lemma in_d k v : In (k, v) d <-> get keq d k = Some v.
  Proof. split; [apply (in_get _ keq_spec); apply (q_nd _ _ _ K)|apply (get_in _ keq_spec)]. Qed.
  Lemma value_ok k : get_value x k = get keq d k.
  Proof. unfold get_value. destruct (get keq (i_cache x) k) as [v|] eqn:E; [|reflexivity]. symmetry. now apply (q_cache _ _ _ K). Qed.
  Lemma addr_height_ok h a n : addr_height x h = Some (a, n) <-> exists b, In b (bb S0 U) /\ In h (hashes b) /\ b_addr b = a /\ b_height b = n.
  Proof.
    unfold addr_height. rewrite value_ok. pose proof (q_good _ _ _ K (KHash h) Logic.I) as G. fold d in G. split.
    - destruct (get keq d (KHash h)) as [[]|]; try discriminate. intros [= -> ->]. now apply (G (VAt a n)).
    - intros Q. apply (G (VAt a n)) in Q. now rewrite Q.
  Qed.
  Lemma addr_height_none h : addr_height x h = None <-> forall b, In b (bb S0 U) -> ~ In h (hashes b).
  Proof.
    split.
    - intros E b B H. assert (Q : addr_height x h = Some (b_addr b, b_height b)) by (apply addr_height_ok; exists b; auto). congruence.
    - intros H. destruct (addr_height x h) as [[a n]|] eqn:E; [|reflexivity]. apply addr_height_ok in E. destruct E as (b & B & Q & _). now destruct (H b B).
  Qed.
  Lemma existed_ok h : existed x h = true <-> exists b, In b (bb S0 U) /\ In h (hashes b).
  Proof.
    unfold existed, has. fold d. pose proof (q_good _ _ _ K (KHash h) Logic.I) as G. fold d in G. split.
    - destruct (get keq d (KHash h)) as [v|] eqn:E; [|discriminate]. intros _. specialize (proj1 (G v) eq_refl). destruct v; cbn; try (now intros []). intros (b & B & H & _). eauto.
    - intros (b & B & H). destruct (get keq d (KHash h)) eqn:E; [reflexivity|]. assert (X : None = Some (VAt (b_addr b) (b_height b))) by (apply G; cbn; exists b; auto). discriminate.
  Qed.
  Lemma by_height_ok a n h l : by_height x a n = Some (h, l) <-> exists g b, In g S0 /\ In b (g_blocks g) /\ b_addr b = a /\ b_height b = n /\ b_hash b = h /\ g_locs g h = l.
  Proof.
    unfold by_height. rewrite value_ok. pose proof (q_good _ _ _ K (KBlock a n) Logic.I) as G. fold d in G. split.
    - destruct (get keq d (KBlock a n)) as [[]|]; try discriminate. intros [= -> ->]. now apply (G (VLoc h l)).
    - intros Q. apply (G (VLoc h l)) in Q. now rewrite Q.
  Qed.
  Lemma received_ok s r : received_by x s = Some r <-> received_at (bb S0 U) s r.
  Proof.
    unfold received_by. rewrite value_ok. pose proof (q_good _ _ _ K (KRecv s) Logic.I) as G. fold d in G. split.
    - destruct (get keq d (KRecv s)) as [[]|]; try discriminate. intros [= ->]. now apply (G (VBy r)).
    - intros Q. apply (G (VBy r)) in Q. now rewrite Q.
  Qed.
  Lemma is_received_ok s : is_received x s = true <-> exists r, received_at (bb S0 U) s r.
  Proof.
    unfold is_received. rewrite value_ok. pose proof (q_good _ _ _ K (KRecv s) Logic.I) as G. fold d in G. split.
    - destruct (get keq d (KRecv s)) as [[ | | | |r| | |]|]; try discriminate. intros _. exists r. now apply (G (VBy r)).
    - intros (r & Q). apply (G (VBy r)) in Q. now rewrite Q.
  Qed.
  Lemma sb_height_ok g : In g S0 -> sb_height_of x (sb_hash (g_sb g)) = sb_height (g_sb g).
  Proof. intros H. unfold sb_height_of. rewrite value_ok. assert (Q : get keq d (KSb (sb_hash (g_sb g))) = Some (VNum (sb_height (g_sb g)))) by (apply (q_good _ _ _ K); [exact Logic.I|]; cbn; eauto). now rewrite Q. Qed.
  Lemma sb_height_none h : (forall g, In g S0 -> sb_hash (g_sb g) <> h) -> sb_height_of x h = 0.
  Proof.
    intros H. unfold sb_height_of. rewrite value_ok. pose proof (q_good _ _ _ K (KSb h) Logic.I) as G. fold d in G. destruct (get keq d (KSb h)) as [v|]; [|reflexivity]. specialize (proj1 (G v) eq_refl). destruct v; try reflexivity. cbn. intros (g & I0 & E & _). now destruct (H g).
  Qed.
  Lemma sb_at_ok n h l : sb_at x n = Some (h, l) <-> exists g, In g S0 /\ sb_height (g_sb g) = n /\ sb_hash (g_sb g) = h /\ g_loc g = l.
  Proof.
    unfold sb_at. rewrite value_ok. pose proof (q_good _ _ _ K (KSbAt n) Logic.I) as G. fold d in G. split.
    - destruct (get keq d (KSbAt n)) as [[]|]; try discriminate. intros [= -> ->]. now apply (G (VLoc h l)).
    - intros Q. apply (G (VLoc h l)) in Q. now rewrite Q.
  Qed.
  Lemma road_inj a k k' i : road_of a k = Some i -> road_of a k' = Some i -> k = k'.
  Proof. unfold road_of. destruct k as [| | | |b h| | | |], k' as [| | | |b' h'| | | |]; try discriminate. destruct (Z.eqb_spec b a), (Z.eqb_spec b' a); try discriminate. intros. congruence. Qed.
  Lemma road_sorted a : StronglySorted Z.lt (map fst (walk (road_of a) d)).
  Proof. apply sorted_lt; [apply walk_sorted|]. apply walk_nd; [apply (q_nd _ _ _ K)|]. intros k k' i. apply road_inj. Qed.
  Lemma road_in a h : In h (map fst (walk (road_of a) d)) <-> waits (bb S0 U) a h.
  Proof.
    rewrite in_map_iff. split.
    - intros ([i v] & <- & H). apply walk_in in H. destruct H as (k & H & F). destruct k as [| | | |b h'| | | |]; try discriminate. cbn [block_of conf_from road_of andb] in F. destruct (Z.eqb_spec b a) as [->|]; [|discriminate]. injection F as ->. apply in_d in H. apply (q_good _ _ _ K) in H; [|exact Logic.I]. destruct v; try contradiction. exact H.
    - intros H. exists (h, VNil). split; [reflexivity|]. apply walk_in. exists (KRoad a h). split; [|cbn; now rewrite Z.eqb_refl]. apply in_d. apply (q_good _ _ _ K); [exact Logic.I|]. exact H.
  Qed.
  Lemma road_page_ok a num size : 0 <= num -> 0 <= size -> road_page x a num size = firstn (Z.to_nat size) (skipn (Z.to_nat (size * num)) (map fst (walk (road_of a) d))).
  Proof. intros A B. unfold road_page. rewrite page_ok by lia. fold d. replace (size * (num + 1) - Z.max (size * num) 0) with size by nia. now replace (size * num - 0) with (size * num) by lia. Qed.
  Lemma block_inj a k k' i : block_of a k = Some i -> block_of a k' = Some i -> k = k'.
  Proof. unfold block_of. destruct k as [|b h| | | | | | |], k' as [|b' h'| | | | | | |]; try discriminate. destruct (Z.eqb_spec b a), (Z.eqb_spec b' a); cbn [andb]; try discriminate. destruct ((1 <=? h) && (h <? max_u64)), ((1 <=? h') && (h' <? max_u64)); try discriminate. intros E1 E2. congruence. Qed.
  Lemma blocks_in a n v : In (n, v) (walk (block_of a) d) <-> fact S0 U (KBlock a n) v.
  Proof.
    rewrite walk_in. split.
    - intros (k & H & F). destruct k as [|b h| | | | | | |]; try discriminate. cbn [block_of conf_from road_of andb] in F. destruct (Z.eqb_spec b a) as [->|]; cbn [block_of conf_from road_of andb] in F; [|discriminate]. destruct ((1 <=? h) && (h <? max_u64)); [|discriminate]. injection F as ->. apply in_d in H. now apply (q_good _ _ _ K) in H.
    - intros H. exists (KBlock a n). split; [apply in_d; now apply (q_good _ _ _ K)|]. assert (B : exists b, In b (bb S0 U) /\ b_height b = n).
      { destruct v; try contradiction; cbn in H; [destruct H as (b & B & _ & N & _); exists b; split; [apply in_bb; now right|exact N]|]. destruct H as (g & b & G & B & _ & N & _). exists b. split; [apply in_bb; left; eauto|exact N]. }
      destruct B as (b & B & N). apply (c_high _ _ (q_wf _ _ _ K)) in B. cbn [block_of conf_from]. rewrite Z.eqb_refl. cbn [andb]. destruct (Z.leb_spec 1 n), (Z.ltb_spec n max_u64); try lia. reflexivity.
  Qed.
  Lemma sorted_last l y : StronglySorted (fun x y : Z * val => fst x <= fst y) (l ++ [y]) -> forall z, In z (l ++ [y]) -> fst z <= fst y.
  Proof. intros H z Hz. apply in_app_or in Hz. destruct Hz as [Hz|[<-|[]]]; [|lia]. apply (sorted_in _ _ _ _ _ H Hz). now left. Qed.
  Lemma latest_ok a : match latest x a with
    | (n, loc) => (n = 0 /\ loc = None /\ forall b, In b (bb S0 U) -> b_addr b <> a) \/
                  exists b, In b (bb S0 U) /\ b_addr b = a /\ b_height b = n /\ (forall c, In c (bb S0 U) -> b_addr c = a -> b_height c <= n) /\
                            (In b U /\ loc = None \/ exists g, In g S0 /\ In b (g_blocks g) /\ loc = Some (g_locs g (b_hash b)))
    end.
  Proof.
    unfold latest. fold d. pose proof (walk_sorted (block_of a) d) as SS. assert (BI := blocks_in a).
    assert (FB : forall b, In b (bb S0 U) -> b_addr b = a -> exists v, In (b_height b, v) (walk (block_of a) d)).
    { intros b B E. apply in_bb in B. destruct B as [(g & G & B)|B].
      - exists (VLoc (b_hash b) (g_locs g (b_hash b))). apply BI. cbn. exists g, b. auto 10.
      - exists (VHash (b_hash b)). apply BI. cbn. exists b. auto. }
    destruct (rev (walk (block_of a) d)) as [|[n v] r] eqn:ER.
    - left. split; [reflexivity|]. split; [reflexivity|]. intros b B E. destruct (FB b B E) as (v & H). apply in_rev in H. rewrite ER in H. destruct H.
    - right. assert (EW : walk (block_of a) d = rev r ++ [(n, v)]) by (rewrite <- (rev_involutive (walk (block_of a) d)), ER; reflexivity). rewrite EW in SS.
      assert (MX : forall c, In c (bb S0 U) -> b_addr c = a -> b_height c <= n).
      { intros c C E. destruct (FB c C E) as (v' & H). rewrite EW in H. exact (sorted_last _ _ SS _ H). }
      assert (F : fact S0 U (KBlock a n) v) by (apply BI; rewrite EW; apply in_or_app; right; now left). destruct v as [ |h|h l| | | | |]; try contradiction; cbn [block_of conf_from road_of andb] in F.
      + destruct F as (b & B & E & N & _). exists b. split; [apply in_bb; now right|]. auto 10.
      + destruct F as (g & b & G & B & E & N & <- & <-). exists b. split; [apply in_bb; left; eauto|]. split; [exact E|]. split; [exact N|]. split; [exact MX|]. right. exists g. auto.
  Qed.
  Lemma conf_inj a n k k' i : conf_from a n k = Some i -> conf_from a n k' = Some i -> k = k'.
  Proof. unfold conf_from. destruct k as [| | |b h| | | | |], k' as [| | |b' h'| | | | |]; try discriminate. destruct (Z.eqb_spec b a), (Z.eqb_spec b' a); cbn [andb]; try discriminate. destruct ((n <=? h) && (h <? max_u64)), ((n <=? h') && (h' <? max_u64)); try discriminate. intros E1 E2. congruence. Qed.
  Lemma conf_in a n m v : In (m, v) (walk (conf_from a n) d) <-> n <= m /\ exists g, In g S0 /\ In (a, m) (sb_content (g_sb g)) /\ v = VNum (sb_height (g_sb g)).
  Proof.
    rewrite walk_in. split.
    - intros (k & H & F). destruct k as [| | |b h| | | | |]; try discriminate. cbn [block_of conf_from road_of andb] in F. destruct (Z.eqb_spec b a) as [->|]; cbn [block_of conf_from road_of andb] in F; [|discriminate]. destruct (Z.leb_spec n h); cbn [block_of conf_from road_of andb] in F; [|discriminate]. destruct (h <? max_u64); [|discriminate]. injection F as ->. split; [lia|]. apply in_d in H. apply (q_good _ _ _ K) in H; [|exact Logic.I]. destruct v; try contradiction. cbn in H. destruct H as (g & G & C & <-). eauto.
    - intros (L & g & G & C & ->). exists (KConf a m). split; [apply in_d; apply (q_good _ _ _ K); [exact Logic.I|]; cbn; eauto|]. destruct (c_named _ _ (q_wf _ _ _ K) g a m G C) as (b & B & _ & N). assert (H : 1 <= b_height b < max_u64) by (apply (c_high _ _ (q_wf _ _ _ K)); apply in_bb; left; eauto). cbn [block_of conf_from]. rewrite Z.eqb_refl. cbn [andb]. destruct (Z.leb_spec n m), (Z.ltb_spec m max_u64); try lia. reflexivity.
  Qed.
  Lemma seg_order g g' b c : In g S0 -> In g' S0 -> In b (g_blocks g) -> In c (g_blocks g') -> g = g' \/ later b c \/ later c b.
  Proof.
    intros G G' B C. apply in_split in G. destruct G as (l & r & E). pose proof (c_order _ _ (q_wf _ _ _ K)) as O. unfold bb in O. rewrite E, flat_map_app in O. cbn [flat_map] in O. rewrite <- !app_assoc in O. rewrite E in G'. apply in_app_or in G'. destruct G' as [G'|[G'|G']].
    - right. right. apply (sorted_in _ _ _ _ _ O); [apply in_flat_map; eauto|apply in_or_app; now left].
    - now left.
    - right. left. apply ss_r in O. apply (sorted_in _ _ _ _ _ O); [exact B|]. apply in_or_app. left. apply in_flat_map. eauto.
  Qed.
  Lemma slow_confirmed g b h : In g S0 -> In b (g_blocks g) -> In h (hashes b) -> confirm_slow x h = sb_height (g_sb g).
  Proof.
    intros G B H. assert (BB : In b (bb S0 U)) by (apply in_bb; left; eauto). unfold confirm_slow. assert (E : addr_height x h = Some (b_addr b, b_height b)) by (apply addr_height_ok; exists b; auto). rewrite E. fold d.
    destruct (c_under _ _ (q_wf _ _ _ K) g b G B) as (m & C & L). assert (W : In (m, VNum (sb_height (g_sb g))) (walk (conf_from (b_addr b) (b_height b)) d)) by (apply conf_in; split; [exact L|]; exists g; auto).
    pose proof (walk_sorted (conf_from (b_addr b) (b_height b)) d) as SS. assert (CI := conf_in (b_addr b) (b_height b)). destruct (walk (conf_from (b_addr b) (b_height b)) d) as [|[m' v] r]; [destruct W|].
    destruct (proj1 (CI m' v) (or_introl eq_refl)) as (L' & g' & G' & C' & ->). assert (M : m' <= m). { destruct W as [W|W]; [injection W as -> _; lia|]. inversion_clear SS as [|? ? _ F]. rewrite Forall_forall in F. exact (F _ W). }
    destruct (c_named _ _ (q_wf _ _ _ K) g _ m G C) as (e & Ee & Ea & En). destruct (c_named _ _ (q_wf _ _ _ K) g' _ m' G' C') as (c & Cc & Ca & Cn).
    destruct (Z.eq_dec m' m) as [->|NM].
    - destruct (seg_order g g' e c G G' Ee Cc) as [->|[O|O]]; [reflexivity| |]; specialize (O ltac:(congruence)); lia.
    - destruct (seg_order g g' b c G G' B Cc) as [->|[O|O]]; [reflexivity| |].
      + destruct (seg_order g g' e c G G' Ee Cc) as [->|[O'|O']]; [reflexivity| |].
        * specialize (O' ltac:(congruence)). lia.
        * exfalso. clear O'. apply in_split in G. destruct G as (l1 & l2 & EG). pose proof (c_order _ _ (q_wf _ _ _ K)) as Q. unfold bb in Q. rewrite EG, flat_map_app in Q. cbn [flat_map] in Q. rewrite <- !app_assoc in Q. rewrite EG in G'. apply in_app_or in G'. destruct G' as [G'|[G'|G']].
          -- assert (later c b) by (apply (sorted_in _ _ _ _ _ Q); [apply in_flat_map; eauto|apply in_or_app; now left]). specialize (H0 ltac:(congruence)). lia.
          -- subst g'. assert (Y := NoDup_cons_iff). pose proof (c_once _ _ (q_wf _ _ _ K) g) as ON. assert (In g S0) by (rewrite EG; apply in_or_app; right; now left). specialize (ON H0). clear - ON C C' NM. apply NM. induction (sb_content (g_sb g)) as [|[p q] lst IH]; [destruct C|]. cbn in ON. inversion_clear ON as [|? ? X1 X2]. destruct C as [C|C], C' as [C'|C']; [congruence| | |auto]; destruct X1; [injection C as -> _; now apply (in_map fst) in C'|injection C' as -> _; now apply (in_map fst) in C].
          -- assert (later e c) by (apply ss_r in Q; apply (sorted_in _ _ _ _ _ Q); [exact Ee|]; apply in_or_app; left; apply in_flat_map; eauto). specialize (H0 ltac:(congruence)). lia.
      + specialize (O ltac:(congruence)). lia.
  Qed.
  Lemma slow_waiting b h : In b U -> In h (hashes b) -> confirm_slow x h = 0.
  Proof.
    intros B H. unfold confirm_slow. assert (E : addr_height x h = Some (b_addr b, b_height b)) by (apply addr_height_ok; exists b; split; [apply in_bb; now right|auto]). rewrite E. fold d.
    assert (CI := conf_in (b_addr b) (b_height b)). destruct (walk (conf_from (b_addr b) (b_height b)) d) as [|[m v] r]; [reflexivity|]. exfalso. destruct (proj1 (CI m v) (or_introl eq_refl)) as (L & g & G & C & _). destruct (c_named _ _ (q_wf _ _ _ K) g _ m G C) as (c & Cc & Ca & Cn).
    assert (later c b) by (apply (sorted_in _ _ _ _ _ (c_order _ _ (q_wf _ _ _ K))); [apply in_flat_map; eauto|exact B]). specialize (H0 Ca). lia.
  Qed.
  Lemma slow_none h : (forall b, In b (bb S0 U) -> ~ In h (hashes b)) -> confirm_slow x h = 0.
  Proof. intros H. unfold confirm_slow. now rewrite (proj2 (addr_height_none h) H). Qed.
End Queries.
