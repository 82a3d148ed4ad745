From Coq Require Import ZArith List Bool Lia Permutation Sorted.
From Verif Require Import Lib WireModel WireSpec WireProofs WireProofs2 WireProofs3 WireProofs4.
From Verif Require ElectProofs TextProofs VmProofs VmModel.
Import ListNotations.
Open Scope Z_scope.

Notation split_len := TextProofs.app_len_inj.
Lemma split_tail {A} (a b c d : list A) : zlen b = zlen d -> a ++ b = c ++ d -> a = c /\ b = d.
Proof.
  intros L E. apply split_len; [|exact E]. assert (zlen (a ++ b) = zlen (c ++ d)) by (rewrite E; reflexivity). rewrite !zlen_app in H. lia.
Qed.

(** * Padding *)
Lemma be_val_zeros n l : be_val (zeros n ++ l) = be_val l.
Proof.
  unfold zeros. induction (Z.to_nat n) as [|k IH]; [reflexivity|]. cbn [repeat app]. rewrite be_val_cons, IH. lia.
Qed.
Lemma left_pad_val n l : be_val (left_pad n l) = be_val l.
Proof. unfold left_pad. destruct (n <=? zlen l); [reflexivity|apply be_val_zeros]. Qed.
Lemma left_pad_len n l : zlen l <= n -> zlen (left_pad n l) = n.
Proof.
  unfold left_pad. intros L. pose proof (zlen_nonneg l). destruct (Z.leb_spec n (zlen l)); [lia|]. rewrite zlen_app, zeros_len by lia. lia.
Qed.
Lemma big_len x : 0 <= x < 2 ^ 256 -> zlen (big x) <= 32.
Proof.
  intros R. unfold big. rewrite Z.abs_eq by lia.
  destruct (Z.le_gt_cases (zlen (VmModel.big_bytes x)) 32) as [|G]; [assumption|exfalso].
  destruct (big_nonnil x) as [b [r E]].
  { destruct (Z.eq_dec x 0) as [-> |]; [|lia]. change (VmModel.big_bytes 0) with (@nil Z) in G. rewrite zlen_nil in G. lia. }
  unfold VmModel.big_bytes, zlen in G. rewrite be_bytes_length in G. unfold VmModel.bit_len in G.
  assert (x <> 0) by (intros ->; cbn in G; lia).
  destruct (Z.eqb_spec x 0); [lia|]. assert (Z.log2 x < 256) by (apply Z.log2_lt_pow2; lia). pose proof (Z.log2_nonneg x). lia.
Qed.
Lemma pad_big_len x : 0 <= x < 2 ^ 256 -> zlen (left_pad 32 (big x)) = 32.
Proof. intros R. apply left_pad_len, big_len. exact R. Qed.
Lemma pad_big_inj x y : 0 <= x -> 0 <= y -> left_pad 32 (big x) = left_pad 32 (big y) -> x = y.
Proof. intros X Y E. apply (f_equal be_val) in E. rewrite !left_pad_val, !big_val in E by assumption. exact E. Qed.
Lemma nonce_pad n : n = [] \/ zlen n = 8 -> left_pad 8 n = full_nonce n.
Proof.
  intros [-> |L]; [reflexivity|]. unfold left_pad. rewrite L. cbn [Z.leb]. destruct n; [discriminate L|reflexivity].
Qed.
Lemma nonce_pad_len n : n = [] \/ zlen n = 8 -> zlen (left_pad 8 n) = 8.
Proof. intros N. apply left_pad_len. destruct N as [-> |N]; [rewrite zlen_nil|]; lia. Qed.
Lemma hashes_inj (l m : list (list Z)) : Forall (sized 32) l -> Forall (sized 32) m -> concat l = concat m -> l = m.
Proof.
  intros L. revert m. induction L as [|x l [X _] L IH]; intros m M E; inversion M as [|y m' [Y _] M' EM]; subst; [reflexivity| | |].
  - cbn [concat] in E. apply (f_equal (@zlen Z)) in E. rewrite zlen_app, zlen_nil in E. pose proof (zlen_nonneg (concat m')). lia.
  - cbn [concat] in E. apply (f_equal (@zlen Z)) in E. rewrite zlen_app, zlen_nil in E. pose proof (zlen_nonneg (concat l)). lia.
  - cbn [concat] in E. apply split_len in E; [|lia]. destruct E as [-> E]. f_equal. apply IH; assumption.
Qed.
Lemma height_inj x y : 0 <= x < 2 ^ 64 -> 0 <= y < 2 ^ 64 -> be_bytes 8 x = be_bytes 8 y -> x = y.
Proof. intros X Y E. apply (f_equal be_val) in E. rewrite !be_val_bytes in E by assumption. exact E. Qed.

(** * Account blocks *)
Section Account.
Context (H : list Z -> list Z) (H32 : forall l, sized 32 (H l)).
Definition hashed_data (d : list Z) : list Z := match d with [] => [] | c :: r => H (c :: r) end.
Definition rest (b : block) (extra : list Z) : list Z :=
  hashed_data (b_data (b_head b)) ++ left_pad 32 (obig (b_fee (b_head b))) ++ obytes (b_log (b_head b)) ++ left_pad 8 (b_nonce (b_head b))
  ++ concat (map (fun s => b_hash (b_head s)) (b_sends b)) ++ extra.
Lemma hash_first a b ea eb x : head_ok (b_head a) -> head_ok (b_head b) -> checked (b_head a) -> checked (b_head b) ->
  hash_source H a ea = Some x -> hash_source H b eb = Some x ->
  (b_type (b_head a) = b_type (b_head b) /\ b_prev (b_head a) = b_prev (b_head b) /\ b_height (b_head a) = b_height (b_head b) /\
   b_addr (b_head a) = b_addr (b_head b) /\ b_to (b_head a) = b_to (b_head b) /\ b_from (b_head a) = b_from (b_head b) /\
   (b_type (b_head a) <> 7 -> b_amount (b_head a) = b_amount (b_head b) /\ b_token (b_head a) = b_token (b_head b))) /\
  rest a ea = rest b eb.
Proof.
  intros OA OB CA CB SA SB. unfold hash_source in SA, SB.
  fold (hashed_data (b_data (b_head a))) in SA. fold (hashed_data (b_data (b_head b))) in SB.
  destruct a as [ha sa], b as [hb sb]. cbn [b_head b_sends] in *.
  pose proof (proj1 (ok_prev ha OA)) as PA. pose proof (proj1 (ok_prev hb OB)) as PB.
  pose proof (proj1 (ok_addr ha OA)) as AA. pose proof (proj1 (ok_addr hb OB)) as AB.
  destruct (if is_send (b_type ha) then _ else _) as [ma|] eqn:MA; [|discriminate].
  destruct (if is_send (b_type hb) then _ else _) as [mb|] eqn:MB; [|discriminate].
  apply some_inj' in SA. apply some_inj' in SB. rewrite <- SB in SA. clear SB x.
  cbn [app] in SA. assert (T : b_type ha = b_type hb) by congruence.
  apply (f_equal (@tl Z)) in SA. cbn [tl] in SA.
  apply split_len in SA; [|lia]. destruct SA as [EP SA].
  apply split_len in SA; [|rewrite !zlen_be_bytes; reflexivity]. destruct SA as [EH SA].
  apply height_inj in EH; [|apply ok_height; assumption|apply ok_height; assumption].
  apply split_len in SA; [|lia]. destruct SA as [EA SA].
  rewrite <- T in MB. destruct (is_send (b_type ha)) eqn:S.
  - apply is_send_spec in S. destruct (ok_amount ha OA (or_introl S)) as [va [VA RA]]. rewrite T in S.
    destruct (ok_amount hb OB (or_introl S)) as [vb [VB RB]]. rewrite VA in MA. rewrite VB in MB.
    apply some_inj' in MA. apply some_inj' in MB. subst ma mb.
    pose proof (proj1 CA va VA) as LA. pose proof (proj1 CB vb VB) as LB.
    pose proof (proj1 (ok_to ha OA)) as TA. pose proof (proj1 (ok_to hb OB)) as TB.
    pose proof (proj1 (ok_token ha OA)) as KA. pose proof (proj1 (ok_token hb OB)) as KB.
    rewrite <- !app_assoc in SA.
    apply split_len in SA; [|lia]. destruct SA as [ET SA].
    apply split_len in SA; [|rewrite !pad_big_len by lia; reflexivity]. destruct SA as [EV SA]. apply pad_big_inj in EV; [|lia|lia].
    apply split_len in SA; [|lia]. destruct SA as [EK SA].
    split; [|unfold rest, hashed_data; cbn [b_head b_sends]; exact SA]. repeat split; try assumption.
    + pose proof (ok_from_zero hb OB S) as Z2. rewrite <- T in S. pose proof (ok_from_zero ha OA S) as Z1.
      rewrite (is_zero_zeros 32 (b_from ha)), (is_zero_zeros 32 (b_from hb)); auto; [apply (ok_from hb OB)|apply (ok_from ha OA)].
    + congruence.
  - apply some_inj' in MA. apply some_inj' in MB. subst ma mb.
    pose proof (proj1 (ok_from ha OA)) as FA. pose proof (proj1 (ok_from hb OB)) as FB.
    apply split_len in SA; [|lia]. destruct SA as [EF SA].
    assert (NA : ~ sends (b_type ha)) by (intros C; apply is_send_spec in C; congruence).
    assert (NB : ~ sends (b_type hb)) by (rewrite <- T; exact NA).
    split; [|unfold rest, hashed_data; cbn [b_head b_sends]; exact SA]. repeat split; try assumption.
    + rewrite (is_zero_zeros 21 (b_to ha)), (is_zero_zeros 21 (b_to hb)); auto;
        [apply (ok_to hb OB)|apply (ok_to_zero hb OB NB)|apply (ok_to ha OA)|apply (ok_to_zero ha OA NA)].
    + destruct (ok_no_amount ha OA) as [-> _]; [tauto|]. destruct (ok_no_amount hb OB) as [-> _]; [rewrite <- T; tauto|]. reflexivity.
    + destruct (ok_no_amount ha OA) as [_ Z1]; [tauto|]. destruct (ok_no_amount hb OB) as [_ Z2]; [rewrite <- T; tauto|].
      rewrite (is_zero_zeros 10 (b_token ha)), (is_zero_zeros 10 (b_token hb)); auto; [apply (ok_token hb OB)|apply (ok_token ha OA)].
Qed.
Lemma block_sends_sized b : block_ok b -> Forall (sized 32) (map (fun s => b_hash (b_head s)) (b_sends b)).
Proof.
  destruct b as [h l]. intros O. apply block_ok_unfold in O. destruct O as [_ O]. cbn [b_sends]. induction O as [|s l O1 O IH]; [constructor|].
  cbn [map]. constructor; [|assumption]. destruct s as [hs ls]. apply block_ok_unfold in O1. apply (ok_hash hs). tauto.
Qed.
Lemma head_of_ok b : block_ok b -> head_ok (b_head b).
Proof. destruct b as [h l]. intros O. apply block_ok_unfold in O. tauto. Qed.
Lemma data_len d : zlen (hashed_data d) = match d with [] => 0 | _ => 32 end.
Proof. unfold hashed_data. destruct d; [reflexivity|]. apply H32. Qed.
Lemma data_inj d e : hashed_data d = hashed_data e -> d = e \/ collision H.
Proof.
  intros E. destruct (list_eq_dec Z.eq_dec d e) as [|N]; [left; assumption|right]. unfold hashed_data in E. destruct d as [|x d], e as [|y e].
  - congruence.
  - pose proof (proj1 (H32 (y :: e))) as L. rewrite <- E, zlen_nil in L. lia.
  - pose proof (proj1 (H32 (x :: d))) as L. rewrite E, zlen_nil in L. lia.
  - exists (x :: d), (y :: e). auto.
Qed.
Lemma fee_of h : head_ok h -> checked h -> exists f, b_fee h = Some f /\ 0 <= f < 2 ^ 256.
Proof. intros O (_ & C & _). destruct (ok_fee h O) as [f [E F]]. exists f. split; [assumption|]. specialize (C f E). lia. Qed.
Lemma log_len h : head_ok h -> zlen (obytes (b_log h)) = match b_log h with Some _ => 32 | None => 0 end.
Proof. intros O. destruct (b_log h) as [x|] eqn:E; [|reflexivity]. cbn [obytes]. apply (ok_log h O x E). Qed.
Lemma log_inj a b : head_ok a -> head_ok b -> obytes (b_log a) = obytes (b_log b) -> b_log a = b_log b.
Proof.
  intros A B E. destruct (b_log a) as [x|] eqn:X, (b_log b) as [y|] eqn:Y; cbn [obytes] in E; [congruence| | |reflexivity].
  - pose proof (proj1 (ok_log a A x X)) as L. rewrite E, zlen_nil in L. lia.
  - pose proof (proj1 (ok_log b B y Y)) as L. rewrite <- E, zlen_nil in L. lia.
Qed.

(** With the optional parts present in both or in neither, the rest is fixed. *)
Lemma rest_fixed a b ea eb : block_ok a -> block_ok b -> checked (b_head a) -> checked (b_head b) ->
  (b_data (b_head a) = [] <-> b_data (b_head b) = []) -> (b_log (b_head a) = None <-> b_log (b_head b) = None) -> zlen ea = zlen eb ->
  rest a ea = rest b eb ->
  (b_data (b_head a) = b_data (b_head b) \/ collision H) /\ b_fee (b_head a) = b_fee (b_head b) /\ b_log (b_head a) = b_log (b_head b) /\
  full_nonce (b_nonce (b_head a)) = full_nonce (b_nonce (b_head b)) /\
  map (fun s => b_hash (b_head s)) (b_sends a) = map (fun s => b_hash (b_head s)) (b_sends b) /\ ea = eb.
Proof.
  intros OA OB CA CB D L X E. unfold rest in E. pose proof (head_of_ok a OA) as HA. pose proof (head_of_ok b OB) as HB.
  destruct (fee_of _ HA CA) as [fa [FA RA]]. destruct (fee_of _ HB CB) as [fb [FB RB]]. rewrite FA, FB in *. cbn [obig] in E.
  apply split_len in E; [|rewrite !data_len; destruct (b_data (b_head a)), (b_data (b_head b)); try reflexivity; exfalso; [destruct D as [D _]; discriminate (D eq_refl)|destruct D as [_ D]; discriminate (D eq_refl)]].
  destruct E as [ED E]. apply split_len in E; [|rewrite !pad_big_len by lia; reflexivity]. destruct E as [EF E]. apply pad_big_inj in EF; [|lia|lia].
  apply split_len in E; [|rewrite !log_len by assumption; destruct (b_log (b_head a)), (b_log (b_head b)); try reflexivity; exfalso; [destruct L as [_ L]; discriminate (L eq_refl)|destruct L as [L _]; discriminate (L eq_refl)]].
  destruct E as [EL E]. apply split_len in E; [|rewrite !nonce_pad_len by (apply CA || apply CB); reflexivity]. destruct E as [EN E].
  rewrite !nonce_pad in EN by (apply CA || apply CB). apply split_tail in E; [|exact X]. destruct E as [ES EX].
  apply hashes_inj in ES; [|apply block_sends_sized; assumption|apply block_sends_sized; assumption].
  split; [apply data_inj; assumption|]. split; [congruence|]. split; [apply log_inj; assumption|]. auto.
Qed.
Lemma rest_len b e : block_ok b -> checked (b_head b) -> zlen (rest b e) =
  zlen (hashed_data (b_data (b_head b))) + 32 + zlen (obytes (b_log (b_head b))) + 8 + 32 * zlen (b_sends b) + zlen e.
Proof.
  intros O C. unfold rest. rewrite !zlen_app, nonce_pad_len by apply C. destruct (fee_of _ (head_of_ok b O) C) as [f [F R]]. rewrite F. cbn [obig]. rewrite pad_big_len by assumption.
  assert (forall l, Forall (sized 32) l -> zlen (concat l) = 32 * zlen l).
  { intros l S. induction S as [|x l [S1 _] S IH]; [reflexivity|]. cbn [concat]. rewrite zlen_app, IH, zlen_cons. lia. }
  rewrite H0 by (apply block_sends_sized; assumption). unfold zlen. rewrite map_length. lia.
Qed.
End Account.

(** * Snapshot blocks *)
Lemma item_inj x y : item_ok x -> item_ok y -> item_bytes x = item_bytes y -> x = y.
Proof.
  intros X Y E. destruct (item_read x [] X) as (A1 & A2 & A3 & _). destruct (item_read y [] Y) as (B1 & B2 & B3 & _).
  rewrite E in A1, A2, A3. destruct x as [k [h n]], y as [k' [h' n']]. cbn [fst snd] in *. congruence.
Qed.
Lemma items_concat_inj l m : Forall (fun x : list Z => zlen x = 61) l -> Forall (fun x => zlen x = 61) m -> concat l = concat m -> l = m.
Proof.
  intros L. revert m. induction L as [|x l X L IH]; intros m M E; inversion M as [|y m' Y M' EM]; subst; [reflexivity| | |].
  - cbn [concat] in E. apply (f_equal (@zlen Z)) in E. rewrite zlen_app, zlen_nil in E. pose proof (zlen_nonneg (concat m')). lia.
  - cbn [concat] in E. apply (f_equal (@zlen Z)) in E. rewrite zlen_app, zlen_nil in E. pose proof (zlen_nonneg (concat l)). lia.
  - cbn [concat] in E. apply split_len in E; [|lia]. destruct E as [-> E]. f_equal. apply IH; assumption.
Qed.
Lemma items_perm_inj a b : Forall item_ok a -> Forall item_ok b -> Permutation (map item_bytes a) (map item_bytes b) -> Permutation a b.
Proof.
  intros A B P. apply Permutation_map_inv in P. destruct P as [c [E P]].
  assert (C : Forall item_ok c). { apply Forall_forall. intros x X. apply (proj1 (Forall_forall _ _) B). apply (Permutation_in _ (Permutation_sym P)). exact X. }
  assert (a = c); [|subst; symmetry; exact P]. clear P B. revert c E C. induction A as [|x a X A IH]; intros [|y c] E C; try discriminate; [reflexivity|].
  inversion C; subst. cbn [map] in E. assert (item_bytes x = item_bytes y) by congruence. f_equal; [apply item_inj; assumption|]. apply IH; [congruence|assumption].
Qed.
Lemma snap_source_inj name leaf a b : snap_ok a -> snap_ok b ->
  snap_source name leaf a = snap_source name leaf b -> same_snapshot leaf a b.
Proof.
  intros [_ [PA _] HA _ _ TA SA SHA [_ CA] VA] [_ [PB _] HB _ _ TB SB SHB [_ CB] VB] E. unfold snap_source in E.
  apply split_len in E; [|lia]. destruct E as [E1 E].
  apply split_len in E; [|rewrite !zlen_be_bytes; reflexivity]. destruct E as [E2 E]. apply height_inj in E2; [|assumption|assumption].
  apply split_len in E; [|rewrite !zlen_be_bytes; reflexivity]. destruct E as [E3 E].
  apply height_inj in E3; [|unfold wrap64, two64; apply Z.mod_pos_bound; lia|unfold wrap64, two64; apply Z.mod_pos_bound; lia].
  assert (E3' : s_time a / 1000000000 = s_time b / 1000000000) by (unfold wrap64, two64 in E3; lia).
  apply split_len in E; [|rewrite !zlen_be_bytes; reflexivity]. destruct E as [E4 E]. apply height_inj in E4; [|assumption|assumption].
  assert (L32 : forall o, (forall x, o = Some x -> sized 32 x) -> zlen (or_zero 32 o) = 32).
  { intros [x|] S; cbn [or_zero]; [apply (S x eq_refl)|reflexivity]. }
  apply split_len in E; [|rewrite !L32 by assumption; reflexivity]. destruct E as [E5 E]. rewrite E2 in E.
  apply split_tail in E; [|rewrite !zlen_app; f_equal; destruct (leaf (s_height b)); [rewrite !zlen_be_bytes|]; reflexivity]. destruct E as [E6 E].
  apply app_inv_head in E.
  assert (S61 : forall c, Forall item_ok c -> Forall (fun x => zlen x = 61) (sort blt (map item_bytes c))).
  { intros c C. apply Forall_forall. intros x X. apply (Permutation_in _ (sort_perm blt _)) in X. apply in_map_iff in X. destruct X as [y [<- Y]].
    apply item_len. apply (proj1 (Forall_forall _ _) C). exact Y. }
  apply items_concat_inj in E6; [|apply S61; assumption|apply S61; assumption].
  unfold same_snapshot. split; [exact E1|]. split; [exact E2|]. split; [exact E3'|]. split; [exact E4|]. split; [|split].
  - destruct (s_seedhash a) as [x|] eqn:XA, (s_seedhash b) as [y|] eqn:YB; cbn [or_zero] in E5; [left; congruence| | |left; reflexivity].
    + right. exists x. split; [rewrite E5; apply zeros_is_zero|]. right. auto.
    + right. exists y. split; [rewrite <- E5; apply zeros_is_zero|]. left. auto.
  - apply items_perm_inj; [assumption|assumption|]. rewrite <- (sort_perm blt (map item_bytes (s_content a))), E6. apply sort_perm.
  - rewrite E2. intros LF. rewrite LF in E. apply (f_equal be_val) in E. rewrite !be_val_bytes in E; assumption.
Qed.
Lemma snap_source_order name leaf a b : same_snap a b -> snap_source name leaf a = snap_source name leaf b.
Proof.
  unfold snap_source. intros (_ & -> & -> & _ & _ & -> & -> & -> & -> & P). rewrite (bytes_sort_free _ (map item_bytes (s_content b))); [reflexivity|].
  apply Permutation_map. exact P.
Qed.
