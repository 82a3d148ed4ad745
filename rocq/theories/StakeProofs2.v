From Verif Require Import Lib AssetModel AssetProofs StakeModel StakeSpec StakeProofs.
Local Opaque stake_min.

(** what a successful call did *)
Inductive effect (sh now caller amount : Z) (w w' : sworld) : Prop :=
| e_add r lock : (forall x, In x (recs w) -> key x <> key r) -> owner r = caller -> r_amount r = amount -> r_exp r = now + lock -> sh <= lock -> (r_del r = false -> r_id r = None -> lock = sh) ->
    recs w' = put r (recs w) -> v_out w' = v_out w - amount -> effect sh now caller amount w w'
| e_more o r : In o (recs w) -> key r = key o -> r_ben r = r_ben o -> r_del r = r_del o -> r_daddr r = r_daddr o -> r_bid r = r_bid o -> r_id r = None -> owner o = caller -> r_amount r = r_amount o + amount ->
    now + sh <= r_exp r -> (r_del o = true -> r_exp o <= r_exp r) -> (r_del o = false -> r_exp r = now + sh) ->
    recs w' = put r (recs w) -> v_out w' = v_out w - amount -> effect sh now caller amount w w'
| e_less o r p : In o (recs w) -> key r = key o -> r_ben r = r_ben o -> r_del r = r_del o -> r_daddr r = r_daddr o -> r_bid r = r_bid o -> r_id r = r_id o -> r_exp r = r_exp o -> owner o = caller ->
    r_exp o <= now -> 0 < p -> r_amount r = r_amount o - p -> stake_min <= r_amount r -> amount = 0 ->
    recs w' = put r (recs w) -> v_out w' = v_out w + p -> effect sh now caller amount w w'
| e_gone o : In o (recs w) -> owner o = caller -> r_exp o <= now -> amount = 0 -> recs w' = del (key o) (recs w) -> v_out w' = v_out w + r_amount o -> effect sh now caller amount w w'.

Lemma exp_small now h : 0 <= now < 2 ^ 63 -> 0 <= h <= stake_height_max -> expiration now h = now + h.
Proof. intros A B. unfold expiration. apply Z.mod_small. unfold stake_height_max in B. change (2 ^ 63) with 9223372036854775808 in A. unfold two64. lia. Qed.

Section step.
Variables (sh : Z) (used : list Z) (w : sworld) (now caller tok amount hash : Z).
Hypotheses (I : sinv used w) (SH : 0 <= sh <= stake_height_max) (FR : ~ In hash used) (A0 : 0 <= amount) (AV : tok = vite -> amount <= v_out w)
  (NW : v_now w <= now < 2 ^ 63).
Let NW0 : 0 <= now < 2 ^ 63. Proof. pose proof (iv_now _ _ I). lia. Qed.

Lemma recs_eq : s_recs (v_st w) = recs w. Proof. reflexivity. Qed.
Lemma exact_of : exact (s_ben (v_st w)) (staked_for w). Proof. exact (iv_ben _ _ I). Qed.
Lemma word_lt x : 0 <= x <= v_bal w + v_out w -> is_word x. Proof. pose proof (iv_all _ _ I). unfold is_word. lia. Qed.

Lemma do_add st ben d da bid id h ids' : tok = vite -> stake_min <= amount -> sh <= h <= stake_height_max ->
  (d = false -> da = 0 /\ bid = 0) -> (d = true -> id = None) -> (d = false -> st = caller) -> (d = true -> da = caller) -> (d = false -> id = None -> h = sh) ->
  (d = false -> id = None -> find (matches st ben false 0 0) (recs w) = None) -> (d = true -> find (matches st ben true da bid) (recs w) = None) ->
  (id = None /\ ids' = s_ids (v_st w) \/ id = Some hash /\ ids' = upd (s_ids (v_st w)) hash (Some (st, v_height w + 1))) ->
  let r := mkR st (v_height w + 1) (pack amount) (expiration now h) ben d da bid id in
  let w' := mkV (mkS (put r (recs w)) (ben_add (s_ben (v_st w)) ben amount) ids') (v_bal w + amount) (v_out w - amount) (v_height w + 1) now in
  sinv (hash :: used) w' /\ effect sh now caller amount w w'.
Proof.
  intros TV MI HB P1 P2 P3 P4 P5 F1 F2 ID r w'. specialize (AV TV). pose proof stake_min_pos as SP. pose proof (iv_height _ _ I) as HP. pose proof (for_bounds _ _ ben I) as FB.
  assert (PK : pack amount = amount) by (apply pack_small, word_lt; lia).
  split.
  - apply (add_inv used w hash now r amount ids' I); auto; try lia.
    + intros D N x X S B D'. destruct (proj1 (iv_plain _ _ I x X) D'). eapply (find_none' _ _ _ _ _ _ (F1 D N) x X); eauto.
    + intros D x X S B D' A B'. eapply (find_none' _ _ _ _ _ _ (F2 D) x X); eauto.
  - apply (e_add sh now caller amount w w' r h); auto; try lia.
    + intros x X Q. pose proof (iv_index _ _ I) as IX. rewrite Forall_forall in IX. specialize (IX x X). injection Q as Q1 Q2. lia.
    + unfold owner. cbn. destruct d; auto.
    + apply exp_small; lia.
Qed.
Lemma do_more o st ben d da bid h e : tok = vite -> stake_min <= amount -> sh <= h <= stake_height_max -> find (matches st ben d da bid) (recs w) = Some o ->
  (d = false -> st = caller /\ da = 0 /\ bid = 0) -> (d = true -> da = caller) -> (d = false -> h = sh) ->
  e = (if d then Z.max (r_exp o) (expiration now h) else expiration now h) ->
  let r := mkR (fst (key o)) (snd (key o)) (pack (r_amount o + amount)) e ben d da bid None in
  let w' := mkV (mkS (put r (recs w)) (ben_add (s_ben (v_st w)) ben amount) (s_ids (v_st w))) (v_bal w + amount) (v_out w - amount) (v_height w + 1) now in
  sinv (hash :: used) w' /\ effect sh now caller amount w w'.
Proof.
  intros TV MI HB F P1 P2 P3 EE r w'. specialize (AV TV). pose proof stake_min_pos as SP. apply (find_first _ _ _ _ _ _ _ (iv_order _ _ I)) in F as (IO & Q1 & Q2 & Q3 & Q4 & Q5 & MINI).
  pose proof (for_rec _ _ _ I IO) as FRR. pose proof (for_bounds _ _ (r_ben o) I) as FB.
  assert (PK : pack (r_amount o + amount) = r_amount o + amount) by (apply pack_small, word_lt; lia).
  pose proof (exp_small now h NW0 ltac:(lia)) as XE.
  split.
  - apply (change_inv used w hash now o r amount); auto; cbn [r r_ben r_del r_daddr r_bid r_amount key r_staker r_index]; try lia; try congruence.
    + intros D x X S B D'. destruct (proj1 (iv_plain _ _ I x X) D') as [Z1 Z2]. assert (D2 : d = false) by congruence. destruct (P1 D2) as (Z3 & Z4 & Z5). apply MINI; auto; congruence.
    + rewrite <- Q2. apply (ben_add_exact (s_ben (v_st w)) (staked_for w) (r_ben o) amount); try lia; [exact exact_of|]. pose proof (iv_all _ _ I). lia.
  - apply (e_more sh now caller amount w w' o r); auto; try lia; cbn [r r_ben r_del r_daddr r_bid r_amount key r_staker r_index r_exp].
    + unfold owner. rewrite Q3, Q4, Q1. destruct d; [auto|apply P1; reflexivity].
    + rewrite EE. destruct d; lia.
    + intro D. rewrite Q3 in D. rewrite EE, D. lia.
    + intro D. rewrite Q3 in D. rewrite EE, D, XE, (P3 D). reflexivity.
Qed.
Lemma do_less o st ben d da bid amt b : amount = 0 -> stake_min <= amt -> is_word amt -> find (matches st ben d da bid) (recs w) = Some o ->
  (d = false -> st = caller /\ da = 0 /\ bid = 0) -> (d = true -> da = caller) ->
  (not_due now o || (r_amount o <? amt) || (match r_id o with Some _ => true | None => false end)) = false ->
  (negb (r_amount o - amt =? 0) && (r_amount o - amt <? stake_min)) = false -> ben_sub (s_ben (v_st w)) ben amt = Some b ->
  let w' := mkV (mkS (if r_amount o - amt =? 0 then del (key o) (recs w) else put (mkR (r_staker o) (r_index o) (pack (r_amount o - amt)) (r_exp o) (r_ben o) d da bid None) (recs w)) b (s_ids (v_st w))) (v_bal w - amt) (v_out w + amt) (v_height w + 1) now in
  sinv (hash :: used) w' /\ effect sh now caller amount w w'.
Proof.
  intros AZ MI WD F P1 P2 G1 G2 BS. pose proof stake_min_pos as SP. apply (find_first _ _ _ _ _ _ _ (iv_order _ _ I)) in F as (IO & Q1 & Q2 & Q3 & Q4 & Q5 & MINI).
  apply orb_false_iff in G1 as [G1 G3]. apply orb_false_iff in G1 as [G1 G4]. unfold not_due in G1. assert (IDN : r_id o = None) by (destruct (r_id o); [discriminate|reflexivity]).
  pose proof (for_rec _ _ _ I IO) as FRR. pose proof (for_bounds _ _ (r_ben o) I) as FB. pose proof (iv_all _ _ I) as AL. pose proof (iv_out _ _ I) as OU.
  assert (OWN : owner o = caller) by (unfold owner; rewrite Q3, Q4, Q1; destruct d; [auto|apply P1; reflexivity]).
  destruct (r_amount o - amt =? 0) eqn:ZZ; cbv zeta.
  - assert (amt = r_amount o) by lia. subst amt. split.
    + apply (remove_inv used w hash now o b (s_ids (v_st w)) I); auto; try lia.
      apply (ben_sub_exact (s_ben (v_st w)) (staked_for w) ben (r_amount o) b); try lia; [exact exact_of|rewrite <- Q2; lia|exact BS|]. intro x. rewrite Q2. reflexivity.
    + apply (e_gone sh now caller amount w _ o); auto; lia.
  - assert (PK : pack (r_amount o - amt) = r_amount o - amt) by (apply pack_small; unfold is_word in *; lia).
    cbn [negb andb] in G2. split.
    + replace (v_bal w - amt) with (v_bal w + - amt) by lia. replace (v_out w + amt) with (v_out w - - amt) by lia.
      apply (change_inv used w hash now o _ (- amt)); auto; cbn [r_ben r_del r_daddr r_bid r_amount key r_staker r_index]; try lia; try congruence.
      * intros D x X S B D'. destruct (proj1 (iv_plain _ _ I x X) D') as [Z1 Z2]. assert (D2 : d = false) by congruence. destruct (P1 D2) as (Z3 & Z4 & Z5). apply MINI; auto; congruence.
      * apply (ben_sub_exact (s_ben (v_st w)) (staked_for w) ben amt b); try lia; [exact exact_of|rewrite <- Q2; lia|exact BS|]. intro x. rewrite Q2. destruct (x =? ben); lia.
    + apply (e_less sh now caller amount w _ o (mkR (r_staker o) (r_index o) (pack (r_amount o - amt)) (r_exp o) (r_ben o) d da bid None) amt); cbn [r_ben r_del r_daddr r_bid r_amount key r_staker r_index recs v_st s_recs v_out]; auto; lia.
Qed.
Lemma do_less3 o id b : amount = 0 -> s_ids (v_st w) id = Some (key o) -> In o (recs w) -> r_staker o = caller -> not_due now o = false -> ben_sub (s_ben (v_st w)) (r_ben o) (r_amount o) = Some b ->
  let w' := mkV (mkS (del (key o) (recs w)) b (upd (s_ids (v_st w)) id None)) (v_bal w - r_amount o) (v_out w + r_amount o) (v_height w + 1) now in
  sinv (hash :: used) w' /\ effect sh now caller amount w w'.
Proof.
  intros AZ ID IO CA ND BS w'. pose proof stake_min_pos as SP. unfold not_due in ND.
  pose proof (for_rec _ _ _ I IO) as FRR. pose proof (for_bounds _ _ (r_ben o) I) as FB. pose proof (iv_all _ _ I) as AL. pose proof (iv_out _ _ I) as OU.
  destruct (iv_used _ _ I _ _ ID) as (_ & _ & DF). specialize (DF o IO eq_refl). split.
  - apply (remove_inv used w hash now o b); eauto; try lia.
    apply (ben_sub_exact (s_ben (v_st w)) (staked_for w) (r_ben o) (r_amount o) b); try lia; [exact exact_of|exact BS].
  - apply (e_gone sh now caller amount w w' o); auto; [|lia]. unfold owner. now rewrite DF.
Qed.
End step.

Theorem step_effect sh used w now caller tok amount hash c w' : sinv used w -> 0 <= sh <= stake_height_max -> ~ In hash used -> call_ok c -> 0 <= amount -> (tok = vite -> amount <= v_out w) -> v_now w <= now < 2 ^ 63 ->
  s_send sh tok amount c = true -> s_step sh now w caller tok amount hash c = (w', true) -> sinv (hash :: used) w' /\ effect sh now caller amount w w'.
Proof.
  intros I SH FR CO A0 AV NW SE ST. unfold s_step in ST. destruct (s_receive sh (v_height w + 1) now (v_st w) caller amount hash c) as [[s p]|] eqn:R; [|discriminate].
  destruct (_ <? p) eqn:BP; [discriminate|]. injection ST as <-.
  pose proof (iv_height _ _ I) as HP. pose proof (fun st => next_key_new st (v_height w) (recs w) HP (iv_index _ _ I)) as NK.
  assert (VIN : forall a b, tok = vite -> p = 0 -> a + (if tok =? vite then amount else 0) - p = a + amount /\ b - (if tok =? vite then amount else 0) + p = b - amount) by (intros a b -> ->; rewrite Z.eqb_refl; lia).
  assert (VZ : forall a b, amount = 0 -> a + (if tok =? vite then amount else 0) - p = a - p /\ b - (if tok =? vite then amount else 0) + p = b + p) by (intros a b ->; destruct (tok =? vite); lia).
  destruct c as [ben|ben amt|st ben bid h|st ben amt bid|ben h|id]; cbn [s_receive s_send call_ok] in *; rewrite ?recs_eq in *.
  - apply negb_true_iff, orb_false_iff in SE as [TV MI]. apply negb_false_iff, Z.eqb_eq in TV. destruct (find (matches caller ben false 0 0) (recs w)) as [o|] eqn:F; rewrite ?NK in R; cbn [fst snd] in R; rewrite ?Z.add_0_l in R; injection R as <- <-; destruct (VIN (v_bal w) (v_out w) TV eq_refl) as [-> ->].
    + apply (do_more sh used w now caller tok amount hash I SH AV NW o caller ben false 0 0 sh); auto; try lia; discriminate.
    + apply (do_add sh used w now caller tok amount hash I SH FR A0 AV NW); auto; try lia; discriminate.
  - apply andb_prop in SE as [S1 S2]. assert (AZ : amount = 0) by lia. destruct (find (matches caller ben false 0 0) (recs w)) as [o|] eqn:F; [|discriminate].
    destruct (not_due now o || _ || _) eqn:G1; [discriminate|]. destruct (negb _ && _) eqn:G2; [discriminate|]. destruct (ben_sub _ _ _) as [b|] eqn:BS; [|discriminate]. injection R as <- <-.
    destruct (VZ (v_bal w) (v_out w) AZ) as [-> ->]. pose proof (find_first _ _ _ _ _ _ _ (iv_order _ _ I) F) as (_ & _ & _ & _ & _).
    apply (do_less sh used w now caller amount hash I NW o caller ben false 0 0 amt b); auto; try lia; discriminate.
  - apply andb_prop in SE as [SE SH2]. apply negb_true_iff, orb_false_iff in SE as [TV MI]. apply negb_false_iff, Z.eqb_eq in TV. destruct (find (matches st ben true caller bid) (recs w)) as [o|] eqn:F; rewrite ?NK in R; cbn [fst snd] in R; rewrite ?Z.add_0_l in R; injection R as <- <-; destruct (VIN (v_bal w) (v_out w) TV eq_refl) as [-> ->].
    + apply (do_more sh used w now caller tok amount hash I SH AV NW o st ben true caller bid h); auto; try lia; discriminate.
    + rewrite Z.max_r by (pose proof (iv_now _ _ I); rewrite exp_small; lia).
      apply (do_add sh used w now caller tok amount hash I SH FR A0 AV NW); auto; try lia; discriminate.
  - destruct CO as [CO _]. apply andb_prop in SE as [S1 S2]. assert (AZ : amount = 0) by lia. destruct (find (matches st ben true caller bid) (recs w)) as [o|] eqn:F; [|discriminate].
    destruct (not_due now o || _ || _) eqn:G1; [discriminate|]. destruct (negb _ && _) eqn:G2; [discriminate|]. destruct (ben_sub _ _ _) as [b|] eqn:BS; [|discriminate]. injection R as <- <-.
    destruct (VZ (v_bal w) (v_out w) AZ) as [-> ->]. pose proof (find_first _ _ _ _ _ _ _ (iv_order _ _ I) F) as (_ & _ & _ & _ & -> & _).
    apply (do_less sh used w now caller amount hash I NW o st ben true caller bid amt b); auto; try lia; discriminate.
  - assert (G : tok = vite /\ stake_min <= amount /\ sh <= (match h with Some x => x | None => sh end) <= stake_height_max) by (destruct h; lia).
    destruct G as (TV & MI & HB). rewrite NK in R. cbn [fst snd] in R. injection R as <- <-. destruct (VIN (v_bal w) (v_out w) TV eq_refl) as [-> ->].
    apply (do_add sh used w now caller tok amount hash I SH FR A0 AV NW); auto; try lia; discriminate.
  - assert (AZ : amount = 0) by lia. destruct (s_ids (v_st w) id) as [k|] eqn:ID; [|discriminate]. destruct (get k (recs w)) as [o|] eqn:G; [|discriminate].
    apply (get_in _ _ _ (iv_order _ _ I)) in G as [IO KO]. subst k. destruct (negb _ || not_due now o) eqn:G1; [discriminate|]. apply orb_false_iff in G1 as [G1 G2]. apply negb_false_iff, Z.eqb_eq in G1.
    destruct (ben_sub _ _ _) as [b|] eqn:BS; [|discriminate]. injection R as <- <-. destruct (VZ (v_bal w) (v_out w) AZ) as [-> ->].
    apply (do_less3 sh used w now caller amount hash I NW o id b); auto.
Qed.
Lemma step_fail sh now w caller tok amount hash c w' : s_step sh now w caller tok amount hash c = (w', false) -> w' = mkV (v_st w) (v_bal w) (v_out w) (v_height w + 1) now.
Proof. unfold s_step. destruct (s_receive _ _ _ _ _ _ _ _) as [[s p]|]; [destruct (_ <? _)|]; congruence. Qed.
Theorem hist_inv sh w0 used w : 0 <= sh <= stake_height_max -> stake_start w0 -> shist sh w0 used w -> sinv used w.
Proof.
  intros SH S. induction 1 as [|used w now caller tok amount hash c w' ok H IH FR CO A0 AV NW HH SE ST]; [apply start_inv; exact S|].
  destruct ok; [apply (step_effect sh used w now caller tok amount hash c w'); auto|]. apply step_fail in ST. subst. apply skip_inv; [exact IH|lia].
Qed.
