(** The block schedule (C23) and the lookup of the snapshot block before a time (C45). *)
From Verif Require Import Lib SchedModel SchedSpec SchedProofs SchedProofs2.
Local Opaque sec Z.pow two64.

(** ** Rounds *)
(** Every instant belongs to exactly one round, and it is the one the code computes; rounds follow each other without gaps. *)
Theorem rounds_tile g t : group_ok g -> instant g t ->
  let i := time2index (group_index g) t in
  (fst (index2time (group_index g) i) <= t < snd (index2time (group_index g) i)) /\
  (forall j, in_range g j -> fst (index2time (group_index g) j) <= t < snd (index2time (group_index g) j) -> j = i).
Proof.
  intros OK T i. pose proof (ok_pos g OK) as (P1 & P2 & P3 & P4). destruct (instant_round g OK t T) as (IR & IE & I0). fold i in IR, IE, I0.
  rewrite index2time_eq by auto. cbn [fst snd]. destruct T as [T0 T1].
  assert (D : t - g_genesis g = round_len g * i + (t - g_genesis g) mod round_len g) by (rewrite IE; apply Z.div_mod; lia).
  pose proof (Z.mod_pos_bound (t - g_genesis g) (round_len g) P3) as MB. split; [nia|].
  intros j J. rewrite index2time_eq by auto. cbn [fst snd]. intro H. rewrite IE. apply (Z.div_unique _ _ _ (t - g_genesis g - j * round_len g)); nia.
Qed.
Theorem rounds_adjacent g i : group_ok g -> in_range g i -> in_range g (i + 1) ->
  snd (index2time (group_index g) i) = fst (index2time (group_index g) (i + 1)) /\ fst (index2time (group_index g) 0) = g_genesis g /\
  time2index (group_index g) (fst (index2time (group_index g) i)) = i.
Proof.
  intros OK I I'. pose proof (ok_pos g OK) as (P1 & P2 & P3 & P4). rewrite !index2time_eq; auto; [|split; [lia|change (0 + 1) with 1; rewrite (Z.mul_1_l (round_len g)); apply round_len_max; auto]]. cbn [fst snd]. split; [ring|]. split; [ring|].
  destruct I as [I0 I1]. rewrite time2index_eq by (auto; nia). replace (g_genesis g + i * round_len g - g_genesis g) with (i * round_len g) by ring. apply Z.div_mul. lia.
Qed.

(** ** Slots *)
(** The slots of a round lie inside it, have the configured length and no two slots of any rounds overlap. *)
Theorem slots_inside_round g i ms x : group_ok g -> in_range g i -> In x (gen_plan g i ms) ->
  fst (index2time (group_index g) i) <= sl_start x /\ sl_end x <= snd (index2time (group_index g) i) /\ sl_end x = sl_start x + g_interval g * sec /\ In (sl_member x) ms.
Proof.
  intros OK I X. pose proof (ok_pos g OK) as (P1 & P2 & P3 & P4). assert (LE : zlen ms <= g_nodes g) by (unfold gen_plan in X; destruct (g_nodes g <? zlen _) eqn:E; [easy|lia]).
  apply plan_in in X; auto. destruct X as (k & m & K & Hm & ->). rewrite index2time_eq by auto. cbn [mk sl_start sl_end sl_member fst snd].
  assert (D : k = slots g * i + k mod slots g) by (rewrite <- K; apply Z.div_mod; lia). pose proof (Z.mod_pos_bound k (slots g) P1) as MB. unfold slot_at, round_len. repeat split.
  - assert (i * slots g <= k) by lia. nia.
  - assert (k + 1 <= (i + 1) * slots g) by lia. nia.
  - eapply nth_error_In; eauto.
Qed.
Theorem slots_never_overlap g i j ms ms' x y t : group_ok g -> in_range g i -> in_range g j -> In x (gen_plan g i ms) -> In y (gen_plan g j ms') ->
  sl_start x <= t < sl_end x -> sl_start y <= t < sl_end y -> i = j /\ sl_start x = sl_start y /\ sl_end x = sl_end y /\ (ms = ms' -> x = y).
Proof.
  intros OK I J X Y TX TY. pose proof (ok_pos g OK) as (P1 & P2 & P3 & P4).
  assert (LX : zlen ms <= g_nodes g) by (unfold gen_plan in X; destruct (g_nodes g <? zlen _) eqn:E; [easy|lia]).
  assert (LY : zlen ms' <= g_nodes g) by (unfold gen_plan in Y; destruct (g_nodes g <? zlen _) eqn:E; [easy|lia]).
  apply plan_in in X; auto. destruct X as (k & m & K & Hm & ->). apply plan_in in Y; auto. destruct Y as (k' & m' & K' & Hm' & ->).
  cbn [mk sl_start sl_end] in *. unfold slot_at in *. assert (k = k') as <- by nia. split; [congruence|]. split; [auto|]. split; [auto|]. intros <-. congruence.
Qed.
(** With every seat filled, every instant of the round is in exactly one slot. *)
Theorem slots_cover_round g t ms : group_ok g -> instant g t -> zlen ms = g_nodes g ->
  exists x, (In x (gen_plan g (time2index (group_index g) t) ms) /\ sl_start x <= t < sl_end x) /\
    forall y, In y (gen_plan g (time2index (group_index g) t) ms) -> sl_start y <= t < sl_end y -> y = x.
Proof.
  intros OK T L. pose proof (ok_pos g OK) as (P1 & P2 & P3 & P4). destruct (instant_round g OK t T) as (IR & IE & I0). set (i := time2index (group_index g) t) in *.
  pose (k := (t - g_genesis g) / slot_len g). assert (D : t - g_genesis g = slot_len g * k + (t - g_genesis g) mod slot_len g) by (apply Z.div_mod; lia).
  pose proof (Z.mod_pos_bound (t - g_genesis g) (slot_len g) P2) as MB.
  assert (K : k / slots g = i). { rewrite IE. unfold k, round_len. rewrite Z.div_div by lia. f_equal. ring. }
  assert (NB : 0 <= seat g k < g_nodes g) by (unfold seat; apply Z.mod_pos_bound; destruct OK; lia).
  destruct (holder g ms k) as [m|] eqn:Hm; [|unfold holder in Hm; apply nth_error_None in Hm; unfold zlen in L; lia].
  assert (IX : In (mk g (slot_at g k) m) (gen_plan g i ms)) by (apply plan_in; auto; [lia|]; exists k, m; auto).
  assert (TX : sl_start (mk g (slot_at g k) m) <= t < sl_end (mk g (slot_at g k) m)) by (cbn; unfold slot_at; nia).
  exists (mk g (slot_at g k) m). split; [auto|].
  intros y Y TY. apply (slots_never_overlap g i i ms ms y (mk g (slot_at g k) m) t); auto.
Qed.

(** ** Who may produce *)
(** A producer is accepted at a time exactly when that time starts a slot of a seat it was elected to; the seat's election counts votes at the
    last snapshot block before the counting time of the round. *)
Theorem producer_exact elected g c a t : group_ok g -> grown elected g c -> instant g t -> (verify_producer elected g c a t = true <-> may_produce elected g c a t).
Proof. intros OK G T. apply verify_exact; auto. apply (grown_ok g OK elected c G). Qed.
(** At most one producer is accepted per time, and blocks are accepted only at slot starts. *)
Theorem one_producer_per_slot elected g c a b t : group_ok g -> grown elected g c -> instant g t ->
  verify_producer elected g c a t = true -> verify_producer elected g c b t = true -> a = b.
Proof.
  intros OK G T A B. pose proof (ok_pos g OK) as (P1 & P2 & P3 & P4). apply producer_exact in A, B; auto. destruct A as (k & h & x & K & LB & X & _ & Hm), B as (k' & h' & x' & K' & LB' & X' & _ & Hm').
  assert (k' = k) as -> by (unfold slot_at in *; nia). assert (h' = h) as -> by (eapply last_before_unique; eauto). congruence.
Qed.
(** No slot of a filled schedule is left without a producer. *)
Theorem filled_slot_has_producer elected g c k : group_ok g -> grown elected g c -> instant g (slot_at g k) ->
  (forall b, In b c -> zlen (elected (b_hash b)) = g_nodes g) -> exists a, verify_producer elected g c a (slot_at g k) = true.
Proof.
  intros OK G T F. destruct (grown_ok g OK elected c G) as [C _].
  destruct (counted g c (count_time g (k / slots g)) C (count_aligned g _) (count_after g OK _)) as (h & b & H & LB & B).
  pose proof (F b (block_at_in _ _ _ B)) as L. assert (NB : 0 <= seat g k < g_nodes g) by (unfold seat; apply Z.mod_pos_bound; destruct OK; lia).
  destruct (holder g (elected (b_hash b)) k) as [a|] eqn:Hm; [|unfold holder in Hm; apply nth_error_None in Hm; unfold zlen in L; lia].
  exists a. apply producer_exact; auto. exists k, h, b. repeat split; auto. lia.
Qed.
(** The producers of a round are settled once the chain has passed its counting time: blocks added later never change who may produce in it. *)
Theorem round_settled elected g c d a k : group_ok g -> grown elected g c -> grown elected g (c ++ d) -> instant g (slot_at g k) ->
  (forall b, In b d -> count_time g (k / slots g) <= b_time b) -> verify_producer elected g (c ++ d) a (slot_at g k) = verify_producer elected g c a (slot_at g k).
Proof.
  intros OK G G' T D. pose proof (ok_pos g OK) as (P1 & P2 & P3 & P4). assert (0 <= k) by (destruct T as [T0 _]; unfold slot_at in T0; nia).
  apply eq_true_iff_eq. rewrite !producer_exact by auto. apply may_produce_ext; auto.
Qed.
(** Every block of a chain stays acceptable to a node that checks it later, whatever was built on top. *)
Theorem accepted_stays_valid elected g c b : group_ok g -> grown elected g c -> In b (tl c) -> verify_producer elected g c (b_producer b) (b_time b) = true.
Proof.
  intros OK G B. destruct (grown_ok g OK elected c G) as [C P]. destruct (P b B) as (k & K & E & M). apply verify_exact; auto. apply (co_inst g c C); auto.
  destruct (co_first g c C) as (b0 & r & -> & _). right. auto.
Qed.
(** For groups that check addresses only, an account block's producer is accepted exactly when it was elected for the current round. *)
Theorem contract_producer_exact elected g c a l : group_ok g -> grown elected g c -> g_level g = 1 -> block_at c (zlen c) = Some l -> instant g (b_time l) ->
  (b_time l - g_genesis g) / round_len g * round_len g <> 75 * sec ->
  (verify_contract_producer elected g c a = true <->
   exists h b, last_before (times c) (contract_count_time g ((b_time l - g_genesis g) / round_len g)) h /\ block_at c h = Some b /\ In a (elected (b_hash b))).
Proof.
  intros OK G LV L T NE. pose proof (ok_pos g OK) as (P1 & P2 & P3 & P4). destruct (grown_ok g OK elected c G) as [C _]. destruct (instant_round g OK _ T) as (IR & IE & I0).
  unfold verify_contract_producer. rewrite L, LV. cbn [Z.eqb Pos.eqb]. rewrite IE in *. set (i := (b_time l - g_genesis g) / round_len g) in *.
  assert (PT : contract_proof_time g i = contract_count_time g i).
  { unfold contract_proof_time, contract_count_time. rewrite index2time_eq by auto. cbn [fst]. cbv zeta. destruct (i * round_len g <? 75 * sec) eqn:E.
    - replace (_ <? _) with true by lia. reflexivity.
    - replace (_ <? _) with false by lia. lia. }
  assert (AL : (contract_count_time g i - g_genesis g) mod sec = 0).
  { pose proof sec_val as SV. unfold contract_count_time. cbv zeta. destruct (_ <? _).
    - replace (g_genesis g + sec - g_genesis g) with (1 * sec) by ring. apply Z.mod_mul. lia.
    - unfold round_len, slot_len. replace (g_genesis g + i * (slots g * (g_interval g * sec)) - 75 * sec - g_genesis g) with ((i * slots g * g_interval g - 75) * sec) by ring. apply Z.mod_mul. lia. }
  assert (AF : g_genesis g < contract_count_time g i) by (pose proof sec_val; unfold contract_count_time; cbv zeta; destruct (_ <? _) eqn:E; lia).
  destruct (counted g c _ C AL AF) as (h & b & H & LB & B). unfold contract_elected. rewrite PT, H, B. rewrite existsb_exists. split.
  - intros (m & M & E). exists h, b. assert (m = a) as <- by lia. auto.
  - intros (h' & b' & LB' & B' & IN). assert (h' = h) as -> by (eapply last_before_unique; eauto). rewrite B in B'. injection B' as <-. exists a. split; [auto|lia].
Qed.

(** ** The block before a time *)
(** Whatever the lookup answers is right, for all increasing block times. *)
Theorem block_before_sound ts t fuel : ts <> [] -> rising ts ->
  (forall h, header_before fuel ts t = Found h -> last_before ts t h) /\ (header_before fuel ts t = Nobody -> forall h x, at_height ts h = Some x -> t <= x).
Proof.
  intros NE R. pose proof (header_before_sound ts fuel t NE R) as S. split.
  - intros h H. now rewrite H in S.
  - intros H. now rewrite H in S.
Qed.
(** With block times and the queried time on whole seconds the lookup always ends, within four steps of its loop, and finds the block if there is one. *)
Theorem block_before_complete ts t fuel : ts <> [] -> rising ts -> whole_seconds ts t -> (4 <= fuel)%nat ->
  (exists h, header_before fuel ts t = Found h /\ last_before ts t h) \/ (header_before fuel ts t = Nobody /\ forall h x, at_height ts h = Some x -> t <= x).
Proof.
  intros NE R W F. destruct (block_before_sound ts t fuel NE R) as [S1 S2].
  destruct (header_before_whole ts t NE R W fuel F) as [(h & H)|H]; [left; exists h; split; [exact H|exact (S1 h H)]|right; split; [exact H|exact (S2 H)]].
Qed.
(** Finding: asked for a time inside a second, within the chain's history, the loop never ends, although the answer exists. *)
Theorem block_before_subsecond_refuted : exists ts t, rising ts /\ (exists h, last_before ts t h) /\ forall fuel, header_before fuel ts t = Searching.
Proof.
  exists [0; 1000000000; 2000000000; 3000000000; 4000000000; 5000000000], 2500000000. split; [cbn; lia|]. split.
  - exists 3, 2000000000. split; [reflexivity|]. split; [lia|]. intros h y H L. destruct (Z_le_dec h 3); [auto|].
    assert (h = 4 \/ h = 5 \/ h = 6 \/ 6 < h) as [ -> | [ -> | [ -> | H6 ] ] ] by lia; try (vm_compute in H; injection H as <-; lia).
    unfold at_height in H. replace (h <=? 0) with false in H by lia. assert (nth_error [0; 1000000000; 2000000000; 3000000000; 4000000000; 5000000000] (Z.to_nat (h - 1)) <> None) as NN by congruence.
    apply nth_error_Some in NN. cbn [length] in NN. lia.
  - intro fuel. assert (B : forall k lo, lo = None \/ lo = Some 3 -> bracket k [0; 1000000000; 2000000000; 3000000000; 4000000000; 5000000000] 2500000000 3 None lo = None).
    { induction k as [|k IH]; intros lo [-> | ->]; try reflexivity.
      - change (bracket (S k) [0; 1000000000; 2000000000; 3000000000; 4000000000; 5000000000] 2500000000 3 None None)
          with (bracket k [0; 1000000000; 2000000000; 3000000000; 4000000000; 5000000000] 2500000000 3 None (Some 3)). auto.
      - change (bracket (S k) [0; 1000000000; 2000000000; 3000000000; 4000000000; 5000000000] 2500000000 3 None (Some 3))
          with (bracket k [0; 1000000000; 2000000000; 3000000000; 4000000000; 5000000000] 2500000000 3 None (Some 3)). auto. }
    change (header_before fuel [0; 1000000000; 2000000000; 3000000000; 4000000000; 5000000000] 2500000000)
      with (match bracket fuel [0; 1000000000; 2000000000; 3000000000; 4000000000; 5000000000] 2500000000 3 None None with
            | None => Searching | Some None => Failed
            | Some (Some (h, lo)) => if h =? lo + 1 then Found lo else binary_before [0; 1000000000; 2000000000; 3000000000; 4000000000; 5000000000] lo h 2500000000 end).
    now rewrite B by auto.
Qed.

(** ** Further findings and witnesses *)
Definition ex_group (level : Z) : group := {| g_genesis := 1000 * sec; g_nodes := 2; g_interval := 1; g_per := 3; g_repeat := 1; g_level := level |}.
Definition ex_elected (h : Z) : list Z := if h =? 0 then [10; 20] else [20; 30].
Definition sb (h t a : Z) : sblock := {| b_hash := h; b_time := (1000 + t) * sec; b_producer := a |}.
Definition ex_chain : list sblock := [sb 0 0 0; sb 1 1 10; sb 2 4 20; sb 3 7 10; sb 4 12 20; sb 5 16 30].
Local Transparent sec Z.pow two64.
Example ex_group_ok level : group_ok (ex_group level).
Proof. unfold group_ok, ex_group; cbn [g_nodes g_interval g_per g_repeat]. assert (1 * 2 * 3 * 1 * sec < 2 ^ 63) by reflexivity. lia. Qed.
Example ex_grown level : grown ex_elected (ex_group level) ex_chain.
Proof.
  unfold ex_chain. change ([sb 0 0 0; sb 1 1 10; sb 2 4 20; sb 3 7 10; sb 4 12 20; sb 5 16 30]) with ((((([sb 0 0 0] ++ [sb 1 1 10]) ++ [sb 2 4 20]) ++ [sb 3 7 10]) ++ [sb 4 12 20]) ++ [sb 5 16 30]).
  repeat (apply gr_block; [|vm_compute; reflexivity|vm_compute; reflexivity]). apply gr_genesis. reflexivity.
Qed.
Example ex_instant level : instant (ex_group level) (b_time (sb 5 16 30)).
Proof. split; vm_compute; [discriminate|reflexivity]. Qed.
Example ex_accepts : verify_producer ex_elected (ex_group 0) ex_chain 20 (1021 * sec) = false /\ verify_producer ex_elected (ex_group 0) ex_chain 20 (1019 * sec) = true /\
  verify_producer ex_elected (ex_group 0) ex_chain 10 (1019 * sec) = false /\ verify_producer ex_elected (ex_group 0) ex_chain 30 (1022 * sec) = true.
Proof. vm_compute. auto. Qed.
Example ex_last_before : last_before (times ex_chain) (1006 * sec) 3.
Proof.
  assert (H : header_before search_fuel (times ex_chain) (1006 * sec) = Found 3) by (vm_compute; reflexivity).
  apply (proj1 (block_before_sound (times ex_chain) (1006 * sec) search_fuel ltac:(discriminate) ltac:(cbn; lia)) 3 H).
Qed.
(** Finding: with check level 0 ("address and sequence") no producer of a contract group is ever accepted, although one is elected. *)
Theorem contract_level_zero_refuted : exists elected g c, group_ok g /\ grown elected g c /\ g_level g = 0 /\
  (exists i ms, contract_elected elected g c i = Some ms /\ ms <> []) /\ forall a, verify_contract_producer elected g c a = false.
Proof.
  exists ex_elected, (ex_group 0), ex_chain. split; [apply ex_group_ok|]. split; [apply ex_grown|]. split; [reflexivity|]. split.
  - exists 2, [10; 20]. split; [vm_compute; reflexivity|discriminate].
  - intro a. unfold verify_contract_producer. destruct (block_at _ _); [|reflexivity]. destruct (contract_elected _ _ _ _); [|reflexivity]. cbn [ex_group g_level].
    change (0 =? 1) with false. cbv iota. induction (gen_plan _ _ _) as [|x p IH]; [reflexivity|]. cbn [existsb]. rewrite IH. rewrite andb_false_r. reflexivity.
Qed.
(** Finding: a contract group whose round starts exactly 75 seconds after genesis cannot elect anyone for that round. *)
Definition g75 : group := {| g_genesis := 0; g_nodes := 25; g_interval := 3; g_per := 1; g_repeat := 1; g_level := 1 |}.
Theorem contract_round_75s_refuted : exists elected g c, group_ok g /\ grown elected g c /\ in_range g 1 /\ (forall b, In b c -> elected (b_hash b) <> []) /\ contract_elected elected g c 1 = None.
Proof.
  exists (fun _ => [10]), g75, [sb 0 (-1000) 0]. split; [unfold group_ok, g75; cbn [g_nodes g_interval g_per g_repeat]; assert (3 * 25 * 1 * 1 * sec < 2 ^ 63) by reflexivity; lia|].
  split; [apply gr_genesis; reflexivity|]. split; [split; [lia|vm_compute; reflexivity]|]. split; [intros b _; discriminate|]. vm_compute. reflexivity.
Qed.

Print Assumptions rounds_tile. Print Assumptions rounds_adjacent. Print Assumptions slots_inside_round. Print Assumptions slots_never_overlap. Print Assumptions slots_cover_round.
Print Assumptions producer_exact. Print Assumptions one_producer_per_slot. Print Assumptions filled_slot_has_producer. Print Assumptions round_settled. Print Assumptions accepted_stays_valid.
Print Assumptions contract_producer_exact. Print Assumptions block_before_sound. Print Assumptions block_before_complete. Print Assumptions block_before_subsecond_refuted.
Print Assumptions contract_level_zero_refuted. Print Assumptions contract_round_75s_refuted.
