(** Theorems about the index of the chain. *)
From Verif Require Import Lib.
From Verif Require RoadModel RoadProofs ChainProofs.
Import RoadProofs.
From Verif Require Import IdxModel IdxSpec IdxProofs IdxProofs2 IdxProofs3 IdxProofs4 IdxProofs5 IdxProofs6 IdxProofs7 IdxProofs8 IdxProofs9.
From Coq Require Import Permutation Sorted.
Import ListNotations.

(** * Finding blocks *)
(** A hash leads to the account and height of the block it names: an account block, or the receive
    block that holds the send. *)
Theorem hash_exact : forall w h, reach w ->
  (forall a n, addr_height (w_idx w) h = Some (a, n) <-> exists b, In b (blocks w) /\ In h (hashes b) /\ b_addr b = a /\ b_height b = n) /\
  (existed (w_idx w) h = true <-> exists b, In b (blocks w) /\ In h (hashes b)).
Proof. intros w h R. pose proof (inv_ok _ _ _ _ (reach_inv w R)) as K. split; [intros a n; now apply (addr_height_ok _ _ _ K)|now apply (existed_ok _ _ _ K)]. Qed.
(** Hash, or account and height, lead to where the block files have the block, once it is confirmed. *)
Theorem location_exact : forall w, reach w ->
  (forall a n h l, by_height (w_idx w) a n = Some (h, l) <-> exists g b, In g (w_log w) /\ In b (g_blocks g) /\ b_addr b = a /\ b_height b = n /\ b_hash b = h /\ g_locs g h = l) /\
  (forall h l, by_hash (w_idx w) h = Some l <-> exists g b, In g (w_log w) /\ In b (g_blocks g) /\ In h (hashes b) /\ g_locs g (b_hash b) = l).
Proof.
  intros w R. pose proof (inv_ok _ _ _ _ (reach_inv w R)) as K. pose proof (q_wf _ _ _ K) as W. split; [intros a n h l; now apply (by_height_ok _ _ _ K)|]. intros h l. unfold by_hash. split.
  - destruct (addr_height (w_idx w) h) as [[a n]|] eqn:E; [|discriminate]. destruct (by_height (w_idx w) a n) as [[h' l']|] eqn:E'; [|discriminate]. intros [= <-]. apply (addr_height_ok _ _ _ K) in E. apply (by_height_ok _ _ _ K) in E'. destruct E as (b & B & H & A & N), E' as (g & c & G & C & A' & N' & <- & <-). exists g, c. assert (b = c) by (apply (same_at _ b c (c_order _ _ W)); auto; try congruence; apply in_bb; left; eauto). subst c. auto.
  - intros (g & b & G & B & H & L). assert (BB : In b (bb (w_log w) (w_unc w))) by (apply in_bb; left; eauto). assert (E : addr_height (w_idx w) h = Some (b_addr b, b_height b)) by (apply (addr_height_ok _ _ _ K); exists b; auto). rewrite E. assert (E' : by_height (w_idx w) (b_addr b) (b_height b) = Some (b_hash b, l)) by (apply (by_height_ok _ _ _ K); exists g, b; auto 10). now rewrite E'.
Qed.
(** The latest block of an account. *)
Theorem latest_exact : forall w a, reach w -> match latest (w_idx w) a with (n, loc) =>
  (n = 0 /\ loc = None /\ forall b, In b (blocks w) -> b_addr b <> a) \/
  exists b, In b (blocks w) /\ b_addr b = a /\ b_height b = n /\ (forall c, In c (blocks w) -> b_addr c = a -> b_height c <= n) /\
            (In b (w_unc w) /\ loc = None \/ exists g, In g (w_log w) /\ In b (g_blocks g) /\ loc = Some (g_locs g (b_hash b))) end.
Proof. intros w a R. exact (latest_ok _ _ _ (inv_ok _ _ _ _ (reach_inv w R)) a). Qed.
(** Snapshot blocks by hash and by height. *)
Theorem snapshot_exact : forall w, reach w ->
  (forall g, In g (w_log w) -> sb_height_of (w_idx w) (sb_hash (g_sb g)) = sb_height (g_sb g)) /\
  (forall h, (forall g, In g (w_log w) -> sb_hash (g_sb g) <> h) -> sb_height_of (w_idx w) h = 0) /\
  (forall n h l, sb_at (w_idx w) n = Some (h, l) <-> exists g, In g (w_log w) /\ sb_height (g_sb g) = n /\ sb_hash (g_sb g) = h /\ g_loc g = l).
Proof.
  intros w R. pose proof (inv_ok _ _ _ _ (reach_inv w R)) as K. split; [intros g G; now apply (sb_height_ok _ _ _ K)|]. split; [intros h; now apply (sb_height_none _ _ _ K)|]. intros n h l. now apply (sb_at_ok _ _ _ K).
Qed.
(** The height at which a block was confirmed, from the cache of creations or from the index. *)
Theorem confirm_exact : forall w h, reach w -> confirmed_at w h (confirm_height (w_idx w) h).
Proof.
  intros w h R. pose proof (reach_inv w R) as V. unfold winv in V. pose proof (inv_ok _ _ _ _ V) as K. pose proof (q_wf _ _ _ K) as W. assert (N := c_hash _ _ W).
  assert (NU : forall b c, In b (w_unc w) -> In c (confirmed w) -> In h (hashes b) -> In h (hashes c) -> False).
  { intros b c B C Hb Hc. assert (b = c) by (apply (same_block (bb (w_log w) (w_unc w)) h b c N); auto; apply in_or_app; auto). subst c. unfold bb in N. now apply (apart _ _ b N). }
  unfold confirm_height, confirmed_at. destruct (get Z.eqb (i_confirm (w_idx w)) h) as [n|] eqn:E.
  - apply (v_conf _ _ _ _ V) in E. destruct E as (b & C & [(g & G & B & ->)|[B ->]]); apply creates_hash in C; [left; exists g, b; auto|right]. split; [reflexivity|]. intros c Cc Hc. now apply (NU b c).
  - destruct (in_dec Z.eq_dec h (flat_map hashes (confirmed w))) as [H|H].
    + left. apply in_flat_map in H. destruct H as (b & B & H). unfold confirmed in B. apply in_flat_map in B. destruct B as (g & G & B). exists g, b. split; [exact G|]. split; [exact B|]. split; [exact H|]. now apply (slow_confirmed _ _ _ K g b).
    + right. split; [|intros b B Hb; apply H; apply in_flat_map; eauto]. destruct (in_dec Z.eq_dec h (flat_map hashes (w_unc w))) as [H'|H'].
      * apply in_flat_map in H'. destruct H' as (b & B & Hb). now apply (slow_waiting _ _ _ K b).
      * apply (slow_none _ _ _ K). intros b B Hb. apply in_app_or in B. destruct B as [B|B]; [apply H|apply H']; apply in_flat_map; eauto.
Qed.

(** * Sends and receives *)
Theorem received_exact : forall w s, reach w ->
  (forall r, received_by (w_idx w) s = Some r <-> received_at (blocks w) s r) /\ (is_received (w_idx w) s = true <-> exists r, received_at (blocks w) s r).
Proof. intros w s R. pose proof (inv_ok _ _ _ _ (reach_inv w R)) as K. split; [intros r; now apply (received_ok _ _ _ K)|now apply (is_received_ok _ _ _ K)]. Qed.
(** The pages of an account's list, put together, are the sends that wait for it, each once, in the order of their hashes. *)
Theorem road_exact : forall w a, reach w -> exists l,
  StronglySorted Z.lt l /\ (forall s, In s l <-> waits (blocks w) a s) /\
  forall num size, 0 <= num -> 0 <= size -> road_page (w_idx w) a num size = firstn (Z.to_nat size) (skipn (Z.to_nat (size * num)) l).
Proof.
  intros w a R. pose proof (inv_ok _ _ _ _ (reach_inv w R)) as K. exists (map fst (walk (road_of a) (view (i_store (w_idx w))))). split; [apply (road_sorted _ _ _ K)|]. split; [intros s; apply (road_in _ _ _ K)|]. intros num size A B. now apply road_page_ok.
Qed.
(** What the pools of contracts load: every waiting send with the account and height of its block. *)
Theorem load_exact : forall w a, reach w -> StronglySorted Z.lt (map snd (load (w_idx w) a)) /\
  forall c n s, In (c, n, s) (load (w_idx w) a) <-> waits (blocks w) a s /\ exists b, In b (blocks w) /\ In s (hashes b) /\ b_addr b = c /\ b_height b = n.
Proof.
  intros w a R. pose proof (inv_ok _ _ _ _ (reach_inv w R)) as K. unfold load. set (l := map fst (walk (road_of a) (view (i_store (w_idx w))))). assert (SS : StronglySorted Z.lt l) by apply (road_sorted _ _ _ K). assert (RI : forall s, In s l <-> waits (blocks w) a s) by (intros s; apply (road_in _ _ _ K)). split.
  - assert (E : map snd (flat_map (fun h => match addr_height (w_idx w) h with Some (c, n) => [(c, n, h)] | None => [] end) l) = l); [|now rewrite E].
    assert (F : forall s, In s l -> addr_height (w_idx w) s <> None).
    { intros s H E. apply RI in H. destruct H as (Q & _). destruct (sent_hash _ _ _ Q) as (b & B & Hb). exact (proj1 (addr_height_none _ _ _ K s) E b B Hb). }
    clear SS RI. clearbody l. induction l as [|s l IH]; cbn [flat_map]; [reflexivity|]. rewrite map_app, IH by (intros; apply F; now right). destruct (addr_height (w_idx w) s) as [[c n]|] eqn:E; [reflexivity|]. destruct (F s (or_introl eq_refl) E).
  - intros c n s. rewrite in_flat_map. split.
    + intros (h & H & E). destruct (addr_height (w_idx w) h) as [[c' n']|] eqn:E'; [|destruct E]. destruct E as [E|[]]. injection E as -> -> ->. split; [now apply RI|]. now apply (addr_height_ok _ _ _ K).
    + intros (Q & H). exists s. split; [now apply RI|]. apply (addr_height_ok _ _ _ K) in H. rewrite H. now left.
Qed.

(** * A history *)
(** A reachable world with these files and these unconfirmed blocks. *)
Definition at_ (w : world) (gs : list seg) (u : list blk) : Prop := reach w /\ w_log w = gs /\ w_unc w = u.
Definition x_g1 : seg := Seg [BRecv 1 1 10 None []] (Sb 100 1 [(1, 1)]) 5 (fun _ => 3).
Definition x_s2 : blk := BSend 1 2 (Send 20 2 true).
Definition x_s3 : blk := BSend 1 3 (Send 21 3 false).
Definition x_r : blk := BRecv 2 1 30 (Some 20) [Send 31 3 false; Send 32 1 false].
Definition x_q : blk := BRecv 3 1 40 (Some 31) [].
Definition x_g2 : seg := Seg [x_s2; x_r] (Sb 101 2 [(1, 2); (2, 1)]) 9 (fun h => h + 1000).
Definition y_r : blk := BRecv 2 1 31 (Some 20) [].
Ltac inlist := repeat match goal with H : In _ _ |- _ => progress cbn in H | H : _ \/ _ |- _ => destruct H | H : False |- _ => destruct H | H : (_, _) = (_, _) |- _ => injection H as ? ? | H : BRecv _ _ _ _ _ = BRecv _ _ _ _ _ |- _ => inversion H; subst; clear H | H : BSend _ _ _ = _ |- _ => discriminate H end.
Ltac nodups := cbn; repeat (apply NoDup_cons; [cbn; intuition lia|]); apply NoDup_nil.
Ltac facts := intros; inlist; subst; cbn in *; try (intro; inlist); subst; try discriminate; try congruence; try lia; auto.
Ltac not_received := let H := fresh in intros ? (? & ? & ? & H); cbn in H; inlist; discriminate.
Ltac accept EL EU := unfold accepted, blocks, confirmed; rewrite ?EL, ?EU; unfold x_g1, x_g2, x_s2, x_s3, x_r, x_q, y_r; cbn [flat_map g_blocks app];
  split; [nodups|]; split; [facts|]; split; [cbn; unfold max_u64, two64; lia|]; split; [facts|]; cbn [b_addr b_height].
Definition x_w1 : world := step (step (step w_new (OBlock (BRecv 1 1 10 None []))) (OSnap (g_sb x_g1) 5 (fun _ => 3))) OFlush.
Definition x_w2 : world := step (step (step x_w1 (OBlock x_s2)) (OBlock x_s3)) (OBlock x_r).
Definition x_w3 : world := step (step x_w2 (OSnap (g_sb x_g2) 9 (fun h => h + 1000))) (OBlock x_q).
Definition x_w4 : world := step (step x_w3 OFlush) (OEvict [KHash 20; KRecv 31] [20] [1]).
Definition x_w5 : world := step x_w4 (ODelete [x_q]).
Definition x_w6 : world := step x_w4 (ORoll 1 true).
Definition x_w7 : world := step x_w5 (ORestart [20]).
Lemma at_block w gs u b : at_ w gs u -> accepted w b -> at_ (step w (OBlock b)) gs (u ++ [b]).
Proof. intros (R & <- & <-) A. split; [now apply R_step|]. split; reflexivity. Qed.
Lemma at_snap w gs u s loc locs : at_ w gs u -> snapshots w s -> at_ (step w (OSnap s loc locs)) (gs ++ [Seg (filter (confirms (sb_content s)) u) s loc locs]) (filter (fun b => negb (confirms (sb_content s) b)) u).
Proof. intros (R & <- & <-) A. split; [now apply R_step|]. split; reflexivity. Qed.
Lemma at_flush w gs u : at_ w gs u -> at_ (step w OFlush) gs u.
Proof. intros (R & <- & <-). split; [now apply R_step|]. split; reflexivity. Qed.
Lemma at_evict w gs u a b c : at_ w gs u -> at_ (step w (OEvict a b c)) gs u.
Proof. intros (R & <- & <-). split; [now apply R_step|]. split; reflexivity. Qed.
Lemma at_delete w gs u bs : at_ w gs u -> deletes w bs -> at_ (step w (ODelete bs)) gs (without u bs).
Proof. intros (R & <- & <-) A. split; [now apply R_step|]. split; reflexivity. Qed.
Lemma at_roll w gs u n redo : at_ w gs u -> (1 <= n < length gs)%nat -> at_ (step w (ORoll n redo)) (firstn (length gs - n) gs) (if redo then match skipn (length gs - n) gs with g :: _ => g_blocks g | [] => [] end else []).
Proof. intros (R & <- & <-) A. split; [now apply R_step|]. split; reflexivity. Qed.
Example x_reach1 : at_ x_w1 [x_g1] [].
Proof.
  assert (A0 : at_ w_new [] []) by (split; [constructor|split; reflexivity]).
  assert (A1 : at_ (step w_new (OBlock (BRecv 1 1 10 None []))) [] [BRecv 1 1 10 None []]) by (apply (at_block _ _ [] _ A0); destruct A0 as (_ & EL & EU); accept EL EU; auto).
  apply at_flush. apply (at_snap _ [] _ (g_sb x_g1) 5 (fun _ => 3) A1). destruct A1 as (_ & EL & EU). unfold snapshots. rewrite EL, EU. cbn.
  split; [facts|]. split; [lia|]. split; [nodups|]. split; [facts; eexists; split; [now left|auto]|]. split; [facts|]. facts.
Qed.
Example x_reach2 : at_ x_w2 [x_g1] [x_s2; x_s3; x_r].
Proof.
  assert (A1 : at_ (step x_w1 (OBlock x_s2)) [x_g1] [x_s2]) by (pose proof x_reach1 as A0; apply (at_block _ _ [] _ A0); destruct A0 as (_ & EL & EU); accept EL EU; auto).
  assert (A2 : at_ (step (step x_w1 (OBlock x_s2)) (OBlock x_s3)) [x_g1] [x_s2; x_s3]) by (apply (at_block _ _ [x_s2] _ A1); destruct A1 as (_ & EL & EU); accept EL EU; auto).
  apply (at_block _ _ [x_s2; x_s3] _ A2). destruct A2 as (_ & EL & EU). accept EL EU. split; [repeat constructor|]. split; [|not_received]. exists x_s2, (Send 20 2 true). cbn. auto 10.
Qed.
Example x_reach3 : at_ x_w3 [x_g1; x_g2] [x_s3; x_q].
Proof.
  assert (A1 : at_ (step x_w2 (OSnap (g_sb x_g2) 9 (fun h => h + 1000))) [x_g1; x_g2] [x_s3]).
  { pose proof x_reach2 as A0. apply (at_snap _ _ _ (g_sb x_g2) 9 (fun h => h + 1000) A0). destruct A0 as (_ & EL & EU). unfold snapshots. rewrite EL, EU. cbn.
    split; [facts|]. split; [lia|]. split; [nodups|]. split; [|split; [|facts]].
    - intros a n [H|[H|[]]]; injection H as <- <-; [exists x_s2|exists x_r]; cbn; auto 10.
    - intros a n h f subs c x [H|[H|[H|[]]]]; try discriminate. injection H as <- <- <- <- <-. intros _ [<-|[<-|[<-|[]]]] X E; cbn in X; inlist; subst; try discriminate; reflexivity. }
  apply (at_block _ _ [x_s3] _ A1). destruct A1 as (_ & EL & EU). accept EL EU. split; [repeat constructor|]. split; [|not_received]. exists x_r, (Send 31 3 false). cbn. auto 10.
Qed.
Example x_reach4 : at_ x_w4 [x_g1; x_g2] [x_s3; x_q]. Proof. apply at_evict, at_flush, x_reach3. Qed.
Example x_reach5 : at_ x_w5 [x_g1; x_g2] [x_s3].
Proof.
  apply (at_delete _ _ [x_s3; x_q] [x_q] x_reach4). destruct x_reach4 as (_ & EL & EU). unfold deletes. rewrite EU. split; [exists (fun b => b_addr b =? 3); reflexivity|]. split; [|split].
  - intros b c [<-|[]] [<-|[<-|[]]]; cbn; auto; discriminate.
  - intros b x [<-|[]] [].
  - intros b [<-|[]]. exact Logic.I.
Qed.
Example x_reach6 : at_ x_w6 [x_g1] [x_s2; x_r]. Proof. apply (at_roll _ _ _ 1 true x_reach4). cbn. lia. Qed.
Example x_reach7 : at_ x_w7 [x_g1; x_g2] [].
Proof.
  destruct x_reach5 as (R & EL & EU). split; [|split; [|reflexivity]].
  - apply R_step; [exact R|]. intros h [<-|[]]. exists x_s2, (Send 20 2 true). cbn. auto 10.
  - reflexivity.
Qed.
Example x_hashes : map (fun w => map (addr_height (w_idx w)) [10; 21; 31; 40]) [x_w3; x_w4; x_w5; x_w6; x_w7] =
  [[Some (1, 1); Some (1, 3); Some (2, 1); Some (3, 1)]; [Some (1, 1); Some (1, 3); Some (2, 1); Some (3, 1)]; [Some (1, 1); Some (1, 3); Some (2, 1); None];
   [Some (1, 1); None; Some (2, 1); None]; [Some (1, 1); None; Some (2, 1); None]].
Proof. vm_compute. reflexivity. Qed.
Example x_locations : map (fun w => (by_height (w_idx w) 2 1, by_hash (w_idx w) 32, by_height (w_idx w) 1 3)) [x_w2; x_w4; x_w6; x_w7] = [(None, None, None); (Some (30, 1030), Some 1030, None); (None, None, None); (Some (30, 1030), Some 1030, None)].
Proof. vm_compute. reflexivity. Qed.
Example x_latest : map (fun w => (latest (w_idx w) 1, latest (w_idx w) 3)) [x_w4; x_w5; x_w6; x_w7] = [((3, None), (1, None)); ((3, None), (0, None)); ((2, None), (0, None)); ((2, Some 1020), (0, None))].
Proof. vm_compute. reflexivity. Qed.
Example x_snapshots : map (fun w => (sb_height_of (w_idx w) 101, sb_at (w_idx w) 2, sb_at (w_idx w) 1)) [x_w2; x_w4; x_w6; x_w7] = [(0, None, Some (100, 5)); (2, Some (101, 9), Some (100, 5)); (0, None, Some (100, 5)); (2, Some (101, 9), Some (100, 5))].
Proof. vm_compute. reflexivity. Qed.
Example x_confirms : map (fun w => map (confirm_height (w_idx w)) [10; 20; 21; 31]) [x_w2; x_w3; x_w4; x_w6; x_w7] = [[1; 0; 0; 0]; [1; 2; 0; 2]; [1; 2; 0; 2]; [1; 0; 0; 0]; [1; 2; 0; 2]].
Proof. vm_compute. reflexivity. Qed.
Example x_received : map (fun w => map (received_by (w_idx w)) [20; 21; 31]) [x_w2; x_w3; x_w5; x_w6; x_w7] =
  [[Some 30; None; None]; [Some 30; None; Some 40]; [Some 30; None; None]; [Some 30; None; None]; [Some 30; None; None]].
Proof. vm_compute. reflexivity. Qed.
Example x_roads : map (fun w => (road_page (w_idx w) 3 0 10, road_page (w_idx w) 3 1 1, load (w_idx w) 3, road_page (w_idx w) 1 0 10)) [x_w2; x_w4; x_w5; x_w6; x_w7] =
  [([21; 31], [31], [(1, 3, 21); (2, 1, 31)], [32]); ([21], [], [(1, 3, 21)], [32]); ([21; 31], [31], [(1, 3, 21); (2, 1, 31)], [32]); ([31], [], [(2, 1, 31)], [32]); ([31], [], [(2, 1, 31)], [32])].
Proof. vm_compute. reflexivity. Qed.

(** * Ids of accounts *)
(** An account loses its id when its first block is deleted before it is confirmed and another takes its place. *)
Definition y_w1 : world := step (step (step x_w1 (OBlock x_s2)) (OBlock x_r)) (ODelete [x_r]).
Definition y_w2 : world := step (step (step y_w1 (OBlock y_r)) (OSnap (Sb 101 2 [(1, 2); (2, 1)]) 9 (fun h => h))) OFlush.
Lemma y_reach : reach y_w2 /\ In y_r (confirmed y_w2).
Proof.
  assert (A1 : at_ (step x_w1 (OBlock x_s2)) [x_g1] [x_s2]) by (pose proof x_reach1 as A0; apply (at_block _ _ [] _ A0); destruct A0 as (_ & EL & EU); accept EL EU; auto).
  assert (A2 : at_ (step (step x_w1 (OBlock x_s2)) (OBlock x_r)) [x_g1] [x_s2; x_r]).
  { apply (at_block _ _ [x_s2] _ A1). destruct A1 as (_ & EL & EU). accept EL EU. split; [repeat constructor|]. split; [|not_received]. exists x_s2, (Send 20 2 true). cbn. auto 10. }
  assert (A3 : at_ y_w1 [x_g1] [x_s2]).
  { apply (at_delete _ _ [x_s2; x_r] [x_r] A2). destruct A2 as (_ & EL & EU). unfold deletes. rewrite EU. split; [exists (fun b => b_addr b =? 2); reflexivity|]. split; [|split].
    - intros b c [<-|[]] [<-|[<-|[]]]; cbn; auto; discriminate.
    - intros b x [<-|[]] _ a n h subs [H|[H|[]]]; [discriminate|]. left. exact H.
    - intros b [<-|[]]. exact Logic.I. }
  assert (A4 : at_ (step y_w1 (OBlock y_r)) [x_g1] [x_s2; y_r]).
  { apply (at_block _ _ [x_s2] _ A3). destruct A3 as (_ & EL & EU). accept EL EU. split; [repeat constructor|]. split; [|not_received]. exists x_s2, (Send 20 2 true). cbn. auto 10. }
  assert (A5 : at_ y_w2 [x_g1; Seg [x_s2; y_r] (Sb 101 2 [(1, 2); (2, 1)]) 9 (fun h => h)] []).
  { apply at_flush. apply (at_snap _ _ _ (Sb 101 2 [(1, 2); (2, 1)]) 9 (fun h => h) A4). destruct A4 as (_ & EL & EU). unfold snapshots. rewrite EL, EU. cbn.
    split; [facts|]. split; [lia|]. split; [nodups|]. split; [|split; [|facts]].
    - intros a n [H|[H|[]]]; injection H as <- <-; [exists x_s2|exists y_r]; cbn; auto 10.
    - intros a n h f subs c x [H|[H|[]]]; try discriminate. injection H as <- <- <- <- <-. intros _ [<-|[<-|[]]] X E; cbn in X; inlist; subst; try discriminate; reflexivity. }
  destruct A5 as (R & EL & _). split; [exact R|]. unfold confirmed. rewrite EL. cbn. auto.
Qed.
Theorem forgotten_account_refuted : exists w b, reach w /\ In b (confirmed w) /\ account_id (w_idx w) (b_addr b) = 0.
Proof. exists y_w2, y_r. destruct y_reach as [A B]. split; [exact A|]. split; [exact B|]. vm_compute. reflexivity. Qed.
Example x_ids : map (fun w => (account_id (w_idx w) 1, account_id (w_idx w) 2, account_id (w_idx w) 3)) [x_w1; x_w3; x_w4; x_w7; y_w1; y_w2] = [(1, 0, 0); (1, 2, 3); (1, 2, 3); (1, 2, 0); (1, 2, 0); (1, 0, 0)].
Proof. vm_compute. reflexivity. Qed.

Print Assumptions hash_exact.
Print Assumptions location_exact.
Print Assumptions latest_exact.
Print Assumptions snapshot_exact.
Print Assumptions confirm_exact.
Print Assumptions received_exact.
Print Assumptions road_exact.
Print Assumptions load_exact.
Print Assumptions forgotten_account_refuted.
