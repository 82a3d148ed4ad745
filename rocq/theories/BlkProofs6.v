(** Proofs about the block files: the parser, and blocks read back. *)
From Verif Require Import Lib BlkModel BlkSpec BlkProofs BlkProofs2 BlkProofs3 BlkProofs4 BlkProofs5.
Import ListNotations.

(** * The parser *)
Definition idle (p : parser) : nat := if (length (p_head p) <? 4)%nat then 0 else if p_type p =? 0 then 0 else match Z.to_nat (p_size p - zlen (p_buf p)) with O => 1 | _ => 0 end.
Definition need (p : parser) (b : list Z) : nat := match b with [] => 0 | _ => 2 * length b + idle p end.
Lemma need_le p b : (need p b <= 2 * length b + 1)%nat.
Proof. unfold need, idle. destruct b; [lia|]. destruct (length (p_head p) <? 4)%nat; [lia|]. destruct (p_type p =? 0); [lia|]. destruct (Z.to_nat (p_size p - zlen (p_buf p))); lia. Qed.
Lemma feed_fuel : forall f f' p b, (need p b <= f)%nat -> (need p b <= f')%nat -> feed f p b = feed f' p b.
Proof.
  induction f as [|f IH]; intros f' p b H H'.
  - destruct b; [destruct f'; reflexivity|cbn in H; lia].
  - destruct f' as [|f']; [destruct b; [reflexivity|cbn in H'; lia]|]. destruct b as [|x r]; [reflexivity|]. cbn [feed]. cbn [need length] in H, H'. unfold idle in H, H'.
    destruct (Nat.ltb_spec (length (p_head p)) 4) as [L|L].
    + apply IH; match goal with |- (need ?q ?c <= _)%nat => pose proof (need_le q c) end; rewrite skipn_length in *; cbn [length] in *; lia.
    + destruct (p_type p =? 0).
      * apply IH; match goal with |- (need ?q ?c <= _)%nat => pose proof (need_le q c) end; cbn [length] in *; lia.
      * destruct (length (x :: r) <? Z.to_nat (p_size p - zlen (p_buf p)))%nat; [reflexivity|].
        assert (N : forall c, need (Parser [] (p_size p) 0 []) c = (2 * length c)%nat) by (intros [|? ?]; cbn; lia).
        rewrite (IH f'); [reflexivity| |]; rewrite N, skipn_length; cbn [length]; destruct (Z.to_nat (p_size p - zlen (p_buf p))); lia.
Qed.
Definition eat (p : parser) (b : list Z) : parser * list unit_ := feed (2 * length b + 2) p b.
Lemma eat_fuel f p b : (need p b <= f)%nat -> feed f p b = eat p b.
Proof. intro H. apply feed_fuel; [exact H|]. pose proof (need_le p b). lia. Qed.
Lemma eat_nil p : eat p [] = (p, []). Proof. reflexivity. Qed.
Lemma eat_head p b : b <> [] -> (length (p_head p) < 4)%nat ->
  eat p b = let n := Nat.min (4 - length (p_head p)) (length b) in let h := p_head p ++ firstn n b in
    eat (Parser h (if (4 <=? length h)%nat then (be_val h - 1) mod 2 ^ 32 else p_size p) (p_type p) (p_buf p)) (skipn n b).
Proof.
  intros N L. destruct b as [|x r]; [contradiction|]. unfold eat at 1. replace (2 * length (x :: r) + 2)%nat with (S (2 * length (x :: r) + 1)) by lia. cbn [feed]. destruct (Nat.ltb_spec (length (p_head p)) 4); [|lia]. cbv zeta. apply eat_fuel.
  match goal with |- (need ?q ?c <= _)%nat => pose proof (need_le q c) end. rewrite skipn_length in *. cbn [length] in *. lia.
Qed.
Lemma eat_type p x r : (4 <= length (p_head p))%nat -> p_type p = 0 -> eat p (x :: r) = eat (Parser (p_head p) (p_size p) x (p_buf p)) r.
Proof.
  intros L T. unfold eat at 1. replace (2 * length (x :: r) + 2)%nat with (S (2 * length (x :: r) + 1)) by lia. cbn [feed]. destruct (Nat.ltb_spec (length (p_head p)) 4); [lia|]. rewrite T. cbn [Z.eqb]. apply eat_fuel.
  match goal with |- (need ?q ?c <= _)%nat => pose proof (need_le q c) end. cbn [length] in *. lia.
Qed.
Lemma eat_body p b : b <> [] -> (4 <= length (p_head p))%nat -> p_type p <> 0 ->
  eat p b = let n := Z.to_nat (p_size p - zlen (p_buf p)) in
    if (length b <? n)%nat then (Parser (p_head p) (p_size p) (p_type p) (p_buf p ++ b), [])
    else let (q, us) := eat (Parser [] (p_size p) 0 []) (skipn n b) in (q, (p_type p, p_buf p ++ firstn n b) :: us).
Proof.
  intros N L T. destruct b as [|x r]; [contradiction|]. unfold eat at 1. replace (2 * length (x :: r) + 2)%nat with (S (2 * length (x :: r) + 1)) by lia. cbn [feed]. destruct (Nat.ltb_spec (length (p_head p)) 4); [lia|]. destruct (Z.eqb_spec (p_type p) 0); [contradiction|]. cbv zeta.
  destruct (length (x :: r) <? Z.to_nat (p_size p - zlen (p_buf p)))%nat; [reflexivity|]. rewrite eat_fuel; [reflexivity|].
  match goal with |- (need ?q ?c <= _)%nat => pose proof (need_le q c) end. rewrite skipn_length in *. cbn [length] in *. lia.
Qed.
(** Cutting the bytes makes no difference. *)
Lemma eat_app : forall k p a b, (need p a <= k)%nat -> eat p (a ++ b) = let (q, us) := eat p a in let (r, vs) := eat q b in (r, us ++ vs).
Proof.
  induction k as [|k IH]; intros p a b H.
  { destruct a; [|cbn in H; lia]. rewrite eat_nil. cbn [app]. destruct (eat p b) as [r vs]. reflexivity. }
  destruct a as [|x a']; [rewrite eat_nil; cbn [app]; destruct (eat p b) as [r vs]; reflexivity|].
  destruct b as [|y b']; [rewrite app_nil_r; destruct (eat p (x :: a')) as [q us]; rewrite eat_nil, app_nil_r; reflexivity|].
  set (a := x :: a') in *. set (b := y :: b') in *. assert (NA : a <> []) by discriminate. assert (NB : b <> []) by discriminate. assert (NAB : a ++ b <> []) by discriminate.
  assert (LA : (0 < length a)%nat) by (cbn; lia). assert (LB : (0 < length b)%nat) by (cbn; lia).
  assert (NE : need p a = (2 * length a + idle p)%nat) by reflexivity. unfold idle in NE. clearbody a b.
  destruct (Nat.ltb_spec (length (p_head p)) 4) as [L|L].
  - destruct (Nat.le_gt_cases (4 - length (p_head p)) (length a)) as [K|K].
    + rewrite (eat_head p (a ++ b)), (eat_head p a) by assumption. cbv zeta. rewrite app_length. rewrite !Nat.min_l by lia. rewrite firstn_app, skipn_app. replace (4 - length (p_head p) - length a)%nat with O by lia. cbn [firstn skipn]. rewrite app_nil_r. apply IH.
      match goal with |- (need ?q ?c <= _)%nat => pose proof (need_le q c) end. rewrite skipn_length in *. lia.
    + rewrite (eat_head p (a ++ b)), (eat_head p a) by assumption. cbv zeta. rewrite app_length. rewrite (Nat.min_r _ (length a)) by lia. rewrite firstn_all, skipn_all, eat_nil.
      assert (L1 : length (p_head p ++ a) = (length (p_head p) + length a)%nat) by apply app_length. destruct (Nat.leb_spec 4 (length (p_head p ++ a))); [lia|].
      rewrite (eat_head (Parser (p_head p ++ a) _ _ _) b) by (cbn [p_head]; try assumption; lia). cbn [p_head p_size p_type p_buf]. cbv zeta. rewrite L1.
      replace (Nat.min (4 - length (p_head p)) (length a + length b)) with (length a + Nat.min (4 - (length (p_head p) + length a)) (length b))%nat by lia.
      rewrite firstn_app_2, skipn_app. rewrite skipn_all2 by lia. cbn [app]. replace (length a + Nat.min (4 - (length (p_head p) + length a)) (length b) - length a)%nat with (Nat.min (4 - (length (p_head p) + length a)) (length b)) by lia. rewrite app_assoc.
      match goal with |- ?z = (let (r, vs) := ?z' in _) => change z' with z; destruct z as [r vs] end. reflexivity.
  - destruct (Z.eqb_spec (p_type p) 0) as [T|T].
    + destruct a as [|x1 a1]; [contradiction|]. cbn [app]. rewrite !eat_type by assumption. apply IH. match goal with |- (need ?q ?c <= _)%nat => pose proof (need_le q c) end. cbn [length] in *. lia.
    + rewrite (eat_body p (a ++ b)), (eat_body p a) by assumption. cbv zeta. set (n := Z.to_nat (p_size p - zlen (p_buf p))) in *. rewrite app_length.
      destruct (Nat.ltb_spec (length a) n) as [K|K].
      * rewrite (eat_body (Parser (p_head p) (p_size p) (p_type p) (p_buf p ++ a)) b) by (cbn [p_head p_type]; assumption). cbv zeta. cbn [p_head p_size p_type p_buf].
        assert (EN : Z.to_nat (p_size p - zlen (p_buf p ++ a)) = (n - length a)%nat) by (unfold n; rewrite zlen_app; unfold zlen; lia). rewrite EN.
        destruct (Nat.ltb_spec (length b) (n - length a)) as [K2|K2]; destruct (Nat.ltb_spec (length a + length b) n) as [K3|K3]; try lia; [now rewrite app_assoc|].
        rewrite firstn_app, skipn_app. rewrite (firstn_all2 a) by lia. rewrite (skipn_all2 a) by lia. cbn [app]. rewrite app_assoc. destruct (eat (Parser [] (p_size p) 0 []) (skipn (n - length a) b)) as [r vs]. reflexivity.
      * destruct (Nat.ltb_spec (length a + length b) n) as [K3|K3]; [lia|]. rewrite firstn_app, skipn_app. replace (n - length a)%nat with O by lia. cbn [firstn skipn]. rewrite app_nil_r.
        rewrite IH. 2:{ assert (N : forall c, need (Parser [] (p_size p) 0 []) c = (2 * length c)%nat) by (intros [|? ?]; cbn; lia). rewrite N, skipn_length. destruct n; lia. }
        destruct (eat (Parser [] (p_size p) 0 []) (skipn n a)) as [q us]. destruct (eat q b) as [r vs]. reflexivity.
Qed.
Lemma eat_cat p a b : eat p (a ++ b) = let (q, us) := eat p a in let (r, vs) := eat q b in (r, us ++ vs).
Proof. now apply (eat_app (need p a)). Qed.
Theorem feed_all_concat p ps : feed_all p ps = eat p (concat ps).
Proof.
  unfold feed_all. assert (X : forall ps q us, fold_left (fun a b => let (q, us) := feed (2 * length b + 2) (fst a) b in (q, snd a ++ us)) ps (q, us) = let (r, vs) := eat q (concat ps) in (r, us ++ vs)).
  { clear. induction ps as [|b r IH]; intros q us; cbn [fold_left concat]; [rewrite eat_nil, app_nil_r; reflexivity|]. cbn [fst snd]. fold (eat q b). rewrite eat_cat. destruct (eat q b) as [q' us']. rewrite IH. destruct (eat q' (concat r)) as [q'' vs]. now rewrite app_assoc. }
  rewrite X. destruct (eat p (concat ps)) as [r vs]. reflexivity.
Qed.
Lemma eat_frame sz u : unit_ok u -> eat (Parser [] sz 0 []) (frame u) = (Parser [] (zlen (snd u)) 0 [], [u]).
Proof.
  intros (T & N & L & B). destruct u as [t b]. cbn [fst snd] in *. unfold frame. cbn [fst snd]. pose proof (zlen_nonneg b).
  assert (LH : length (be_bytes 4 (zlen b + 1)) = 4%nat) by apply be_bytes_length. assert (VH : be_val (be_bytes 4 (zlen b + 1)) = zlen b + 1) by (apply be_val_bytes; cbn; lia).
  set (h := be_bytes 4 (zlen b + 1)) in *. clearbody h. rewrite eat_cat. rewrite eat_head by (try (intros ->; discriminate); cbn; lia). cbn [p_head p_size p_type p_buf]. cbv zeta. cbn [length]. rewrite LH. change (Nat.min (4 - 0) 4) with 4%nat. rewrite (firstn_all2 h), (skipn_all2 h) by lia. cbn [app]. rewrite LH, eat_nil. change (4 <=? 4)%nat with true. rewrite VH. replace (zlen b + 1 - 1) with (zlen b) by lia. rewrite Z.mod_small by lia.
  rewrite eat_type by (cbn; lia). cbn [p_head p_size p_buf]. rewrite eat_body by (try assumption; cbn [p_head p_type]; lia). cbn [p_head p_size p_type p_buf]. cbv zeta. rewrite zlen_nil. replace (Z.to_nat (zlen b - 0)) with (length b) by (unfold zlen; lia).
  rewrite Nat.ltb_irrefl, firstn_all, skipn_all, eat_nil. reflexivity.
Qed.
Lemma eat_units : forall us sz, Forall unit_ok us -> exists sz', eat (Parser [] sz 0 []) (bytes_of us) = (Parser [] sz' 0 [], us).
Proof.
  induction us as [|u r IH]; intros sz F; [exists sz; reflexivity|]. unfold bytes_of. cbn [map concat]. rewrite eat_cat, eat_frame by exact (Forall_inv F). destruct (IH (zlen (snd u)) (Forall_inv_tail F)) as (sz' & E). unfold bytes_of in E. rewrite E. now exists sz'.
Qed.

(** * Chunks *)
Lemma group_spec : forall us acc, Forall unit_ok us -> chunked (group us acc) (map (fun b => (1, b)) acc ++ us).
Proof.
  induction us as [|[t b] r IH]; intros acc F; cbn [group].
  - destruct acc as [|x a]; [repeat split; constructor|]. split; [unfold unchunk; cbn [map concat fst snd]; now rewrite !app_nil_r|]. split; [constructor|]. constructor; [discriminate|constructor].
  - pose proof (Forall_inv F) as (T & _). cbn in T. destruct T as [->| ->]; cbn [Z.eqb Pos.eqb].
    + destruct (IH (acc ++ [b]) (Forall_inv_tail F)) as (A & B & C). split; [rewrite A, map_app, <- app_assoc; reflexivity|]. split; assumption.
    + destruct (IH [] (Forall_inv_tail F)) as (A & B & C). split; [|split].
      * unfold unchunk in *. cbn [map concat fst snd]. rewrite A. cbn [map app]. now rewrite <- app_assoc.
      * destruct (group r []) as [|c cs]; [constructor|]. cbn [removelast] in *. constructor; [discriminate|exact B].
      * constructor; [discriminate|exact C].
Qed.

Section Files.
Context (fs cl : Z) (FS : 0 < fs) (CL : 1 <= cl).
Notation pos := (pos fs).
Notation loc_ok := (loc_ok fs).
Lemma reach_read s g l n : reach fs cl s g -> loc_ok l -> 0 <= n ->
  if pos l + n <=? zlen (g_now g) then exists l', read fs s l n = Done l' (take n (drop (pos l) (g_now g))) /\ loc_ok l' /\ pos l' = pos l + n
  else 0 < n -> read fs s l n = Eof.
Proof.
  intros R O N. assert (V := reach_inv fs cl FS CL s g R). unfold read. pose proof (read_spec fs FS s _ _ (v_mem _ _ _ V) (2 * Z.to_nat n + 2) l n O N) as X.
  assert (F : 2 * n + (if l_off l =? fs then 1 else 0) < Z.of_nat (2 * Z.to_nat n + 2)) by (destruct (l_off l =? fs); lia). specialize (X F).
  destruct (pos l + n <=? zlen (g_now g)); [|exact X]. destruct X as (l' & A & B & C & _). now exists l'.
Qed.
Lemma frame_len u : zlen (frame u) = zlen (snd u) + 5.
Proof. unfold frame. rewrite zlen_app, zlen_cons. assert (zlen (be_bytes 4 (zlen (snd u) + 1)) = 4) by (unfold zlen; rewrite be_bytes_length; reflexivity). lia. Qed.
Lemma block_read s g l u rest : reach fs cl s g -> loc_ok l -> unit_ok u -> drop (pos l) (g_now g) = frame u ++ rest ->
  (exists l', fm_read fs s l = Done l' (fst u :: snd u) /\ loc_ok l' /\ pos l' = pos l + zlen (frame u)) /\
  (exists l', next_location fs s l = Some l' /\ loc_ok l' /\ pos l' = pos l + zlen (frame u)).
Proof.
  intros R O (T & NB & L & B) E. pose proof (pos_nonneg fs FS l O) as PN. rewrite frame_len. assert (LG : pos l + (zlen (snd u) + 5) <= zlen (g_now g)).
  { assert (X : zlen (drop (pos l) (g_now g)) = zlen (snd u) + 5 + zlen rest) by (rewrite E, zlen_app, frame_len; reflexivity). rewrite zlen_drop in X by assumption. pose proof (zlen_nonneg rest). pose proof (zlen_nonneg (snd u)). lia. }
  pose proof (zlen_nonneg (snd u)) as PS. set (h := be_bytes 4 (zlen (snd u) + 1)). assert (Lh : zlen h = 4) by (unfold h, zlen; rewrite be_bytes_length; reflexivity). assert (Vh : be_val h = zlen (snd u) + 1) by (unfold h; apply be_val_bytes; cbn; lia).
  assert (E4 : take 4 (drop (pos l) (g_now g)) = h) by (rewrite E; unfold frame; fold h; rewrite <- app_assoc, take_app_le by lia; apply take_all; lia).
  pose proof (reach_read s g l 4 R O ltac:(lia)) as R4. destruct (Z.leb_spec (pos l + 4) (zlen (g_now g))); [|lia]. destruct R4 as (l1 & A1 & A2 & A3). rewrite E4 in A1.
  unfold fm_read, next_location. rewrite A1, Vh. split.
  - pose proof (reach_read s g l1 (zlen (snd u) + 1) R A2 ltac:(lia)) as R5. destruct (Z.leb_spec (pos l1 + (zlen (snd u) + 1)) (zlen (g_now g))); [|lia]. destruct R5 as (l2 & B1 & B2 & B3). exists l2. split; [|split; [exact B2|lia]]. rewrite B1. f_equal.
    rewrite A3. rewrite <- drop_drop by lia. rewrite E. unfold frame. fold h. rewrite <- app_assoc, drop_app_ge by lia. rewrite Lh. change (4 - 4) with 0. rewrite drop_0. rewrite take_app_le by (rewrite zlen_cons; lia). apply take_all. rewrite zlen_cons. lia.
  - eexists. split; [reflexivity|]. destruct O as [O1 O2]. set (o := l_off l + (zlen (snd u) + 1) + 4). assert (0 <= o) by (unfold o; lia). pose proof (Z.div_mod o fs ltac:(lia)). pose proof (Z.mod_pos_bound o fs FS). assert (0 <= o / fs) by (apply Z.div_pos; lia).
    split; [split; cbn; lia|]. unfold BlkSpec.pos. cbn [l_id l_off]. unfold o in *. nia.
Qed.
Lemma reach_range s g l e : reach fs cl s g -> loc_ok l -> loc_ok e -> le l e -> le e (latest s) -> exists ps, range fs s l e = Some ps /\ concat ps = take (pos e - pos l) (drop (pos l) (g_now g)).
Proof.
  intros R Ol Oe L1 L2. assert (V := reach_inv fs cl FS CL s g R). apply (range_spec fs FS s _ _ (v_mem _ _ _ V)); try assumption. unfold le in L1. lia.
Qed.
Lemma reach_latest s g : reach fs cl s g -> pos (latest s) = zlen (g_now g) /\ loc_ok (latest s).
Proof. intros R. assert (V := reach_inv fs cl FS CL s g R). destruct (latest_pos fs s _ _ (v_mem _ _ _ V)) as [A B]. split; [congruence|exact B]. Qed.
Lemma bytes_of_app us vs : bytes_of (us ++ vs) = bytes_of us ++ bytes_of vs.
Proof. unfold bytes_of. now rewrite map_app, concat_app. Qed.
Lemma eof_feed us : Forall unit_ok us -> snd (eat parser0 (bytes_of us ++ be_bytes 4 0)) = us.
Proof. intro F. rewrite eat_cat. destruct (eat_units us 0 F) as (sz & E). unfold parser0. rewrite E. cbn. apply app_nil_r. Qed.
Lemma blocks_to_end s g l us x : reach fs cl s g -> loc_ok l -> le l (latest s) -> Forall unit_ok us -> g_now g = x ++ bytes_of us -> pos l = zlen x ->
  (exists cs, read_blocks fs s l None = Some cs /\ chunked cs us) /\ (exists cs, blocks_from fs s l = Some cs /\ chunked cs us).
Proof.
  intros R O L F E P. destruct (reach_latest s g R) as [PL OL]. destruct (reach_range s g l (latest s) R O OL L (le_refl _)) as (ps & E1 & E2).
  assert (C : concat ps = bytes_of us). { rewrite E2, E, P, drop_app_ge by lia. rewrite Z.sub_diag, drop_0. apply take_all. rewrite PL, E, zlen_app. lia. }
  split.
  - unfold read_blocks, max_location. rewrite E1. assert (EF : fm_read fs s (latest s) = Eof).
    { unfold fm_read. pose proof (reach_read s g (latest s) 4 R OL ltac:(lia)) as X. destruct (Z.leb_spec (pos (latest s) + 4) (zlen (g_now g))); [lia|]. rewrite X by lia. reflexivity. }
    rewrite EF. rewrite feed_all_concat, concat_app, C. cbn [concat]. change (zlen (@nil Z)) with 0. rewrite !app_nil_r. rewrite eof_feed by assumption. eexists. split; [reflexivity|]. apply (group_spec us [] F).
  - unfold blocks_from. rewrite E1, feed_all_concat, C. unfold parser0. destruct (eat_units us 0 F) as (sz & ->). eexists. split; [reflexivity|]. apply (group_spec us [] F).
Qed.
Lemma blocks_between s g l e us u x rest : reach fs cl s g -> loc_ok l -> loc_ok e -> le l e -> Forall unit_ok us -> unit_ok u -> g_now g = x ++ bytes_of us ++ frame u ++ rest -> pos l = zlen x -> pos e = zlen x + zlen (bytes_of us) ->
  exists cs, read_blocks fs s l (Some e) = Some cs /\ chunked cs (us ++ [u]).
Proof.
  intros R Ol Oe L F U E P1 P2. destruct (reach_latest s g R) as [PL OL]. pose proof (frame_len u). pose proof (zlen_nonneg (snd u)).
  assert (PE : pos e < pos (latest s)). { rewrite PL, E, !zlen_app. pose proof (zlen_nonneg rest). lia. }
  destruct (pos_lt_le fs FS _ _ Oe OL PE) as [LE _]. unfold read_blocks, max_location.
  assert (NL : loc_lt (latest s) e = false) by now apply lt_le. rewrite NL. destruct (reach_range s g l e R Ol Oe L LE) as (ps & E1 & E2). rewrite E1.
  assert (C : concat ps = bytes_of us). { rewrite E2, E, P1, drop_app_ge by lia. rewrite Z.sub_diag, drop_0, P2. rewrite take_app_le by lia. apply take_all. lia. }
  destruct (block_read s g e u rest R Oe U) as ((l' & E3 & _) & _). { rewrite P2, E. rewrite app_assoc, drop_app_ge by (rewrite zlen_app; lia). rewrite zlen_app, Z.sub_diag. reflexivity. }
  rewrite E3, feed_all_concat, concat_app, C. cbn [concat]. rewrite app_nil_r.
  replace (be_bytes 4 (zlen (fst u :: snd u)) ++ fst u :: snd u) with (frame u) by (unfold frame; rewrite zlen_cons, Z.add_comm; reflexivity).
  assert (X : bytes_of us ++ frame u = bytes_of (us ++ [u])) by (rewrite bytes_of_app; unfold bytes_of at 3; cbn; now rewrite app_nil_r). rewrite X. assert (F' : Forall unit_ok (us ++ [u])) by (apply Forall_app; split; [exact F|constructor; [exact U|constructor]]).
  unfold parser0. destruct (eat_units _ 0 F') as (sz & ->). eexists. split; [reflexivity|]. apply (group_spec _ [] F').
Qed.
(** ** Chunks written and read *)
Lemma loop_fly : forall fuel s b s', write_loop fs cl fuel s b = Some s' -> f_fly s' = f_fly s.
Proof.
  induction fuel as [|f IH]; intros s [|x b] s' E; cbn [write_loop] in E; try (injection E as <-; reflexivity); try discriminate.
  destruct (f_items s) as [|it r]; [discriminate|]. destruct (fd_write fs it (x :: b)) as [it' n]. destruct (n <? length (x :: b))%nat.
  - unfold create_next in E. destruct (open_file _ _ _ _ _) as [its|]; [|discriminate]. rewrite (IH _ _ _ E). reflexivity.
  - rewrite (IH _ _ _ E). reflexivity.
Qed.
Fixpoint placed (x : list Z) (ls : list loc) (us : list unit_) : Prop :=
  match ls, us with
  | [], [] => True
  | l :: ls, u :: us => loc_ok l /\ pos l = zlen x /\ placed (x ++ frame u) ls us
  | _, _ => False
  end.
Lemma units_written : forall us s g, reach fs cl s g -> allowed fs cl s g (OWrite (bytes_of us)) ->
  exists ls s', write_units fs cl s us = Some (ls, s') /\ reach fs cl s' (lstep fs g (OWrite (bytes_of us))) /\ placed (g_now g) ls us.
Proof.
  induction us as [|u r IH]; intros s g R A.
  - exists [], s. split; [reflexivity|]. split; [|exact Logic.I]. cbn. rewrite app_nil_r. destruct g; exact R.
  - assert (EB : bytes_of (u :: r) = frame u ++ bytes_of r) by reflexivity. rewrite EB in A.
    assert (A1 : allowed fs cl s g (OWrite (frame u))) by (cbn [allowed] in *; destruct (f_fly s) as [[[a t] y]|]; [rewrite zlen_app in A; pose proof (zlen_nonneg (bytes_of r)); lia|exact Logic.I]).
    destruct (inv_write fs cl FS CL s g (frame u) (reach_inv fs cl FS CL s g R) A1) as (s1 & E1 & _).
    assert (R1 : reach fs cl s1 (lstep fs g (OWrite (frame u)))) by (apply (R_step fs cl s g _ s1 R A1); cbn [fstep]; now rewrite E1).
    assert (FL : f_fly s1 = f_fly s) by (unfold fm_write in E1; destruct (write_loop fs cl (2 * length (frame u) + 2) s (frame u)) as [s2|] eqn:W; [|discriminate]; injection E1 as <-; exact (loop_fly _ _ _ _ W)).
    assert (A2 : allowed fs cl s1 (lstep fs g (OWrite (frame u))) (OWrite (bytes_of r))) by (cbn [allowed lstep g_now] in *; rewrite FL; destruct (f_fly s) as [[[a t] y]|]; [rewrite zlen_app in A; rewrite zlen_app; lia|exact Logic.I]).
    destruct (IH s1 _ R1 A2) as (ls & s2 & E2 & R2 & P2). destruct (reach_latest s g R) as [PL OL]. exists (latest s :: ls), s2. cbn [write_units]. rewrite E1, E2. split; [reflexivity|]. split.
    + cbn [lstep g_now g_disk g_fly] in *. rewrite EB, app_assoc. exact R2.
    + cbn [placed]. split; [exact OL|]. split; [exact PL|exact P2].
Qed.
Lemma placed_read s g : reach fs cl s g -> forall us ls x rest, Forall unit_ok us -> placed x ls us -> g_now g = x ++ bytes_of us ++ rest -> Forall2 (fun l u => exists l', fm_read fs s l = Done l' (fst u :: snd u)) ls us.
Proof.
  intros R. induction us as [|u r IH]; intros [|l ls] x rest F P E; try (destruct P; fail); [constructor|]. destruct P as (O & PL & P). assert (EB : bytes_of (u :: r) = frame u ++ bytes_of r) by reflexivity. rewrite EB, <- app_assoc in E. constructor.
  - destruct (block_read s g l u (bytes_of r ++ rest) R O (Forall_inv F)) as ((l' & X & _) & _); [|now exists l']. rewrite PL, E, drop_app_ge by lia. now rewrite Z.sub_diag.
  - apply (IH ls (x ++ frame u) rest); [exact (Forall_inv_tail F)|exact P|]. now rewrite <- app_assoc.
Qed.
Lemma chunk_read s g : reach fs cl s g -> forall abs sb l x rest acc fuel, Forall unit_ok (map (fun b => (1, b)) abs ++ [(2, sb)]) -> loc_ok l -> pos l = zlen x ->
  g_now g = x ++ bytes_of (map (fun b => (1, b)) abs ++ [(2, sb)]) ++ rest -> (length abs < fuel)%nat ->
  exists l', read_chunk fs fuel s l acc = Some (acc ++ abs, sb, l') /\ loc_ok l' /\ pos l' = zlen x + zlen (bytes_of (map (fun b => (1, b)) abs ++ [(2, sb)])).
Proof.
  intros R. induction abs as [|b r IH]; intros sb l x rest acc fuel F O PL E Fu; (destruct fuel as [|f]; [lia|]); cbn [map app] in *; cbn [read_chunk].
  - assert (EB : bytes_of [(2, sb)] = frame (2, sb)) by (exact (app_nil_r (frame (2, sb)))). rewrite EB in *.
    destruct (block_read s g l (2, sb) rest R O (Forall_inv F)) as ((l' & X1 & X2 & X3) & _); [rewrite PL, E, drop_app_ge by lia; now rewrite Z.sub_diag|]. exists l'. rewrite X1. cbn. rewrite app_nil_r. split; [reflexivity|]. split; [exact X2|]. rewrite X3, PL. reflexivity.
  - set (us := map (fun b => (1, b)) r ++ [(2, sb)]) in *. assert (EB : bytes_of ((1, b) :: us) = frame (1, b) ++ bytes_of us) by reflexivity. rewrite EB, <- app_assoc in E.
    destruct (block_read s g l (1, b) (bytes_of us ++ rest) R O (Forall_inv F)) as ((l' & X1 & X2 & X3) & _); [rewrite PL, E, drop_app_ge by lia; now rewrite Z.sub_diag|]. rewrite X1. cbn [fst snd Z.eqb Pos.eqb].
    destruct (IH sb l' (x ++ frame (1, b)) rest (acc ++ [b]) f (Forall_inv_tail F) X2) as (l2 & Y1 & Y2 & Y3); [rewrite zlen_app; lia|now rewrite <- app_assoc|cbn in Fu; lia|]. exists l2. rewrite Y1. rewrite <- app_assoc. split; [reflexivity|]. split; [exact Y2|]. rewrite Y3, EB, !zlen_app. unfold us. lia.
Qed.
End Files.
