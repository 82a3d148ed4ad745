From Verif Require Import Lib VmWordModel VmWordProofs VmJumpModel VmJumpSpec VmJumpProofs VmModel VmSpec.

Ltac p64 := change two64 with 18446744073709551616 in *; change max_u64 with 18446744073709551615 in *;
  change (2 ^ 63) with 9223372036854775808 in *.

(** ** Quota table facts *)
Record table_ok (t : gastab) : Prop := {
  to_arith : forall a, 1 <= g_arith t a <= 1000000;
  to_env : forall p, 1 <= g_env t p <= 1000000;
  to_expbyte : 0 <= g_expbyte t <= 1000000;
  to_min : 1 <= g_hash t /\ 0 <= g_hashword t /\ 1 <= g_balance t /\ 1 <= g_calldataload t /\ 1 <= g_calldatacopy t
    /\ 1 <= g_codecopy t /\ 1 <= g_returndatacopy t /\ 0 <= g_copyword t /\ 1 <= g_pop t /\ 1 <= g_mload t
    /\ 1 <= g_mstore t /\ 1 <= g_mstore8 t /\ 1 <= g_sload t;
  to_min2 : 1 <= g_jump t /\ 1 <= g_jumpi t /\ 1 <= g_jumpdest t /\ 1 <= g_push t /\ 1 <= g_dup t /\ 1 <= g_swap t
    /\ 1 <= g_log t /\ 0 <= g_logtopic t <= 1000000 /\ 0 <= g_logdata t /\ 0 <= g_callminus t;
  to_s : 0 <= g_sclean t <= 1000000 /\ 1 <= g_snoop t <= 1000000 /\ 1 <= g_smem t <= 1000000
    /\ g_sreset t <= 1000000 /\ g_sinit t <= 1000000
    /\ g_smem t + g_snoop t <= g_sinit t /\ g_smem t + g_snoop t <= g_sreset t /\ g_smem t + g_sclean t <= g_sreset t
    /\ g_sclean t <= g_snoop t + g_smem t /\ g_sclean t <= g_snoop t + 2 * g_smem t;
  to_mem : 1 <= g_mem t <= 8 /\ 8 <= g_memdiv t }.

Lemma init_ok : table_ok init_table.
Proof. constructor; try (cbn; lia); intros []; cbn; lia. Qed.
Lemma vite_ok : table_ok vite_table.
Proof. constructor; try (cbn; lia); intros []; cbn; lia. Qed.
Lemma eo_tok e : env_ok e -> table_ok (v_gas e).
Proof. intro H. destruct (eo_table e H) as [-> | ->]; [apply init_ok|apply vite_ok]. Qed.

(** ** Small numeric helpers *)
Lemma is_word_ge0 x : is_word x -> 0 <= x. Proof. intros [? _]; assumption. Qed.
Lemma two64_le_256 : two64 < two256. Proof. reflexivity. Qed.
Lemma u64_word x : 0 <= x < two64 -> is_word x.
Proof. intros [A B]. split; [exact A|]. apply Z.lt_trans with two64; [exact B|exact two64_le_256]. Qed.

Lemma bit_len_le64 x : 0 <= x -> (64 <? bit_len x) = (two64 <=? x).
Proof.
  intro Hx. unfold bit_len. destruct (Z.eqb_spec x 0) as [->|N]; [reflexivity|].
  assert (Z.log2 x < 64 <-> x < 2 ^ 64) as L by (symmetry; apply Z.log2_lt_pow2; lia).
  destruct (Z.ltb_spec 64 (Z.log2 x + 1)); destruct (Z.leb_spec two64 x); try reflexivity; unfold two64 in *; lia.
Qed.
Lemma big_uint64_spec x : 0 <= x -> big_uint64 x = if two64 <=? x then None else Some x.
Proof.
  intro Hx. unfold big_uint64. rewrite bit_len_le64 by assumption.
  destruct (Z.leb_spec two64 x); [reflexivity|]. unfold to_uint64. rewrite Z.mod_small by lia. reflexivity.
Qed.
Lemma to_uint64_id x : 0 <= x < two64 -> to_uint64 x = x.
Proof. intros. unfold to_uint64. now rewrite Z.mod_small. Qed.
Lemma to_int64_id x : 0 <= x < 2 ^ 63 -> to_int64 x = x.
Proof. intros. unfold to_int64. cbv zeta. p64. rewrite Z.mod_small by lia. destruct (Z.ltb_spec x 9223372036854775808); lia. Qed.

Lemma big_bytes_nil x : 0 <= x -> (zlen (big_bytes x) = 0 <-> x = 0).
Proof.
  intro Hx. unfold big_bytes. unfold zlen. rewrite be_bytes_length. unfold bit_len.
  destruct (Z.eqb_spec x 0) as [->|N]; [cbn; lia|].
  pose proof (Z.log2_nonneg x). lia.
Qed.
Lemma big_bytes_len x : is_word x -> zlen (big_bytes x) <= 32.
Proof.
  intros [Hx Hy]. unfold big_bytes, zlen. rewrite be_bytes_length. unfold bit_len.
  destruct (Z.eqb_spec x 0) as [->|N]; [cbn; lia|].
  assert (Z.log2 x < 256) by (apply Z.log2_lt_pow2; [clear Hy; lia|exact Hy]). pose proof (Z.log2_nonneg x).
  clear Hy. lia.
Qed.
Lemma big_bytes_ok x : bytes_ok (big_bytes x).
Proof. apply be_bytes_ok. Qed.
Lemma big_bytes_val x : 0 <= x -> be_val (big_bytes x) = x.
Proof.
  intros Hx. unfold big_bytes. apply be_val_bytes. split; [assumption|].
  unfold bit_len. destruct (Z.eqb_spec x 0) as [->|N]; [cbn; lia|].
  pose proof (Z.log2_nonneg x). rewrite Z2Nat.id by lia.
  destruct (Z.log2_spec x) as [_ L]; [lia|].
  eapply Z.lt_le_trans; [exact L|]. change 256 with (2 ^ 8). rewrite <- Z.pow_mul_r by lia.
  apply Z.pow_le_mono_r; lia.
Qed.
Lemma be_val_word l : bytes_ok l -> zlen l <= 32 -> is_word (be_val l).
Proof.
  intros H L. destruct (be_val_range l H) as [A B]. split; [assumption|].
  eapply Z.lt_le_trans; [exact B|]. change two256 with (256 ^ 32). apply Z.pow_le_mono_r; lia.
Qed.

(** ** Memory size and price *)
Lemma to_word_size_spec n : 0 <= n < two64 -> to_word_size n = (n + 31) / 32.
Proof. intros. unfold to_word_size. p64. destruct (Z.ltb_spec (18446744073709551615 - 32 + 1) n); lia. Qed.

Lemma memory_size_spec i st msz : Forall is_word st -> memory_size i st = Some msz ->
  match mem_size i st with
  | None => msz = 0
  | Some sz => 0 <= sz /\ sz <= msz /\ msz < sz + 32 /\ msz mod 32 = 0 /\ 0 <= msz < two64 /\ (sz = 0 -> msz = 0)
  end.
Proof.
  intros Hst. unfold memory_size. destruct (mem_size i st) as [sz|] eqn:E; [|congruence].
  assert (0 <= sz) as Hsz.
  { assert (forall n, 0 <= back st n) as B.
    { intro n. unfold back. destruct (nth_in_or_default n st 0) as [I| ->]; [|lia].
      rewrite Forall_forall in Hst. apply Hst in I. now apply is_word_ge0. }
    assert (forall a b, 0 <= a -> 0 <= b -> 0 <= calc_mem_size a b) as C by (intros; unfold calc_mem_size; destruct (_ =? _); lia).
    destruct i; cbn [mem_size] in E; inversion E; subst; apply C; try apply B; lia. }
  rewrite big_uint64_spec by assumption. destruct (Z.leb_spec two64 sz); [discriminate|]. cbn [obind].
  rewrite to_word_size_spec by lia. unfold safe_mul. p64.
  destruct (Z.ltb_spec 18446744073709551615 ((sz + 31) / 32 * 32)); [discriminate|].
  intros [= <-]. lia.
Qed.

Lemma price_mono t a b : table_ok t -> 0 <= a <= b -> memory_price t a <= memory_price t b.
Proof.
  intros T H. destruct (to_mem t T) as [A B]. unfold memory_price.
  assert (a * a / g_memdiv t <= b * b / g_memdiv t) by (apply Z.div_le_mono; nia). nia.
Qed.
Lemma price_ge t a : table_ok t -> 0 <= a -> a <= memory_price t a.
Proof.
  intros T H. destruct (to_mem t T) as [A B]. unfold memory_price.
  assert (0 <= a * a / g_memdiv t) by (apply Z.div_pos; nia). nia.
Qed.
Lemma price_0 t : table_ok t -> memory_price t 0 = 0.
Proof. intros T. destruct (to_mem t T). unfold memory_price. cbn [Z.mul]. rewrite Z.div_0_l by lia. reflexivity. Qed.

Lemma memory_gas_spec t m lg msz fee lg' q :
  table_ok t -> 0 <= msz < two64 -> msz mod 32 = 0 -> zlen m mod 32 = 0 ->
  lg = memory_price t (zlen m / 32) -> 0 <= q -> q + lg < 2 ^ 32 ->
  memory_gas t m lg msz = Some (fee, lg') -> fee <= q ->
  0 <= fee /\ lg' = lg + fee /\ lg' = memory_price t (Z.max (zlen m) msz / 32) /\ (msz = 0 \/ msz <= 0xffffffffe0).
Proof.
  intros T Hm Hm32 Hl32 Hlg Hq Hql G Hfee. pose proof (zlen_nonneg m) as Hl0.
  unfold memory_gas in G. destruct (Z.eqb_spec msz 0) as [->|N].
  { inversion G; subst. rewrite Z.max_l by lia. lia. }
  destruct (Z.ltb_spec 0xffffffffe0 msz) as [|Hle]; [discriminate|].
  rewrite to_word_size_spec in G by lia. cbv zeta in G.
  assert (exists w, w = msz / 32) as [w Dw] by eauto. assert (msz = 32 * w) as Ew by lia.
  replace ((msz + 31) / 32) with w in G by lia.
  assert (0 < w <= 0x7ffffffff) as Hw by lia.
  assert (wrap64 (w * 32) = msz) as E1 by (unfold wrap64; rewrite Z.mod_small; unfold two64; lia).
  rewrite E1 in G. destruct (Z.ltb_spec (zlen m) msz) as [Hlt|Hge].
  2:{ inversion G; subst fee lg'. rewrite Z.max_l by lia. lia. }
  rewrite Z.max_r by lia. rewrite <- Dw.
  destruct (to_mem t T) as [[A1 A2] B].
  assert (wrap64 (w * g_mem t) = w * g_mem t) as E2 by (unfold wrap64; rewrite Z.mod_small; [reflexivity|p64; nia]).
  rewrite E2 in G.
  set (sq := wrap64 (w * w)) in *.
  assert (0 <= sq < two64) as Hsq by (unfold sq, wrap64; apply Z.mod_pos_bound; reflexivity).
  assert (0 <= sq / g_memdiv t <= two64 / 8) as Hquad.
  { split; [apply Z.div_pos; lia|]. apply Z.le_trans with (sq / 8).
    - apply Z.div_le_compat_l; lia.
    - apply Z.div_le_mono; lia. }
  change (two64 / 8) with 2305843009213693952 in Hquad.
  assert (wrap64 (w * g_mem t + sq / g_memdiv t) = w * g_mem t + sq / g_memdiv t) as E3.
  { unfold wrap64. rewrite Z.mod_small; [reflexivity|]. p64. nia. }
  rewrite E3 in G. inversion G as [[G1 G2]]. clear G.
  set (tot := w * g_mem t + sq / g_memdiv t) in *.
  change (2 ^ 32) with 4294967296 in Hql.
  assert (lg <= tot \/ 4294967296 <= tot) as Hcmp.
  { destruct (Z_lt_ge_dec w 4294967296) as [Hw32|Hw32].
    - left. assert (sq = w * w) as Esq by (unfold sq, wrap64; apply Z.mod_small; p64; nia).
      subst lg. replace tot with (memory_price t w) by (unfold tot, memory_price; now rewrite Esq).
      apply price_mono; [assumption|]. lia.
    - right. unfold tot. nia. }
  assert (0 <= tot) as Htot by (unfold tot; nia).
  assert (0 <= lg) as Hlg0 by (subst lg; pose proof (price_ge t (zlen m / 32) T); lia).
  assert (lg <= tot) as Hlt2 by lia.
  assert (wrap64 (tot - lg) = tot - lg) as E4 by (unfold wrap64; rewrite Z.mod_small; [reflexivity|p64; unfold tot in *; nia]).
  rewrite E4 in *. subst fee.
  assert (w < 4294967296) as Hw32.
  { assert (tot < 4294967296) by lia. unfold tot in H. nia. }
  assert (sq = w * w) as Esq by (unfold sq, wrap64; apply Z.mod_small; p64; nia).
  repeat split; try lia. unfold tot, memory_price. now rewrite Esq.
Qed.

(** ** Gas of everything but SSTORE *)
Definition halting (i : instr) : bool := match i with IStop | IReturn | IRevert => true | _ => false end.
Definition free (i : instr) : bool := match i with ISstore | ICall | ICall2 => true | i => halting i end.

Definition add_all (extra : list (option Z)) (acc : option Z) : option Z :=
  fold_left (fun acc x => obind acc (fun g => obind x (fun c => safe_add g c))) extra acc.
Lemma add_all_none extra : add_all extra None = None.
Proof. unfold add_all. induction extra; [reflexivity|assumption]. Qed.
Lemma add_all_spec extra : forall fee g, add_all extra (Some fee) = Some g ->
  Forall (fun x => match x with Some c => 0 <= c | None => True end) extra ->
  fee <= g /\ (forall c r, extra = Some c :: r -> fee + c <= g).
Proof.
  induction extra as [|x r IH]; intros fee g E H.
  - cbn in E. inversion E; subst. split; [lia|discriminate].
  - cbn [add_all fold_left] in E. inversion H; subst. destruct x as [c|].
    + cbn [obind] in E. unfold safe_add in E at 2. destruct (max_u64 <? fee + c).
      * fold (add_all r None) in E. rewrite add_all_none in E. discriminate.
      * fold (add_all r (Some (fee + c))) in E. apply IH in E; [|assumption]. destruct E as [E _].
        split; [lia|]. intros c' r' [= <- <-]. lia.
    + fold (add_all r (obind (Some fee) (fun g : Z => obind None (fun c : Z => safe_add g c)))) in E.
      cbn [obind] in E. rewrite add_all_none in E. discriminate.
Qed.

Lemma gas_mem_plus_spec t s msz extra cost charge lg md :
  gas_mem_plus t s msz extra = GOk cost charge lg md ->
  Forall (fun x => match x with Some c => 0 <= c | None => True end) extra ->
  exists fee, memory_gas t (s_mem s) (s_lastgas s) msz = Some (fee, lg) /\ charge = true /\ md = s_modified s /\
    fee <= cost /\ (forall c r, extra = Some c :: r -> fee + c <= cost).
Proof.
  intros G H. unfold gas_mem_plus in G. destruct (memory_gas _ _ _ _) as [[fee lg0]|]; [|discriminate].
  fold (add_all extra (Some fee)) in G. destruct (add_all extra (Some fee)) as [g|] eqn:E; [|discriminate].
  inversion G; subst. apply add_all_spec in E; [|assumption]. exists fee. intuition.
Qed.

Lemma back_word st n : Forall is_word st -> is_word (back st n).
Proof.
  intros H. unfold back. destruct (nth_in_or_default n st 0) as [I| ->]; [|now apply small_word].
  rewrite Forall_forall in H. auto.
Qed.
Lemma safe_mul_ge0 a b : 0 <= a -> 0 <= b -> match safe_mul a b with Some c => 0 <= c | None => True end.
Proof. intros. unfold safe_mul. destruct (_ <? _); [trivial|nia]. Qed.
Lemma word_cost_ge0 x k : is_word x -> 0 <= k ->
  match obind (big_uint64 x) (fun w => safe_mul (to_word_size w) k) with Some c => 0 <= c | None => True end.
Proof.
  intros Hx Hk. apply is_word_ge0 in Hx. rewrite big_uint64_spec by assumption. destruct (Z.leb_spec two64 x); [exact I|].
  cbn [obind]. apply safe_mul_ge0; [rewrite to_word_size_spec; lia|assumption].
Qed.

Lemma mem_size_none_memory_size i st msz : mem_size i st = None -> memory_size i st = Some msz -> msz = 0.
Proof. unfold memory_size. intros ->. congruence. Qed.

Lemma gas_spec e s i msz cost charge lg md :
  env_ok e -> Forall is_word (s_stk s) -> i <> ISstore ->
  memory_size i (s_stk s) = Some msz ->
  gas_cost e s i msz = GOk cost charge lg md ->
  exists fee, memory_gas (v_gas e) (s_mem s) (s_lastgas s) msz = Some (fee, lg) /\ charge = true /\ md = s_modified s /\
    fee <= cost /\ (free i = false -> fee + 1 <= cost).
Proof.
  intros He Hst Hi Hm G. pose proof (eo_tok e He) as T.
  assert (forall c, mem_size i (s_stk s) = None -> GOk c true (s_lastgas s) (s_modified s) = GOk cost charge lg md -> 0 <= c ->
     (free i = false -> 1 <= c) ->
     exists fee, memory_gas (v_gas e) (s_mem s) (s_lastgas s) msz = Some (fee, lg) /\ charge = true /\ md = s_modified s /\
     fee <= cost /\ (free i = false -> fee + 1 <= cost)) as Const.
  { intros c N Q P1 P2. inversion Q; subst. apply mem_size_none_memory_size in Hm; [|assumption]. subst msz.
    exists 0. repeat split; auto. }
  assert (forall x k, 0 <= k -> match obind (big_uint64 (back (s_stk s) x)) (fun w => safe_mul (to_word_size w) k) with Some c => 0 <= c | None => True end) as W.
  { intros. apply word_cost_ge0; [now apply back_word|assumption]. }
  assert (forall extra, gas_mem_plus (v_gas e) s msz extra = GOk cost charge lg md ->
    Forall (fun x => match x with Some c => 0 <= c | None => True end) extra ->
    (free i = false -> exists c r, extra = Some c :: r /\ 1 <= c) ->
    exists fee, memory_gas (v_gas e) (s_mem s) (s_lastgas s) msz = Some (fee, lg) /\ charge = true /\ md = s_modified s /\
     fee <= cost /\ (free i = false -> fee + 1 <= cost)) as Mem.
  { intros extra Q F H1. apply gas_mem_plus_spec in Q; [|assumption]. destruct Q as (fee & A & B & C & D & E).
    exists fee. repeat split; auto. intros Fr. destruct (H1 Fr) as (c & r & X & Y). apply E in X. lia. }
  destruct (to_min _ T) as (M1 & M2 & M3 & M4 & M5 & M6 & M7 & M8 & M9 & M10 & M11 & M12 & M13).
  destruct (to_min2 _ T) as (N1 & N2 & N3 & N4 & N5 & N6 & N7 & N8 & N9 & N10).
  destruct i; cbn [gas_cost] in G; try congruence;
  try (eapply Const; [reflexivity|exact G|cbn; lia|intros Fr; first [discriminate Fr|cbn; lia]]);
  try (eapply Mem; [exact G| |intros _; eexists; eexists; split; [reflexivity|assumption]]; repeat constructor; try lia; apply W; lia).
  - destruct a; try (eapply Const; [reflexivity|exact G| |]; intros; match goal with |- context [g_arith _ ?a] => pose proof (to_arith _ T a) end; lia).
    pose proof (to_arith _ T AExp).
    destruct (safe_add _ _) as [c|] eqn:S; [|discriminate]. unfold safe_add in S. destruct (_ <? _); [discriminate|].
    inversion S as [Ec]. clear S.
    assert (0 <= wrap64 ((bit_len (back (s_stk s) 1) + 7) / 8 * g_expbyte (v_gas e))) by (unfold wrap64; apply Z.mod_pos_bound; reflexivity).
    eapply Const; [reflexivity|exact G|lia|intros; lia].
  - pose proof (to_env _ T p). eapply Const; [reflexivity|exact G|lia|intros; lia].
  - destruct (big_uint64 (back (s_stk s) 1)) as [sz|] eqn:B; [|discriminate].
    assert (0 <= sz) by (rewrite big_uint64_spec in B by (apply is_word_ge0; now apply back_word); destruct (two64 <=? _); inversion B; subst; apply is_word_ge0; now apply back_word).
    eapply Mem; [exact G| |intros _; eexists; eexists; split; [reflexivity|assumption]].
    repeat constructor; try lia.
    + unfold wrap64. apply Z.mod_pos_bound. reflexivity.
    + apply safe_mul_ge0; lia.
  - unfold gas_call in G. destruct (memory_gas _ _ _ _) as [[fee lg0]|]; [|discriminate].
    destruct (mem_get _ _ _); [|discriminate]. destruct (v_sendcost e _) eqn:SC; [|discriminate].
    exists fee. destruct (Z.ltb_spec (g_callminus (v_gas e)) z).
    + unfold safe_add in G. destruct (_ <? _); [discriminate|]. inversion G; subst. repeat split; auto; try lia; discriminate.
    + inversion G; subst. repeat split; auto; try lia; discriminate.
  - unfold gas_call in G. destruct (memory_gas _ _ _ _) as [[fee lg0]|]; [|discriminate].
    destruct (mem_get _ _ _); [|discriminate]. destruct (v_sendcost e _) eqn:SC; [|discriminate].
    exists fee. destruct (Z.ltb_spec (g_callminus (v_gas e)) z).
    + unfold safe_add in G. destruct (_ <? _); [discriminate|]. inversion G; subst. repeat split; auto; try lia; discriminate.
    + inversion G; subst. repeat split; auto; try lia; discriminate.
  - eapply Mem; [exact G|constructor|discriminate].
  - eapply Mem; [exact G|constructor|discriminate].
Qed.

(** ** SSTORE: potential of refunds *)
Definition phi1 (t : gastab) (o c : list Z) : Z :=
  if zlist_eqb o c then 0
  else if zlen o =? 0 then g_sinit t - g_smem t - g_snoop t
  else if zlen c =? 0 then 0
  else Z.max (g_sreset t - g_smem t - g_snoop t) (g_sreset t - g_smem t - g_sclean t).

Definition phi_list (t : gastab) (orig : Z -> list Z) (w : list (Z * list Z)) : Z :=
  fold_right (fun kv acc => phi1 t (orig (fst kv)) (snd kv) + acc) 0 w.
Definition phi (e : venv) (s : vst) : Z := phi_list (v_gas e) (v_orig e) (s_wr s).

Lemma phi1_ge0 t o c : table_ok t -> 0 <= phi1 t o c.
Proof.
  intro T. destruct (to_s t T) as (A & B & C & D & E & F & G & H & I & J). unfold phi1.
  destruct (zlist_eqb o c); [lia|]. destruct (_ =? _); [lia|]. destruct (_ =? _); lia.
Qed.
Lemma phi_list_ge0 t orig w : table_ok t -> 0 <= phi_list t orig w.
Proof. intro T. induction w as [|kv w IH]; cbn [phi_list fold_right]; [lia|]. pose proof (phi1_ge0 t (orig (fst kv)) (snd kv) T). unfold phi_list in IH. lia. Qed.

Definition look (orig : Z -> list Z) (w : list (Z * list Z)) (k : Z) : list Z :=
  match assoc k w with Some v => v | None => orig k end.
Lemma phi_list_set t orig w k v :
  phi_list t orig (assoc_set k v w) = phi_list t orig w - phi1 t (orig k) (look orig w k) + phi1 t (orig k) v.
Proof.
  unfold look. induction w as [|[k' v'] w IH].
  - cbn. unfold phi1 at 2. rewrite zlist_eqb_refl. lia.
  - cbn [assoc_set assoc]. destruct (Z.eqb_spec k k') as [->|N].
    + unfold phi_list. cbn [fold_right fst snd]. lia.
    + unfold phi_list in *. cbn [fold_right fst snd]. rewrite IH. lia.
Qed.
Lemma phi1_le t orig w k : table_ok t -> phi1 t (orig k) (look orig w k) <= phi_list t orig w.
Proof.
  intro T. unfold look. induction w as [|[k' v'] w IH]; cbn [assoc].
  - unfold phi1. rewrite zlist_eqb_refl. cbn. lia.
  - unfold phi_list in *. cbn [fold_right fst snd]. pose proof (phi1_ge0 t (orig k') v' T).
    pose proof (phi_list_ge0 t orig w T). unfold phi_list in *.
    destruct (Z.eqb_spec k k') as [->|N]; lia.
Qed.

Lemma wrap_small x : 0 <= x <= 10000000 -> wrap64 x = x.
Proof. intros. unfold wrap64. apply Z.mod_small. p64. lia. Qed.

Ltac sfin := repeat split; auto; try lia; try (intro; contradiction);
  repeat match goal with |- context [zlen ?x =? 0] => destruct (Z.eqb_spec (zlen x) 0) end; try lia.

Lemma gas_sstore_spec e s cost charge lg md :
  env_ok e -> is_word (back (s_stk s) 1) -> gas_sstore e s = GOk cost charge lg md ->
  let loc := back (s_stk s) 0 in let nb := big_bytes (back (s_stk s) 1) in
  let t := v_gas e in let o := v_orig e loc in let c := cur_val e s loc in
  lg = s_lastgas s /\ 0 <= cost /\
  (if charge then phi1 t o nb - phi1 t o c <= cost else cost <= phi1 t o c - phi1 t o nb) /\
  (o = c -> charge = true) /\
  md = (if v_earth e then set_add loc (s_modified s) else s_modified s) /\ (v_earth e = true -> zlen md <= 100).
Proof.
  intros He Hw G. cbv zeta. pose proof (eo_tok e He) as T. apply is_word_ge0 in Hw.
  unfold gas_sstore in G. cbv zeta in G.
  set (loc := back (s_stk s) 0) in *. set (new := back (s_stk s) 1) in *.
  set (md0 := if v_earth e then set_add loc (s_modified s) else s_modified s) in *.
  destruct (v_earth e && (100 <? zlen md0)) eqn:Elim; [discriminate|].
  assert (v_earth e = true -> zlen md0 <= 100) as Hlim by (intro X; rewrite X in Elim; cbn in Elim; lia).
  set (o := v_orig e loc) in *. set (c := cur_val e s loc) in *. set (nb := big_bytes new) in *.
  assert (zlen nb = 0 <-> new = 0) as Hnb by (apply big_bytes_nil; assumption).
  pose proof (zlen_nonneg o) as Zo. pose proof (zlen_nonneg c) as Zc.
  destruct (to_s _ T) as (A & B & C & D & E & F & G1 & H & I & J). set (t := v_gas e) in *.
  assert (forall a b : list Z, zlen a = 0 -> zlen b = 0 -> a = b) as Hnil.
  { intros a b Qa Qb. unfold zlen in *. destruct a; [|cbn in Qa; lia]. destruct b; [reflexivity|cbn in Qb; lia]. }
  unfold phi1.
  destruct (zlist_eqb c nb) eqn:E1.
  { apply zlist_eqb_eq in E1. inversion G; subst. rewrite E1. sfin. }
  apply zlist_eqb_neq in E1.
  destruct (zlist_eqb o c) eqn:E2.
  { apply zlist_eqb_eq in E2. replace (zlist_eqb o nb) with false by (symmetry; apply zlist_eqb_neq; congruence).
    destruct (Z.eqb_spec (zlen o) 0); [|destruct (Z.eqb_spec new 0) as [Z0|Z0]]; inversion G; subst cost charge lg md; sfin. }
  apply zlist_eqb_neq in E2.
  destruct (zlist_eqb o nb) eqn:E3.
  { apply zlist_eqb_eq in E3.
    destruct (Z.eqb_spec (zlen o) 0); [|destruct (Z.eqb_spec (zlen c) 0)]; rewrite wrap_small in G by lia;
    inversion G; subst cost charge lg md; sfin. }
  apply zlist_eqb_neq in E3.
  destruct (Z.ltb_spec 0 (zlen o)) as [Po|Po]; cbn [andb] in G.
  - destruct (Z.eqb_spec (zlen o) 0); [lia|].
    destruct (Z.eqb_spec (zlen c) 0) as [Zc0|Zc0]; cbn [andb] in G.
    + destruct (Z.ltb_spec 0 new) as [Pn|Pn]; cbn [andb] in G.
      * rewrite wrap_small in G by lia. inversion G; subst cost charge lg md; sfin.
      * exfalso. apply E1. apply Hnil; lia.
    + destruct (Z.ltb_spec 0 (zlen c)); [|lia]. cbn [andb] in G.
      destruct (Z.eqb_spec new 0) as [Z0|Z0].
      * rewrite wrap_small in G by lia. inversion G; subst cost charge lg md; sfin.
      * inversion G; subst cost charge lg md; sfin.
  - inversion G; subst cost charge lg md. destruct (Z.eqb_spec (zlen o) 0); [|lia]. sfin.
Qed.

(** ** Invariant *)
Record inv (e : venv) (q0 : Z) (s : vst) : Prop := {
  iv_pc : 0 <= s_pc s < two64;
  iv_stk : Forall is_word (s_stk s);
  iv_len : zlen (s_stk s) <= 1024;
  iv_mem : bytes_ok (s_mem s);
  iv_mem32 : zlen (s_mem s) mod 32 = 0;
  iv_lg : s_lastgas s = memory_price (v_gas e) (zlen (s_mem s) / 32);
  iv_q : 0 <= s_quota s;
  iv_budget : s_quota s + phi e s + s_lastgas s <= q0;
  iv_wr : Forall (fun kv => bytes_ok (snd kv) /\ zlen (snd kv) <= 32) (s_wr s);
  iv_off : v_offchain e = true -> s_wr s = [] /\ s_logs s = [] /\ s_sends s = [];
  iv_mod : v_earth e = true -> zlen (s_modified s) <= 100 /\ NoDup (s_modified s) /\ incl (map fst (s_wr s)) (s_modified s) }.

Lemma init_inv e q : env_ok e -> quota_ok q -> inv e q (init_st q).
Proof.
  intros He [H0 H1]. pose proof (eo_tok e He) as T. constructor; cbn [init_st s_pc s_stk s_mem s_lastgas s_quota s_wr s_modified s_logs s_sends].
  - p64. lia.
  - constructor.
  - unfold zlen; cbn. lia.
  - constructor.
  - reflexivity.
  - symmetry. now apply price_0.
  - lia.
  - change (phi e (init_st q)) with 0. lia.
  - constructor.
  - auto.
  - intros _. split; [unfold zlen; cbn; lia|]. split; [constructor|intros ? []].
Qed.

Lemma look_ok e s k : env_ok e -> Forall (fun kv => bytes_ok (snd kv) /\ zlen (snd kv) <= 32) (s_wr s) ->
  bytes_ok (cur_val e s k) /\ zlen (cur_val e s k) <= 32.
Proof.
  intros He H. unfold cur_val. induction (s_wr s) as [|[k' v] w IH]; cbn [assoc]; [apply (eo_orig e He)|].
  inversion H; subst. destruct (k =? k'); auto.
Qed.

(** stack effect *)
Definition fits (i : instr) (st : list Z) : Prop := fst (stack_req i) <= zlen st.

(** ** Memory accesses after the resize *)
Lemma mem_resize_len m n : zlen (mem_resize m n) = Z.max (zlen m) n.
Proof.
  unfold mem_resize. destruct (Z.ltb_spec (zlen m) n); [|lia]. rewrite zlen_app, zlen_repeat. lia.
Qed.
Lemma mem_resize_ok m n : bytes_ok m -> bytes_ok (mem_resize m n).
Proof.
  intros. unfold mem_resize. destruct (_ <? _); [|assumption]. apply Forall_app; split; [assumption|].
  apply Forall_forall. intros x Hx. apply repeat_spec in Hx. subst. unfold is_byte; lia.
Qed.
Lemma Forall_firstn' {A} (P : A -> Prop) n l : Forall P l -> Forall P (firstn n l).
Proof. intros H. revert n. induction H; intros [|n]; cbn; constructor; auto. Qed.
Lemma Forall_skipn' {A} (P : A -> Prop) n l : Forall P l -> Forall P (skipn n l).
Proof. intros H. revert n. induction H; intros [|n]; cbn; auto. Qed.
Lemma slice_ok m a b : bytes_ok m -> bytes_ok (slice m a b).
Proof. intros. apply Forall_firstn', Forall_skipn'. assumption. Qed.
Lemma slice_len m a b : 0 <= a -> 0 <= b -> a + b <= zlen m -> zlen (slice m a b) = b.
Proof. intros. unfold slice, zlen in *. rewrite firstn_length, skipn_length. lia. Qed.
Lemma mem_get_ok m a b d : bytes_ok m -> mem_get m a b = Some d -> bytes_ok d.
Proof.
  intros H. unfold mem_get. destruct (b =? 0); [intros [= <-]; constructor|]. destruct (a <? zlen m); [|intros [= <-]; constructor].
  destruct (_ || _ || _); [discriminate|]. intros [= <-]. now apply slice_ok.
Qed.
Lemma write_at_len m off v : 0 <= off -> off + zlen v <= zlen m -> zlen (write_at m off v) = zlen m.
Proof. intros. unfold write_at, zlen in *. rewrite !app_length, firstn_length, skipn_length. lia. Qed.
Lemma write_at_ok m off v : bytes_ok m -> bytes_ok v -> bytes_ok (write_at m off v).
Proof. intros. apply Forall_app; split; [now apply Forall_firstn'|]. apply Forall_app; split; [assumption|now apply Forall_skipn']. Qed.

Definition in_mem (m : list Z) (off size : Z) : Prop := size = 0 \/ (off + size <= zlen m /\ off + size < 2 ^ 63).

Lemma mem_get_in m off size : 0 <= off -> 0 <= size -> in_mem m off size ->
  exists d, mem_get m (to_int64 off) (to_int64 size) = Some d.
Proof.
  intros Ho Hs [-> | [H1 H2]].
  - unfold mem_get. change (to_int64 0) with 0. cbn. eauto.
  - rewrite !to_int64_id by lia. unfold mem_get. destruct (size =? 0); [eauto|]. destruct (off <? zlen m); [|eauto].
    destruct (Z.ltb_spec off 0); [lia|]. destruct (Z.ltb_spec size 0); [lia|]. destruct (Z.ltb_spec (zlen m) (off + size)); [lia|].
    cbn. eauto.
Qed.
Lemma get_data_big_len data start size : 0 <= start -> 0 <= size < 2 ^ 63 -> zlen (get_data_big data start size) = size.
Proof.
  intros H1 H2. unfold get_data_big. cbv zeta. rewrite to_int64_id by lia. unfold right_pad. rewrite zlen_app, zlen_repeat.
  pose proof (zlen_nonneg data).
  rewrite slice_len by lia. lia.
Qed.
Lemma right_pad_ok l n : bytes_ok l -> bytes_ok (right_pad l n).
Proof. intros. unfold right_pad. apply Forall_app; split; [assumption|]. apply Forall_forall. intros x Hx. apply repeat_spec in Hx. subst. unfold is_byte; lia. Qed.
Lemma get_data_big_ok data start size : bytes_ok data -> bytes_ok (get_data_big data start size).
Proof. intros. unfold get_data_big. cbv zeta. apply right_pad_ok. now apply slice_ok. Qed.
Lemma mem_set_in m off size v : bytes_ok m -> bytes_ok v -> 0 <= off -> 0 <= size -> in_mem m off size -> (zlen v = size \/ size = 0) ->
  exists m', mem_set m (to_uint64 off) (to_uint64 size) v = Some m' /\ zlen m' = zlen m /\ bytes_ok m'.
Proof.
  intros Hm Hv Ho Hs Hin Hl. unfold mem_set. destruct Hin as [-> | [H1 H2]].
  - change (to_uint64 0) with 0. cbn. eauto.
  - rewrite !to_uint64_id by (p64; lia). destruct (Z.ltb_spec 0 size); [|eauto].
    destruct (Z.ltb_spec (zlen m) (off + size)); [lia|]. eexists. split; [reflexivity|].
    assert (zlen (firstn (Z.to_nat size) v) = size) as L by (unfold zlen in *; rewrite firstn_length; lia).
    split; [apply write_at_len; lia|]. apply write_at_ok; [assumption|]. now apply Forall_firstn'.
Qed.
