(** Messages between peers arrive as they were sent; addresses and distances of nodes. *)
From Verif Require Import Lib NetModel NetSpec NetProofs NetProofs2.
Import ListNotations.
Open Scope Z_scope.

(** ** C72 *)
(** Whatever messages below 16 MB are written one after the other, compressed or not, and however the
    network cuts the stream, the other side reads just these messages, and then what follows. *)
Theorem messages_arrive enc dec min l : undone enc dec -> Forall sendable l ->
  exists w, write_all enc min l = Some w /\
  forall c rest, concat c = w ++ rest -> exists c', read_all dec (length l) c = (l, c') /\ concat c' = rest.
Proof. intros U. apply read_write_all; intros p P; now apply U. Qed.

(** What is read does not depend on how the stream is cut. *)
Theorem pieces_do_not_matter dec c c' : concat c = concat c' ->
  match snd (read_msg dec c), snd (read_msg dec c') with
  | Some (m, d), Some (m', d') => m = m' /\ concat d = concat d'
  | None, None => True
  | _, _ => False
  end.
Proof. intro E. exact (proj2 (read_rel dec c c' E)). Qed.

(** When the stream ends inside a message, nothing is read. *)
Theorem cut_message enc dec min m w a b c : undone enc dec -> sendable m -> write_msg enc min m = Some w ->
  w = a ++ b -> b <> [] -> concat c = a -> snd (read_msg dec c) = None.
Proof.
  intros U M W E B C. destruct (snd (read_msg dec c)) as [[m' c']|] eqn:R; [exfalso|reflexivity].
  destruct (read_more dec a c m' c' b [w] R C) as (d' & R' & D'); [cbn; now rewrite app_nil_r|].
  destruct (read_write enc dec (fun p P => proj1 (U p P)) (fun p P => proj2 (U p P)) min m [w] [] M) as (w' & W' & Q). rewrite W in W'. injection W' as <-.
  destruct Q as (e' & R2 & E2); [cbn; now rewrite !app_nil_r|]. rewrite R' in R2. injection R2 as _ <-.
  rewrite E2 in D'. symmetry in D'. apply app_eq_nil in D' as [_ D']. contradiction.
Qed.

Lemma bytes_app a b : bytes_ok (a ++ b) -> bytes_ok a /\ bytes_ok b.
Proof. apply Forall_app. Qed.
Lemma varint_range l : bytes_ok l -> 0 <= varint l < 256 ^ zlen l.
Proof. intro H. rewrite varint_be by assumption. now apply be_val_range. Qed.
(** Whatever bytes a peer sends: what is read is a message with a 32 bit number, taken from the front
    of the stream, from at most 8 bytes more than 16 MB. *)
Theorem any_bytes dec c m c' : bytes_ok (concat c) -> snd (read_msg dec c) = Some (m, c') ->
  0 <= m_code m < 256 /\ 0 <= m_id m < 2 ^ 32 /\ exists w, concat c = w ++ concat c' /\ 2 <= zlen w < 9 + 2 ^ 24.
Proof.
  unfold read_msg. intros B R. pose proof (read_full_spec c 2) as S1.
  destruct (read_full 2 c) as [[b1 c1]|] eqn:F1; [|discriminate]. destruct S1 as [S1 L1].
  destruct b1 as [|meta [|code [|? ?]]]; try discriminate.
  rewrite S1 in B. apply bytes_app in B as [B1 B2]. inversion B1 as [|? ? M1 B3]; subst. inversion B3 as [|? ? M2 _]; subst.
  pose proof (meta_range meta M1) as MR. destruct (retrieve_meta meta) as [[i l] z] eqn:ME. destruct MR as [IR LR].
  pose proof (read_full_spec c1 (Z.to_nat i)) as S2. destruct (read_full (Z.to_nat i) c1) as [[b2 c2]|]; [|discriminate]. destruct S2 as [S2 L2].
  rewrite S2 in B2. apply bytes_app in B2 as [B2 B4].
  pose proof (read_full_spec c2 (Z.to_nat l)) as S3. destruct (read_full (Z.to_nat l) c2) as [[b3 c3]|]; [|discriminate]. destruct S3 as [S3 L3].
  rewrite S3 in B4. apply bytes_app in B4 as [B4 B5].
  destruct (Z.ltb_spec (2 ^ 24 - 1) (varint b3)) as [T|T]; [discriminate|].
  pose proof (read_full_spec c3 (Z.to_nat (varint b3))) as S4. destruct (read_full (Z.to_nat (varint b3)) c3) as [[b4 c4]|]; [|discriminate]. destruct S4 as [S4 L4].
  cbn [snd] in R. destruct (snd (unpack dec z b4)) as [q|]; [|discriminate]. injection R as <- <-. cbn [m_code m_id].
  split; [exact M2|]. split.
  - pose proof (varint_range b2 B2) as V. split; [lia|]. apply Z.lt_le_trans with (256 ^ zlen b2); [lia|].
    change (2 ^ 32) with (256 ^ 4). apply Z.pow_le_mono_r; [lia|]. unfold zlen. lia.
  - exists ([meta; code] ++ b2 ++ b3 ++ b4). split; [rewrite S1, S2, S3, S4; now rewrite <- !app_assoc|].
    rewrite !zlen_app. change (zlen [meta; code]) with 2. unfold zlen. rewrite L2, L3, L4. pose proof (varint_range b3 B4). lia.
Qed.

(** Finding: the size is not checked when a message is written (codec.go:289-292).  From 16 MB on the
    length takes four bytes, and their number runs into the bits of the size of the id: the other side
    reads a message without contents with a wrong number, and then garbage. *)
Theorem big_message_refuted enc dec min m : m_id m = 0 -> 2 ^ 24 <= zlen (m_payload m) < 2 ^ 32 -> zlen (m_payload m) <= zlen (enc (m_payload m)) ->
  exists w, write_msg enc min m = Some w /\
  forall c, concat c = w -> exists m' c', snd (read_msg dec c) = Some (m', c') /\ m_payload m' = [] /\ m_id m' <> m_id m /\ concat c' <> [].
Proof.
  intros I P E. unfold write_msg. rewrite I. change (put_id 0) with (@nil Z). cbn [app].
  destruct (Z.ltb_spec (zlen (enc (m_payload m))) (zlen (m_payload m))) as [L|_]; [lia|]. rewrite andb_false_r.
  set (n := zlen (m_payload m)) in *. unfold put_varint. change (zlen (@nil Z)) with 0. destruct (Z.eqb_spec n 0); [lia|].
  destruct (count_bytes_spec 8 1 n) as [A [C D]]; [lia|lia|apply Z.lt_trans with (2 ^ 32); [lia|reflexivity]|].
  specialize (D 4 (proj2 P) ltac:(lia) ltac:(lia)).
  assert (Q : count_bytes 8 1 n = 4).
  { assert (3 < count_bytes 8 1 n); [|lia]. apply Z.nle_gt. intro G.
    pose proof (Z.pow_le_mono_r 256 _ _ ltac:(lia) G) as H. change (256 ^ 3) with (2 ^ 24) in H. lia. }
  rewrite Q. change (9 - (2 + 0) <? 4) with false. cbv iota. change (Z.to_nat 4) with 4%nat.
  replace (zlen (low_bytes 4 n)) with 4 by (unfold zlen; now rewrite low_bytes_length). eexists; split; [reflexivity|]. intros c W.
  change (store_meta 0 4 false) with 64 in W. cbn [low_bytes] in W. set (b := byte (Z.shiftr n (8 * Z.of_nat 3))) in *.
  destruct (read_full_app [64; m_code m] _ c W) as (c1 & R1 & W1).
  destruct (read_full_app [b] _ c1 W1) as (c2 & R2 & W2).
  unfold read_msg. cbn [length] in R1, R2. rewrite R1. change (retrieve_meta 64) with (1, 0, false). cbv iota beta. change (Z.to_nat 1) with 1%nat. rewrite R2.
  change (Z.to_nat 0) with 0%nat.
  assert (Z0 : forall d, read_full 0 d = Some ([], d)) by (intros [|? ?]; reflexivity). rewrite Z0. change (varint []) with 0. change (2 ^ 24 - 1 <? 0) with false. cbv iota. change (Z.to_nat 0) with 0%nat. rewrite Z0.
  cbn [unpack snd]. eexists; eexists; split; [reflexivity|]. cbn [m_payload m_id]. split; [reflexivity|]. split.
  - unfold varint. change (8 * zlen (@nil Z)) with 0. rewrite Z.shiftl_0_r, Z.lor_0_r. unfold b, byte. rewrite Z.shiftr_div_pow2 by lia.
    change (8 * Z.of_nat 3) with 24. change (2 ^ 24) with 16777216 in *. change (2 ^ 32) with 4294967296 in P. lia.
  - rewrite W2. discriminate.
Qed.
(** ... and with a number above 65535 the writer panics. *)
Theorem big_message_panics_refuted enc min m : 65535 < m_id m < 2 ^ 32 -> 2 ^ 24 <= zlen (m_payload m) < 2 ^ 32 -> zlen (m_payload m) <= zlen (enc (m_payload m)) ->
  write_msg enc min m = None.
Proof.
  intros I P E. unfold write_msg. destruct (Z.ltb_spec (zlen (enc (m_payload m))) (zlen (m_payload m))) as [L|_]; [lia|]. rewrite andb_false_r.
  set (n := zlen (m_payload m)) in *. assert (Y : zlen (put_id (m_id m)) = 4).
  { unfold put_id. destruct (Z.eqb_spec (m_id m) 0); [lia|]. destruct (Z.ltb_spec 65535 (m_id m)); [reflexivity|lia]. }
  rewrite Y. unfold put_varint. destruct (Z.eqb_spec n 0); [lia|].
  destruct (count_bytes_spec 8 1 n) as [A [C D]]; [lia|lia|apply Z.lt_trans with (2 ^ 32); [lia|reflexivity]|].
  assert (3 < count_bytes 8 1 n).
  { apply Z.nle_gt. intro G. pose proof (Z.pow_le_mono_r 256 _ _ ltac:(lia) G) as H. change (256 ^ 3) with (2 ^ 24) in H. lia. }
  destruct (Z.ltb_spec (9 - (2 + 4)) (count_bytes 8 1 n)); [reflexivity|lia].
Qed.
(** Finding: eight bytes from a peer make a node reserve 4 GB, before anything is checked (codec.go:234-243). *)
Theorem reserved_memory_refuted dec : exists c, length (concat c) = 8%nat /\ fst (read_msg dec c) = 2 ^ 32 - 1 + 5.
Proof. exists [[24; 0; 5; 255; 255; 255; 255; 15]]. split; reflexivity. Qed.

(** ** C73 *)
(** A proper address comes back from its packed form, which has at most 66 bytes. *)
Theorem endpoint_round_trip e : proper e -> exists b, serialize e = Some b /\ zlen b <= 66 /\ deserialize b = Some e.
Proof. apply round_trip. Qed.
(** Different addresses have different packed forms. *)
Theorem endpoint_unique e f b : proper e -> proper f -> serialize e = Some b -> serialize f = Some b -> e = f.
Proof.
  intros E F SE SF. destruct (round_trip e E) as (b1 & Q1 & _ & D1), (round_trip f F) as (b2 & Q2 & _ & D2). congruence.
Qed.
(** Findings: bytes after an address change its port (endpoint.go:150); addresses of a wrong length are
    accepted; "localhost" comes back as 127.0.0.1. *)
Theorem endpoint_trailing_refuted : exists e b x, proper e /\ serialize e = Some b /\ deserialize (b ++ x) <> Some e /\ deserialize (b ++ x) <> None.
Proof.
  exists (Ep [1; 2; 3; 4] 80 IPv4), [17; 1; 2; 3; 4; 0; 80], [1; 1]. split; [|split; [reflexivity|split; discriminate]].
  split; [repeat constructor; lia|]. split; [cbn; lia|]. left. split; reflexivity.
Qed.
Theorem endpoint_accepted_refuted : exists b e, bytes_ok b /\ deserialize b = Some e /\ ~ proper e.
Proof.
  exists [4; 7], (Ep [7] 8483 IPv4). split; [repeat constructor; lia|]. split; [reflexivity|].
  intros (_ & _ & [[_ T]|[[T _]|[T _]]]); discriminate.
Qed.
Theorem endpoint_loopback_refuted : exists b, serialize (Ep loopback 80 Domain) = Some b /\ deserialize b = Some (Ep [127; 0; 0; 1] 80 IPv4).
Proof. eexists. split; reflexivity. Qed.

(** ** C74 *)
(** The distance of two nodes is 256 less the number of bits their ids begin with in common. *)
Theorem distance_exact a b : node_id a -> node_id b -> distance a b = far a b.
Proof. intros (L & A) (L' & B). unfold distance, far. rewrite common_bits_ok by (assumption || congruence). reflexivity. Qed.
(** It is a distance in the strict sense: zero for equal ids only, the same both ways, and the way
    over a third node is never shorter than the longer of its parts. *)
Theorem distance_laws a b c : node_id a -> node_id b -> node_id c ->
  0 <= distance a b <= 256 /\ (distance a b = 0 <-> a = b) /\ distance a b = distance b a /\ distance a c <= Z.max (distance a b) (distance b c).
Proof.
  intros A B C. rewrite !distance_exact by assumption. destruct A as (LA & A), B as (LB & B), C as (LC & C). unfold far.
  assert (ZL : zlen (bits a) = 256) by (unfold zlen; rewrite bits_length, LA; reflexivity).
  pose proof (common_range (bits a) (bits b)). pose proof (common_ultra (bits a) (bits b) (bits c)).
  split; [lia|]. split; [|split; [rewrite (common_sym (bits a) (bits b)); reflexivity|lia]]. split.
  - intro E. apply bits_inj; try assumption; [congruence|]. apply common_full; [rewrite !bits_length; congruence|lia].
  - intros ->. rewrite common_refl. lia.
Qed.
(** A node id asked for at a distance is at that distance, whatever the random bytes are. *)
Theorem random_at_distance rnd id d : node_id rnd -> node_id id -> 0 <= d <= 256 ->
  node_id (rand_from_distance rnd id d) /\ distance id (rand_from_distance rnd id d) = d.
Proof.
  intros R I D. destruct (rand_ok rnd id d R I) as [N F]; [lia|]. split; [assumption|]. rewrite distance_exact by assumption. lia.
Qed.

(** ** Cases *)
(** A simple compression of the assumed form: zeros are left out. *)
Definition len5 (n : Z) : list Z := [n mod 128 + 128; n / 128 mod 128 + 128; n / 16384 mod 128 + 128; n / 2097152 mod 128 + 128; n / 268435456].
Definition enc0 (p : list Z) : list Z := len5 (zlen p) ++ (if forallb (Z.eqb 0) p then [] else p).
Definition dec0 (q : list Z) : option (list Z) :=
  match decoded_len q with Some n => Some (match skipn 5 q with [] => repeat 0 (Z.to_nat n) | r => r end) | None => None end.
Lemma lor_low a b k : 0 <= k -> 0 <= a < 2 ^ k -> Z.lor a (b * 2 ^ k) = a + b * 2 ^ k.
Proof. intros K A. rewrite Z.lor_comm, <- Z.shiftl_mul_pow2, lor_add, Z.shiftl_mul_pow2 by lia. lia. Qed.
Lemma len5_ok n r : 0 <= n < 2 ^ 32 -> decoded_len (len5 n ++ r) = Some n.
Proof.
  intro N. unfold decoded_len, len5. cbn [app uvarint]. change (2 ^ 32) with 4294967296 in N.
  repeat match goal with |- context [?x + 128 <? 128] => destruct (Z.ltb_spec (x + 128) 128); [lia|] end.
  destruct (Z.ltb_spec (n / 268435456) 128); [|lia].
  assert (K : forall x, 0 <= x < 128 -> Z.land (x + 128) 127 = x).
  { intros x X. change 127 with (Z.ones 7). rewrite Z.land_ones by lia. change (2 ^ 7) with 128. lia. }
  rewrite !K by lia. rewrite !Z.shiftl_mul_pow2 by lia. rewrite Z.mul_1_r.
  set (x4 := n / 268435456). set (x3 := n / 2097152 mod 128). set (x2 := n / 16384 mod 128). set (x1 := n / 128 mod 128).
  assert (E : n = n mod 128 + (x1 + (x2 + (x3 + x4 * 2 ^ 7) * 2 ^ 7) * 2 ^ 7) * 2 ^ 7) by (unfold x1, x2, x3, x4; change (2 ^ 7) with 128; lia).
  assert (B : 0 <= x3 < 2 ^ 7 /\ 0 <= x2 < 2 ^ 7 /\ 0 <= x1 < 2 ^ 7) by (unfold x1, x2, x3; change (2 ^ 7) with 128; lia).
  replace (Z.lor (x3 * 2 ^ (0 + 7 + 7 + 7)) (x4 * 2 ^ (0 + 7 + 7 + 7 + 7))) with ((x3 + x4 * 2 ^ 7) * 2 ^ (0 + 7 + 7 + 7)).
  2:{ rewrite <- (lor_low x3 x4 7) by lia. rewrite <- !Z.shiftl_mul_pow2 by lia. rewrite Z.shiftl_lor, Z.shiftl_shiftl by lia. reflexivity. }
  replace (Z.lor (x2 * 2 ^ (0 + 7 + 7)) ((x3 + x4 * 2 ^ 7) * 2 ^ (0 + 7 + 7 + 7))) with ((x2 + (x3 + x4 * 2 ^ 7) * 2 ^ 7) * 2 ^ (0 + 7 + 7)).
  2:{ rewrite <- (lor_low x2 _ 7) by lia. rewrite <- !Z.shiftl_mul_pow2 by lia. rewrite Z.shiftl_lor, Z.shiftl_shiftl by lia. reflexivity. }
  replace (Z.lor (x1 * 2 ^ (0 + 7)) ((x2 + (x3 + x4 * 2 ^ 7) * 2 ^ 7) * 2 ^ (0 + 7 + 7))) with ((x1 + (x2 + (x3 + x4 * 2 ^ 7) * 2 ^ 7) * 2 ^ 7) * 2 ^ (0 + 7)).
  2:{ rewrite <- (lor_low x1 _ 7) by lia. rewrite <- !Z.shiftl_mul_pow2 by lia. rewrite Z.shiftl_lor, Z.shiftl_shiftl by lia. reflexivity. }
  rewrite lor_low by (change (2 ^ (0 + 7)) with 128; lia). change (2 ^ (0 + 7)) with (2 ^ 7). rewrite <- E.
  destruct (Z.ltb_spec 0xffffffff n); [lia|reflexivity].
Qed.
Lemma all_zero p : forallb (Z.eqb 0) p = true -> repeat 0 (length p) = p.
Proof. induction p as [|x p IH]; cbn [forallb repeat length]; intro H; [reflexivity|]. apply andb_true_iff in H as [X H]. apply Z.eqb_eq in X as <-. now rewrite IH. Qed.
Example compression_there_is : undone enc0 dec0.
Proof.
  intros p P. assert (N : 0 <= zlen p < 2 ^ 32) by (split; [apply zlen_nonneg|apply Z.lt_trans with (2 ^ 24); [assumption|reflexivity]]).
  unfold dec0, enc0. rewrite len5_ok by assumption. split; [|reflexivity]. f_equal. unfold len5. cbn [app skipn].
  destruct (forallb (Z.eqb 0) p) eqn:F; [unfold zlen; rewrite Nat2Z.id; now apply all_zero|]. destruct p; [discriminate|reflexivity].
Qed.
(** Three messages, one of them compressed, in pieces of seven bytes. *)
Fixpoint cut7 (fuel : nat) (l : list Z) : conn := match fuel with O => [l] | S f => firstn 7 l :: cut7 f (skipn 7 l) end.
Example messages_sample :
  let l := [Msg 1 0 []; Msg 2 70000 (repeat 0 300); Msg 3 256 [9; 8; 7]] in
  Forall sendable l /\ match write_all enc0 100 l with
  | Some w => zlen w = 22 /\ fst (read_all dec0 3 (cut7 10 w)) = l /\ fst (read_all dec0 3 (cut7 10 (removelast w))) = firstn 2 l
  | None => False end.
Proof. split; [repeat (constructor; [repeat split; vm_compute; congruence|]); constructor|]. vm_compute. repeat split. Qed.
Example endpoints_sample :
  proper (Ep [1; 2; 3; 4] 80 IPv4) /\ proper (Ep (repeat 7 16) 8483 IPv6) /\ proper (Ep [118; 105; 116; 101] 65535 Domain)
  /\ serialize (Ep [118; 105; 116; 101] 65535 Domain) = Some [19; 118; 105; 116; 101; 255; 255].
Proof.
  assert (K : forall h, forallb (fun x => (0 <=? x) && (x <? 256)) h = true -> bytes_ok h).
  { intros h H. apply Forall_forall. intros x X. rewrite forallb_forall in H. specialize (H x X). unfold is_byte. lia. }
  split; [|split; [|split; [|reflexivity]]]; (split; [apply K; reflexivity|]; split; [cbn; lia|]).
  - left. split; reflexivity.
  - right; left. split; reflexivity.
  - right; right. split; [reflexivity|]. split; [vm_compute; split; congruence|discriminate].
Qed.
Example distance_sample : let a := repeat 170 32 in let b := rand_from_distance (repeat 85 32) a 100 in
  distance a b = 100 /\ a <> b /\ nth 18 b 0 = 170 /\ nth 19 b 0 = 165.
Proof. vm_compute. repeat split. discriminate. Qed.

Print Assumptions messages_arrive.
Print Assumptions pieces_do_not_matter.
Print Assumptions cut_message.
Print Assumptions any_bytes.
Print Assumptions big_message_refuted.
Print Assumptions big_message_panics_refuted.
Print Assumptions reserved_memory_refuted.
Print Assumptions endpoint_round_trip.
Print Assumptions endpoint_unique.
Print Assumptions endpoint_trailing_refuted.
Print Assumptions endpoint_accepted_refuted.
Print Assumptions endpoint_loopback_refuted.
Print Assumptions distance_exact.
Print Assumptions distance_laws.
Print Assumptions random_at_distance.
