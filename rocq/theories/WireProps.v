(** Blocks survive the wire and the disk; what their hashes commit to (C29, C30, C31). *)
From Coq Require Import ZArith List Bool Lia Permutation.
From Verif Require Import Lib WireModel WireSpec WireProofs WireProofs2 WireProofs3 WireProofs4 WireProofs5.
Import ListNotations.
Open Scope Z_scope.

(** * C30: account blocks *)

(** Every well-formed block can be encoded, and if the message is shorter than 2^64 bytes,
    decoding gives back every field of the block and of the sends nested in it, to any
    depth; the strict reader reports no error. *)
Theorem account_block_round_trip : forall b, block_ok b ->
  exists l, serialize b = Some l /\
    (zlen l < 2 ^ 64 -> deserialize l = Some b /\ deserialize_checked l = Some b).
Proof.
  intros b O. destruct (serialize_total b O) as [l S]. exists l. split; [exact S|]. intros L.
  destruct (unmarshal_block b O l (Datatypes.S (length l)) S L) as [p [U D]]; [lia|].
  unfold deserialize, deserialize_checked. rewrite U, D. split; reflexivity.
Qed.
(** Two well-formed blocks with the same encoding are the same block. *)
Theorem account_block_encoding_unique : forall a b l, block_ok a -> block_ok b -> zlen l < 2 ^ 64 ->
  serialize a = Some l -> serialize b = Some l -> a = b.
Proof.
  intros a b l A B L SA SB. destruct (account_block_round_trip a A) as [la [EA RA]]. destruct (account_block_round_trip b B) as [lb [EB RB]].
  assert (la = l) by congruence. assert (lb = l) by congruence. subst. destruct (RA L) as [R1 _]. destruct (RB L) as [R2 _]. congruence.
Qed.
(** Whatever bytes arrive, a block taken without an error has every field in its range
    and, but for a difficulty of zero, is one that encodes and decodes to itself. *)
Theorem account_block_accepted : forall l b, bytes_ok l -> deserialize_checked l = Some b -> block_ok (normal b).
Proof.
  intros l b B E. unfold deserialize_checked in E. destruct (unmarshal (S (length l)) l) as [p|] eqn:U; [|discriminate].
  destruct (de_proto p) as [b' ok] eqn:D. destruct ok; [|discriminate]. apply some_inj' in E. subst b'.
  eapply accepted_ok; [|exact D]. eapply unmarshal_ok; eassumption.
Qed.
(** The other reader, the one behind Deserialize, drops the error: the empty message, and
    a message whose account address is a byte too long, are read as a block of type zero
    without account. *)
Theorem account_block_malformed_refuted :
  deserialize_checked [] = None /\ deserialize [] <> None /\
  (let l := put_var 1 2 ++ put_bytes 5 (repeat 7 22) in
   deserialize_checked l = None /\ exists b, deserialize l = Some b /\ b_addr (b_head b) = repeat 0 21).
Proof. split; [reflexivity|]. split; [vm_compute; discriminate|]. cbv zeta. split; [vm_compute; reflexivity|]. eexists. split; vm_compute; reflexivity. Qed.
(** Even the strict reader takes a block whose hash has the wrong length, as one whose
    hash is zero. *)
Theorem account_block_bad_hash_refuted :
  exists b, deserialize_checked (put_var 1 4 ++ put_bytes 2 [1; 2; 3] ++ put_bytes 5 (repeat 7 21) ++ put_bytes 10 (repeat 9 32)) = Some b /\
    b_hash (b_head b) = repeat 0 32.
Proof. eexists. split; vm_compute; reflexivity. Qed.

Definition eg_send : head :=
  mkH 2 (repeat 1 32) (repeat 0 32) 0 (repeat 2 21) [] (repeat 3 21) (Some 1000) (repeat 4 10) (repeat 0 32)
      [5; 6] 0 0 (Some 0) None None [] [].
Definition eg_recv : head :=
  mkH 4 (repeat 8 32) (repeat 9 32) 17 (repeat 2 21) (repeat 1 32) (repeat 0 21) None (repeat 0 10) (repeat 7 32)
      (repeat 1 33) 21000 21000 (Some 0) (Some (repeat 6 32)) None [] (repeat 5 64).
Definition eg_block : block := Blk eg_recv [Blk eg_send []; Blk eg_send []].
Lemma eg_zero n : is_zero (repeat 0 n).
Proof. induction n; constructor; auto. Qed.
Lemma eg_bytes c n : 0 <= c < 256 -> bytes_ok (repeat c n).
Proof. intros C. induction n; constructor; auto. Qed.
Lemma eg_sized c n : 0 <= c < 256 -> sized (Z.of_nat n) (repeat c n).
Proof. intros C. split; [unfold zlen; rewrite repeat_length; reflexivity|]. apply eg_bytes. exact C. Qed.
Ltac eg_fields :=
  match goal with
  | |- sized 32 (repeat ?c 32) => apply (eg_sized c 32); lia
  | |- sized 21 (repeat ?c 21) => apply (eg_sized c 21); lia
  | |- sized 10 (repeat ?c 10) => apply (eg_sized c 10); lia
  | |- bytes_ok (repeat ?c ?n) => apply eg_bytes; lia
  | |- bytes_ok [] => constructor
  | |- _ <= _ < _ => lia
  | |- _ -> is_zero (repeat 0 ?n) => intros _; apply eg_zero
  | |- forall d, None = Some d -> _ => discriminate
  | |- _ => idtac
  end.
Example eg_send_ok : head_ok eg_send.
Proof.
  constructor; unfold eg_send; cbn [b_type b_hash b_prev b_height b_addr b_key b_to b_amount b_token b_from b_data b_quota b_used b_fee b_log b_diff b_nonce b_sig];
    eg_fields.
  - intros C. exfalso. apply C. right. left. reflexivity.
  - intros _. exists 1000. split; [reflexivity|lia].
  - intros C. exfalso. apply C. left. right. left. reflexivity.
  - repeat constructor; unfold is_byte; lia.
  - exists 0. split; [reflexivity|lia].
Qed.
Example eg_recv_ok : head_ok eg_recv.
Proof.
  constructor; unfold eg_recv; cbn [b_type b_hash b_prev b_height b_addr b_key b_to b_amount b_token b_from b_data b_quota b_used b_fee b_log b_diff b_nonce b_sig];
    eg_fields.
  - lia.
  - intros [C|[C|[C|C]]]; discriminate.
  - intros [[C|[C|[C|C]]]|C]; discriminate.
  - intros _. split; [reflexivity|apply eg_zero].
  - exists 0. split; [reflexivity|lia].
  - intros x E. apply some_inj' in E. subst x. apply (eg_sized _ 32). lia.
Qed.
Example eg_block_ok : block_ok eg_block.
Proof.
  unfold eg_block. apply block_ok_unfold. split; [apply eg_recv_ok|]. assert (block_ok (Blk eg_send [])) by (apply block_ok_unfold; split; [apply eg_send_ok|constructor]).
  constructor; [assumption|]. constructor; [assumption|constructor].
Qed.
Example eg_block_wire : exists l, serialize eg_block = Some l /\ zlen l < 1000 /\ deserialize l = Some eg_block.
Proof.
  destruct (account_block_round_trip eg_block eg_block_ok) as [l [S R]]. exists l. split; [exact S|].
  assert (L : zlen l < 1000). { assert (E : serialize eg_block = Some l) by exact S. vm_compute in E. apply some_inj' in E. subst l. reflexivity. }
  split; [exact L|]. apply R. lia.
Qed.

(** * C29: snapshot blocks, contract metadata, hashes with heights, logs *)

(** Decoding an encoded snapshot block gives back every field, and the same set of content
    entries. *)
Theorem snapshot_round_trip : forall s, snap_ok s -> zlen (snap_serialize s) < 2 ^ 64 ->
  exists s', snap_deserialize (snap_serialize s) = Some s' /\ same_snap s' s.
Proof. exact snap_round. Qed.
(** The bytes do not depend on the order in which the entries of the content are visited. *)
Theorem snapshot_bytes_order_free : forall a b, snap_ok a -> same_snap a b -> snap_serialize a = snap_serialize b.
Proof.
  intros a b O (E1 & E2 & E3 & E4 & E5 & E6 & E7 & E8 & E9 & P). unfold snap_serialize, content_bytes. fold down.
  rewrite E1, E2, E3, E4, E5, E6, E7, E8, E9, (content_order_free _ _ (proj1 (sok_content a O)) P). reflexivity.
Qed.
(** Whatever bytes arrive, an accepted snapshot block is well formed. *)
Theorem snapshot_accepted : forall l s, bytes_ok l -> snap_deserialize l = Some s -> snap_ok s.
Proof. exact snap_accepted. Qed.
(** Content whose length is not that of a whole number of entries is rejected. *)
Theorem snapshot_content_malformed : forall l, zlen l mod 61 <> 0 -> parse_content l = None.
Proof. intros l N. unfold parse_content. destruct (Z.eqb_spec (zlen l mod 61) 0); [contradiction|reflexivity]. Qed.
(** Contract metadata. *)
Theorem meta_round_trip : forall m, meta_ok m -> meta_deserialize (meta_serialize m) = Some m.
Proof. exact meta_round. Qed.
(** A record from before seeds were counted takes the number of confirmations for both. *)
Theorem meta_legacy : forall m, meta_ok m -> meta_deserialize (firstn 44 (meta_serialize m)) =
  Some (mkMeta (c_gid m) (c_confirm m) (c_create m) (c_ratio m) (c_confirm m)).
Proof.
  intros [g c k r s] ([G _] & C & [K _] & R & S). unfold meta_serialize. cbn [c_gid c_confirm c_create c_ratio c_seedconf] in *.
  unfold zlen in *. assert (LG : length g = 10%nat) by lia. assert (LK : length k = 32%nat) by lia.
  do 11 (destruct g as [|? g]; [try discriminate LG|]); [|discriminate LG].
  do 33 (destruct k as [|? k]; [try discriminate LK|]); [|discriminate LK]. reflexivity.
Qed.
(** A record that is too short stops the program, and one that is too long is accepted. *)
Theorem meta_malformed_refuted : meta_deserialize (repeat 1 43) = None /\ meta_deserialize (repeat 1 46) <> None.
Proof. split; [reflexivity|vm_compute; discriminate]. Qed.
Theorem hash_height_round_trip : forall h n, sized 32 h -> 0 <= n < 2 ^ 64 -> hh_deserialize (hh_serialize (h, n)) = Some (h, n).
Proof. exact hh_round. Qed.
Theorem logs_round_trip : forall l, Forall log_ok l -> zlen (logs_serialize l) < 2 ^ 64 -> logs_deserialize (logs_serialize l) = Some l.
Proof. exact logs_round. Qed.

Definition eg_snap : snap :=
  mkS (repeat 1 32) (repeat 2 32) 100 (repeat 3 32) (repeat 4 64) 1600000000123456789 42 (Some (repeat 5 32))
      [(repeat 6 21, (repeat 7 32, 5)); (repeat 9 21, (repeat 8 32, 6)); (repeat 7 21, (repeat 9 32, 1))] 1.
Example eg_snap_ok : snap_ok eg_snap.
Proof.
  constructor; unfold eg_snap; cbn [s_hash s_prev s_height s_key s_sig s_time s_seed s_seedhash s_content s_version]; eg_fields.
  - intros x E. apply some_inj' in E. subst x. apply (eg_sized _ 32). lia.
  - split.
    + cbn [map fst]. repeat constructor; cbn [In]; intros C; repeat (destruct C as [C|C]; [discriminate C|]); exact C.
    + repeat (apply Forall_cons || apply Forall_nil); (split; [apply (eg_sized _ 21); lia|split; [apply (eg_sized _ 32); lia|cbn [fst snd]; lia]]).
Qed.
Example eg_snap_wire : exists s', snap_deserialize (snap_serialize eg_snap) = Some s' /\ same_snap s' eg_snap /\ s_content s' <> s_content eg_snap.
Proof.
  destruct (snapshot_round_trip eg_snap eg_snap_ok) as [s' [D S]]; [vm_compute; reflexivity|]. exists s'. split; [exact D|]. split; [exact S|].
  vm_compute in D. apply some_inj' in D. subst s'. vm_compute. discriminate.
Qed.
Example eg_meta : meta_ok (mkMeta (repeat 1 10) 3 (repeat 2 32) 10 4).
Proof. split; [apply (eg_sized _ 10); lia|]. cbn [c_confirm c_create c_ratio c_seedconf]. split; [lia|]. split; [apply (eg_sized _ 32); lia|lia]. Qed.
Example eg_logs : Forall log_ok [([repeat 1 32; repeat 2 32], [1; 2; 3]); ([], []); ([repeat 3 32], [])].
Proof.
  repeat (apply Forall_cons || apply Forall_nil); (split; cbn [fst snd]; [repeat (apply Forall_cons || apply Forall_nil); apply (eg_sized _ 32); lia|]).
  - repeat constructor; unfold is_byte; lia.
  - constructor.
  - constructor.
Qed.

(** * C31: what hashes commit to *)
(** Two blocks that differ in where they carry the same bytes. *)
Definition with_data (d : list Z) (f : Z) : block :=
  Blk (mkH 2 (repeat 0 32) (repeat 1 32) 9 (repeat 2 21) [] (repeat 3 21) (Some 5) (repeat 4 10) (repeat 0 32) d 0 0 (Some f) None None [] []) [].
Definition without_data (f : Z) (l : list Z) : block :=
  Blk (mkH 2 (repeat 0 32) (repeat 1 32) 9 (repeat 2 21) [] (repeat 3 21) (Some 5) (repeat 4 10) (repeat 0 32) [] 0 0 (Some f) (Some l) None [] []) [].
Lemma left_pad_bytes n l : bytes_ok l -> bytes_ok (left_pad n l).
Proof. intros B. unfold left_pad. destruct (n <=? zlen l); [assumption|]. apply Forall_app. split; [apply zeros_bytes|assumption]. Qed.
Lemma pad_be_val l : sized 32 l -> left_pad 32 (big (be_val l)) = l.
Proof.
  intros [L B]. pose proof (be_val_range l B) as R. rewrite L in R. change (256 ^ 32) with (2 ^ 256) in R.
  assert (P : zlen (left_pad 32 (big (be_val l))) = 32) by (apply pad_big_len; lia).
  apply be_val_inj_len; [|assumption|unfold zlen in *; lia|].
  - apply left_pad_bytes, big_ok.
  - rewrite left_pad_val, big_val by lia. reflexivity.
Qed.
Lemma with_data_ok d f : bytes_ok d -> 0 <= f -> block_ok (with_data d f).
Proof.
  intros D F. apply block_ok_unfold. split; [|constructor].
  constructor; cbn [b_type b_hash b_prev b_height b_addr b_key b_to b_amount b_token b_from b_data b_quota b_used b_fee b_log b_diff b_nonce b_sig];
    eg_fields.
  - lia.
  - intros C. exfalso. apply C. right. left. reflexivity.
  - intros _. exists 5. split; [reflexivity|lia].
  - intros C. exfalso. apply C. left. right. left. reflexivity.
  - exact D.
  - exists f. split; [reflexivity|lia].
Qed.

Section Hashes.
Context (H : list Z -> list Z) (H32 : forall l, sized 32 (H l)).

(** The hash of an account block always fixes its type, its place in the chain of its
    account, and what it transfers or receives (a genesis receive carries its amount
    outside the hash). *)
Theorem hash_commits_transfer : forall a b ea eb x, block_ok a -> block_ok b -> checked (b_head a) -> checked (b_head b) ->
  hash_source H a ea = Some x -> hash_source H b eb = Some x ->
  let h := b_head a in let k := b_head b in
  b_type h = b_type k /\ b_prev h = b_prev k /\ b_height h = b_height k /\ b_addr h = b_addr k /\ b_to h = b_to k /\ b_from h = b_from k /\
  (b_type h <> 7 -> b_amount h = b_amount k /\ b_token h = b_token k).
Proof. intros a b ea eb x OA OB CA CB SA SB. apply (hash_first H H32 a b ea eb x); auto using head_of_ok. Qed.

Lemma same_shape_commits a b ea eb x : block_ok a -> block_ok b -> checked (b_head a) -> checked (b_head b) -> b_type (b_head a) <> 7 ->
  (b_data (b_head a) = [] <-> b_data (b_head b) = []) -> (b_log (b_head a) = None <-> b_log (b_head b) = None) -> zlen ea = zlen eb ->
  hash_source H a ea = Some x -> hash_source H b eb = Some x -> (same_block a b /\ ea = eb) \/ collision H.
Proof.
  intros OA OB CA CB G D L X SA SB.
  destruct (hash_first H H32 a b ea eb x (head_of_ok a OA) (head_of_ok b OB) CA CB SA SB) as [(T & P & HT & A & TO & F & AM) R].
  destruct (rest_fixed H H32 a b ea eb OA OB CA CB D L X R) as ([DD|C] & FE & LO & NO & SE & EX); [left|right; exact C].
  destruct (AM G) as [AM1 AM2]. split; [|exact EX]. unfold same_block. cbv zeta. tauto.
Qed.
(** Blocks of users: neither carries a log hash nor sends.  The same goes for the sends of
    contracts, which are hashed together with the place of the receive that made them
    ([ea] and [eb], of the same length). *)
Theorem hash_commits_user_blocks : forall a b ea eb x, block_ok a -> block_ok b -> checked (b_head a) -> checked (b_head b) ->
  b_type (b_head a) <> 7 -> zlen ea = zlen eb ->
  b_log (b_head a) = None -> b_log (b_head b) = None -> b_sends a = [] -> b_sends b = [] ->
  hash_source H a ea = Some x -> hash_source H b eb = Some x -> (same_block a b /\ ea = eb) \/ collision H.
Proof.
  intros a b ea eb x OA OB CA CB G X LA LB NA NB SA SB. apply (same_shape_commits a b ea eb x); auto; [|tauto].
  destruct (hash_first H H32 a b ea eb x (head_of_ok a OA) (head_of_ok b OB) CA CB SA SB) as [_ R].
  apply (f_equal (@zlen Z)) in R. rewrite !rest_len in R by assumption. rewrite LA, LB, NA, NB, !data_len in R by assumption. cbn [obytes] in R.
  destruct (b_data (b_head a)), (b_data (b_head b)); split; intros E; try discriminate; try reflexivity; cbv iota in R; lia.
Qed.
(** Receives of contracts: data always present, no fee, no nonce.  The hash commits unless
    a log hash begins with eight zero bytes. *)
Theorem hash_commits_contract_receives : forall a b x, block_ok a -> block_ok b -> checked (b_head a) -> checked (b_head b) ->
  b_type (b_head a) <> 7 ->
  b_data (b_head a) <> [] -> b_data (b_head b) <> [] -> b_nonce (b_head a) = [] -> b_nonce (b_head b) = [] ->
  b_fee (b_head a) = Some 0 -> b_fee (b_head b) = Some 0 ->
  (forall l, b_log (b_head a) = Some l \/ b_log (b_head b) = Some l -> firstn 8 l <> repeat 0 8) ->
  hash_source H a [] = Some x -> hash_source H b [] = Some x -> same_block a b \/ collision H.
Proof.
  intros a b x OA OB CA CB G DA DB NA NB FA FB L SA SB.
  destruct (hash_first H H32 a b [] [] x (head_of_ok a OA) (head_of_ok b OB) CA CB SA SB) as [_ R].
  assert (LL : b_log (b_head a) = None <-> b_log (b_head b) = None).
  { unfold rest in R. apply split_len in R; [|rewrite !data_len by assumption; destruct (b_data (b_head a)), (b_data (b_head b)); congruence].
    destruct R as [_ R]. rewrite FA, FB in R. apply split_len in R; [|reflexivity]. destruct R as [_ R]. rewrite NA, NB in R.
    change (left_pad 8 []) with (repeat 0 8) in R. apply (f_equal (firstn 8)) in R.
    assert (C : forall h v w, head_ok h -> (forall l, b_log h = Some l -> firstn 8 l <> repeat 0 8) -> b_log h <> None ->
              firstn 8 (obytes (b_log h) ++ v) <> firstn 8 (repeat 0 8 ++ w)).
    { intros h v w O F N E. rewrite (first_exact 8 (repeat 0 8)) in E by reflexivity. destruct (b_log h) as [l|] eqn:LO; [|congruence]. cbn [obytes] in E.
      pose proof (proj1 (ok_log h O l LO)) as LE. unfold zlen in LE. apply (F l eq_refl). rewrite <- E. rewrite firstn_app.
      replace (8 - length l)%nat with 0%nat by lia. cbn [firstn]. rewrite app_nil_r. reflexivity. }
    split; intros N.
    - destruct (b_log (b_head b)) as [l|] eqn:E; [|reflexivity]. exfalso. rewrite <- E in R. rewrite N in R. cbn [obytes app] in R. symmetry in R.
      apply C in R; [exact R|apply head_of_ok; assumption|intros l' E'; apply L; right; congruence|congruence].
    - destruct (b_log (b_head a)) as [l|] eqn:E; [|reflexivity]. exfalso. rewrite <- E in R. rewrite N in R. cbn [obytes app] in R.
      apply C in R; [exact R|apply head_of_ok; assumption|intros l' E'; apply L; left; congruence|congruence]. }
  destruct (same_shape_commits a b [] [] x) as [[S _]|C]; auto. tauto.
Qed.
(** Two sends made by the same receive never share a pre-image, up to 256 of them ... *)
Theorem sends_of_a_block_differ : forall host s t i j, 0 <= i < 256 -> 0 <= j < 256 -> i <> j ->
  forall x, hash_source H s (send_extra host i) = Some x -> hash_source H t (send_extra host j) <> Some x.
Proof.
  intros host s t i j I J N x S T. unfold hash_source in S, T.
  destruct (if is_send (b_type (b_head s)) then _ else _) as [ms|]; [|discriminate].
  destruct (if is_send (b_type (b_head t)) then _ else _) as [mt|]; [|discriminate].
  apply some_inj' in S. apply some_inj' in T. rewrite <- T in S. clear T x. unfold send_extra in S.
  rewrite !app_assoc in S. apply app_inj_tail in S. destruct S as [_ S]. rewrite !Z.mod_small in S by assumption. contradiction.
Qed.
(** ... after which the index starts again: the 257th send of a receive, if it equals the
    first, has its hash. *)
Theorem sends_of_a_block_differ_refuted : forall host s, hash_source H s (send_extra host 0) = hash_source H s (send_extra host 256).
Proof. reflexivity. Qed.

(** The full claim is false whatever the hash function: nothing tells the hash of the data
    from the fee, or the fee from the log hash.  A block with data and a fee has the same
    pre-image as one with no data, with the data's hash as its fee and the fee as its log
    hash. *)
Theorem hash_commits_refuted : exists a b x, block_ok a /\ block_ok b /\ checked (b_head a) /\ checked (b_head b) /\
  hash_source H a [] = Some x /\ hash_source H b [] = Some x /\ ~ same_block a b.
Proof.
  set (d := [1; 2; 3]). set (F := be_val (H d)). set (L := left_pad 32 (big 10)).
  pose proof (H32 d) as HD. pose proof (be_val_range (H d) (proj2 HD)) as R. rewrite (proj1 HD) in R. change (256 ^ 32) with (2 ^ 256) in R. fold F in R.
  exists (with_data d 10), (without_data F L). eexists.
  assert (K1 : block_ok (with_data d 10)) by (apply with_data_ok; [unfold d; repeat constructor; unfold is_byte; lia|lia]).
  assert (K2 : block_ok (without_data F L)).
  { apply block_ok_unfold. split; [|constructor].
    constructor; cbn [b_type b_hash b_prev b_height b_addr b_key b_to b_amount b_token b_from b_data b_quota b_used b_fee b_log b_diff b_nonce b_sig];
      eg_fields.
    - lia.
    - intros C. exfalso. apply C. right. left. reflexivity.
    - intros _. exists 5. split; [reflexivity|lia].
    - intros C. exfalso. apply C. left. right. left. reflexivity.
    - exists F. split; [reflexivity|lia].
    - intros x E. apply some_inj' in E. subst x. unfold L. split; [reflexivity|]. apply left_pad_bytes. apply big_ok. }
  split; [exact K1|]. split; [exact K2|]. split; [|split; [|split; [|split]]].
  - split; [|split]; [intros v E; cbn [with_data b_head b_amount] in E; apply some_inj' in E; lia|intros v E; cbn [with_data b_head b_fee] in E; apply some_inj' in E; lia|left; reflexivity].
  - split; [|split]; [intros v E; cbn [without_data b_head b_amount] in E; apply some_inj' in E; lia|intros v E; cbn [without_data b_head b_fee] in E; apply some_inj' in E; lia|left; reflexivity].
  - reflexivity.
  - unfold hash_source, with_data, without_data. cbn [b_head b_type b_amount b_to b_token b_prev b_height b_addr b_data b_fee b_log b_nonce b_sends is_send obig obytes].
    change (is_send 2) with true. cbv iota. unfold F. rewrite pad_be_val by exact HD. fold L. cbn [app map concat]. reflexivity.
  - intros (_ & _ & _ & _ & _ & _ & _ & _ & D & _). discriminate D.
Qed.
(** Quota, difficulty, key and signature are outside the hash. *)
Theorem hash_ignores_quota_refuted : exists a b, block_ok a /\ block_ok b /\ hash_source H a [] = hash_source H b [] /\
  b_quota (b_head a) <> b_quota (b_head b) /\ b_used (b_head a) <> b_used (b_head b) /\ b_key (b_head a) <> b_key (b_head b) /\ b_diff (b_head a) <> b_diff (b_head b).
Proof.
  set (h := mkH 4 (repeat 8 32) (repeat 9 32) 17 (repeat 2 21) [1] (repeat 0 21) None (repeat 0 10) (repeat 7 32)
      (repeat 1 33) 1 1 (Some 0) (Some (repeat 6 32)) (Some 77) [] (repeat 5 64)).
  exists (Blk eg_recv []), (Blk h []). split; [apply block_ok_unfold; split; [apply eg_recv_ok|constructor]|].
  split; [apply block_ok_unfold; split; [|constructor]|].
  - destruct eg_recv_ok. constructor; auto; unfold h; cbn [b_key b_quota b_used b_diff]; try lia; [repeat constructor; unfold is_byte; lia|].
    intros d E. apply some_inj' in E. lia.
  - split; [reflexivity|]. repeat split; cbn; discriminate.
Qed.

(** Snapshot blocks: the hash commits to everything the block says. *)
Theorem snapshot_hash_commits : forall name versioned a b, snap_ok a -> snap_ok b ->
  H (snap_source name versioned a) = H (snap_source name versioned b) -> same_snapshot versioned a b \/ collision H.
Proof.
  intros name v a b A B E. destruct (list_eq_dec Z.eq_dec (snap_source name v a) (snap_source name v b)) as [S|S].
  - left. eapply snap_source_inj; eassumption.
  - right. exists (snap_source name v a), (snap_source name v b). auto.
Qed.
(** It does not depend on the order in which the content is visited. *)
Theorem snapshot_hash_order_free : forall name versioned a b, same_snap a b ->
  H (snap_source name versioned a) = H (snap_source name versioned b).
Proof. intros name v a b S. f_equal. apply snap_source_order. exact S. Qed.
(** The time is hashed in seconds but stored and sent in nanoseconds, and before the
    version counted it could be changed freely. *)
Theorem snapshot_time_and_version_refuted : exists a b, snap_ok a /\ snap_ok b /\ s_time a <> s_time b /\ s_version a <> s_version b /\
  forall name, snap_source name (fun _ => false) a = snap_source name (fun _ => false) b.
Proof.
  exists eg_snap, (mkS (s_hash eg_snap) (s_prev eg_snap) 100 (s_key eg_snap) (s_sig eg_snap) 1600000000999999999 42 (s_seedhash eg_snap) (s_content eg_snap) 7).
  split; [apply eg_snap_ok|]. split; [destruct eg_snap_ok; constructor; cbn [s_hash s_prev s_height s_key s_sig s_time s_seed s_seedhash s_content s_version]; auto; lia|].
  split; [discriminate|]. split; [discriminate|]. intros name. reflexivity.
Qed.
(** The hash of a log list does not say where a topic ends and data begins. *)
Theorem log_hash_commits_refuted : exists l m, Forall log_ok l /\ Forall log_ok m /\ l <> m /\
  forall fork addr prev, logs_source fork addr prev l = logs_source fork addr prev m.
Proof.
  exists [([repeat 1 32], [])], [([], repeat 1 32)].
  split; [constructor; [split; cbn [fst snd]; [constructor; [apply (eg_sized _ 32); lia|constructor]|constructor]|constructor]|].
  split; [constructor; [split; cbn [fst snd]; [constructor|apply eg_bytes; lia]|constructor]|].
  split; [discriminate|]. reflexivity.
Qed.
(** With the same numbers of topics and the same lengths of data it commits. *)
Theorem log_hash_commits_partial : forall fork addr prev l m, Forall log_ok l -> Forall log_ok m ->
  map (fun x => (length (fst x), length (snd x))) l = map (fun x => (length (fst x), length (snd x))) m ->
  logs_source fork addr prev l = logs_source fork addr prev m -> l = m.
Proof.
  intros fork addr prev l m L M S E. unfold logs_source in E. apply app_inv_tail in E. revert m M S E.
  induction L as [|[ts d] l [T D] L IH]; intros [|[us e] m] M S E; cbn [map] in S; try discriminate; [reflexivity|].
  inversion M as [|? ? [U V] M']; subst. cbn [fst snd] in *. cbn [map concat fst snd] in E. rewrite <- !app_assoc in E.
  assert (LT : length ts = length us) by congruence. assert (LD : length d = length e) by congruence.
  assert (S' : map (fun x : list (list Z) * list Z => (length (fst x), length (snd x))) l = map (fun x => (length (fst x), length (snd x))) m) by congruence.
  assert (ZC : forall q, Forall (sized 32) q -> zlen (concat q) = 32 * zlen q).
  { intros q Q. induction Q as [|y q [Y _] Q IHq]; [reflexivity|]. cbn [concat]. rewrite zlen_app, IHq, zlen_cons. lia. }
  apply split_len in E; [|rewrite !ZC by assumption; unfold zlen; lia]. destruct E as [E1 E]. apply hashes_inj in E1; [|assumption|assumption].
  apply split_len in E; [|unfold zlen; lia]. destruct E as [E2 E]. subst. f_equal. apply IH; assumption.
Qed.
End Hashes.

(** Concrete cases. *)
Definition eg_hash (l : list Z) : list Z := be_bytes 32 (be_val l mod 2 ^ 256).
Example eg_hash_32 : forall l, sized 32 (eg_hash l).
Proof. intros l. split; [unfold eg_hash, zlen; rewrite be_bytes_length; reflexivity|]. apply be_bytes_ok. Qed.
Example eg_user_hashes : block_ok (with_data [1; 2] 3) /\ exists x, hash_source eg_hash (with_data [1; 2] 3) [] = Some x /\ zlen x = 197 /\
  checked (b_head (with_data [1; 2] 3)) /\ b_type (b_head (with_data [1; 2] 3)) <> 7 /\ b_log (b_head (with_data [1; 2] 3)) = None.
Proof.
  split; [apply with_data_ok; [repeat constructor; unfold is_byte; lia|lia]|].
  eexists. split; [reflexivity|]. split; [vm_compute; reflexivity|]. split; [|split; [discriminate|reflexivity]].
  split; [|split]; [intros v E; cbn in E; apply some_inj' in E; lia|intros v E; cbn in E; apply some_inj' in E; lia|left; reflexivity].
Qed.
Example eg_receive_hashes : checked (b_head eg_block) /\ b_data (b_head eg_block) <> [] /\ b_fee (b_head eg_block) = Some 0 /\
  firstn 8 (obytes (b_log (b_head eg_block))) <> repeat 0 8 /\ hash_source eg_hash eg_block [] <> None.
Proof.
  split; [|split; [discriminate|split; [reflexivity|split; discriminate]]].
  split; [|split]; [intros v E; discriminate E|intros v E; cbn in E; apply some_inj' in E; lia|left; reflexivity].
Qed.

Print Assumptions account_block_round_trip.
Print Assumptions account_block_encoding_unique.
Print Assumptions account_block_accepted.
Print Assumptions account_block_malformed_refuted.
Print Assumptions account_block_bad_hash_refuted.
Print Assumptions snapshot_round_trip.
Print Assumptions snapshot_bytes_order_free.
Print Assumptions snapshot_accepted.
Print Assumptions snapshot_content_malformed.
Print Assumptions meta_round_trip.
Print Assumptions meta_legacy.
Print Assumptions meta_malformed_refuted.
Print Assumptions hash_height_round_trip.
Print Assumptions logs_round_trip.
Print Assumptions hash_commits_transfer.
Print Assumptions hash_commits_user_blocks.
Print Assumptions hash_commits_contract_receives.
Print Assumptions sends_of_a_block_differ.
Print Assumptions sends_of_a_block_differ_refuted.
Print Assumptions hash_commits_refuted.
Print Assumptions hash_ignores_quota_refuted.
Print Assumptions snapshot_hash_commits.
Print Assumptions snapshot_hash_order_free.
Print Assumptions snapshot_time_and_version_refuted.
Print Assumptions log_hash_commits_refuted.
Print Assumptions log_hash_commits_partial.
