(** The state of a snapshot as read from the byte keys of the store, after any history of the
    chain (C57): the typed keys of StateModel and the byte keys of HistModel together. *)
Require Import Coq.Lists.List Coq.ZArith.ZArith Coq.Bool.Bool Coq.micromega.Lia.
Require Import Verif.Lib.
Require Verif.VmDbModel Verif.VmDbSpec Verif.VmDbProofs Verif.VmDbProofs2 Verif.VmDbProofs3 Verif.HistProofs.
Require Import Verif.HistModel Verif.HistSpec.
Require Verif.HistProps.
Require Import Verif.StateModel Verif.StateSpec Verif.StateProofs Verif.StateProofs2 Verif.StateProofs7 Verif.StateProofs8 Verif.StateProps.
Import ListNotations.
Local Open Scope Z_scope.

(** How numbers stand for addresses, storage keys, token ids and amounts. *)
Record coding := {
  c_addr : Z -> list Z; c_key : Z -> list Z; c_tok : Z -> list Z; c_num : Z -> list Z;
  addr_in : Z -> Prop; key_in : Z -> Prop; tok_in : Z -> Prop;
  addr_ok : forall a, addr_in a -> is_addr (c_addr a);
  key_ok : forall k, key_in k -> is_skey (c_key k);
  tok_ok : forall t, tok_in t -> is_token (c_tok t);
  addr_inj : forall a b, addr_in a -> addr_in b -> c_addr a = c_addr b -> a = b;
  key_inj : forall a b, key_in a -> key_in b -> c_key a = c_key b -> a = b;
  tok_inj : forall a b, tok_in a -> tok_in b -> c_tok a = c_tok b -> a = b }.

(** The store holds exactly the history entries of [d]. *)
Definition stored (c : coding) (db : list VmDbModel.kv) (d : sdb) : Prop :=
  store_ok db /\
  (forall a k n v, addr_in c a -> key_in c k -> is_height n ->
     In (stor_key (c_addr c a) (c_key c k) n, v) db <-> sget d (SHStor a k n) = Some (VB v)) /\
  (forall a t n y, addr_in c a -> tok_in c t -> is_height n ->
     In (bal_key (c_addr c a) (c_tok c t) n, y) db <-> exists v, y = c_num c v /\ sget d (SHBal a t n) = Some (VN v)) /\
  (forall a x n v, addr_in c a -> In (stor_key (c_addr c a) x n, v) db -> is_skey x -> exists k, key_in c k /\ x = c_key c k).

(** The value a block list leaves for a key: none if no block wrote it, empty if it was deleted. *)
Definition written_after (bs : list ablock) (a k : Z) : option (list Z) :=
  newest_of (fun b => if ab_addr b =? a then lastkv (ab_storage b) k else None) bs.
Lemma seg_kv_written bs a k : seg_kv bs a k = written_after bs a k.
Proof.
  unfold seg_kv, written_after, lastkv. rewrite newest_flat. induction bs as [|b r IH]; [reflexivity|]. cbn [filter]. unfold from at 1.
  destruct (ab_addr b =? a) eqn:E; rewrite ?newest_cons, IH, E; [reflexivity|]. now destruct (newest_of _ r).
Qed.
Lemma seg_bal_after bs a t : seg_bal bs a t = balance_after bs a t.
Proof.
  unfold seg_bal, balance_after, lastkv. rewrite newest_flat. induction bs as [|b r IH]; [reflexivity|]. cbn [filter]. unfold from at 1.
  destruct (ab_addr b =? a) eqn:E; rewrite ?newest_cons, IH, E; [reflexivity|]. now destruct (newest_of _ r).
Qed.
Lemma upto_spec (f : Z -> option sval) m : 
  match newest_upto f m with
  | Some v => exists h, 0 <= h <= Z.of_nat m /\ f h = Some v /\ forall h', h < h' <= Z.of_nat m -> f h' = None
  | None => forall h', 0 <= h' <= Z.of_nat m -> f h' = None
  end.
Proof.
  induction m as [|m IH]; cbn [newest_upto].
  - change (Z.of_nat 0) with 0. destruct (f 0) as [v|] eqn:E; [exists 0; split; [lia|]; split; [assumption|]; intros; lia|]. intros h' H. replace h' with 0 by lia. assumption.
  - destruct (f (Z.of_nat (S m))) as [v|] eqn:E; [exists (Z.of_nat (S m)); split; [lia|]; split; [assumption|]; intros; lia|].
    destruct (newest_upto f m) as [v|].
    + destruct IH as (h & H1 & H2 & H3). exists h. split; [lia|]. split; [assumption|]. intros h' H'. destruct (Z.eq_dec h' (Z.of_nat (S m))) as [->|]; [assumption|]. apply H3. lia.
    + intros h' H'. destruct (Z.eq_dec h' (Z.of_nat (S m))) as [->|]; [assumption|]. apply IH. lia.
Qed.
Lemma floor_written d segs a k n : hist_ok d segs -> 0 <= n -> floor_stor d a k n = option_map VB (written_after (concat (firstn (Z.to_nat n) segs)) a k).
Proof.
  intros [H _] N. unfold floor_stor. destruct (Z.ltb_spec n 0); [lia|]. induction (Z.to_nat n) as [|m IH].
  - cbn [newest_upto firstn concat]. change (Z.of_nat 0) with 0. rewrite H. reflexivity.
  - cbn [newest_upto]. rewrite H, (firstn_seg (fun _ => true)). unfold written_after at 1. rewrite newest_app. fold (written_after (seg_at segs (Z.of_nat (S m))) a k). rewrite seg_kv_written.
    destruct (written_after (seg_at segs (Z.of_nat (S m))) a k); [reflexivity|exact IH].
Qed.

Lemma floor_balance d segs a t n : hist_ok d segs -> 0 <= n -> floor_bal d a t n = option_map VN (balance_after (concat (firstn (Z.to_nat n) segs)) a t).
Proof.
  intros [_ H] N. unfold floor_bal. destruct (Z.ltb_spec n 0); [lia|]. induction (Z.to_nat n) as [|m IH].
  - cbn [newest_upto firstn concat]. change (Z.of_nat 0) with 0. rewrite H. reflexivity.
  - cbn [newest_upto]. rewrite H, (firstn_seg (fun _ => true)). unfold balance_after at 1. rewrite newest_app. fold (balance_after (seg_at segs (Z.of_nat (S m))) a t). rewrite seg_bal_after.
    destruct (balance_after (seg_at segs (Z.of_nat (S m))) a t); [reflexivity|exact IH].
Qed.

Section Link.
Context (c : coding) (db : list VmDbModel.kv) (d : sdb) (ST : stored c db d) (segs : list (list ablock)) (HO : hist_ok d segs) (n : Z) (Hn : is_height n).
Lemma newest_written a k v : addr_in c a -> key_in c k ->
  newest_value db n (c_addr c a) (c_key c k) v <-> written_after (concat (firstn (Z.to_nat n) segs)) a k = Some v.
Proof.
  intros Ha Hk. destruct ST as (_ & SS & _). assert (N0 : 0 <= n) by (unfold is_height in Hn; lia). pose proof (floor_written d segs a k n HO N0) as FW. unfold floor_stor in FW. destruct (Z.ltb_spec n 0); [lia|].
  pose proof (upto_spec (fun h => sget d (SHStor a k h)) (Z.to_nat n)) as U. rewrite Z2Nat.id in U by lia. rewrite FW in U. clear FW. cbn beta in U.
  unfold is_height in Hn. destruct (written_after _ a k) as [y|]; cbn [option_map] in U; split.
  - intros (h & Hh & Ln & I & M). apply (SS a k h v Ha Hk Hh) in I. destruct U as (h2 & B2 & E2 & N2). assert (H2 : is_height h2) by (unfold is_height; lia).
    pose proof E2 as E3. apply (SS a k h2 y Ha Hk H2) in E3. specialize (M h2 y H2 ltac:(lia) E3). destruct (Z.eq_dec h h2) as [->|]; [rewrite E2 in I; injection I as ->; reflexivity|]. rewrite (N2 h) in I by lia. discriminate.
  - intro E. injection E as ->. destruct U as (h & B & E2 & N2). assert (H2 : is_height h) by (unfold is_height; lia). exists h. split; [assumption|]. split; [lia|]. split; [now apply (SS a k h v Ha Hk H2)|].
    intros h' v' Hh' Ln' I'. apply (SS a k h' v' Ha Hk Hh') in I'. destruct (Z.le_gt_cases h' h) as [|Q]; [assumption|]. rewrite (N2 h') in I' by lia. discriminate.
  - intros (h & Hh & Ln & I & M). apply (SS a k h v Ha Hk Hh) in I. unfold is_height in Hh. rewrite (U h) in I by lia. discriminate.
  - discriminate.
Qed.
Lemma newest_balanced a t v : addr_in c a -> tok_in c t ->
  newest_balance db n (c_addr c a) (c_tok c t) v <-> option_map (c_num c) (balance_after (concat (firstn (Z.to_nat n) segs)) a t) = Some v.
Proof.
  intros Ha Hk. destruct ST as (_ & _ & SS & _). assert (N0 : 0 <= n) by (unfold is_height in Hn; lia). pose proof (floor_balance d segs a t n HO N0) as FW. unfold floor_bal in FW. destruct (Z.ltb_spec n 0); [lia|].
  pose proof (upto_spec (fun h => sget d (SHBal a t h)) (Z.to_nat n)) as U. rewrite Z2Nat.id in U by lia. rewrite FW in U. clear FW. cbn beta in U.
  unfold is_height in Hn. destruct (balance_after _ a t) as [y|]; cbn [option_map] in U |- *; split.
  - intros (h & Hh & Ln & I & M). apply (SS a t h v Ha Hk Hh) in I as (x & -> & I). destruct U as (h2 & B2 & E2 & N2). assert (H2 : is_height h2) by (unfold is_height; lia).
    assert (E3 : In (bal_key (c_addr c a) (c_tok c t) h2, c_num c y) db) by (apply (SS a t h2 _ Ha Hk H2); now exists y).
    specialize (M h2 _ H2 ltac:(lia) E3). destruct (Z.eq_dec h h2) as [->|]; [rewrite E2 in I; injection I as ->; reflexivity|]. rewrite (N2 h) in I by lia. discriminate.
  - intro E. injection E as <-. destruct U as (h & B & E2 & N2). assert (H2 : is_height h) by (unfold is_height; lia). exists h. split; [assumption|]. split; [lia|]. split; [apply (SS a t h _ Ha Hk H2); now exists y|].
    intros h' v' Hh' Ln' I'. apply (SS a t h' v' Ha Hk Hh') in I' as (x & _ & I'). destruct (Z.le_gt_cases h' h) as [|Q]; [assumption|]. rewrite (N2 h') in I' by lia. discriminate.
  - intros (h & Hh & Ln & I & M). apply (SS a t h v Ha Hk Hh) in I as (x & _ & I). unfold is_height in Hh. rewrite (U h) in I by lia. discriminate.
  - discriminate.
Qed.
End Link.

(** ** C57, C58: what the bytes of the store say after any history of the chain *)
Section Reached.
Context (logs_kept cached builtin : Z -> bool) (ord : forall A, list A -> list A).
Context (ord_in : forall A (l : list A) x, In x (ord A l) <-> In x l).
Context (cached_builtin : forall a, cached a = true -> builtin a = true).
Context (c : coding) (db : list VmDbModel.kv) (w : world) (m : Z) (RE : reached logs_kept cached builtin ord w m).
Context (ST : stored c db (s_mem (w_s w))) (n : Z) (Hn : is_height n).
Lemma kept_hist : hist_ok (s_mem (w_s w)) (w_segs w).
Proof. exact (st_hist _ _ _ _ (i_mem _ _ _ _ (reached_inv logs_kept cached builtin ord ord_in cached_builtin w m RE))). Qed.
Theorem stored_value a k : addr_in c a -> key_in c k ->
  value_at db n (c_addr c a) (c_key c k) = storage_after (confirmed_upto w n) a k.
Proof.
  intros Ha Hk. unfold storage_after. fold (written_after (confirmed_upto w n) a k). unfold confirmed_upto.
  destruct (HistProps.value_found db n (c_addr c a) (c_key c k) (proj1 ST) Hn (addr_ok c a Ha) (key_ok c k Hk)) as [F|[F E]].
  - apply (newest_written c db _ ST _ kept_hist n Hn a k _ Ha Hk) in F. now rewrite F.
  - rewrite E. destruct (written_after _ a k) as [v|] eqn:Q; [|reflexivity]. exfalso. apply (F v). now apply (newest_written c db _ ST _ kept_hist n Hn a k _ Ha Hk).
Qed.
Theorem stored_balance a t : addr_in c a -> tok_in c t ->
  balance_at db n (c_addr c a) (c_tok c t) = option_map (c_num c) (balance_after (confirmed_upto w n) a t).
Proof.
  intros Ha Ht. unfold confirmed_upto.
  pose proof (HistProps.balance_found db n (c_addr c a) (c_tok c t) (proj1 ST) Hn (addr_ok c a Ha) (tok_ok c t Ht)) as F.
  pose proof (newest_balanced c db _ ST _ kept_hist n Hn a t) as NB. destruct (balance_at _ _ _ _) as [v|].
  - symmetry. now apply NB.
  - destruct (option_map _ _) as [v|] eqn:Q; [|reflexivity]. exfalso. apply (F v). now apply NB.
Qed.
(** The keys a contract has written by then, with the prefix, each once, in order. *)
Theorem stored_iteration a p f : addr_in c a -> bytes_ok p -> (length p <= 32)%nat -> (length db < f)%nat ->
  let l := listing f n true (si_new db (c_addr c a) p) in
  VmDbSpec.ascending l /\
  (forall x v, In (x, v) l -> exists k, key_in c k /\ x = c_key c k) /\
  (forall k v, key_in c k -> In (c_key c k, v) l <-> matches p (c_key c k) /\ written_after (confirmed_upto w n) a k = Some v).
Proof.
  intros Ha Hp Lp F l. destruct (HistProps.snapshot_iteration_forward db (proj1 ST) n Hn (c_addr c a) (addr_ok c a Ha) p Hp Lp f F) as [S L]. fold l in S, L.
  split; [exact S|]. split.
  - intros x v J. apply L in J as (Hx & _ & h & _ & _ & I & _). destruct ST as (_ & _ & _ & K). exact (K a x h v Ha I Hx).
  - intros k v Hk. rewrite L. rewrite (newest_written c db _ ST _ kept_hist n Hn a k _ Ha Hk). unfold confirmed_upto. pose proof (key_ok c k Hk). tauto.
Qed.
End Reached.
(** ** Such stores exist: the byte form of any set of entries *)
Definition valid_entry (c : coding) (e : skey * sval) : Prop :=
  match e with
  | (SHStor a k n, v) => addr_in c a /\ key_in c k /\ is_height n /\ exists b, v = VB b
  | (SHBal a t n, v) => addr_in c a /\ tok_in c t /\ is_height n /\ exists x, v = VN x
  | _ => True
  end.
Definition byte_entry (c : coding) (e : skey * sval) : option (list Z * list Z) :=
  match e with
  | (SHStor a k n, VB b) => Some (stor_key (c_addr c a) (c_key c k) n, b)
  | (SHBal a t n, VN x) => Some (bal_key (c_addr c a) (c_tok c t) n, c_num c x)
  | _ => None
  end.
Fixpoint byte_store (c : coding) (d : sdb) : list VmDbModel.kv :=
  match d with
  | [] => []
  | e :: r => match byte_entry c e with Some (k, v) => VmDbModel.mput k v (byte_store c r) | None => byte_store c r end
  end.
Section Stores.
Context (c : coding).
Lemma app_len_inj {A} (x x' y y' : list A) : length x = length x' -> x ++ y = x' ++ y' -> x = x' /\ y = y'.
Proof. revert x'. induction x as [|h t IH]; destruct x' as [|h' t']; try discriminate; cbn; intros L E; [now split|]. injection E as <- E. destruct (IH t' ltac:(lia) E) as [-> ->]. now split. Qed.
Lemma enc_len k : is_skey k -> length (VmDbModel.enc_key k) = 33%nat.
Proof. intros [_ L]. unfold VmDbModel.enc_key. rewrite !app_length, repeat_length. cbn [length]. lia. Qed.
Lemma enc_inj k k' : is_skey k -> is_skey k' -> VmDbModel.enc_key k = VmDbModel.enc_key k' -> k = k'.
Proof. intros [_ L] [_ L'] E. rewrite <- (VmDbProofs.dec_enc k), <- (VmDbProofs.dec_enc k'), E; [reflexivity| |]; unfold zlen; lia. Qed.
Lemma stor_inj a k n a' k' n' : is_addr a -> is_skey k -> is_height n -> is_addr a' -> is_skey k' -> is_height n' ->
  stor_key a k n = stor_key a' k' n' -> a = a' /\ k = k' /\ n = n'.
Proof.
  intros [Ba La] Hk Hn [Ba' La'] Hk' Hn' E. unfold stor_key in E. apply HistProofs.key_inj in E as [E ->]; [|unfold stor_stem; cbn [length]; rewrite !app_length, !enc_len by assumption; lia|unfold is_height, max_u64, two64, HistProofs.u64 in *; lia..].
  unfold stor_stem in E. injection E as E. apply app_len_inj in E as [-> E]; [|congruence]. split; [reflexivity|]. split; [now apply enc_inj|reflexivity].
Qed.
Lemma bal_inj a k n a' k' n' : is_addr a -> is_token k -> is_height n -> is_addr a' -> is_token k' -> is_height n' ->
  bal_key a k n = bal_key a' k' n' -> a = a' /\ k = k' /\ n = n'.
Proof.
  intros [Ba La] [_ Hk] Hn [Ba' La'] [_ Hk'] Hn' E. unfold bal_key in E. apply HistProofs.key_inj in E as [E ->]; [|unfold bal_stem; cbn [length]; rewrite !app_length; lia|unfold is_height, max_u64, two64, HistProofs.u64 in *; lia..].
  unfold bal_stem in E. injection E as E. apply app_len_inj in E as [-> ->]; [|congruence]. now split.
Qed.
Lemma app_inj_tail_len {A} (x x' y y' : list A) : length y = length y' -> x ++ y = x' ++ y' -> x = x' /\ y = y'.
Proof. intros L E. apply app_len_inj; [|assumption]. apply (f_equal (@length A)) in E. rewrite !app_length in E. lia. Qed.
Lemma stor_bytes a k n : is_addr a -> is_skey k -> is_height n -> bytes_ok (stor_key a k n).
Proof.
  intros [Ba _] [Bk Lk] Hn. unfold stor_key, stor_stem, VmDbModel.enc_key, bytes_ok in *. cbn [app]. constructor; [unfold is_byte; lia|]. rewrite <- !app_assoc. apply Forall_app; split; [assumption|]. apply Forall_app; split; [assumption|]. apply Forall_app; split; [|apply Forall_app; split].
  - apply Forall_forall. intros x I. apply repeat_spec in I. subst. unfold is_byte. lia.
  - repeat constructor; unfold zlen; lia.
  - apply be_bytes_ok.
Qed.
Lemma bal_bytes a k n : is_addr a -> is_token k -> is_height n -> bytes_ok (bal_key a k n).
Proof.
  intros [Ba _] [Bk Lk] Hn. unfold bal_key, bal_stem, bytes_ok in *. cbn [app]. constructor; [unfold is_byte; lia|]. rewrite <- !app_assoc. apply Forall_app; split; [assumption|]. apply Forall_app; split; [assumption|]. apply be_bytes_ok.
Qed.
Lemma bytes_sorted d : VmDbProofs.sorted (byte_store c d).
Proof. induction d as [|e r IH]; [constructor|]. cbn. destruct (byte_entry c e) as [[k v]|]; [now apply VmDbProofs.mput_sorted|assumption]. Qed.
Lemma entry_inj x v x' v' K V V' : valid_entry c (x, v) -> valid_entry c (x', v') -> byte_entry c (x, v) = Some (K, V) -> byte_entry c (x', v') = Some (K, V') -> x = x'.
Proof.
  intros H H' E E'. destruct x; try discriminate E; destruct x'; try discriminate E'; destruct v; try discriminate E; destruct v'; try discriminate E'; cbn in E, E', H, H';
    injection E as EK _; injection E' as EK' _; subst K; try discriminate EK'; decompose [and] H; decompose [and] H'.
  - apply stor_inj in EK' as (A & B & ->); auto using addr_ok, key_ok. apply addr_inj in A; auto. apply key_inj in B; auto. now subst.
  - apply bal_inj in EK' as (A & B & ->); auto using addr_ok, tok_ok. apply addr_inj in A; auto. apply tok_inj in B; auto. now subst.
Qed.
Lemma bytes_in d : keys_nodup d -> Forall (valid_entry c) d ->
  forall K V, In (K, V) (byte_store c d) <-> exists e, In e d /\ byte_entry c e = Some (K, V).
Proof.
  intros N F. induction d as [|[x v] r IH]; intros K V; [cbn; split; [tauto|intros (? & [] & _)]|].
  inversion N as [|? ? N1 N2]; subst. inversion F as [|? ? F1 F2]; subst. specialize (IH N2 F2). cbn [byte_store In]. destruct (byte_entry c (x, v)) as [[k0 v0]|] eqn:B.
  - rewrite <- VmDbProofs.mget_In by apply VmDbProofs.mput_sorted, bytes_sorted. rewrite VmDbProofs.mput_get by apply bytes_sorted. destruct (zlist_eqb K k0) eqn:Q.
    + apply zlist_eqb_eq in Q as ->. split.
      * intro E. injection E as ->. exists (x, v). split; [now left|assumption].
      * intros ([x' v'] & [I|I] & E); [injection I as <- <-; congruence|]. exfalso. apply N1. rewrite Forall_forall in F2. rewrite (entry_inj x v x' v' k0 v0 V F1 (F2 _ I) B E). cbn. apply (in_map fst _ _ I).
    + rewrite VmDbProofs.mget_In by apply bytes_sorted. rewrite IH. split; intros (e & I & E); exists e.
      * split; [now right|assumption].
      * split; [|assumption]. destruct I as [<-|I]; [|assumption]. rewrite B in E. injection E as -> ->. now rewrite zlist_eqb_refl in Q.
  - rewrite IH. split; intros (e & I & E); exists e; (split; [|assumption]); [now right|]. destruct I as [<-|I]; [congruence|assumption].
Qed.
Theorem store_exists d : keys_nodup d -> Forall (valid_entry c) d -> stored c (byte_store c d) d.
Proof.
  intros N F. pose proof (bytes_in d N F) as B. assert (FI : forall e, In e d -> valid_entry c e) by now apply Forall_forall.
  assert (SH : forall K V, In (K, V) (byte_store c d) ->
    (exists a k n, addr_in c a /\ key_in c k /\ is_height n /\ K = stor_key (c_addr c a) (c_key c k) n /\ sget d (SHStor a k n) = Some (VB V)) \/
    (exists a t n x, addr_in c a /\ tok_in c t /\ is_height n /\ K = bal_key (c_addr c a) (c_tok c t) n /\ V = c_num c x /\ sget d (SHBal a t n) = Some (VN x))).
  { intros K V I. apply B in I as ([x v] & I & E). pose proof (FI _ I) as H. destruct x; try discriminate E; destruct v; try discriminate E; cbn in H, E; injection E as <- <-; destruct H as (H1 & H2 & H3 & _); [left; exists a, k, n|right; exists a, t, n, n0]; repeat (split; [assumption||reflexivity|]); now apply in_sget. }
  split; [split; [|split; [|split]]|split; [|split]].
  - apply VmDbProofs.ascending_sorted, bytes_sorted.
  - intros [K V] r I E. cbn [fst] in *. destruct (SH K V I) as [(a & k & n & Ha & Hk & Hn & -> & _)|(a & t & n & x & _ & _ & _ & -> & _)]; [|discriminate E]. exists (c_addr c a), (c_key c k), n. auto using addr_ok, key_ok.
  - intros [K V] r I E. cbn [fst] in *. destruct (SH K V I) as [(a & k & n & Ha & Hk & Hn & -> & _)|(a & t & n & x & Ha & Ht & Hn & -> & _)]; [discriminate E|]. exists (c_addr c a), (c_tok c t), n. auto using addr_ok, tok_ok.
  - intros [K V] I. cbn [fst] in *. destruct (SH K V I) as [(a & k & n & Ha & Hk & Hn & -> & _)|(a & t & n & x & Ha & Ht & Hn & -> & _)].
    + apply stor_bytes; auto using addr_ok, key_ok.
    + apply bal_bytes; auto using addr_ok, tok_ok.
  - intros a k n v Ha Hk Hn. split.
    + intro I. destruct (SH _ _ I) as [(a' & k' & n' & Ha' & Hk' & Hn' & E & G)|(a' & t & n' & x & _ & _ & _ & E & _)]; [|discriminate E].
      apply stor_inj in E as (A & K & ->); auto using addr_ok, key_ok. apply addr_inj in A as ->; auto. apply key_inj in K as ->; auto.
    + intro G. apply B. exists (SHStor a k n, VB v). split; [now apply sget_in|reflexivity].
  - intros a t n y Ha Ht Hn. split.
    + intro I. destruct (SH _ _ I) as [(a' & k' & n' & Ha' & Hk' & Hn' & E & G)|(a' & t' & n' & x & Ha' & Ht' & Hn' & E & -> & G)]; [discriminate E|].
      apply bal_inj in E as (A & K & ->); auto using addr_ok, tok_ok. apply addr_inj in A as ->; auto. apply tok_inj in K as ->; auto. now exists x.
    + intros (x & -> & G). apply B. exists (SHBal a t n, VN x). split; [now apply sget_in|reflexivity].
  - intros a x n v Ha I Hx. destruct (SH _ _ I) as [(a' & k' & n' & Ha' & Hk' & Hn' & E & G)|(a' & t & n' & z & _ & _ & _ & E & _)]; [|discriminate E].
    exists k'. split; [assumption|]. unfold stor_key in E. apply app_inj_tail_len in E as [E _]; [|now rewrite !be_bytes_length]. unfold stor_stem in E. injection E as E.
    apply app_len_inj in E as [_ E]; [|destruct (addr_ok c a Ha), (addr_ok c a' Ha'); congruence]. apply enc_inj in E; auto using key_ok.
Qed.
End Stores.

(** A coding: addresses of 21 bytes, keys of one byte, tokens of ten bytes. *)
Lemma be_inj n x y : 0 <= x < 256 ^ Z.of_nat n -> 0 <= y < 256 ^ Z.of_nat n -> be_bytes n x = be_bytes n y -> x = y.
Proof. intros Hx Hy E. apply (f_equal be_val) in E. rewrite !be_val_bytes in E by assumption. exact E. Qed.
Definition plain_coding : coding.
Proof.
  refine {| c_addr := be_bytes 21; c_key := be_bytes 1; c_tok := be_bytes 10; c_num := be_bytes 8;
    addr_in := fun x => 0 <= x < 256 ^ Z.of_nat 21; key_in := fun x => 0 <= x < 256 ^ Z.of_nat 1; tok_in := fun x => 0 <= x < 256 ^ Z.of_nat 10 |}.
  - intros. split; [apply be_bytes_ok|apply be_bytes_length].
  - intros. split; [apply be_bytes_ok|rewrite be_bytes_length; lia].
  - intros. split; [apply be_bytes_ok|apply be_bytes_length].
  - apply (be_inj 21).
  - apply (be_inj 1).
  - apply (be_inj 10).
Defined.
Definition valid_plain (e : skey * sval) : bool :=
  match e with
  | (SHStor a k n, VB _) => (0 <=? a) && (a <? 1000) && (0 <=? k) && (k <? 256) && (0 <=? n) && (n <? 1000)
  | (SHBal a t n, VN _) => (0 <=? a) && (a <? 1000) && (0 <=? t) && (t <? 1000) && (0 <=? n) && (n <? 1000)
  | (SHStor _ _ _, _) | (SHBal _ _ _, _) => false
  | _ => true
  end.
Lemma valid_plain_ok e : valid_plain e = true -> valid_entry plain_coding e.
Proof.
  destruct e as [x v]. assert (P21 : 1000 < 256 ^ Z.of_nat 21) by (vm_compute; reflexivity). assert (P1 : 256 ^ Z.of_nat 1 = 256) by reflexivity. assert (P10 : 1000 < 256 ^ Z.of_nat 10) by (vm_compute; reflexivity).
  assert (PM : 1000 < max_u64) by (vm_compute; reflexivity).
  destruct x, v; cbn [valid_plain valid_entry plain_coding addr_in key_in tok_in]; intro H; try exact Logic.I; try discriminate H; repeat rewrite andb_true_iff in H; unfold is_height; repeat split; try lia; eexists; reflexivity.
Qed.
Example story_stored : exists w m, reached all one one keep_order w m /\ stored plain_coding (byte_store plain_coding (s_mem (w_s w))) (s_mem (w_s w)) /\
  length (byte_store plain_coding (s_mem (w_s w))) = 6%nat /\
  map (fun n => value_at (byte_store plain_coding (s_mem (w_s w))) n (be_bytes 21 1) [5]) [0; 1; 2; 3] = [[]; [1]; [2]; [2]] /\
  listing 10 2 true (si_new (byte_store plain_coding (s_mem (w_s w))) (be_bytes 21 1) []) = [([3], [9]); ([5], [2])].
Proof.
  assert (A : allowed_all empty_world (firstn 8 story)) by (unfold story; cbn [firstn]; go).
  destruct (run empty_world (firstn 8 story)) as [w|] eqn:E; [|vm_compute in E; discriminate].
  destruct (run_reached (firstn 8 story) empty_world 0 w (R_empty _ _ _ _) A E) as [m H]. exists w, m. split; [assumption|]. split.
  - apply store_exists.
    + exact (st_nodup _ _ _ _ (i_mem _ _ _ _ (reached_inv all one one keep_order (fun A l x => iff_refl _) (fun a e => e) w m H))).
    + assert (V : forallb valid_plain (s_mem (w_s w)) = true) by (vm_compute in E; injection E as <-; reflexivity).
      apply Forall_forall. intros e I. apply valid_plain_ok. rewrite forallb_forall in V. now apply V.
  - vm_compute in E. injection E as <-. vm_compute. split; [reflexivity|]. split; reflexivity.
Qed.
Print Assumptions stored_value.
Print Assumptions stored_balance.
Print Assumptions stored_iteration.
Print Assumptions store_exists.
