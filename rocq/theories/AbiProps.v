(** C33: the contract ABI. *)
From Coq Require Import String ZArith List Bool Lia Permutation.
From Verif Require Import Lib WireModel TextModel SchedModel AbiModel AbiSpec WireProofs AbiProofs AbiProofs2 AbiProofs3 AbiProofs4.
Import ListNotations.
Open Scope Z_scope.

(** Packing good arguments succeeds, and unpacking the bytes gives them back, whatever follows
    the bytes and whatever memory lies behind them. *)
Theorem abi_round_trip_partial : forall ts vs, Forall2 good ts vs ->
  exists d, pack_args ts vs = Ok d /\
    forall tail spare, zlen (d ++ tail) < 2 ^ 52 -> unpack_args ts (d ++ tail) spare = Ok vs.
Proof. exact round_trip. Qed.
(** Different arguments have different bytes. *)
Theorem abi_pack_injective : forall ts vs vs' d, Forall2 good ts vs -> Forall2 good ts vs' ->
  pack_args ts vs = Ok d -> pack_args ts vs' = Ok d -> zlen d < 2 ^ 52 -> vs = vs'.
Proof.
  intros ts vs vs' d F F' E E' L. destruct (abi_round_trip_partial ts vs F) as [x [EX R]]. destruct (abi_round_trip_partial ts vs' F') as [y [EY R']].
  rewrite E in EX. injection EX as <-. rewrite E' in EY. injection EY as <-.
  specialize (R [] []). specialize (R' [] []). rewrite app_nil_r in R, R'. rewrite (R L) in R'. specialize (R' L). congruence.
Qed.
(** Unpacking never reads outside the bytes given and never panics: for every byte string and
    every list of types with fixed byte strings of at most 32 bytes and arrays below 2^57
    items, the result is a list of values or an error, and does not depend on the memory
    behind the bytes. *)
Theorem abi_unpack_safe_partial : forall ts data spare, Forall small_type ts -> bytes_ok data -> zlen data < 2 ^ 52 ->
  unpack_args ts data spare <> Crash /\ (forall spare', unpack_args ts data spare = unpack_args ts data spare').
Proof.
  intros ts data spare F B L. split.
  - apply unpack_no_crash; try assumption. lia.
  - intros spare'. apply unpack_spare; try assumption. lia.
Qed.
(** What unpacking returns are values of the types asked for, as many as asked for. *)
Theorem abi_unpack_typed_partial : forall ts data spare vs, Forall exact_type ts -> bytes_ok data -> bytes_ok spare ->
  unpack_args ts data spare = Ok vs -> Forall2 typed ts vs.
Proof. intros ts data spare vs F B BS E. apply (unpack_typed data spare B BS ts 0 vs F); [lia|exact E]. Qed.
(** The length of an unpacked slice is bounded by the bytes given, whatever they claim. *)
Theorem abi_slice_bounded : forall b data spare vs, bytes_ok data -> zlen data < 2 ^ 52 ->
  unpack_args [Slice b] data spare = Ok vs ->
  exists v n, vs = [v] /\ go_len v = Some n /\ 32 * n <= zlen data.
Proof.
  intros b data spare vs B L E. unfold unpack_args in E. cbn [unpack_from] in E. apply bind_ok in E. destruct E as [v [E F]].
  cbn [bind] in F. injection F as <-. destruct (slice_bounded 0 b data spare v B L E) as [n [G H]]. eauto.
Qed.
(** Strings come out as a piece of the input. *)
Theorem abi_string_inside : forall data spare v, bytes_ok data -> unpack_args [Base TString] data spare = Ok [v] ->
  exists a s b, data = a ++ s ++ b /\ v = VString s.
Proof.
  intros data spare v B E. unfold unpack_args in E. cbn [unpack_from] in E. apply bind_ok in E. destruct E as [x [E F]].
  cbn [bind] in F. injection F as <-. cbn [to_go] in E. unfold to_go_base in E. destruct (zlen data <? 0 + 32); [discriminate|].
  apply bind_ok in E. destruct E as [[o n] [E F]]. injection F as <-. pose proof (prefix_range 0 data o n B E) as R.
  exists (firstn (Z.to_nat o) data), (sub data o n), (skipn (Z.to_nat n) (skipn (Z.to_nat o) data)). split; [|reflexivity].
  unfold sub. rewrite firstn_skipn, firstn_skipn. reflexivity.
Qed.

(** Packing leaves numbers of the right range as they are in the caller's hands. *)
Theorem abi_pack_leaves_arguments : forall n z, value_of (TUint n) (VBig z) -> after_packing (VBig z) = VBig z.
Proof.
  intros n z [N [[_ [x [E _]]]|[_ [x [E R]]]]]; [discriminate|]. injection E as ->. cbn [after_packing].
  rewrite Z.mod_small; [reflexivity|]. pose proof (pow_word n ltac:(lia)). lia.
Qed.

(** * Where the full statement fails *)
(** Strings inside lists: the elements are packed in line but read through offsets. *)
Theorem string_list_round_trip_refuted : exists v d, typed (Slice TString) v /\
  pack_args [Slice TString] [v] = Ok d /\ unpack_args [Slice TString] d [] <> Ok [v].
Proof.
  exists (VSlice KString [VString [97]; VString [98; 99]]). eexists. split; [|split; [vm_compute; reflexivity|vm_compute; discriminate]].
  exists [VString [97]; VString [98; 99]]. split.
  - repeat (apply Forall_cons || apply Forall_nil); eexists; (split; [reflexivity|]); repeat (apply Forall_cons || apply Forall_nil); unfold is_byte; lia.
  - right. split; [discriminate|reflexivity].
Qed.
(** Negative numbers of type int256 come back as numbers near 2^256. *)
Theorem negative_round_trip_refuted : exists v d, typed (Base (TInt 256)) v /\
  pack_args [Base (TInt 256)] [v] = Ok d /\ unpack_args [Base (TInt 256)] d [] = Ok [VBig (two256 - 1)] /\ v = VBig (-1).
Proof.
  exists (VBig (-1)). eexists. split; [|split; [vm_compute; reflexivity|split; [vm_compute; reflexivity|reflexivity]]].
  split; [lia|]. right. split; [unfold native; lia|]. exists (-1). split; [reflexivity|]. change (2 ^ (256 - 1)) with (2 ^ 255). lia.
Qed.
(** Packing a negative number changes the caller's own variable. *)
Theorem pack_changes_argument_refuted : exists z, typed (Base (TInt 256)) (VBig z) /\ after_packing (VBig z) <> VBig z.
Proof.
  exists (-1). split; [|vm_compute; discriminate]. split; [lia|]. right. split; [unfold native; lia|]. exists (-1). split; [reflexivity|].
  change (2 ^ (256 - 1)) with (2 ^ 255). lia.
Qed.
(** Numbers outside the type are packed without an error: 2^256 becomes 0, and 2^24 passes as
    uint24 and is read back as such. *)
Theorem number_range_unchecked_refuted :
  (exists z, ~ value_of (TUint 256) (VBig z) /\ pack_args [Base (TUint 256)] [VBig z] = pack_args [Base (TUint 256)] [VBig 0]) /\
  (exists z d, ~ value_of (TUint 24) (VBig z) /\ pack_args [Base (TUint 24)] [VBig z] = Ok d /\
     unpack_args [Base (TUint 24)] d [] = Ok [VBig z]).
Proof.
  split.
  - exists (2 ^ 256). split; [|vm_compute; reflexivity]. intros [_ [[_ [z [E _]]]|[_ [z [E R]]]]]; [discriminate|]. injection E as <-. lia.
  - exists (2 ^ 24). eexists. split; [|split; [vm_compute; reflexivity|vm_compute; reflexivity]].
    intros [_ [[_ [z [E _]]]|[_ [z [E R]]]]]; [discriminate|]. injection E as <-. lia.
Qed.
(** bytes33 is accepted as a type; unpacking it panics, or reads memory behind the input. *)
Theorem long_fixed_bytes_refuted :
  new_type (s_ "bytes33") = Ok (Base (TFixed 33)) /\
  unpack_args [Base (TFixed 33)] (zeros 32) [] = Crash /\
  (exists vs, unpack_args [Base (TFixed 33)] (zeros 32) [7] = Ok vs /\ unpack_args [Base (TFixed 33)] (zeros 32) [8] <> Ok vs).
Proof.
  split; [vm_compute; reflexivity|]. split; [vm_compute; reflexivity|]. eexists. split; [vm_compute; reflexivity|vm_compute; discriminate].
Qed.
(** So is an array of 2^58 items: the range check overflows and the allocation fails. *)
Theorem huge_array_refuted :
  new_type (s_ "uint8[288230376151711744]") = Ok (Array (2 ^ 58) (TUint 8)) /\
  unpack_args [Array (2 ^ 58) (TUint 8)] (zeros 32) [] = Crash.
Proof. split; vm_compute; reflexivity. Qed.
(** An address argument of the wrong length shifts what follows it. *)
Theorem address_length_unchecked_refuted : exists d vs,
  pack_args [Base TAddress; Base (TUint 8)] [VBytes (repeat 1 40); VNum false 8 5] = Ok d /\
  unpack_args [Base TAddress; Base (TUint 8)] d [] = Ok vs /\ nth 1 vs (VBool true) = VNum false 8 0.
Proof. eexists. eexists. split; [vm_compute; reflexivity|]. split; vm_compute; reflexivity. Qed.
(** Padding is not checked: different bytes are read as the same address. *)
Theorem padding_ignored_refuted : exists d d' vs, d <> d' /\ zlen d = zlen d' /\
  unpack_args [Base TAddress] d [] = Ok vs /\ unpack_args [Base TAddress] d' [] = Ok vs.
Proof.
  exists (zeros 32), (1 :: zeros 31). eexists. split; [discriminate|]. split; [reflexivity|]. split; vm_compute; reflexivity.
Qed.

(** * Method calls *)
(** A call packed for a method is unpacked to its arguments, whatever the order in which the
    maps of methods are visited, if no two methods share an id. *)
Theorem method_call_round_trip_partial : forall ms ms' m vs, In m ms -> Permutation ms ms' ->
  NoDup (map m_name ms) -> NoDup (map m_id ms) -> zlen (m_id m) = 4 -> m_inputs m <> [] -> Forall2 good (m_inputs m) vs ->
  exists d, pack_method ms (m_name m) vs = Ok d /\
    forall spare, zlen d < 2 ^ 52 -> unpack_method ms' (m_name m) d spare = Ok vs.
Proof.
  intros ms ms' m vs I P N1 N2 L4 NE F. destruct (abi_round_trip_partial _ _ F) as [d [E R]]. exists (m_id m ++ d). split.
  - unfold pack_method, by_name. rewrite (find_key m_name ms m I N1). rewrite E. reflexivity.
  - intros spare LD. unfold unpack_method, by_id. pose proof (pack_args_len _ _ _ F E). pose proof (heads_pos _ _ F NE).
    rewrite zlen_app in *. destruct (Z.leb_spec (zlen (m_id m) + zlen d) 4); [lia|].
    destruct (first4 (m_id m) d L4) as [-> ->].
    rewrite (find_key m_id ms' m); [|apply (Permutation_in m P I)|apply (Permutation_NoDup (Permutation_map m_id P) N2)].
    rewrite zlist_eqb_refl. specialize (R [] spare). rewrite app_nil_r in R. apply R. lia.
Qed.
(** A call of one method is not accepted as a call of another. *)
Theorem other_method_rejected : forall ms m m' vs d spare, In m ms -> NoDup (map m_name ms) -> NoDup (map m_id ms) ->
  zlen (m_id m) = 4 -> m_name m <> m_name m' -> pack_method ms (m_name m) vs = Ok d ->
  unpack_method ms (m_name m') d spare = Err.
Proof.
  intros ms m m' vs d spare I N1 N2 L4 NE E. unfold pack_method, by_name in E. rewrite (find_key m_name ms m I N1) in E.
  apply bind_ok in E. destruct E as [x [_ E]]. injection E as <-. unfold unpack_method, by_id.
  destruct (zlen (m_id m ++ x) <=? 4); [reflexivity|]. destruct (first4 (m_id m) x L4) as [-> _].
  rewrite (find_key m_id ms m I N2). rewrite (proj2 (zlist_eqb_neq _ _) NE). reflexivity.
Qed.
(** A method without arguments: its call cannot be unpacked. *)
Theorem call_without_arguments_refuted : forall ms m, In m ms -> NoDup (map m_name ms) -> zlen (m_id m) = 4 -> m_inputs m = [] ->
  exists d, pack_method ms (m_name m) [] = Ok d /\ forall spare, unpack_method ms (m_name m) d spare = Err.
Proof.
  intros ms m I N L4 E. exists (m_id m). split.
  - unfold pack_method, by_name. rewrite (find_key m_name ms m I N), E. cbn [bind pack_args pack_loop]. unfold pack_args. cbn. rewrite app_nil_r. reflexivity.
  - intros spare. unfold unpack_method. rewrite L4. reflexivity.
Qed.
(** With two methods of the same id the outcome depends on the order of the map. *)
Theorem method_id_collision_refuted : exists ms ms' m vs d, In m ms /\ Permutation ms ms' /\ NoDup (map m_name ms) /\
  pack_method ms (m_name m) vs = Ok d /\ unpack_method ms (m_name m) d [] = Ok vs /\ unpack_method ms' (m_name m) d [] = Err.
Proof.
  set (a := Meth [97] [1; 2; 3; 4] [Base TBool]). set (b := Meth [98] [1; 2; 3; 4] [Base TBool]).
  exists [a; b], [b; a], a, [VBool true]. eexists. split; [left; reflexivity|]. split; [apply perm_swap|].
  split; [repeat constructor; cbn; intuition discriminate|]. split; [vm_compute; reflexivity|]. split; vm_compute; reflexivity.
Qed.

(** * Events *)
(** An event packed and read back: values that are not indexed and indexed values of one word
    come back; for the others the topic itself is returned, which is the packed value if that
    has one word and its hash otherwise. *)
Theorem event_round_trip : forall H e vs, Forall2 good (map fst (e_inputs e)) vs ->
  exists tops d, event_pack H e vs = Ok (tops, d) /\ hd_error tops = Some (e_id e) /\
    forall spare, zlen d < 2 ^ 52 -> exists rs, event_unpack e tops d spare = Ok rs /\ length rs = length vs /\
      Forall (fun x => shown H (fst (fst x)) (snd (fst x)) (snd x)) (combine (combine (e_inputs e) vs) rs).
Proof.
  intros H e vs F. destruct (loop_event H (e_inputs e) vs F) as [tops [rest [E [G [rs [EA [SH LR]]]]]]].
  assert (LL : zlen vs = zlen (e_inputs e)).
  { rewrite <- (forall2_len _ _ _ F). unfold zlen. rewrite map_length. reflexivity. }
  unfold event_pack. rewrite LL, Z.eqb_refl. cbn [negb]. rewrite E. cbn [bind].
  assert (LV : length rs = length vs) by (unfold zlen in LL; lia).
  destruct rest as [|v rest].
  - exists (e_id e :: tops), []. split; [reflexivity|]. split; [reflexivity|]. intros spare _. exists rs.
    unfold event_unpack, plain_inputs. inversion G. cbn [tl unpack_args unpack_from bind]. auto.
  - destruct (abi_round_trip_partial _ _ G) as [d [ED R]]. unfold plain_inputs. rewrite ED. cbn [bind].
    exists (e_id e :: tops), d. split; [reflexivity|]. split; [reflexivity|]. intros spare LD. exists rs.
    unfold event_unpack, plain_inputs. specialize (R [] spare). rewrite app_nil_r in R. rewrite (R LD). cbn [bind tl]. auto.
Qed.
(** Reading a log with too few topics panics. *)
Theorem missing_topic_refuted : exists e, Forall small_type (map fst (e_inputs e)) /\
  unpack_event [e] [e_id e] [] [] = Crash.
Proof. exists (Event [101] [1] [(Base TBool, true)]). split; [repeat constructor|vm_compute; reflexivity]. Qed.
(** With all its topics present no log panics. *)
Theorem event_unpack_safe : forall e topics data spare, Forall small_type (map fst (e_inputs e)) ->
  bytes_ok data -> zlen data < 2 ^ 52 -> Forall (fun t => bytes_ok t /\ zlen t = 32) topics ->
  zlen (filter snd (e_inputs e)) < zlen topics ->
  event_unpack e topics data spare <> Crash.
Proof.
  intros e topics data spare F B L T N C. unfold event_unpack in C. apply bind_crash in C. destruct C as [C|[plain [E C]]].
  - revert C. apply unpack_no_crash; try assumption; [|lia]. unfold plain_inputs.
    apply Forall_forall. intros t I. apply in_map_iff in I. destruct I as [x [<- I]]. apply filter_In in I. destruct I as [I _].
    apply (proj1 (Forall_forall _ _) F). apply in_map, I.
  - assert (LP : length plain = length (filter (fun x => negb (snd x)) (e_inputs e))).
    { unfold unpack_args, plain_inputs in E. clear -E. revert E. generalize 0.
      replace (length (filter (fun x : ty * bool => negb (snd x)) (e_inputs e))) with (length (map fst (filter (fun x : ty * bool => negb (snd x)) (e_inputs e)))) by apply map_length.
      generalize (map fst (filter (fun x : ty * bool => negb (snd x)) (e_inputs e))). intros ts. revert plain.
      induction ts as [|t ts IH]; intros plain p E; cbn [unpack_from] in E; [injection E as <-; reflexivity|].
      apply bind_ok in E. destruct E as [v [_ E]]. apply bind_ok in E. destruct E as [r [E G]]. injection G as <-. cbn. f_equal. eauto. }
    destruct topics as [|t0 topics]; [rewrite zlen_nil in N; pose proof (zlen_nonneg (filter snd (e_inputs e))); lia|].
    rewrite zlen_cons in N. inversion T as [|? ? _ T']; subst. cbn [tl] in C.
    assert (N' : (length (filter snd (e_inputs e)) <= length topics)%nat) by (unfold zlen in N; lia).
    clear -F T' LP N' C. revert topics plain T' LP N' C. induction (e_inputs e) as [|[t i] ins IH]; intros topics plain T LP N C; [discriminate|].
    cbn [map] in F. inversion F as [|? ? F1 F2]; subst. cbn [event_args filter snd negb] in *. destruct i.
    + destruct topics as [|x topics]; [cbn in N; lia|]. inversion T as [|? ? [TB TL] T2]; subst. cbn [length] in N.
      apply bind_crash in C. destruct C as [C|[v [_ C]]].
      * destruct (opaque_topic t); [discriminate|]. revert C. apply to_go_no_crash; [exact F1|lia|exact TB|]. rewrite TL. reflexivity.
      * apply bind_crash in C. destruct C as [C|[r [_ C]]]; [|discriminate]. apply (IH F2 topics plain T2); [exact LP|lia|exact C].
    + destruct plain as [|v plain]; [cbn in LP; lia|]. cbn [length negb] in LP.
      apply bind_crash in C. destruct C as [C|[r [_ C]]]; [|discriminate]. apply (IH F2 topics plain T); [cbn in LP; lia|exact N|exact C].
Qed.

(** * Type names *)
(** uintN, intN and bytesN name the types of that size, for every decimal N. *)
Theorem numbered_types : forall ds n, digits ds -> number ds = n -> 0 < n < 2 ^ 63 ->
  new_type (s_ "uint" ++ ds) = Ok (Base (TUint n)) /\ new_type (s_ "int" ++ ds) = Ok (Base (TInt n)) /\
  new_type (s_ "bytes" ++ ds) = Ok (Base (TFixed n)).
Proof.
  intros ds n D E R.
  assert (LT : forall w, letters w -> type_word (w ++ ds)) by (intros w W; exists w, ds; split; [reflexivity|split; [exact W|exact (proj2 D)]]).
  assert (L1 : letters (s_ "uint")) by (split; [discriminate|]; cbn; repeat (apply Forall_cons || apply Forall_nil); reflexivity).
  assert (L2 : letters (s_ "int")) by (split; [discriminate|]; cbn; repeat (apply Forall_cons || apply Forall_nil); reflexivity).
  assert (L3 : letters (s_ "bytes")) by (split; [discriminate|]; cbn; repeat (apply Forall_cons || apply Forall_nil); reflexivity).
  rewrite !new_type_word by auto. rewrite !(new_base_sized _ ds n) by assumption. repeat split.
Qed.
(** The names without a size. *)
Theorem named_types :
  new_type (s_ "bool") = Ok (Base TBool) /\ new_type (s_ "string") = Ok (Base TString) /\
  new_type (s_ "address") = Ok (Base TAddress) /\ new_type (s_ "gid") = Ok (Base TGid) /\
  new_type (s_ "tokenId") = Ok (Base TToken) /\ new_type (s_ "bytes") = Ok (Base TBytes) /\
  new_type (s_ "uint") = Err /\ new_type (s_ "int") = Err /\ new_type (s_ "uint8[2][3]") = Err.
Proof. repeat split; vm_compute; reflexivity. Qed.
(** Name[] is the slice, Name[N] the array of N items of the type called Name. *)
Theorem list_types : forall w b, type_word w -> new_type w = Ok (Base b) ->
  new_type (w ++ [91; 93]) = Ok (Slice b) /\
  forall ds n, digits ds -> number ds = n -> 0 < n < 2 ^ 63 -> new_type (w ++ 91 :: ds ++ [93]) = Ok (Array n b).
Proof.
  intros w b W E. rewrite (new_type_word w W) in E. apply bind_ok in E. destruct E as [b' [E F]]. injection F as ->. split.
  - rewrite (new_type_slice w W), E. reflexivity.
  - intros ds n D V R. rewrite (new_type_array w ds n W D V R), E. reflexivity.
Qed.
(** A name without a letter panics instead of giving an error; anything after a type name is
    ignored. *)
Theorem nameless_type_refuted : new_type [] = Crash /\ new_type (s_ "[]") = Crash.
Proof. split; vm_compute; reflexivity. Qed.
Theorem type_suffix_ignored_refuted : exists a b, a <> b /\ new_type a = Ok (Base (TUint 8)) /\ new_type b = Ok (Base (TUint 8)).
Proof. exists (s_ "uint8"), (s_ "uint8!"). split; [discriminate|]. split; vm_compute; reflexivity. Qed.

(** * A call of the kind the exchange uses: token, side, price text, amount, list of ids. *)
Definition eg_ts : list ty := [Base TToken; Base TBool; Base TString; Base (TUint 256); Slice (TUint 64); Array 2 TAddress; Base (TFixed 4); Base (TInt 32)].
Definition eg_vs : list val :=
  [VByteArr (repeat 7 10); VBool true; VString [49; 46; 53]; VBig (10 ^ 18); VSlice (KNum false 64) [VNum false 64 9; VNum false 64 (2 ^ 64 - 1)];
   VArray KArray [VByteArr (repeat 1 21); VByteArr (repeat 2 21)]; VByteArr [1; 2; 3; 4]; VNum true 32 (-5)].
Example eg_good : Forall2 good eg_ts eg_vs.
Proof.
  unfold eg_ts, eg_vs.
  repeat match goal with |- Forall2 _ (_ :: _) (_ :: _) => apply Forall2_cons | |- Forall2 _ [] [] => apply Forall2_nil end;
    (split; [cbn [typed]|split; cbn [plain_type plain_base plain_value not_negative];
      [first [exact I|lia|split; [exact I|split; discriminate]]
      |first [exact I|lia|apply Forall_cons; [exact I|apply Forall_cons; [exact I|apply Forall_nil]]]]]).
  - eexists. split; [reflexivity|]. split; [|reflexivity]. apply Forall_forall. intros x X. apply repeat_spec in X. subst. unfold is_byte. lia.
  - eexists. reflexivity.
  - eexists. split; [reflexivity|]. repeat (apply Forall_cons || apply Forall_nil); unfold is_byte; lia.
  - split; [lia|]. right. split; [unfold native; lia|]. eexists. split; [reflexivity|]. split; [lia|reflexivity].
  - eexists. split; [|right; split; [discriminate|reflexivity]]. repeat (apply Forall_cons || apply Forall_nil);
      (split; [lia|]; left; split; [unfold native; lia|]; eexists; split; [reflexivity|]; lia).
  - split; [lia|]. eexists. split; [|split; [|right; split; [discriminate|reflexivity]]]; [reflexivity|].
    repeat (apply Forall_cons || apply Forall_nil); (eexists; split; [reflexivity|]; split; [|reflexivity]);
      apply Forall_forall; intros x X; apply repeat_spec in X; subst; unfold is_byte; lia.
  - split; [lia|]. eexists. split; [reflexivity|]. split; [|reflexivity]. repeat (apply Forall_cons || apply Forall_nil); unfold is_byte; lia.
  - split; [lia|]. left. split; [unfold native; lia|]. eexists. split; [reflexivity|]. cbn. lia.
Qed.
Example eg_trip : exists d, pack_args eg_ts eg_vs = Ok d /\ zlen d = 448 /\ unpack_args eg_ts d [] = Ok eg_vs.
Proof. eexists. split; [vm_compute; reflexivity|]. split; vm_compute; reflexivity. Qed.
Example eg_lies : unpack_args [Base TString] (zeros 31 ++ [32] ++ repeat 255 32) [] = Err.
Proof. vm_compute. reflexivity. Qed.
Example eg_exact : Forall exact_type eg_ts.
Proof. unfold eg_ts. repeat (apply Forall_cons || apply Forall_nil); cbn; unfold native; lia. Qed.
Example eg_digits : digits (s_ "256") /\ number (s_ "256") = 256.
Proof. split; [split; [discriminate|]; cbn; repeat (apply Forall_cons || apply Forall_nil); reflexivity|reflexivity]. Qed.
Example eg_event : event_pack (fun _ => zeros 32) (Event [101] [1] [(Base TAddress, true); (Base TString, true); (Base (TUint 256), false)])
    [VByteArr (repeat 3 21); VString [65]; VBig 5] =
  Ok ([[1]; zeros 11 ++ repeat 3 21; zeros 32], zeros 31 ++ [5]).
Proof. vm_compute. reflexivity. Qed.

Print Assumptions abi_round_trip_partial.
Print Assumptions abi_pack_injective.
Print Assumptions abi_unpack_safe_partial.
Print Assumptions abi_unpack_typed_partial.
Print Assumptions abi_slice_bounded.
Print Assumptions abi_string_inside.
Print Assumptions abi_pack_leaves_arguments.
Print Assumptions string_list_round_trip_refuted.
Print Assumptions negative_round_trip_refuted.
Print Assumptions pack_changes_argument_refuted.
Print Assumptions number_range_unchecked_refuted.
Print Assumptions long_fixed_bytes_refuted.
Print Assumptions huge_array_refuted.
Print Assumptions address_length_unchecked_refuted.
Print Assumptions padding_ignored_refuted.
Print Assumptions method_call_round_trip_partial.
Print Assumptions other_method_rejected.
Print Assumptions call_without_arguments_refuted.
Print Assumptions method_id_collision_refuted.
Print Assumptions event_round_trip.
Print Assumptions missing_topic_refuted.
Print Assumptions event_unpack_safe.
Print Assumptions numbered_types.
Print Assumptions named_types.
Print Assumptions list_types.
Print Assumptions nameless_type_refuted.
Print Assumptions type_suffix_ignored_refuted.
