From Coq Require Import String ZArith List Bool Lia.
From Verif Require Import Lib WireModel TextModel SchedModel AbiModel AbiSpec WireProofs AbiProofs AbiProofs2 AbiProofs3.
Import ListNotations.
Open Scope Z_scope.
Local Opaque two256 word.

(** * Method calls *)
Lemma find_key {A} (key : A -> list Z) (ms : list A) m : In m ms -> NoDup (map key ms) ->
  find (fun x => zlist_eqb (key x) (key m)) ms = Some m.
Proof.
  induction ms as [|a ms IH]; intros I N; [destruct I|]. cbn [find]. inversion N as [|? ? N1 N2]; subst.
  destruct I as [->|I]; [rewrite zlist_eqb_refl; reflexivity|].
  destruct (zlist_eqb (key a) (key m)) eqn:E; [|apply IH; assumption].
  apply zlist_eqb_eq in E. exfalso. apply N1. rewrite E. apply in_map, I.
Qed.
Lemma pack_args_len ts vs d : Forall2 good ts vs -> pack_args ts vs = Ok d -> heads ts <= zlen d.
Proof.
  intros F E. destruct (loop_ok ts vs F (heads ts) [] []) as [H [T [E1 [L _]]]].
  unfold pack_args in E. rewrite (forall2_len _ _ _ F), Z.eqb_refl, E1 in E. injection E as <-.
  cbn [app]. rewrite zlen_app. pose proof (zlen_nonneg T). lia.
Qed.
Lemma head_pos t v : good t v -> 32 <= head_size t.
Proof. intros [T _]. destruct t; cbn [head_size typed] in *; lia. Qed.
Lemma heads_pos ts vs : Forall2 good ts vs -> ts <> [] -> 32 <= heads ts.
Proof.
  intros F. induction F as [|t v ts vs G F IH]; intros N; [congruence|]. cbn [heads]. pose proof (head_pos t v G).
  destruct ts as [|t' ts]; [cbn; lia|]. specialize (IH ltac:(discriminate)). lia.
Qed.
Lemma first4 (id d : list Z) : zlen id = 4 -> firstn 4 (id ++ d) = id /\ skipn 4 (id ++ d) = d.
Proof.
  intros L. assert (E : length id = 4%nat) by (unfold zlen in L; lia). split.
  - rewrite <- E at 1. rewrite firstn_app, firstn_all, Nat.sub_diag. cbn [firstn]. apply app_nil_r.
  - rewrite <- E at 1. rewrite skipn_app, skipn_all, Nat.sub_diag. reflexivity.
Qed.

(** * Events *)
Section Ev.
Context (H : list Z -> list Z).
Definition topic (p : list Z) : list Z := if zlen p <=? 32 then left_pad 32 p else H p.
(** What reading an event gives for one input. *)
Definition shown (i : ty * bool) (v r : val) : Prop :=
  if snd i && opaque_topic (fst i) then exists p, pack (fst i) v = Ok p /\ r = VByteArr (topic p) else r = v.
Lemma static_topic t v p : good t v -> opaque_topic t = false -> pack t v = Ok p ->
  zlen p = 32 /\ to_go 0 t p [] = Ok v.
Proof.
  intros G O E. destruct (argument_ok t v G) as [x [E1 [L R]]]. rewrite E in E1. injection E1 as <-.
  destruct t as [b| |]; try discriminate. cbn [opaque_topic] in O. cbn [needs_length head_size] in L, R. rewrite O in L, R.
  specialize (L eq_refl). split; [exact L|]. apply R; [rewrite L; reflexivity|]. exists [], []. rewrite app_nil_r. auto.
Qed.
Lemma loop_event ins vs : Forall2 good (map fst ins) vs ->
  exists tops rest, event_loop H ins vs = Ok (tops, rest) /\
    Forall2 good (map fst (filter (fun x => negb (snd x)) ins)) rest /\
    exists rs, event_args ins tops rest = Ok rs /\
      Forall (fun x => shown (fst (fst x)) (snd (fst x)) (snd x)) (combine (combine ins vs) rs) /\ length rs = length ins.
Proof.
  revert vs. induction ins as [|[t i] ins IH]; intros vs F; cbn [map] in F; inversion F as [|? v ? vs' G F']; subst.
  - exists [], []. split; [reflexivity|]. split; [constructor|]. exists []. split; [reflexivity|]. split; [constructor|reflexivity].
  - destruct (IH vs' F') as [tops [rest [E [GR [rs [EA [SH LR]]]]]]]. cbn [event_loop filter snd].
    cbn [fst] in G. destruct i; cbn [negb].
    + destruct (argument_ok t v G) as [p [EP _]]. rewrite EP. cbn [bind]. rewrite E. cbn [bind].
      exists (topic p :: tops), rest. split; [reflexivity|]. split; [exact GR|].
      destruct (opaque_topic t) eqn:O.
      * exists (VByteArr (topic p) :: rs). cbn [event_args]. rewrite O. cbn [bind]. rewrite EA. split; [reflexivity|].
        split; [|cbn; lia]. cbn [combine]. constructor; [|exact SH]. unfold shown. cbn [fst snd andb]. rewrite O. eauto.
      * exists (v :: rs). destruct (static_topic t v p G O EP) as [L R]. cbn [event_args]. rewrite O.
        assert (TP : topic p = p).
        { unfold topic. rewrite L. cbn. unfold left_pad. rewrite L. reflexivity. }
        rewrite TP, R. cbn [bind]. rewrite EA. split; [reflexivity|]. split; [|cbn; lia].
        cbn [combine]. constructor; [|exact SH]. unfold shown. cbn [fst snd]. rewrite O, andb_false_r. reflexivity.
    + rewrite E. cbn [bind]. exists tops, (v :: rest). split; [reflexivity|]. split; [cbn [map fst]; constructor; assumption|].
      exists (v :: rs). cbn [event_args]. rewrite EA. split; [reflexivity|]. split; [|cbn; lia].
      cbn [combine]. constructor; [|exact SH]. unfold shown. reflexivity.
Qed.
End Ev.

(** * Type names *)
Lemma take_app p a b : Forall (fun c => p c = true) a -> (match b with c :: _ => p c = false | [] => True end) ->
  take_while p (a ++ b) = a /\ drop_while p (a ++ b) = b.
Proof.
  induction a as [|x a IH]; intros F B.
  - cbn [app]. destruct b as [|c b]; [split; reflexivity|]. cbn [take_while drop_while]. rewrite B. split; reflexivity.
  - inversion F as [|? ? F1 F2]; subst. cbn [app take_while drop_while]. rewrite F1. destruct (IH F2 B) as [-> ->]. split; reflexivity.
Qed.
Definition digits (ds : list Z) : Prop := ds <> [] /\ Forall (fun c => digit c = true) ds.
Definition letters (l : list Z) : Prop := l <> [] /\ Forall (fun c => letter c = true) l.
Definition number (ds : list Z) : Z := fold_left (fun a c => a * 10 + (c - 48)) ds 0.
Lemma digit_not_letter c : digit c = true -> letter c = false.
Proof.
  unfold digit, letter. intros H. apply andb_prop in H. destruct H as [A B]. apply Z.leb_le in A, B.
  destruct (Z.leb_spec 65 c); [lia|]. destruct (Z.leb_spec 97 c); [lia|]. reflexivity.
Qed.
Lemma letter_no_bracket c : letter c = true -> (91 =? c) = false /\ (93 =? c) = false.
Proof.
  unfold letter. intros H. split; apply Z.eqb_neq; intros <-; cbn in H; discriminate.
Qed.
Lemma digit_no_bracket c : digit c = true -> (91 =? c) = false /\ (93 =? c) = false.
Proof. unfold digit. intros H. split; apply Z.eqb_neq; intros <-; cbn in H; discriminate. Qed.
Lemma first_match_ok name ds : letters name -> Forall (fun c => digit c = true) ds ->
  first_match (name ++ ds) = Some (name, ds).
Proof.
  intros [N L] D. unfold first_match. destruct name as [|c name]; [congruence|].
  inversion L as [|? ? L1 L2]; subst. cbn [app drop_while]. rewrite L1. cbn [negb].
  assert (X : match ds with c :: _ => letter c = false | [] => True end)
    by (destruct ds; [exact I|]; inversion D; subst; apply digit_not_letter; assumption).
  change (c :: name ++ ds) with ((c :: name) ++ ds). destruct (take_app letter (c :: name) ds L X) as [-> ->].
  pose proof (take_app digit ds [] D I) as [T _]. rewrite app_nil_r in T. rewrite T. reflexivity.
Qed.
Lemma count_app c a b : count_char c (a ++ b) = count_char c a + count_char c b.
Proof. unfold count_char. rewrite filter_app. apply zlen_app. Qed.
Lemma count_none c l : Forall (fun x => (c =? x) = false) l -> count_char c l = 0.
Proof.
  unfold count_char. induction 1 as [|x l X F IH]; [reflexivity|]. cbn [filter]. rewrite X. exact IH.
Qed.
(** Names: letters, possibly followed by digits. *)
Definition type_word (w : list Z) : Prop := exists a d, w = a ++ d /\ letters a /\ Forall (fun c => digit c = true) d.
Lemma word_no_brackets w : type_word w -> count_char 91 w = 0 /\ count_char 93 w = 0 /\ Forall (fun c => negb (c =? 91) = true) w.
Proof.
  intros [a [d [-> [[_ A] D]]]]. 
  assert (F : Forall (fun c => (91 =? c) = false /\ (93 =? c) = false) (a ++ d)).
  { apply Forall_app. split; [eapply Forall_impl; [|exact A]; apply letter_no_bracket|eapply Forall_impl; [|exact D]; apply digit_no_bracket]. }
  split; [apply count_none; eapply Forall_impl; [|exact F]; intros ? [? ?]; assumption|].
  split; [apply count_none; eapply Forall_impl; [|exact F]; intros ? [? ?]; assumption|].
  eapply Forall_impl; [|exact F]. intros c [X _]. rewrite Z.eqb_sym, X. reflexivity.
Qed.
Lemma eqb_long w x : zlen w <> zlen x -> zlist_eqb w x = false.
Proof. intros N. apply zlist_eqb_neq. intros ->. contradiction. Qed.
Lemma new_type_word w : type_word w -> new_type w = bind (new_base w) (fun b => Ok (Base b)).
Proof.
  intros W. destruct (word_no_brackets w W) as [A [B _]]. unfold new_type. rewrite A, B. cbn [Z.eqb negb orb Z.ltb Z.compare].
  unfold new_base. destruct (zlist_eqb w (s_ "uint") || zlist_eqb w (s_ "int")); reflexivity.
Qed.
Lemma bracket_not_plain w r : zlist_eqb (w ++ 91 :: r) (s_ "uint") || zlist_eqb (w ++ 91 :: r) (s_ "int") = false.
Proof.
  apply orb_false_iff. split; apply zlist_eqb_neq; intros E;
    assert (I : In 91 (w ++ 91 :: r)) by (apply in_or_app; right; left; reflexivity); rewrite E in I; cbn in I; lia.
Qed.
Lemma runs_none f : digit_runs f [91; 93] = [].
Proof. destruct f; reflexivity. Qed.
Lemma new_type_slice w : type_word w -> new_type (w ++ [91; 93]) = bind (new_base w) (fun b => Ok (Slice b)).
Proof.
  intros W. destruct (word_no_brackets w W) as [A [B F]]. unfold new_type. rewrite bracket_not_plain.
  rewrite !count_app, A, B. change (count_char 91 [91; 93]) with 1. change (count_char 93 [91; 93]) with 1. cbn [Z.add Z.eqb negb orb Z.ltb Z.compare Pos.eqb].
  change (1 <? 1) with false. cbn [orb].
  destruct (take_app (fun c => negb (c =? 91)) w [91; 93] F eq_refl) as [-> ->].
  rewrite B. cbn [Z.eqb negb]. rewrite runs_none. reflexivity.
Qed.
Lemma runs_step g c r : digit c = true ->
  digit_runs (S g) (91 :: c :: r) = take_while digit (c :: r) :: digit_runs g (drop_while digit (c :: r)).
Proof.
  intros D. change (digit_runs (S g) (91 :: c :: r)) with
    (match drop_while (fun c => negb (digit c)) (91 :: c :: r) with [] => [] | x => take_while digit x :: digit_runs g (drop_while digit x) end).
  assert (E : drop_while (fun c => negb (digit c)) (91 :: c :: r) = c :: r).
  { cbn [drop_while]. change (digit 91) with false. cbn [negb]. rewrite D. reflexivity. }
  rewrite E. reflexivity.
Qed.
Lemma runs_one ds : digits ds -> forall f, digit_runs (S (S f)) (91 :: ds ++ [93]) = [ds].
Proof.
  intros [N D] f. destruct ds as [|c ds]; [congruence|]. cbn [app]. rewrite runs_step by (inversion D; assumption).
  change (c :: ds ++ [93]) with ((c :: ds) ++ [93]). destruct (take_app digit (c :: ds) [93] D eq_refl) as [-> ->]. reflexivity.
Qed.
Lemma new_type_array w ds n : type_word w -> digits ds -> number ds = n -> 0 < n < 2 ^ 63 ->
  new_type (w ++ 91 :: ds ++ [93]) = bind (new_base w) (fun b => Ok (Array n b)).
Proof.
  intros W D E R. destruct (word_no_brackets w W) as [A [B F]]. unfold new_type. rewrite bracket_not_plain.
  assert (F' : Forall (fun c => (91 =? c) = false /\ (93 =? c) = false) ds) by (eapply Forall_impl; [|exact (proj2 D)]; apply digit_no_bracket).
  assert (C1 : count_char 91 (91 :: ds ++ [93]) = 1).
  { change (91 :: ds ++ [93]) with ([91] ++ ds ++ [93]). rewrite !count_app, (count_none 91 ds); [reflexivity|].
    eapply Forall_impl; [|exact F']; intros ? [? ?]; assumption. }
  assert (C2 : count_char 93 (91 :: ds ++ [93]) = 1).
  { change (91 :: ds ++ [93]) with ([91] ++ ds ++ [93]). rewrite !count_app, (count_none 93 ds); [reflexivity|].
    eapply Forall_impl; [|exact F']; intros ? [? ?]; assumption. }
  rewrite !count_app, A, B, C1, C2. cbn [Z.add]. change (1 =? 1) with true. change (1 <? 1) with false. change (1 =? 0) with false. cbn [negb orb].
  destruct (take_app (fun c => negb (c =? 91)) w (91 :: ds ++ [93]) F eq_refl) as [-> ->].
  rewrite B. change (negb (0 =? 0)) with false. cbv iota.
  assert (L : exists f, length (w ++ 91 :: ds ++ [93]) = S (S f)).
  { rewrite app_length. cbn [length]. rewrite app_length. cbn [length]. exists (length w + length ds)%nat. lia. }
  destruct L as [f ->]. rewrite (runs_one ds D). destruct (new_base w) as [b| |]; cbn [bind]; try reflexivity.
  unfold atoi. fold (number ds). rewrite E. destruct (Z.ltb_spec n (2 ^ 63)); [|lia]. destruct n; try lia. reflexivity.
Qed.
(** The numbered names. *)
Lemma new_base_sized name ds n : letters name -> digits ds -> number ds = n -> 0 < n < 2 ^ 63 ->
  new_base (name ++ ds) =
    if zlist_eqb name (s_ "int") then Ok (TInt n)
    else if zlist_eqb name (s_ "uint") then Ok (TUint n)
    else if zlist_eqb name (s_ "bool") then Ok TBool
    else if zlist_eqb name (s_ "address") then Ok TAddress
    else if zlist_eqb name (s_ "gid") then Ok TGid
    else if zlist_eqb name (s_ "tokenId") then Ok TToken
    else if zlist_eqb name (s_ "string") then Ok TString
    else if zlist_eqb name (s_ "bytes") then Ok (TFixed n)
    else Err.
Proof.
  intros N D E R. unfold new_base.
  assert (P : zlist_eqb (name ++ ds) (s_ "uint") || zlist_eqb (name ++ ds) (s_ "int") = false).
  { destruct D as [DN D]. destruct ds as [|c ds]; [congruence|]. inversion D as [|? ? D1 D2]; subst. unfold digit in D1.
    apply andb_prop in D1. destruct D1 as [D1 D3]. apply Z.leb_le in D1, D3.
    apply orb_false_iff. split; apply zlist_eqb_neq; intros Q;
      assert (I : In c (name ++ c :: ds)) by (apply in_or_app; right; left; reflexivity); rewrite Q in I; cbn in I; lia. }
  rewrite P, (first_match_ok name ds N (proj2 D)). destruct D as [DN D]. destruct ds as [|c ds]; [congruence|].
  unfold atoi. fold (number (c :: ds)). rewrite E. destruct (Z.ltb_spec n (2 ^ 63)); [|lia]. destruct n; try lia. reflexivity.
Qed.
