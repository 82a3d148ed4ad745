(** Maps, batches and what a list of blocks writes. *)
Require Import Coq.Lists.List Coq.ZArith.ZArith Coq.Bool.Bool Coq.micromega.Lia Coq.Sorting.Permutation.
Require Import Verif.Lib Verif.StateModel Verif.StateSpec.
Import ListNotations.
Local Open Scope Z_scope.

(** * Lists *)
Lemma newest_app {A B} (f : A -> option B) l m :
  newest_of f (l ++ m) = match newest_of f m with Some v => Some v | None => newest_of f l end.
Proof.
  unfold newest_of. rewrite fold_left_app. generalize (fold_left (fun acc x => match f x with Some v => Some v | None => acc end) l None). intro o.
  assert (G : forall m o, fold_left (fun acc x => match f x with Some v => Some v | None => acc end) m o
    = match fold_left (fun acc x => match f x with Some v => Some v | None => acc end) m None with Some v => Some v | None => o end).
  { clear. induction m as [|x r IH]; intro o; cbn [fold_left]; [reflexivity|]. rewrite IH. rewrite (IH (match f x with Some v => Some v | None => None end)).
    destruct (fold_left _ r None); [reflexivity|]. now destruct (f x). }
  apply G.
Qed.
Lemma newest_cons {A B} (f : A -> option B) x l :
  newest_of f (x :: l) = match newest_of f l with Some v => Some v | None => f x end.
Proof. change (x :: l) with ([x] ++ l). rewrite newest_app. destruct (newest_of f l); [reflexivity|]. unfold newest_of. cbn. now destruct (f x). Qed.
Lemma newest_ext {A B} (f g : A -> option B) l : (forall x, In x l -> f x = g x) -> newest_of f l = newest_of g l.
Proof.
  induction l as [|x r IH]; [reflexivity|]. intro E. rewrite !newest_cons, IH; [|intros; apply E; now right]. rewrite (E x); [reflexivity|now left].
Qed.
Lemma newest_none {A B} (f : A -> option B) l : (forall x, In x l -> f x = None) -> newest_of f l = None.
Proof. induction l as [|x r IH]; [reflexivity|]. intro E. rewrite newest_cons, IH; [apply E; now left|]. intros; apply E; now right. Qed.
Lemma newest_filter {A B} (f : A -> option B) p l : (forall x, p x = false -> f x = None) -> newest_of f (filter p l) = newest_of f l.
Proof.
  intro E. induction l as [|x r IH]; [reflexivity|]. cbn [filter]. destruct (p x) eqn:P; rewrite ?newest_cons, IH; [reflexivity|].
  rewrite (E x P). now destruct (newest_of f r).
Qed.
Lemma newest_flat {A B C} (f : B -> option C) (g : A -> list B) l :
  newest_of f (flat_map g l) = newest_of (fun x => newest_of f (g x)) l.
Proof. induction l as [|x r IH]; [reflexivity|]. cbn [flat_map]. now rewrite newest_app, newest_cons, IH. Qed.
Lemma newest_some {A B} (f : A -> option B) l v : newest_of f l = Some v -> exists x, In x l /\ f x = Some v.
Proof.
  induction l as [|x r IH]; [discriminate|]. rewrite newest_cons. destruct (newest_of f r) as [w|].
  - intro E. injection E as <-. destruct (IH eq_refl) as (y & I & F). exists y. split; [now right|assumption].
  - intro E. exists x. split; [now left|assumption].
Qed.
Lemma newest_uniform {A B} (f : A -> option B) l v : (exists x, In x l /\ f x <> None) -> (forall x w, In x l -> f x = Some w -> w = v) -> newest_of f l = Some v.
Proof.
  intros (x & I & N) U. destruct (newest_of f l) as [w|] eqn:E.
  - destruct (newest_some f l w E) as (y & J & F). f_equal. exact (U y w J F).
  - exfalso. clear U. induction l as [|y r IH]; [destruct I|]. rewrite newest_cons in E. destruct (newest_of f r) eqn:R; [discriminate|].
    destruct I as [->|I]; [now apply N|now apply IH].
Qed.
Lemma newest_None {A B} (f : A -> option B) l : newest_of f l = None -> forall x, In x l -> f x = None.
Proof.
  induction l as [|y r IH]; [intros _ x []|]. rewrite newest_cons. destruct (newest_of f r) eqn:R; [discriminate|]. intros E x [->|I]; [assumption|now apply IH].
Qed.
Lemma lastkv_None {V} (l : list (Z * V)) k : lastkv l k = None <-> ~ In k (map fst l).
Proof.
  unfold lastkv. split.
  - intros E I. apply in_map_iff in I. destruct I as (p & <- & I). pose proof (newest_None _ l E p I) as X. cbn in X. now rewrite Z.eqb_refl in X.
  - intro N. apply newest_none. intros p I. destruct (Z.eqb_spec (fst p) k) as [<-|]; [|reflexivity]. exfalso. apply N. now apply in_map.
Qed.
Lemma lastkv_app {V} (l m : list (Z * V)) k : lastkv (l ++ m) k = match lastkv m k with Some v => Some v | None => lastkv l k end.
Proof. apply newest_app. Qed.

(** * Association lists *)
Lemma zget_zdel {V} (m : list (Z * V)) a k : zget (zdel m a) k = if a =? k then None else zget m k.
Proof.
  unfold zdel. induction m as [|[x v] r IH]; [now destruct (a =? k)|]. cbn [filter fst]. destruct (Z.eqb_spec x a) as [->|N]; cbn [negb zget].
  - rewrite IH. destruct (Z.eqb_spec a k); reflexivity.
  - rewrite IH. destruct (Z.eqb_spec x k) as [->|M]; [|reflexivity]. destruct (Z.eqb_spec a k); [now subst|reflexivity].
Qed.
Lemma zget_zset {V} (m : list (Z * V)) a v k : zget (zset m a v) k = if a =? k then Some v else zget m k.
Proof. unfold zset. cbn [zget]. destruct (Z.eqb_spec a k); [reflexivity|]. rewrite zget_zdel. now destruct (Z.eqb_spec a k). Qed.
Lemma zget_in {V} (m : list (Z * V)) k v : zget m k = Some v -> In (k, v) m.
Proof. induction m as [|[x w] r IH]; [discriminate|]. cbn [zget]. destruct (Z.eqb_spec x k); [intro E; injection E as <-; subst; now left|intro; right; now apply IH]. Qed.
Lemma zget_none {V} (m : list (Z * V)) k : zget m k = None <-> ~ In k (map fst m).
Proof.
  induction m as [|[x w] r IH]; cbn; [tauto|]. destruct (Z.eqb_spec x k) as [->|N]; [split; [discriminate|tauto]|]. rewrite IH. tauto.
Qed.
Lemma zget_nodup {V} (m : list (Z * V)) k v : NoDup (map fst m) -> In (k, v) m -> zget m k = Some v.
Proof.
  induction m as [|[x w] r IH]; cbn; [tauto|]. intros N I. inversion N; subst. destruct I as [E|I].
  - injection E as -> ->. now rewrite Z.eqb_refl.
  - destruct (Z.eqb_spec x k) as [->|]; [|now apply IH]. exfalso. apply H1. now apply (in_map fst) in I.
Qed.
Lemma zdel_fst {V} (m : list (Z * V)) a : map fst (zdel m a) = filter (fun x => negb (x =? a)) (map fst m).
Proof. unfold zdel. induction m as [|[x v] r IH]; [reflexivity|]. cbn. destruct (x =? a); cbn; now rewrite IH. Qed.
Lemma zdel_nodup {V} (m : list (Z * V)) a : NoDup (map fst m) -> NoDup (map fst (zdel m a)).
Proof. rewrite zdel_fst. intro. now apply NoDup_filter. Qed.
Lemma zset_nodup {V} (m : list (Z * V)) a v : NoDup (map fst m) -> NoDup (map fst (zset m a v)).
Proof.
  intro N. unfold zset. cbn [map fst]. constructor; [|now apply zdel_nodup]. rewrite zdel_fst. rewrite filter_In, Z.eqb_refl. cbn. intros [_ X]. discriminate.
Qed.
Lemma log_of_zset l a v k : log_of (zset l a v) k = if a =? k then v else log_of l k.
Proof. unfold log_of. rewrite zget_zset. now destruct (a =? k). Qed.
Lemma log_of_zdel l a k : log_of (zdel l a) k = if a =? k then [] else log_of l k.
Proof. unfold log_of. rewrite zget_zdel. now destruct (a =? k). Qed.

(** * Stores and batches *)
Fixpoint lop (b : batch) (k : skey) : option (option sval) :=
  match b with
  | [] => None
  | x :: r => match lop r k with Some o => Some o | None => if skey_eq_dec (fst x) k then Some (snd x) else None end
  end.
Lemma sget_sdrop d k j : sget (sdrop d k) j = if skey_eq_dec k j then None else sget d j.
Proof.
  induction d as [|[x v] r IH]; cbn; [now destruct (skey_eq_dec k j)|]. destruct (skey_eq_dec x k) as [->|N].
  - rewrite IH. destruct (skey_eq_dec k j); reflexivity.
  - cbn. rewrite IH. destruct (skey_eq_dec x j) as [->|M]; [|reflexivity]. destruct (skey_eq_dec k j); [congruence|reflexivity].
Qed.
Lemma sget_sput1 d o k : sget (sput1 d o) k = if skey_eq_dec (fst o) k then snd o else sget d k.
Proof.
  destruct o as [x [v|]]; unfold sput1; cbn [fst snd].
  - cbn [sget]. destruct (skey_eq_dec x k); [reflexivity|]. rewrite sget_sdrop. now destruct (skey_eq_dec x k).
  - apply sget_sdrop.
Qed.
Lemma sget_sapply b : forall d k, sget (sapply d b) k = match lop b k with Some o => o | None => sget d k end.
Proof.
  induction b as [|x r IH]; intros d k; [reflexivity|]. cbn [lop]. unfold sapply. cbn [fold_left]. fold (sapply (sput1 d x) r). rewrite IH, sget_sput1.
  destruct (lop r k); [reflexivity|]. now destruct (skey_eq_dec (fst x) k).
Qed.
Lemma sapply_app d b c : sapply d (b ++ c) = sapply (sapply d b) c.
Proof. apply fold_left_app. Qed.
Lemma lop_app b c k : lop (b ++ c) k = match lop c k with Some o => Some o | None => lop b k end.
Proof. induction b as [|x r IH]; cbn [app lop]; [now destruct (lop c k)|]. rewrite IH. now destruct (lop c k). Qed.
Lemma lop_none b k : (forall o, In o b -> fst o <> k) -> lop b k = None.
Proof.
  induction b as [|x r IH]; [reflexivity|]. intro N. cbn [lop]. rewrite IH; [|intros; apply N; now right]. destruct (skey_eq_dec (fst x) k) as [E|]; [|reflexivity].
  exfalso. apply (N x); [now left|assumption].
Qed.
Lemma lop_some b k o : lop b k = Some o -> In (k, o) b.
Proof.
  induction b as [|x r IH]; [discriminate|]. cbn [lop]. destruct (lop r k).
  - intro E. right. now apply IH.
  - destruct (skey_eq_dec (fst x) k) as [<-|]; [|discriminate]. intro E. injection E as <-. left. now destruct x.
Qed.
Lemma lop_in b k : (exists o, In (k, o) b) <-> lop b k <> None.
Proof.
  split.
  - intros (o & I) E. induction b as [|x r IH]; [destruct I|]. cbn [lop] in E. destruct (lop r k) eqn:R; [discriminate|]. destruct (skey_eq_dec (fst x) k) as [|N]; [discriminate|].
    destruct I as [->|I]; [now apply N|now apply IH].
  - destruct (lop b k) as [o|] eqn:E; [|tauto]. intros _. exists o. now apply lop_some.
Qed.
Lemma lop_uniform b k o : In (k, o) b -> (forall o', In (k, o') b -> o' = o) -> lop b k = Some o.
Proof.
  intros I U. destruct (lop b k) as [o'|] eqn:E; [f_equal; apply U; now apply lop_some|]. exfalso. apply (proj1 (lop_in b k)); [now exists o|assumption].
Qed.
Lemma lop_newest b k : lop b k = newest_of (fun x => if skey_eq_dec (fst x) k then Some (snd x) else None) b.
Proof. induction b as [|x r IH]; [reflexivity|]. now rewrite newest_cons, <- IH. Qed.
Lemma lop_flat {A} (f : A -> batch) l k : lop (flat_map f l) k = newest_of (fun x => lop (f x) k) l.
Proof. induction l as [|x r IH]; [reflexivity|]. cbn [flat_map]. now rewrite lop_app, newest_cons, IH. Qed.
Lemma lop_map {V} (l : list (Z * V)) (key : Z -> skey) (g : V -> option sval) k : (forall x y, key x = key y -> x = y) ->
  lop (map (fun p => (key (fst p), g (snd p))) l) (key k) = option_map g (lastkv l k).
Proof.
  intro J. unfold lastkv. induction l as [|x r IH]; [reflexivity|]. cbn [map lop]. rewrite IH, newest_cons. destruct (newest_of _ r); [reflexivity|]. cbn [option_map fst snd].
  destruct (Z.eqb_spec (fst x) k) as [E|N]; destruct (skey_eq_dec (key (fst x)) (key k)) as [E'|N']; try reflexivity; [congruence|exfalso; apply N; now apply J].
Qed.
Definition keys_nodup (d : sdb) : Prop := NoDup (map fst d).
Lemma sdrop_in d k p : In p (sdrop d k) <-> In p d /\ fst p <> k.
Proof.
  induction d as [|[x v] r IH]; cbn; [tauto|]. destruct (skey_eq_dec x k) as [->|N]; cbn; rewrite IH.
  - split; [tauto|]. intros [[<-|I] M]; [now destruct M|tauto].
  - split; [intros [<-|I]; [now split; [left|]|tauto]|tauto].
Qed.
Lemma sput1_nodup d o : keys_nodup d -> keys_nodup (sput1 d o).
Proof.
  intro N. assert (D : forall k, keys_nodup (sdrop d k)).
  { intro k. unfold keys_nodup in *. induction d as [|[x v] r IH]; [constructor|]. cbn in *. inversion N; subst. destruct (skey_eq_dec x k); [now apply IH|]. cbn. constructor; [|now apply IH].
    intro I. apply in_map_iff in I. destruct I as (p & E & I). apply sdrop_in in I. apply H1. rewrite <- E. now apply in_map. }
  destruct o as [k [v|]]; unfold sput1; cbn [fst snd]; [|apply D]. constructor; [|apply D]. intro I. apply in_map_iff in I. destruct I as (p & E & I). apply sdrop_in in I. tauto.
Qed.
Lemma sapply_nodup b : forall d, keys_nodup d -> keys_nodup (sapply d b).
Proof. induction b as [|x r IH]; intros d N; [assumption|]. apply IH. now apply sput1_nodup. Qed.
Lemma sget_in d k v : sget d k = Some v -> In (k, v) d.
Proof. induction d as [|[x w] r IH]; [discriminate|]. cbn. destruct (skey_eq_dec x k); [intro E; injection E as <-; subst; now left|intro; right; now apply IH]. Qed.
Lemma in_sget d k v : keys_nodup d -> In (k, v) d -> sget d k = Some v.
Proof.
  unfold keys_nodup. induction d as [|[x w] r IH]; cbn; [tauto|]. intros N I. inversion N; subst. destruct I as [E|I].
  - injection E as -> ->. destruct (skey_eq_dec k k); [reflexivity|congruence].
  - destruct (skey_eq_dec x k) as [->|]; [|now apply IH]. exfalso. apply H1. now apply (in_map fst) in I.
Qed.

(** Reads take no value and an empty one for the same. *)
Definition norm (v : option sval) : option sval := match v with Some (VB []) => None | _ => v end.
Definition after (o : option (option sval)) : option sval := norm (match o with Some v => v | None => None end).
Lemma norm_norm v : norm (norm v) = norm v.
Proof. now destruct v as [[[|]|]|]. Qed.
Lemma bytes_norm v : bytes_of (norm v) = bytes_of v.
Proof. now destruct v as [[[|]|]|]. Qed.
Lemma num_norm v : num_of (norm v) = num_of v.
Proof. now destruct v as [[[|]|]|]. Qed.
Lemma norm_put k v : norm (snd (put_bytes k v)) = norm (Some (VB v)).
Proof. now destruct v. Qed.

(** Keys of the newest state. *)
Definition latest (k : skey) : Prop :=
  match k with SStor _ _ | SBal _ _ | SCode _ | SMeta _ | SLog _ | SDepth _ => True | _ => False end.
(** The account a key belongs to. *)
Definition owner (k : skey) : option Z := match k with SStor a _ | SBal a _ | SCode a => Some a | _ => None end.

Ltac nomatch := apply lop_none; let o := fresh "o" in let I := fresh "I" in intros o I;
  repeat (apply in_app_iff in I; destruct I as [I|I]);
  first [apply in_map_iff in I; let p := fresh "p" in destruct I as (p & <- & I); cbn; unfold put_bytes; cbn; congruence
        |apply in_flat_map in I; let p := fresh "p" in let J := fresh "J" in destruct I as (p & I & J); cbn in J; destruct J as [<-|[<-|[]]]; cbn; congruence
        |match type of I with In _ (match ?c with _ => _ end) => destruct c; cbn in I; [destruct I as [<-|[]]; cbn; congruence|destruct I] end].

Definition code_ops (b : ablock) : list (skey * option sval) := match ab_code b with Some c => [(SCode (ab_addr b), Some (VB c))] | None => [] end.
Section Writes.
Context (logs_kept : Z -> bool).
Notation wb := (write_batch logs_kept).
Definition view (bs : list ablock) (k : skey) : option (option sval) := lop (flat_map wb bs) k.
Lemma view_newest bs k : view bs k = newest_of (fun b => lop (wb b) k) bs.
Proof. apply lop_flat. Qed.
Lemma view_app l m k : view (l ++ m) k = match view m k with Some o => Some o | None => view l k end.
Proof. rewrite !view_newest. apply newest_app. Qed.

Lemma wb_stor b a k : lop (wb b) (SStor a k) = if ab_addr b =? a then option_map (fun v => snd (put_bytes (SStor a k) v)) (lastkv (ab_storage b) k) else None.
Proof.
  unfold write_batch. rewrite lop_app.
  assert (E : lop (map (fun p => (SBal (ab_addr b) (fst p), Some (VN (snd p)))) (ab_bal b) ++
    match ab_code b with Some c => [(SCode (ab_addr b), Some (VB c))] | None => [] end ++
    flat_map (fun p => [(SMeta (fst p), Some (VB (snd (snd p)))); (SGid (fst (snd p)) (fst p), Some (VB []))]) (ab_meta b) ++
    map (fun p => (SLog (fst p), Some (VB (snd p)))) (it_log (item_of logs_kept b)) ++
    map (fun p => (SDepth (fst p), Some (VN (snd p)))) (it_depth (item_of logs_kept b))) (SStor a k) = None).
  { nomatch. }
  rewrite E. destruct (Z.eqb_spec (ab_addr b) a) as [->|N].
  - unfold put_bytes. rewrite (lop_map (ab_storage b) (SStor a) (fun v => match v with [] => None | _ => Some (VB v) end)); [reflexivity|congruence].
  - apply lop_none. intros o I. apply in_map_iff in I. destruct I as (p & <- & I). unfold put_bytes. cbn. congruence.
Qed.
Lemma wb_bal b a t : lop (wb b) (SBal a t) = if ab_addr b =? a then option_map (fun v => Some (VN v)) (lastkv (ab_bal b) t) else None.
Proof.
  unfold write_batch. rewrite lop_app, lop_app.
  assert (E : lop (
    match ab_code b with Some c => [(SCode (ab_addr b), Some (VB c))] | None => [] end ++
    flat_map (fun p => [(SMeta (fst p), Some (VB (snd (snd p)))); (SGid (fst (snd p)) (fst p), Some (VB []))]) (ab_meta b) ++
    map (fun p => (SLog (fst p), Some (VB (snd p)))) (it_log (item_of logs_kept b)) ++
    map (fun p => (SDepth (fst p), Some (VN (snd p)))) (it_depth (item_of logs_kept b))) (SBal a t) = None).
  { nomatch. }
  rewrite E. assert (E2 : lop (map (fun p => put_bytes (SStor (ab_addr b) (fst p)) (snd p)) (ab_storage b)) (SBal a t) = None) by nomatch.
  rewrite E2. destruct (Z.eqb_spec (ab_addr b) a) as [->|N].
  - rewrite (lop_map (ab_bal b) (SBal a) (fun v => Some (VN v))); [|congruence]. now destruct (lastkv (ab_bal b) t).
  - assert (E3 : lop (map (fun p => (SBal (ab_addr b) (fst p), Some (VN (snd p)))) (ab_bal b)) (SBal a t) = None) by (apply lop_none; intros o I; apply in_map_iff in I; destruct I as (p & <- & I); cbn; congruence).
    now rewrite E3.
Qed.
Lemma wb_code b a : lop (wb b) (SCode a) = if ab_addr b =? a then option_map (fun c => Some (VB c)) (ab_code b) else None.
Proof.
  unfold write_batch. fold (code_ops b). rewrite !lop_app.
  assert (E1 : lop (map (fun p => (SDepth (fst p), Some (VN (snd p)))) (it_depth (item_of logs_kept b))) (SCode a) = None) by nomatch. rewrite E1.
  assert (E2 : lop (map (fun p => (SLog (fst p), Some (VB (snd p)))) (it_log (item_of logs_kept b))) (SCode a) = None) by nomatch. rewrite E2.
  assert (E3 : lop (flat_map (fun p => [(SMeta (fst p), Some (VB (snd (snd p)))); (SGid (fst (snd p)) (fst p), Some (VB []))]) (ab_meta b)) (SCode a) = None) by nomatch. rewrite E3.
  assert (E4 : lop (map (fun p => (SBal (ab_addr b) (fst p), Some (VN (snd p)))) (ab_bal b)) (SCode a) = None) by nomatch. rewrite E4.
  assert (E5 : lop (map (fun p => put_bytes (SStor (ab_addr b) (fst p)) (snd p)) (ab_storage b)) (SCode a) = None) by nomatch. rewrite E5.
  unfold code_ops. destruct (ab_code b) as [c|]; cbn [lop fst snd option_map]; [|now destruct (ab_addr b =? a)].
  destruct (skey_eq_dec (SCode (ab_addr b)) (SCode a)) as [E|M]; destruct (Z.eqb_spec (ab_addr b) a) as [E'|N]; try reflexivity; congruence.
Qed.
Lemma wb_meta b c : lop (wb b) (SMeta c) = option_map (fun m => Some (VB (snd m))) (lastkv (ab_meta b) c).
Proof.
  unfold write_batch. fold (code_ops b). rewrite !lop_app.
  assert (E1 : lop (map (fun p => (SDepth (fst p), Some (VN (snd p)))) (it_depth (item_of logs_kept b))) (SMeta c) = None) by nomatch. rewrite E1.
  assert (E2 : lop (map (fun p => (SLog (fst p), Some (VB (snd p)))) (it_log (item_of logs_kept b))) (SMeta c) = None) by nomatch. rewrite E2.
  assert (E4 : lop (map (fun p => (SBal (ab_addr b) (fst p), Some (VN (snd p)))) (ab_bal b)) (SMeta c) = None) by nomatch. rewrite E4.
  assert (E5 : lop (map (fun p => put_bytes (SStor (ab_addr b) (fst p)) (snd p)) (ab_storage b)) (SMeta c) = None) by nomatch. rewrite E5.
  assert (E6 : lop (code_ops b) (SMeta c) = None) by (unfold code_ops; destruct (ab_code b); reflexivity). rewrite E6.
  unfold lastkv. induction (ab_meta b) as [|x r IH]; [reflexivity|]. cbn [flat_map app lop]. rewrite newest_cons.
  destruct (lop (flat_map _ r) (SMeta c)) as [o|].
  - destruct (newest_of _ r); [exact IH|discriminate].
  - destruct (newest_of _ r); [discriminate|]. cbn [fst snd]. destruct (skey_eq_dec (SGid (fst (snd x)) (fst x)) (SMeta c)); [discriminate|].
    destruct (Z.eqb_spec (fst x) c) as [->|N]; destruct (skey_eq_dec _ (SMeta c)) as [E|M]; try reflexivity; congruence.
Qed.
Lemma wb_log b h : lop (wb b) (SLog h) = option_map (fun m => Some (VB m)) (lastkv (it_log (item_of logs_kept b)) h).
Proof.
  unfold write_batch. fold (code_ops b). rewrite !lop_app.
  assert (E1 : lop (map (fun p => (SDepth (fst p), Some (VN (snd p)))) (it_depth (item_of logs_kept b))) (SLog h) = None) by nomatch. rewrite E1.
  assert (E3 : lop (flat_map (fun p => [(SMeta (fst p), Some (VB (snd (snd p)))); (SGid (fst (snd p)) (fst p), Some (VB []))]) (ab_meta b)) (SLog h) = None) by nomatch. rewrite E3.
  assert (E4 : lop (map (fun p => (SBal (ab_addr b) (fst p), Some (VN (snd p)))) (ab_bal b)) (SLog h) = None) by nomatch. rewrite E4.
  assert (E5 : lop (map (fun p => put_bytes (SStor (ab_addr b) (fst p)) (snd p)) (ab_storage b)) (SLog h) = None) by nomatch. rewrite E5.
  assert (E6 : lop (code_ops b) (SLog h) = None) by (unfold code_ops; destruct (ab_code b); reflexivity). rewrite E6.
  rewrite (lop_map (it_log (item_of logs_kept b)) SLog (fun v => Some (VB v))); [|congruence]. now destruct (lastkv _ h).
Qed.
Lemma wb_depth b h : lop (wb b) (SDepth h) = option_map (fun m => Some (VN m)) (lastkv (it_depth (item_of logs_kept b)) h).
Proof.
  unfold write_batch. fold (code_ops b). rewrite !lop_app.
  assert (E2 : lop (map (fun p => (SLog (fst p), Some (VB (snd p)))) (it_log (item_of logs_kept b))) (SDepth h) = None) by nomatch. rewrite E2.
  assert (E3 : lop (flat_map (fun p => [(SMeta (fst p), Some (VB (snd (snd p)))); (SGid (fst (snd p)) (fst p), Some (VB []))]) (ab_meta b)) (SDepth h) = None) by nomatch. rewrite E3.
  assert (E4 : lop (map (fun p => (SBal (ab_addr b) (fst p), Some (VN (snd p)))) (ab_bal b)) (SDepth h) = None) by nomatch. rewrite E4.
  assert (E5 : lop (map (fun p => put_bytes (SStor (ab_addr b) (fst p)) (snd p)) (ab_storage b)) (SDepth h) = None) by nomatch. rewrite E5.
  assert (E6 : lop (code_ops b) (SDepth h) = None) by (unfold code_ops; destruct (ab_code b); reflexivity). rewrite E6.
  rewrite (lop_map (it_depth (item_of logs_kept b)) SDepth (fun v => Some (VN v))); [|congruence]. now destruct (lastkv _ h).
Qed.
Lemma wb_hist b k : (match k with SHStor _ _ _ | SHBal _ _ _ => True | _ => False end) -> lop (wb b) k = None.
Proof.
  intro K. unfold write_batch. apply lop_none. intros o I. repeat (apply in_app_iff in I; destruct I as [I|I]).
  - apply in_map_iff in I. destruct I as (p & <- & _). intros <-. destruct K.
  - apply in_map_iff in I. destruct I as (p & <- & _). intros <-. destruct K.
  - destruct (ab_code b); cbn in I; [destruct I as [<-|[]]|destruct I]. intros <-. destruct K.
  - apply in_flat_map in I. destruct I as (p & _ & [<-|[<-|[]]]); intros <-; destruct K.
  - apply in_map_iff in I. destruct I as (p & <- & _). intros <-. destruct K.
  - apply in_map_iff in I. destruct I as (p & <- & _). intros <-. destruct K.
Qed.
(** The two ways of writing a block agree on the newest state. *)
Lemma redo_wb b k : block_ok b -> latest k -> lop (redo_batch (ab_addr b) (item_of logs_kept b)) k = lop (wb b) k.
Proof.
  intros [C _] L. unfold redo_batch, write_batch. rewrite !lop_app. cbn [item_of it_storage it_bal it_code it_meta].
  destruct (lop (map (fun p => (SDepth (fst p), Some (VN (snd p)))) (it_depth (item_of logs_kept b))) k); [reflexivity|].
  destruct (lop (map (fun p => (SLog (fst p), Some (VB (snd p)))) (it_log (item_of logs_kept b))) k); [reflexivity|].
  assert (M : lop (flat_map (fun p => [(SMeta (fst p), Some (VB (snd (snd p)))); (SGidSwapped (fst p) (fst (snd p)), Some (VB []))]) (ab_meta b)) k
    = lop (flat_map (fun p => [(SMeta (fst p), Some (VB (snd (snd p)))); (SGid (fst (snd p)) (fst p), Some (VB []))]) (ab_meta b)) k).
  { rewrite !lop_flat. apply newest_ext. intros x _. cbn [lop fst snd]. destruct (skey_eq_dec (SGidSwapped _ _) k) as [<-|]; [destruct L|].
    destruct (skey_eq_dec (SGid _ _) k) as [<-|]; [destruct L|reflexivity]. }
  rewrite M. clear M.
  destruct (ab_code b) as [c|] eqn:E; [|reflexivity]. destruct (C c eq_refl) as [X _]. destruct c; [congruence|reflexivity].
Qed.
End Writes.
