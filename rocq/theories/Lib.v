(** Shared imports, arithmetic automation and small facts used by all areas.
    Nothing in this file models go-vite code. *)
From Coq Require Export List ZArith Lia Bool Arith.
From Coq Require Export ZifyBool ZifyNat ZifyN.
Export ListNotations.
Open Scope Z_scope.

Ltac Zify.zify_post_hook ::= Z.div_mod_to_equations.

(** Machine integer ranges. *)
Definition two64 : Z := 2 ^ 64.
Definition two256 : Z := 2 ^ 256.
Definition max_u64 : Z := two64 - 1.
Definition is_u64 (x : Z) : Prop := 0 <= x < two64.
Definition is_word (x : Z) : Prop := 0 <= x < two256.
Definition wrap64 (x : Z) : Z := x mod two64.

(** Byte strings are lists of integers; the range is a separate predicate. *)
Definition is_byte (b : Z) : Prop := 0 <= b < 256.
Definition bytes_ok (l : list Z) : Prop := Forall is_byte l.
Definition zlen {A} (l : list A) : Z := Z.of_nat (length l).

Lemma zlen_nonneg {A} (l : list A) : 0 <= zlen l.
Proof. unfold zlen; lia. Qed.
Lemma zlen_app {A} (a b : list A) : zlen (a ++ b) = zlen a + zlen b.
Proof. unfold zlen; rewrite app_length; lia. Qed.
Lemma zlen_cons {A} (x : A) (l : list A) : zlen (x :: l) = 1 + zlen l.
Proof. unfold zlen; cbn [length]; lia. Qed.
Lemma zlen_nil {A} : zlen (@nil A) = 0.
Proof. reflexivity. Qed.
Lemma zlen_repeat {A} (x : A) n : zlen (repeat x n) = Z.of_nat n.
Proof. unfold zlen; now rewrite repeat_length. Qed.

(** Big-endian value of a byte string (Go: big.Int.SetBytes). *)
Definition be_val (l : list Z) : Z := fold_left (fun acc b => acc * 256 + b) l 0.

Lemma be_val_acc l : forall a, fold_left (fun acc b => acc * 256 + b) l a = a * 256 ^ zlen l + be_val l.
Proof.
  unfold be_val. induction l as [|b l IH]; intro a; cbn [fold_left].
  - rewrite zlen_nil. change (256 ^ 0) with 1. lia.
  - rewrite IH, (IH (0 * 256 + b)), zlen_cons.
    rewrite Z.pow_add_r by (pose proof (zlen_nonneg l); lia). change (256 ^ 1) with 256. ring.
Qed.
Lemma be_val_cons b l : be_val (b :: l) = b * 256 ^ zlen l + be_val l.
Proof. unfold be_val at 1; cbn [fold_left]. rewrite be_val_acc. ring. Qed.
Lemma be_val_app a b : be_val (a ++ b) = be_val a * 256 ^ zlen b + be_val b.
Proof. unfold be_val at 1; rewrite fold_left_app. fold (be_val a). now rewrite be_val_acc. Qed.
Lemma be_val_range l : bytes_ok l -> 0 <= be_val l < 256 ^ zlen l.
Proof.
  induction l as [|b l IH]; intro H.
  - change (0 <= 0 < 1). lia.
  - inversion H as [|? ? Hb Hl]; subst. specialize (IH Hl). rewrite be_val_cons, zlen_cons.
    rewrite Z.pow_add_r by (pose proof (zlen_nonneg l); lia). change (256 ^ 1) with 256.
    unfold is_byte in Hb. set (p := 256 ^ zlen l) in *. nia.
Qed.

(** Fixed-width big-endian encoding of a number into [n] bytes. *)
Fixpoint be_bytes (n : nat) (x : Z) : list Z :=
  match n with
  | O => []
  | S k => be_bytes k (x / 256) ++ [x mod 256]
  end.

Lemma be_bytes_length n : forall x, length (be_bytes n x) = n.
Proof. induction n as [|n IH]; intro x; cbn [be_bytes]; [reflexivity|]. rewrite app_length, IH; cbn; lia. Qed.
Lemma be_bytes_ok n : forall x, bytes_ok (be_bytes n x).
Proof.
  induction n as [|n IH]; intro x; cbn [be_bytes]; [constructor|].
  apply Forall_app; split; [apply IH|]. constructor; [|constructor]. unfold is_byte. lia.
Qed.
Lemma be_val_bytes n : forall x, 0 <= x < 256 ^ Z.of_nat n -> be_val (be_bytes n x) = x.
Proof.
  induction n as [|n IH]; intros x Hx; cbn [be_bytes].
  - change (256 ^ Z.of_nat 0) with 1 in Hx. cbv [be_val fold_left]. lia.
  - rewrite be_val_app, zlen_cons, zlen_nil. change (256 ^ (1 + 0)) with 256.
    replace (be_val [x mod 256]) with (x mod 256) by (unfold be_val; cbn [fold_left]; lia).
    rewrite IH.
    + lia.
    + rewrite Nat2Z.inj_succ, Z.pow_succ_r in Hx by lia. lia.
Qed.
Lemma be_val_snoc l b : be_val (l ++ [b]) = be_val l * 256 + b.
Proof.
  rewrite be_val_app, zlen_cons, zlen_nil. change (256 ^ (1 + 0)) with 256.
  replace (be_val [b]) with b by (unfold be_val; cbn [fold_left]; lia). reflexivity.
Qed.
Lemma be_bytes_val l : bytes_ok l -> be_bytes (length l) (be_val l) = l.
Proof.
  intro H. induction l as [|b l IH] using rev_ind; [reflexivity|].
  apply Forall_app in H as [Hl Hb]. inversion Hb as [|? ? Hb' _]; subst.
  rewrite app_length; cbn [length]. replace (length l + 1)%nat with (S (length l)) by lia.
  cbn [be_bytes]. rewrite be_val_snoc. unfold is_byte in Hb'.
  replace ((be_val l * 256 + b) / 256) with (be_val l) by lia.
  replace ((be_val l * 256 + b) mod 256) with b by lia.
  now rewrite IH.
Qed.

Lemma be_val_inj_len a b : bytes_ok a -> bytes_ok b -> length a = length b -> be_val a = be_val b -> a = b.
Proof.
  intros Ha Hb Hl He. rewrite <- (be_bytes_val a Ha), <- (be_bytes_val b Hb), Hl, He. reflexivity.
Qed.

(** Equality test on integer lists. *)
Fixpoint zlist_eqb (a b : list Z) : bool :=
  match a, b with
  | [], [] => true
  | x :: a', y :: b' => (x =? y) && zlist_eqb a' b'
  | _, _ => false
  end.
Lemma zlist_eqb_eq a : forall b, zlist_eqb a b = true <-> a = b.
Proof.
  induction a as [|x a IH]; intros [|y b]; cbn; split; intro H; try discriminate; auto.
  - apply andb_true_iff in H as [H1 H2]. apply Z.eqb_eq in H1. apply IH in H2. now subst.
  - inversion H; subst. rewrite Z.eqb_refl. now apply IH.
Qed.
Lemma zlist_eqb_refl a : zlist_eqb a a = true.
Proof. now apply zlist_eqb_eq. Qed.
Lemma zlist_eqb_neq a b : zlist_eqb a b = false <-> a <> b.
Proof.
  split; intro H.
  - intros ->. now rewrite zlist_eqb_refl in H.
  - destruct (zlist_eqb a b) eqn:E; [|reflexivity]. apply zlist_eqb_eq in E. contradiction.
Qed.
