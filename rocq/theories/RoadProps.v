(** * The summary of pending receipts: C62 *)
From Verif Require Import Lib RoadModel RoadSpec RoadProofs RoadProofs2 RoadProofs3.
From Coq Require Import Permutation.
Import ListNotations.

(** C62: the summary of an account says, for each token, number and total amount of the sends on
    the chain that are addressed to it and not received, and how many they are in all, unless a send
    to it is inside an unconfirmed receive block; in whatever order maps are walked. *)
Theorem info_exact contract genesis ord w a : (forall A l, Permutation (ord A l) l) -> reach contract genesis ord w ->
  (forall x h f subs s, In (BRecv x h f subs) (w_open w) -> In s subs -> s_to s <> a) ->
  exists m, info ord w a = Some (m, zlen (pending (chain_of w) a)) /\ NoDup (map fst m) /\
  forall t, get Z.eqb m t = summary (of_token t (pending (chain_of w) a)).
Proof. intros O R H. exact (info_spec contract genesis ord O w a (reach_inv contract genesis ord O w R) H). Qed.
(** C62: what is stored is always the summary of the confirmed blocks, through every snapshot and
    rollback, also with sends inside receive blocks. *)
Theorem stored_exact contract genesis ord w a t : (forall A l, Permutation (ord A l) l) -> reach contract genesis ord w ->
  get keq (w_store w) (a, t) = summary (of_token t (pending (concat (w_done w)) a)).
Proof. intros O R. destruct (v_store _ _ w (reach_inv contract genesis ord O w R)) as [_ S]. rewrite S, summary_opt. reflexivity. Qed.
(** C62: rebuilding the data from the chain gives the same entries. *)
Theorem rebuild_same contract genesis ord w k : (forall A l, Permutation (ord A l) l) -> reach contract genesis ord w ->
  get keq (rebuild contract genesis ord w) k = get keq (w_store w) k.
Proof.
  intros O R. destruct k as [a t]. destruct (v_store _ _ w (reach_inv contract genesis ord O w R)) as [_ S]. destruct (rebuild_stored contract genesis ord O w (reach_inv contract genesis ord O w R)) as [_ S']. rewrite S, S'. reflexivity.
Qed.

(** A story: accounts 1 and 2, contract 9; token 7. *)
Definition con (a : Z) : bool := a =? 9.
Definition gen (_ : Z) : bool := false.
Definition back (A : Type) (l : list A) : list A := rev l.
Definition b1 := BSend 1 (Send 101 9 7 50).
Definition b2 := BSend 1 (Send 102 2 7 30).
Definition b3 := BRecv 9 103 101 [Send 104 2 7 20; Send 105 2 8 5].
Definition b4 := BRecv 2 106 102 [].
Ltac nd := repeat (constructor; [cbn; intuition discriminate|]); constructor.
Ltac acc := split; [nd|]; split; [cbn; intuition (subst; discriminate)|]; split; [repeat constructor; cbn; lia|].
Definition w1 := insert (insert (World [] [] [] []) b1) b2.
Lemma r1 : reach con gen back w1.
Proof.
  unfold w1. apply (R_step con gen back _ (OBlock b2)); [apply (R_step con gen back _ (OBlock b1)); [constructor|]|]; (split; [|reflexivity]); acc; exact Logic.I.
Qed.
Definition w2 := insert (insert (snapshot con gen back w1 [b1; b2]) b3) b4.
Lemma r1s : reach con gen back (snapshot con gen back w1 [b1; b2]).
Proof. apply (R_step con gen back _ (OSnapshot [b1; b2])); [exact r1|]. split; [nd|]. split; [intros x X; exact X|intros h []]. Qed.
Lemma r2a : reach con gen back (insert (snapshot con gen back w1 [b1; b2]) b3).
Proof.
  apply (R_step con gen back _ (OBlock b3)); [exact r1s|]. split; [|reflexivity]. acc. split; [reflexivity|]. split; [reflexivity|]. split; [cbn; tauto|]. exists (Send 101 9 7 50). cbn. auto.
Qed.
Lemma r2 : reach con gen back w2.
Proof.
  unfold w2. apply (R_step con gen back _ (OBlock b4)); [exact r2a|]. split; [|reflexivity]. acc. split; [reflexivity|]. split; [intros X; now destruct X|]. split; [cbn; intuition discriminate|]. exists (Send 102 2 7 30). cbn. auto 10.
Qed.
Definition w3 := snapshot con gen back w2 [b3; b4].
Lemma r3 : reach con gen back w3.
Proof.
  apply (R_step con gen back _ (OSnapshot [b3; b4])); [exact r2|]. split; [nd|]. split; [intros x X; exact X|]. intros h H. cbn in H. destruct H as [<-|[<-|[]]]; [exists (Send 101 9 7 50)|exists (Send 102 2 7 30)]; cbn; auto.
Qed.
Example story : reach con gen back w3 /\ info back w1 2 = Some ([(7, (30, 1))], 1) /\ info back w3 2 = Some ([(7, (20, 1)); (8, (5, 1))], 2) /\
  info back (rollback con gen back w3 1 true) 9 = Some ([], 0) /\ info back (rollback con gen back w3 1 false) 2 = Some ([(7, (30, 1))], 1) /\
  reach con gen back (rollback con gen back w3 0 true) /\ info back (rollback con gen back w3 0 true) 9 = Some ([(7, (50, 1))], 1).
Proof.
  split; [exact r3|]. split; [reflexivity|]. split; [reflexivity|]. split; [reflexivity|]. split; [reflexivity|]. split; [|reflexivity]. apply (R_step con gen back w3 (ORollback 0 true)); [exact r3|]. cbn. lia.
Qed.
(** C62 fails for sends inside unconfirmed receive blocks: they are missing, and once received
    before they are confirmed the summary cannot be had at all. *)
Theorem hidden_send_refuted : exists contract genesis ord w a b, (forall A l, Permutation (ord A l) l) /\ reach contract genesis ord w /\ pending (chain_of w) a <> [] /\ info ord w a = Some ([], 0) /\
  reach contract genesis ord (insert w b) /\ info ord (insert w b) a = None.
Proof.
  exists con, gen, back. set (w0 := snapshot con gen back (insert (World [] [] [] []) b1) [b1]). assert (R0 : reach con gen back w0).
  { apply (R_step con gen back _ (OSnapshot [b1])); [apply (R_step con gen back _ (OBlock b1)); [constructor|]; split; [acc; exact Logic.I|reflexivity]|]. split; [nd|]. split; [intros x X; exact X|intros h []]. }
  assert (R1 : reach con gen back (insert w0 b3)).
  { apply (R_step con gen back _ (OBlock b3)); [exact R0|]. split; [|reflexivity]. acc. split; [reflexivity|]. split; [reflexivity|]. split; [cbn; tauto|]. exists (Send 101 9 7 50). cbn. auto. }
  exists (insert w0 b3), 2, (BRecv 2 107 104 []). split; [intros A l; symmetry; apply Permutation_rev|]. split; [exact R1|]. split; [discriminate|]. split; [reflexivity|]. split; [|reflexivity].
  apply (R_step con gen back _ (OBlock (BRecv 2 107 104 []))); [exact R1|]. split; [|reflexivity]. acc. split; [reflexivity|]. split; [intros X; now destruct X|]. split; [cbn; intuition discriminate|]. exists (Send 104 2 7 20). cbn. auto 10.
Qed.
(** C62 fails for good once a snapshot block confirms a receive block before the send block it
    receives: the send then counts as pending for ever. *)
Theorem unclosed_snapshot_refuted : exists contract genesis ord w s r, (forall A l, Permutation (ord A l) l) /\ reach contract genesis ord w /\ w_open w = [s; r] /\
  let w' := snapshot contract genesis ord (snapshot contract genesis ord w [r]) [s] in
  w_open w' = [] /\ pending (chain_of w') 2 = [] /\ info ord w' 2 = Some ([(7, (30, 1))], 1).
Proof.
  exists con, gen, back, (insert (insert (World [] [] [] []) b2) b4), b2, b4. split; [intros A l; symmetry; apply Permutation_rev|]. split; [|repeat split; reflexivity].
  apply (R_step con gen back _ (OBlock b4)); [apply (R_step con gen back _ (OBlock b2)); [constructor|]; split; [acc; exact Logic.I|reflexivity]|]. split; [|reflexivity]. acc. split; [reflexivity|]. split; [intros X; now destruct X|]. split; [cbn; tauto|]. exists (Send 102 2 7 30). cbn. auto.
Qed.
Print Assumptions info_exact.
Print Assumptions stored_exact.
Print Assumptions rebuild_same.
Print Assumptions hidden_send_refuted.
Print Assumptions unclosed_snapshot_refuted.
