(** What stakers rely on. *)
From Verif Require Import Lib AssetModel StakeModel.

Definition total (f : srec -> bool) (l : list srec) : Z := fold_right (fun r a => (if f r then r_amount r else 0) + a) 0 l.
Definition recs (w : sworld) : list srec := s_recs (v_st w).
(** all stakes naming a beneficiary; all stakes *)
Definition staked_for (w : sworld) (b : Z) : Z := total (fun r => r_ben r =? b) (recs w).
Definition staked (w : sworld) : Z := total (fun _ => true) (recs w).
(** whose money a stake is: the delegate's if it is delegated *)
Definition owner (r : srec) : Z := if r_del r then r_daddr r else r_staker r.

Definition klt (a b : srec) : Prop := kltb (key a) (key b) = true.
Fixpoint ordered (l : list srec) : Prop := match l with [] => True | x :: r => Forall (klt x) r /\ ordered r end.
(** where the chain starts: records in order, amounts at least the minimum, credited amounts and funds those of the records,
    no ids yet, and at most one record of a staker for a beneficiary; no index above the height of the contract *)
Record stake_start (w : sworld) : Prop := mkSS {
  ss_order : ordered (recs w);
  ss_min : Forall (fun r => stake_min <= r_amount r) (recs w);
  ss_plain : Forall (fun r => r_del r = false /\ r_daddr r = 0 /\ r_bid r = 0 /\ r_id r = None) (recs w);
  ss_once : forall r r', In r (recs w) -> In r' (recs w) -> r_staker r = r_staker r' -> r_ben r = r_ben r' -> r = r';
  ss_ben : forall b, s_ben (v_st w) b = if staked_for w b =? 0 then None else Some (staked_for w b);
  ss_ids : forall i, s_ids (v_st w) i = None;
  ss_bal : v_bal w = staked w;
  ss_out : 0 <= v_out w;
  ss_all : v_bal w + v_out w < two256;
  ss_now : 0 <= v_now w;
  ss_height : 0 <= v_height w;
  ss_index : Forall (fun r => 0 <= r_index r <= v_height w) (recs w) }.
(** parameters of a decoded request *)
Definition call_ok (c : scall) : Prop :=
  match c with
  | SStake _ | SStake3 _ None | SCancel3 _ => True
  | SCancel _ amt => is_word amt
  | SDelegate _ _ bid h => 0 <= bid < 256 /\ is_u64 h
  | SCancelDelegate _ _ amt bid => is_word amt /\ 0 <= bid < 256
  | SStake3 _ (Some h) => is_u64 h
  end.
(** histories; [used]: hashes of requests so far, never repeated. Heights stay far from 64 bits. *)
Inductive shist (sh : Z) (w0 : sworld) : list Z -> sworld -> Prop :=
| sh_start : shist sh w0 [] w0
| sh_call used w now caller tok amount hash c w' ok :
    shist sh w0 used w -> ~ In hash used -> call_ok c -> 0 <= amount -> (tok = vite -> amount <= v_out w) -> v_now w <= now < 2 ^ 63 -> v_height w < 2 ^ 63 ->
    s_send sh tok amount c = true -> s_step sh now w caller tok amount hash c = (w', ok) ->
    shist sh w0 (hash :: used) w'.
