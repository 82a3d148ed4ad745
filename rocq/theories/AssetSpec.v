(** What holders of tokens rely on. *)
From Verif Require Import Lib AssetModel.

Definition supply (w : world) (t : Z) : Z := match a_info (w_st w) t with Some i => t_total i | None => 0 end.
(** everything of a token that exists *)
Definition circulating (w : world) (t : Z) : Z := w_out w t + w_bal w t.
(** a call that went through *)
Record event := mkE { ev_caller : Z; ev_token : Z; ev_amount : Z; ev_call : acall }.
Definition created (t : Z) (e : event) : Z :=
  match ev_call e with
  | CIssue _ _ _ _ _ total _ _ _ tid => if tid =? t then total else 0
  | CReissue t' amt _ => if t' =? t then amt else 0
  | _ => 0
  end.
Definition destroyed (t : Z) (e : event) : Z :=
  match ev_call e with CBurn => if ev_token e =? t then ev_amount e else 0 | _ => 0 end.
Definition sum_of (f : event -> Z) (h : list event) : Z := fold_right (fun e a => f e + a) 0 h.

(** an ABI-decoded request: numbers are in the range of their types *)
Definition request_ok (c : acall) : Prop :=
  match c with
  | CIssue _ _ _ _ _ total dec maxs _ _ => is_word total /\ 0 <= dec < 256 /\ is_word maxs
  | CReissue _ amt _ => is_word amt
  | _ => True
  end.
(** a token info as it may be stored *)
Definition info_ok (i : tinfo) : Prop :=
  is_word (t_total i) /\ is_word (t_max i) /\ (t_re i = true -> t_total i <= t_max i) /\ (t_re i = false -> t_max i = 0 /\ t_ob i = false) /\
  0 <= t_index i < index_max.
(** where the chain starts *)
Record start_ok (w : world) : Prop := mkSO {
  so_info : forall t i, a_info (w_st w) t = Some i -> info_ok i;
  so_supply : forall t, supply w t = circulating w t + (if t =? vite then w_fees w else 0);
  so_pos : forall t, 0 <= w_out w t;
  so_bal : forall t, 0 <= w_bal w t;
  so_fees : 0 <= w_fees w;
  so_next : forall x, 0 <= a_next (w_st w) x <= index_max;
  so_below : forall t i, a_info (w_st w) t = Some i -> t_index i < a_next (w_st w) (t_symbol i);
  so_index : forall t t' i i', a_info (w_st w) t = Some i -> a_info (w_st w) t' = Some i' -> t_symbol i = t_symbol i' -> t_index i = t_index i' -> t = t' }.
(** histories: [w0] the start, [h] the calls that went through. The sender had the amount and the fee. *)
Inductive ahist (w0 : world) : list event -> world -> Prop :=
| h_start : ahist w0 [] w0
| h_call h w earth_s earth_r caller tok amount c w' ok :
    ahist w0 h w -> request_ok c -> 0 <= amount <= w_out w tok -> fee c <= w_out w vite - (if tok =? vite then amount else 0) ->
    do_send earth_s caller amount c = true -> receive earth_r w caller tok amount c = (w', ok) ->
    ahist w0 (if ok then h ++ [mkE caller tok amount c] else h) w'.
(** the tokens an owner must be shown *)
Definition owns (w : world) (a t : Z) : Prop := exists i, a_info (w_st w) t = Some i /\ t_owner i = a.
