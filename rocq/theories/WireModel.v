(** Model of how blocks are written to the wire and to disk, and of what their hashes are
    computed from (interfaces/core/account_block.go, snapshot_block.go, contract_meta.go,
    hash_height.go, vm_log_list.go with common/vitepb/*.proto).

    The protocol buffer library (golang/protobuf 1.5.2, google.golang.org/protobuf 1.27.1)
    is not part of /repo; its wire format is modelled from the public specification:
    fields are written in the order of their numbers, zero values are left out, and a
    reader takes fields in any order, the last one winning, and skips unknown ones.  The
    reader's limit of 10000 nested groups or messages is not modelled.  A nil slice and an
    empty slice are the same value here. *)
From Coq Require Import ZArith List Bool Lia.
From Verif Require Import Lib.
From Verif Require VmModel.
Import ListNotations.
Open Scope Z_scope.

(** * Protocol buffers *)

(** A 64-bit number in groups of seven bits, least significant first. *)
Fixpoint varint (n : nat) (v : Z) : list Z :=
  match n with
  | O => [v]
  | S n => if v <? 128 then [v] else v mod 128 + 128 :: varint n (v / 128)
  end.
Definition uvarint (v : Z) : list Z := varint 9 v.
(** Reading one: at most ten bytes, the tenth at most 1; longer forms than necessary are
    accepted. *)
Fixpoint read_varint (n : nat) (l : list Z) : option (Z * list Z) :=
  match l with
  | [] => None
  | b :: r =>
    match n with
    | O => if b <? 2 then Some (b, r) else None
    | S n =>
      if b <? 128 then Some (b, r)
      else match read_varint n r with
           | Some (v, r') => Some (b - 128 + 128 * v, r')
           | None => None
           end
    end
  end.
Definition read_uvarint (l : list Z) : option (Z * list Z) := read_varint 9 l.

(** The value of a field: a number, a string of bytes, or something no field of the
    messages below has (fixed-size numbers and groups). *)
Inductive payload := PVar (v : Z) | PBytes (l : list Z) | POther.
Notation fields := (list (Z * payload)).

Definition take_bytes (n : Z) (l : list Z) : option (list Z * list Z) :=
  if zlen l <? n then None else Some (firstn (Z.to_nat n) l, skipn (Z.to_nat n) l).
(** A value of wire type 0, 1, 2 or 5. *)
Definition read_scalar (typ : Z) (l : list Z) : option (payload * list Z) :=
  if typ =? 0 then match read_uvarint l with Some (v, r) => Some (PVar v, r) | None => None end
  else if typ =? 1 then match take_bytes 8 l with Some (_, r) => Some (POther, r) | None => None end
  else if typ =? 5 then match take_bytes 4 l with Some (_, r) => Some (POther, r) | None => None end
  else if typ =? 2 then
    match read_uvarint l with
    | Some (n, r) => match take_bytes n r with Some (b, r') => Some (PBytes b, r') | None => None end
    | None => None
    end
  else None.
(** Skipping groups: [stack] holds the numbers of the groups that are open. *)
Fixpoint skip_groups (fuel : nat) (stack : list Z) (l : list Z) : option (list Z) :=
  match stack with
  | [] => Some l
  | g :: below =>
    match fuel with
    | O => None
    | S fuel =>
      match read_uvarint l with
      | None => None
      | Some (tag, r) =>
        if (tag / 8 <? 1) || (2 ^ 31 - 1 <? tag / 8) then None
        else if tag mod 8 =? 4 then (if tag / 8 =? g then skip_groups fuel below r else None)
        else if tag mod 8 =? 3 then skip_groups fuel (tag / 8 :: stack) r
        else match read_scalar (tag mod 8) r with
             | Some (_, r') => skip_groups fuel stack r'
             | None => None
             end
      end
    end
  end.
Fixpoint read_fields (fuel : nat) (l : list Z) : option fields :=
  match l with
  | [] => Some []
  | _ =>
    match fuel with
    | O => None
    | S fuel =>
      match read_uvarint l with
      | None => None
      | Some (tag, r) =>
        if (tag / 8 <? 1) || (2 ^ 29 - 1 <? tag / 8) then None
        else
          match (if tag mod 8 =? 3
                 then match skip_groups (length r) [tag / 8] r with Some r' => Some (POther, r') | None => None end
                 else read_scalar (tag mod 8) r) with
          | None => None
          | Some (v, r') =>
            match read_fields fuel r' with
            | Some fs => Some ((tag / 8, v) :: fs)
            | None => None
            end
          end
      end
    end
  end.
Definition parse (l : list Z) : option fields := read_fields (length l) l.

(** The last value of a field; a field of the wrong type is skipped. *)
Fixpoint get_var (n d : Z) (fs : fields) : Z :=
  match fs with
  | [] => d
  | (k, PVar v) :: r => get_var n (if k =? n then v else d) r
  | _ :: r => get_var n d r
  end.
Fixpoint get_bytes (n : Z) (d : list Z) (fs : fields) : list Z :=
  match fs with
  | [] => d
  | (k, PBytes v) :: r => get_bytes n (if k =? n then v else d) r
  | _ :: r => get_bytes n d r
  end.
(** All values of a repeated field. *)
Fixpoint get_all (n : Z) (fs : fields) : list (list Z) :=
  match fs with
  | [] => []
  | (k, PBytes v) :: r => if k =? n then v :: get_all n r else get_all n r
  | _ :: r => get_all n r
  end.

(** Writing fields. *)
Definition put_var (n v : Z) : list Z := if v =? 0 then [] else uvarint (n * 8) ++ uvarint v.
Definition put_msg (n : Z) (l : list Z) : list Z := uvarint (n * 8 + 2) ++ uvarint (zlen l) ++ l.
Definition put_bytes (n : Z) (l : list Z) : list Z := match l with [] => [] | _ => put_msg n l end.

(** * Account blocks *)

(** account_block.go:19-28 *)
Definition SendCreate : Z := 1.
Definition SendCall : Z := 2.
Definition SendReward : Z := 3.
Definition SendRefund : Z := 6.
Definition GenesisReceive : Z := 7.
(** account_block.go:422-427, IsSendBlock *)
Definition is_send (t : Z) : bool :=
  (t =? SendCreate) || (t =? SendCall) || (t =? SendReward) || (t =? SendRefund).

(** account_block.go:30-65.  big.Int pointers that may be nil are options; the address
    cached in [producer] is left out. *)
Record head := mkH {
  b_type : Z; b_hash : list Z; b_prev : list Z; b_height : Z; b_addr : list Z; b_key : list Z;
  b_to : list Z; b_amount : option Z; b_token : list Z; b_from : list Z; b_data : list Z;
  b_quota : Z; b_used : Z; b_fee : option Z; b_log : option (list Z); b_diff : option Z;
  b_nonce : list Z; b_sig : list Z
}.
Inductive block := Blk (h : head) (sends : list block).
Definition b_head (b : block) : head := match b with Blk h _ => h end.
Definition b_sends (b : block) : list block := match b with Blk _ l => l end.

Definition zeros (n : Z) : list Z := repeat 0 (Z.to_nat n).
(** hash.go:20-24 BytesToHash, address.go:88-92 BytesToAddress, tokentypeid.go:43-47
    BytesToTokenTypeId, gid.go:48-52 BytesToGid: the length must be right. *)
Definition exact (n : Z) (l : list Z) : option (list Z) := if zlen l =? n then Some l else None.
Definition or_zero (n : Z) (o : option (list Z)) : list Z := match o with Some l => l | None => zeros n end.
(** big.Int.Bytes drops the sign. *)
Definition big (x : Z) : list Z := VmModel.big_bytes (Z.abs x).
Definition obig (x : option Z) : list Z := match x with Some v => big v | None => [] end.
Definition obytes (x : option (list Z)) : list Z := match x with Some v => v | None => [] end.

(** account_block.go:248-312 Proto followed by 405-407 Serialize: the fields before the
    sends, and those after.  None is the panic on a send block without amount.  The
    numbers are those of account_block.proto:18-53. *)
Definition has_token (t : Z) : bool := is_send t || (t =? GenesisReceive).
Definition marshal_head (h : head) : option (list Z) :=
  match (if has_token (b_type h) then match b_amount h with Some a => Some (big a, b_token h) | None => None end
         else Some ([], [])) with
  | None => None
  | Some (amount, token) =>
    Some (put_var 1 (b_type h) ++ put_bytes 2 (b_hash h) ++ put_var 3 (b_height h)
       ++ put_bytes 4 (if 1 <? b_height h then b_prev h else [])
       ++ put_bytes 5 (b_addr h) ++ put_bytes 6 (b_key h)
       ++ put_bytes 7 (if is_send (b_type h) then b_to h else [])
       ++ put_bytes 8 amount ++ put_bytes 9 token
       ++ put_bytes 10 (if is_send (b_type h) then [] else b_from h)
       ++ put_bytes 11 (b_data h) ++ put_var 12 (b_quota h) ++ put_bytes 13 (obig (b_fee h))
       ++ put_bytes 15 (obytes (b_log h)) ++ put_bytes 16 (obig (b_diff h)) ++ put_bytes 17 (b_nonce h))
  end.
Definition marshal_tail (h : head) : list Z := put_bytes 19 (b_sig h) ++ put_var 20 (b_used h).
Fixpoint serialize (b : block) : option (list Z) :=
  let '(Blk h sends) := b in
  match marshal_head h,
        (fix all (l : list block) : option (list Z) :=
           match l with
           | [] => Some []
           | s :: r =>
             match serialize s, all r with
             | Some x, Some y => Some (put_msg 18 x ++ y)
             | _, _ => None
             end
           end) sends with
  | Some x, Some y => Some (x ++ y ++ marshal_tail h)
  | _, _ => None
  end.

(** account_block.go:410-413: proto.Unmarshal, nested messages included. *)
Inductive pb := Pb (fs : fields) (subs : list pb).
Fixpoint all_some {A} (l : list (option A)) : option (list A) :=
  match l with
  | [] => Some []
  | Some x :: r => match all_some r with Some y => Some (x :: y) | None => None end
  | None :: _ => None
  end.
Fixpoint unmarshal (fuel : nat) (l : list Z) : option pb :=
  match fuel with
  | O => None
  | S fuel =>
    match parse l with
    | None => None
    | Some fs =>
      match all_some (map (unmarshal fuel) (get_all 18 fs)) with
      | Some subs => Some (Pb fs subs)
      | None => None
      end
    end
  end.
(** account_block.go:314-403, DeProto: the block as it is left, and whether there was no
    error.  On an error the fields not yet reached keep their zero values. *)
Fixpoint de_proto (p : pb) : block * bool :=
  let '(Pb fs subs) := p in
  let t := get_var 1 0 fs mod 256 in
  let hash := or_zero 32 (exact 32 (get_bytes 2 [] fs)) in
  let height := get_var 3 0 fs in
  let prev := if 1 <? height then or_zero 32 (exact 32 (get_bytes 4 [] fs)) else zeros 32 in
  let key := get_bytes 6 [] fs in
  let z21 := zeros 21 in let z10 := zeros 10 in let z32 := zeros 32 in
  match exact 21 (get_bytes 5 [] fs) with
  | None => (Blk (mkH t hash prev height z21 [] z21 None z10 z32 [] 0 0 None None None [] []) [], false)
  | Some addr =>
    match (if is_send t then
             match exact 21 (get_bytes 7 [] fs) with Some a => Some (a, z32) | None => None end
           else match exact 32 (get_bytes 10 [] fs) with Some f => Some (z21, f) | None => None end) with
    | None => (Blk (mkH t hash prev height addr key z21 None z10 z32 [] 0 0 None None None [] []) [], false)
    | Some (to, from) =>
      match (if has_token t then
               match exact 10 (get_bytes 9 [] fs) with
               | Some tk => Some (tk, Some (be_val (get_bytes 8 [] fs)))
               | None => None
               end
             else Some (z10, None)) with
      | None => (Blk (mkH t hash prev height addr key to None z10 from [] 0 0 None None None [] []) [], false)
      | Some (token, amount) =>
        let data := get_bytes 11 [] fs in
        let quota := get_var 12 0 fs in
        let used := get_var 20 0 fs in
        let fee := Some (be_val (get_bytes 13 [] fs)) in
        match (match get_bytes 15 [] fs with
               | [] => Some None
               | l => match exact 32 l with Some x => Some (Some x) | None => None end
               end) with
        | None => (Blk (mkH t hash prev height addr key to amount token from data quota used fee None None [] []) [], false)
        | Some log =>
          let diff := match get_bytes 16 [] fs with [] => None | l => Some (be_val l) end in
          let nonce := get_bytes 17 [] fs in
          let '(sends, ok) :=
            (fix all (l : list pb) : list block * bool :=
               match l with
               | [] => ([], true)
               | s :: r =>
                 let '(b, ok) := de_proto s in
                 if ok then let '(bs, ok') := all r in (b :: bs, ok') else ([], false)
               end) subs in
          let sig := if ok then get_bytes 19 [] fs else [] in
          (Blk (mkH t hash prev height addr key to amount token from data quota used fee log diff nonce sig) sends, ok)
        end
      end
    end
  end.
(** account_block.go:409-416, Deserialize: the error of DeProto is dropped.  None is an
    error. *)
Definition deserialize (l : list Z) : option block :=
  match unmarshal (S (length l)) l with
  | None => None
  | Some p => Some (fst (de_proto p))
  end.
(** What callers get that use DeProto themselves (for instance the network messages,
    net/message.go:207) and look at its error. *)
Definition deserialize_checked (l : list Z) : option block :=
  match unmarshal (S (length l)) l with
  | None => None
  | Some p => let '(b, ok) := de_proto p in if ok then Some b else None
  end.

(** * Snapshot blocks *)

(** snapshot_block.go:79 SnapshotContent: a map, here a list of entries with distinct
    addresses in no particular order. *)
Notation content := (list (list Z * (list Z * Z))).
(** snapshot_block.go:26-39, scItemToBytes *)
Definition item_bytes (x : list Z * (list Z * Z)) : list Z := fst x ++ fst (snd x) ++ be_bytes 8 (snd (snd x)).
(** bytes.Compare *)
Fixpoint blt (a b : list Z) : bool :=
  match a, b with
  | [], [] => false
  | [], _ => true
  | _, [] => false
  | x :: a, y :: b => if x <? y then true else if x =? y then blt a b else false
  end.
Section Sort.
Context {A : Type} (before : A -> A -> bool).
(** sort.Slice and sort.Sort: the entries are distinct, so the result does not depend on
    the algorithm. *)
Fixpoint insert (x : A) (l : list A) : list A :=
  match l with
  | [] => [x]
  | y :: r => if before x y then x :: l else y :: insert x r
  end.
Definition sort (l : list A) : list A := fold_right insert [] l.
End Sort.
(** snapshot_block.go:87-100, proto: from the greatest address down. *)
Definition content_bytes (sc : content) : list Z :=
  concat (map item_bytes (sort (fun x y => blt (fst y) (fst x)) sc)).
(** snapshot_block.go:41-60 bytesToScItem, 102-119 deProto.  Entries for the same address
    replace each other. *)
Fixpoint put_item (k : list Z) (v : list Z * Z) (sc : content) : content :=
  match sc with
  | [] => [(k, v)]
  | (k', v') :: r => if zlist_eqb k k' then (k', v) :: r else (k', v') :: put_item k v r
  end.
Fixpoint read_items (fuel : nat) (l : list Z) (sc : content) : option content :=
  match l with
  | [] => Some sc
  | _ =>
    match fuel with
    | O => None
    | S fuel =>
      read_items fuel (skipn 61 l)
        (put_item (firstn 21 l) (firstn 32 (skipn 21 l), be_val (firstn 8 (skipn 53 l))) sc)
    end
  end.
Definition parse_content (l : list Z) : option content :=
  if zlen l mod 61 =? 0 then read_items (length l) l [] else None.

(** snapshot_block.go:121-140.  [s_time] is the time in nanoseconds since 1970; nil
    content and empty content are the same here. *)
Record snap := mkS {
  s_hash : list Z; s_prev : list Z; s_height : Z; s_key : list Z; s_sig : list Z;
  s_time : Z; s_seed : Z; s_seedhash : option (list Z); s_content : content; s_version : Z
}.
(** snapshot_block.go:258-283 Proto, 333-340 Serialize; snapshot_block.proto:7-22. *)
Definition snap_serialize (s : snap) : list Z :=
  put_bytes 1 (s_hash s) ++ put_bytes 2 (s_prev s) ++ put_var 3 (s_height s) ++ put_bytes 4 (s_key s)
  ++ put_bytes 5 (s_sig s) ++ put_var 6 (wrap64 (s_time s)) ++ put_var 7 (s_seed s)
  ++ put_bytes 8 (obytes (s_seedhash s)) ++ put_bytes 9 (content_bytes (s_content s)) ++ put_var 10 (s_version s).
Definition int64 (x : Z) : Z := (x + 2 ^ 63) mod 2 ^ 64 - 2 ^ 63.
(** snapshot_block.go:285-331 DeProto, 342-354 Deserialize. *)
Definition snap_deserialize (l : list Z) : option snap :=
  match parse l with
  | None => None
  | Some fs =>
    match exact 32 (get_bytes 1 [] fs), exact 32 (get_bytes 2 [] fs),
          (match get_bytes 8 [] fs with
           | [] => Some None
           | b => match exact 32 b with Some x => Some (Some x) | None => None end
           end),
          (match get_bytes 9 [] fs with [] => Some [] | b => parse_content b end) with
    | Some hash, Some prev, Some seedhash, Some sc =>
      Some (mkS hash prev (get_var 3 0 fs) (get_bytes 4 [] fs) (get_bytes 5 [] fs)
                (int64 (get_var 6 0 fs)) (get_var 7 0 fs) seedhash sc (get_var 10 0 fs mod 2 ^ 32))
    | _, _, _, _ => None
    end
  end.

(** * Contract metadata *)

(** contract_meta.go:5-14 *)
Record meta := mkMeta { c_gid : list Z; c_confirm : Z; c_create : list Z; c_ratio : Z; c_seedconf : Z }.
(** contract_meta.go:18-29 *)
Definition meta_serialize (m : meta) : list Z :=
  c_gid m ++ [c_confirm m] ++ c_create m ++ [c_ratio m] ++ [c_seedconf m].
(** contract_meta.go:31-56; None is the panic on a record that is too short (the capacity
    of the slice is taken to be its length). *)
Definition meta_deserialize (l : list Z) : option meta :=
  if zlen l <? 44 then None
  else
    let confirm := nth 10 l 0 in
    Some (mkMeta (firstn 10 l) confirm (firstn 32 (skipn 11 l)) (nth 43 l 0)
                 (if zlen l <=? 44 then confirm else nth 44 l 0)).

(** * Hash and height, log lists *)

(** hash_height.go:19-46; message.proto:72-75 *)
Definition hh_serialize (x : list Z * Z) : list Z := put_bytes 1 (fst x) ++ put_var 2 (snd x).
Definition hh_deserialize (l : list Z) : option (list Z * Z) :=
  match parse l with
  | None => None
  | Some fs => match exact 32 (get_bytes 1 [] fs) with Some h => Some (h, get_var 2 0 fs) | None => None end
  end.
(** vm_log_list.go:14-17: topics and data. *)
Notation vmlog := (list (list Z) * list Z)%type.
(** vm_log_list.go:61-80 *)
Definition log_bytes (x : vmlog) : list Z := concat (map (put_msg 1) (fst x)) ++ put_bytes 2 (snd x).
Definition logs_serialize (l : list vmlog) : list Z := concat (map (fun x => put_msg 1 (log_bytes x)) l).
(** vm_log_list.go:82-107; topics of the wrong size become zero. *)
Definition parse_log (l : list Z) : option vmlog :=
  match parse l with
  | None => None
  | Some fs => Some (map (fun t => or_zero 32 (exact 32 t)) (get_all 1 fs), get_bytes 2 [] fs)
  end.
Definition logs_deserialize (l : list Z) : option (list vmlog) :=
  match parse l with
  | None => None
  | Some fs => all_some (map parse_log (get_all 1 fs))
  end.

(** * Hashes *)

(** common/bytes.go:120-129, LeftPadBytes *)
Definition left_pad (n : Z) (l : list Z) : list Z := if n <=? zlen l then l else zeros (n - zlen l) ++ l.

Section Hash.
(** crypto.Hash256 *)
Context (H : list Z -> list Z).
(** account_block.go:137-193, hashSource.  None is the panic on a send block without
    amount. *)
Definition hash_source (b : block) (extra : list Z) : option (list Z) :=
  let h := b_head b in
  match (if is_send (b_type h) then
           match b_amount h with Some a => Some (b_to h ++ left_pad 32 (big a) ++ b_token h) | None => None end
         else Some (b_from h)) with
  | None => None
  | Some mid =>
    Some ([b_type h] ++ b_prev h ++ be_bytes 8 (b_height h) ++ b_addr h ++ mid
          ++ (match b_data h with [] => [] | d => H d end)
          ++ left_pad 32 (obig (b_fee h)) ++ obytes (b_log h) ++ left_pad 8 (b_nonce h)
          ++ concat (map (fun s => b_hash (b_head s)) (b_sends b)) ++ extra)
  end.
(** account_block.go:203-222, ComputeSendHash: the bytes appended for a send made by a
    contract. *)
Definition send_extra (host : block) (index : Z) : list Z :=
  b_prev (b_head host) ++ be_bytes 8 (b_height (b_head host)) ++ [index mod 256].

(** snapshot_block.go:189-240, ComputeHash.  [name h] is the name of the upgrade point
    current at height h, empty if there is none; [leaf h] whether the Leaf upgrade is
    active. *)
Definition snap_source (name : Z -> list Z) (leaf : Z -> bool) (s : snap) : list Z :=
  s_prev s ++ be_bytes 8 (s_height s) ++ be_bytes 8 (wrap64 (s_time s / 1000000000)) ++ be_bytes 8 (s_seed s)
  ++ or_zero 32 (s_seedhash s)
  ++ concat (sort blt (map item_bytes (s_content s)))
  ++ name (s_height s) ++ (if leaf (s_height s) then be_bytes 4 (s_version s) else []).
(** vm_log_list.go:37-59, Hash: the bytes that are hashed. *)
Definition logs_source (seed_fork : bool) (addr prev : list Z) (l : list vmlog) : list Z :=
  concat (map (fun x => concat (fst x) ++ snd x) l) ++ (if seed_fork then addr ++ prev else []).
End Hash.
