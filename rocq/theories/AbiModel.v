(** The contract ABI: parsing of type names, packing and unpacking of arguments, method calls
    and events (vm/abi).

    Go values are modelled by [val]; named types are identified with the types under them, and
    pointers to anything but a big number are taken as followed already (indirect,
    vm/abi/reflect.go:10-15).  Unpacking into Go structures is not modelled: the list of values
    it starts from is.  Lengths are numbers below 2^62, as every slice in memory has. *)
From Coq Require Import String ZArith List Bool Lia.
From Verif Require Import Lib WireModel TextModel SchedModel.
Import ListNotations.
Open Scope Z_scope.

(** A result, an error, or a panic. *)
Inductive res (A : Type) : Type := Ok (a : A) | Err | Crash.
Arguments Ok {A} a. Arguments Err {A}. Arguments Crash {A}.
Definition bind {A B} (r : res A) (f : A -> res B) : res B :=
  match r with Ok a => f a | Err => Err | Crash => Crash end.

(** reflect.Kind, as far as it matters: the sized numbers, pointers (big numbers), the rest. *)
Inductive kind := KNum (signed : bool) (bits : Z) | KPtr | KBool | KString | KSlice | KArray.
Definition kind_eqb (a b : kind) : bool :=
  match a, b with
  | KNum s n, KNum s' n' => Bool.eqb s s' && (n =? n')
  | KPtr, KPtr | KBool, KBool | KString, KString | KSlice, KSlice | KArray, KArray => true
  | _, _ => false
  end.
Definition KU8 : kind := KNum false 8.

(** The types NewType can produce: vm/abi/type.go:12-37.  Arrays and slices are not nested. *)
Inductive base := TInt (size : Z) | TUint (size : Z) | TBool | TString | TAddress | TGid | TToken
  | TFixed (size : Z) | TBytes.
Inductive ty := Base (b : base) | Slice (b : base) | Array (n : Z) (b : base).
(** reflectIntKindAndType: vm/abi/reflect.go:19-43. *)
Definition int_kind (signed : bool) (size : Z) : kind :=
  if (size =? 8) || (size =? 16) || (size =? 32) || (size =? 64) then KNum signed size else KPtr.
(** Type.Kind: vm/abi/type.go:109-155. *)
Definition base_kind (b : base) : kind :=
  match b with
  | TInt n => int_kind true n
  | TUint n => int_kind false n
  | TBool => KBool
  | TString => KString
  | TAddress | TGid | TToken | TFixed _ => KArray
  | TBytes => KSlice
  end.
(** requiresLengthPrefix: vm/abi/type.go:198-200. *)
Definition dynamic (b : base) : bool := match b with TString | TBytes => true | _ => false end.
Definition needs_length (t : ty) : bool := match t with Base b => dynamic b | Slice _ => true | Array _ _ => false end.

(** * Type names *)
Definition digit (c : Z) : bool := (48 <=? c) && (c <=? 57).
Definition letter (c : Z) : bool := ((65 <=? c) && (c <=? 90)) || ((97 <=? c) && (c <=? 122)).
Fixpoint take_while (p : Z -> bool) (l : list Z) : list Z :=
  match l with c :: r => if p c then c :: take_while p r else [] | [] => [] end.
Fixpoint drop_while (p : Z -> bool) (l : list Z) : list Z :=
  match l with c :: r => if p c then drop_while p r else l | [] => [] end.
(** The first match of ([a-zA-Z]+)([0-9]+)?, or none: vm/abi/type.go:41,97. *)
Definition first_match (t : list Z) : option (list Z * list Z) :=
  let r := drop_while (fun c => negb (letter c)) t in
  match r with
  | [] => None
  | _ :: _ => Some (take_while letter r, take_while digit (drop_while letter r))
  end.
(** strconv.Atoi of a run of digits; None is the error for a number above 2^63-1. *)
Definition atoi (ds : list Z) : option Z :=
  let v := fold_left (fun a c => a * 10 + (c - 48)) ds 0 in if v <? 2 ^ 63 then Some v else None.
(** All matches of [0-9]+. *)
Fixpoint digit_runs (fuel : nat) (l : list Z) : list (list Z) :=
  match fuel with
  | O => []
  | S f => match drop_while (fun c => negb (digit c)) l with
           | [] => []
           | r => take_while digit r :: digit_runs f (drop_while digit r)
           end
  end.
Definition count_char (c : Z) (l : list Z) : Z := zlen (filter (Z.eqb c) l).
Definition s_ (x : string) : list Z := map (fun a => Z.of_nat (Ascii.nat_of_ascii a)) (list_ascii_of_string x).
(** NewType without brackets: vm/abi/type.go:96-162.  Crash: indexing an empty list of
    matches. *)
Definition new_base (t : list Z) : res base :=
  if zlist_eqb t (s_ "uint") || zlist_eqb t (s_ "int") then Err
  else match first_match t with
       | None => Crash
       | Some (name, ds) =>
           match (match ds with [] => Some 0 | _ :: _ => match atoi ds with Some 0 => None | x => x end end) with
           | None => Err
           | Some size =>
               if zlist_eqb name (s_ "int") then Ok (TInt size)
               else if zlist_eqb name (s_ "uint") then Ok (TUint size)
               else if zlist_eqb name (s_ "bool") then Ok TBool
               else if zlist_eqb name (s_ "address") then Ok TAddress
               else if zlist_eqb name (s_ "gid") then Ok TGid
               else if zlist_eqb name (s_ "tokenId") then Ok TToken
               else if zlist_eqb name (s_ "string") then Ok TString
               else if zlist_eqb name (s_ "bytes") then Ok (if size =? 0 then TBytes else TFixed size)
               else Err
           end
       end.
(** NewType: vm/abi/type.go:45-162. *)
Definition new_type (t : list Z) : res ty :=
  if zlist_eqb t (s_ "uint") || zlist_eqb t (s_ "int") then Err
  else if negb (count_char 91 t =? count_char 93 t) || (1 <? count_char 91 t) then Err
  else if negb (count_char 91 t =? 0) then
    let pre := take_while (fun c => negb (c =? 91)) t in
    bind (if negb (count_char 93 pre =? 0) then Err else new_base pre) (fun b =>
      match digit_runs (length t) (drop_while (fun c => negb (c =? 91)) t) with
      | [] => Ok (Slice b)
      | [ds] => match atoi ds with
                | None | Some 0 => Err
                | Some n => Ok (Array n b)
                end
      | _ => Err
      end)
  else bind (new_base t) (fun b => Ok (Base b)).

(** * Values *)
Inductive val :=
| VNum (signed : bool) (bits : Z) (z : Z)      (* int8 … int64, uint8 … uint64 *)
| VBig (z : Z)                                 (* *big.Int *)
| VBool (b : bool)
| VString (s : list Z)
| VBytes (s : list Z)                          (* a slice of uint8 *)
| VByteArr (s : list Z)                        (* an array of uint8 *)
| VSlice (elem : kind) (l : list val)          (* other slices: [elem] is not uint8 *)
| VArray (elem : kind) (l : list val).
Definition kind_of (v : val) : kind :=
  match v with
  | VNum s n _ => KNum s n
  | VBig _ => KPtr
  | VBool _ => KBool
  | VString _ => KString
  | VBytes _ | VSlice _ _ => KSlice
  | VByteArr _ | VArray _ _ => KArray
  end.
(** The items of a slice or array, with their kind. *)
Definition items (v : val) : option (kind * list val) :=
  match v with
  | VBytes s | VByteArr s => Some (KU8, map (VNum false 8) s)
  | VSlice k l | VArray k l => Some (k, l)
  | _ => None
  end.
(** reflect.Value.Len; None is its panic. *)
Definition go_len (v : val) : option Z :=
  match v with
  | VString s | VBytes s | VByteArr s => Some (zlen s)
  | VSlice _ l | VArray _ l => Some (zlen l)
  | _ => None
  end.
Definition num_of (v : val) : Z := match v with VNum _ _ z => z | _ => 0 end.
(** A slice or array made by reflection. *)
Definition mk_slice (k : kind) (l : list val) : val :=
  if kind_eqb k KU8 then VBytes (map num_of l) else VSlice k l.
Definition mk_array (k : kind) (l : list val) : val :=
  if kind_eqb k KU8 then VByteArr (map num_of l) else VArray k l.

(** * Packing *)
(** U256: vm/abi/numbers.go:28-30 with U256 and PaddedBigBytes: common/helper/math_big.go:25-27,
    74-81. *)
Definition word (z : Z) : list Z := be_bytes 32 (z mod two256).
(** RightPadBytes: common/helper/common.go:57-66. *)
Definition right_pad (n : Z) (l : list Z) : list Z := if n <=? zlen l then l else l ++ zeros (n - zlen l).
(** packBytesSlice: vm/abi/pack.go:12-18. *)
Definition pack_bytes_slice (bs : list Z) (l : Z) : list Z := word l ++ right_pad ((l + 31) / 32 * 32) bs.
(** mustArrayToByteSlice (vm/abi/reflect.go:47-51) where the value is an array, then Bytes. *)
Definition byte_content (v : val) : res (list Z) :=
  match v with VByteArr s | VBytes s => Ok s | _ => Crash end.
(** packElement and packNum: vm/abi/pack.go:22-79. *)
Definition pack_element (b : base) (v : val) : res (list Z) :=
  match b with
  | TInt _ | TUint _ => match v with VNum _ _ z | VBig z => Ok (word z) | _ => Err end
  | TString => match v with VString s => Ok (pack_bytes_slice s (zlen s)) | _ => Crash end
  | TAddress | TGid | TToken => bind (byte_content v) (fun s => Ok (left_pad 32 s))
  | TBool => match v with VBool x => Ok (word (if x then 1 else 0)) | _ => Crash end
  | TBytes => bind (byte_content v) (fun s => Ok (pack_bytes_slice s (zlen s)))
  | TFixed _ => bind (byte_content v) (fun s => Ok (right_pad 32 s))
  end.
(** typeCheck: vm/abi/error.go:167-181, then packElement: vm/abi/type.go:169-194. *)
Definition pack_base (b : base) (v : val) : res (list Z) :=
  if negb (kind_eqb (base_kind b) KArray) && negb (kind_eqb (base_kind b) (kind_of v)) then Err
  else match b with
       | TFixed n => match go_len v with
                     | None => Crash
                     | Some l => if negb (n =? l) then Err else pack_element b v
                     end
       | _ => pack_element b v
       end.
(** The last test of sliceTypeCheck: vm/abi/error.go:157-161. *)
Definition bad_elem (ek tk : kind) : bool :=
  (negb (kind_eqb ek KSlice) && negb (kind_eqb ek tk))
  || (kind_eqb ek KSlice && negb (kind_eqb tk KSlice) && negb (kind_eqb tk KArray))
  || (negb (kind_eqb ek KSlice) && negb (kind_eqb ek KArray) && kind_eqb tk KArray).
Fixpoint pack_items (b : base) (l : list val) : res (list Z) :=
  match l with
  | [] => Ok []
  | v :: r => bind (pack_base b v) (fun x => bind (pack_items b r) (fun y => Ok (x ++ y)))
  end.
(** pack with sliceTypeCheck: vm/abi/type.go:169-194, vm/abi/error.go:140-163. *)
Definition pack (t : ty) (v : val) : res (list Z) :=
  match t with
  | Base b => pack_base b v
  | Slice b =>
      match items v with
      | None => Err
      | Some (ek, l) =>
          if bad_elem ek (base_kind b) then Err
          else bind (pack_items b l) (fun p => Ok (pack_bytes_slice p (zlen l)))
      end
  | Array n b =>
      match items v with
      | None => Err
      | Some (ek, l) =>
          if negb (zlen l =? n) then Err
          else if bad_elem ek (base_kind b) then Err
          else pack_items b l
      end
  end.
(** The room of an argument in the head: vm/abi/argument.go:211-217. *)
Definition head_size (t : ty) : Z := match t with Array n _ => 32 * n | _ => 32 end.
Fixpoint heads (ts : list ty) : Z := match ts with [] => 0 | t :: r => head_size t + heads r end.
(** The loop of Pack: vm/abi/argument.go:218-246. *)
Fixpoint pack_loop (offset : Z) (ts : list ty) (vs : list val) (head tail : list Z) : res (list Z) :=
  match ts, vs with
  | t :: ts, v :: vs =>
      bind (pack t v) (fun p =>
        if needs_length t then pack_loop offset ts vs (head ++ word (offset + zlen tail)) (tail ++ p)
        else pack_loop offset ts vs (head ++ p) tail)
  | _, _ => Ok (head ++ tail)
  end.
(** Arguments.Pack: vm/abi/argument.go:199-248. *)
Definition pack_args (ts : list ty) (vs : list val) : res (list Z) :=
  if negb (zlen vs =? zlen ts) then Err else pack_loop (heads ts) ts vs [] [].
(** What a caller's big number holds after it was packed: helper.U256 works in place
    (common/helper/math_big.go:25-27). *)
Definition after_packing (v : val) : val :=
  match v with
  | VBig z => VBig (z mod two256)
  | VSlice KPtr l => VSlice KPtr (map (fun x => match x with VBig z => VBig (z mod two256) | y => y end) l)
  | VArray KPtr l => VArray KPtr (map (fun x => match x with VBig z => VBig (z mod two256) | y => y end) l)
  | y => y
  end.

(** * Unpacking.  [data] is the slice; [spare] are the bytes of the array under it that follow
    it, up to its capacity. *)
Definition sub (l : list Z) (i n : Z) : list Z := firstn (Z.to_nat n) (skipn (Z.to_nat i) l).
Definition signed_of (bits x : Z) : Z := if x <? 2 ^ (bits - 1) then x else x - 2 ^ bits.
(** readInteger: vm/abi/unpack.go:14-35. *)
Definition read_integer (k : kind) (w : list Z) : val :=
  match k with
  | KNum s n => let x := be_val (sub w (32 - n / 8) (n / 8)) in VNum s n (if s then signed_of n x else x)
  | _ => VBig (be_val w)
  end.
(** readBool: vm/abi/unpack.go:38-52. *)
Definition read_bool (w : list Z) : res val :=
  if negb (forallb (Z.eqb 0) (firstn 31 w)) then Err
  else match nth 31 w 0 with 0 => Ok (VBool false) | 1 => Ok (VBool true) | _ => Err end.
(** lengthPrefixPointsTo: vm/abi/unpack.go:175-210. *)
Definition length_prefix (index : Z) (data : list Z) : res (Z * Z) :=
  let off := be_val (sub data index 32) + 32 in
  if zlen data <? off then Err
  else if 2 ^ 63 <=? off then Err
  else let len := be_val (sub data (off - 32) 32) in
       if 2 ^ 63 <=? off + len then Err
       else if zlen data <? off + len then Err
       else Ok (off, len).
(** toGoType: vm/abi/unpack.go:124-172, for types without elements.  The last case of
    readFixedBytes (55-65) reslices the word up to its capacity. *)
Definition to_go_base (index : Z) (b : base) (data spare : list Z) : res val :=
  if zlen data <? index + 32 then Err
  else
    let w := sub data index 32 in
    match b with
    | TString => bind (length_prefix index data) (fun '(o, n) => Ok (VString (sub data o n)))
    | TBytes => bind (length_prefix index data) (fun '(o, n) => Ok (VBytes (sub data o n)))
    | TInt _ | TUint _ => Ok (read_integer (base_kind b) w)
    | TBool => read_bool w
    | TAddress => Ok (VByteArr (sub w 11 21))
    | TGid => Ok (VByteArr (sub w 22 10))
    | TToken => Ok (VByteArr (sub w 22 10))
    | TFixed n => if zlen (data ++ spare) <? index + n then Crash
                  else Ok (VByteArr (sub (data ++ spare) index n))
    end.
Fixpoint each (start : Z) (b : base) (data spare : list Z) (n : nat) : res (list val) :=
  match n with
  | O => Ok []
  | S n => bind (to_go_base start b data spare) (fun v =>
             bind (each (start + 32) b data spare n) (fun r => Ok (v :: r)))
  end.
(** forEachUnpack: vm/abi/unpack.go:79-120.  The sum of the range check is an int.  A value
    of 2^47 items or more cannot be allocated. *)
Definition for_each (mk : kind -> list val -> val) (b : base) (data spare : list Z) (start size : Z) : res val :=
  if zlen data <? wrap_i64 (start + 32 * size) then Err
  else if 2 ^ 47 <=? size then Crash
  else bind (each start b data spare (Z.to_nat size)) (fun l => Ok (mk (base_kind b) l)).
Definition to_go (index : Z) (t : ty) (data spare : list Z) : res val :=
  match t with
  | Base b => to_go_base index b data spare
  | Slice b => if zlen data <? index + 32 then Err
               else bind (length_prefix index data) (fun '(o, n) => for_each mk_slice b data spare o n)
  | Array n b => if zlen data <? index + 32 then Err
                 else for_each mk_array b data spare index n
  end.
(** UnpackValues: vm/abi/argument.go:166-190. *)
Fixpoint unpack_from (pos : Z) (ts : list ty) (data spare : list Z) : res (list val) :=
  match ts with
  | [] => Ok []
  | t :: r => bind (to_go pos t data spare) (fun v =>
                bind (unpack_from (pos + head_size t) r data spare) (fun vs => Ok (v :: vs)))
  end.
Definition unpack_args (ts : list ty) (data spare : list Z) : res (list val) := unpack_from 0 ts data spare.

(** * Method calls *)
(** Method: vm/abi/method.go:18-29; the id is the start of a hash of the signature. *)
Record meth := Meth { m_name : list Z; m_id : list Z; m_inputs : list ty }.
(** The map of methods as the list in which an iteration visits it. *)
Definition by_name (ms : list meth) (name : list Z) : option meth := find (fun m => zlist_eqb (m_name m) name) ms.
(** MethodById: vm/abi/abi.go:167-177. *)
Definition by_id (ms : list meth) (id : list Z) : option meth := find (fun m => zlist_eqb (m_id m) id) ms.
(** PackMethod of a named method: vm/abi/abi.go:35-50,83-90. *)
Definition pack_method (ms : list meth) (name : list Z) (vs : list val) : res (list Z) :=
  match by_name ms name with
  | None => Err
  | Some m => bind (pack_args (m_inputs m) vs) (fun d => Ok (m_id m ++ d))
  end.
(** UnpackMethod and DirectUnpackMethodInput: vm/abi/abi.go:101-120. *)
Definition unpack_method (ms : list meth) (name : list Z) (input spare : list Z) : res (list val) :=
  if zlen input <=? 4 then Err
  else match by_id ms (firstn 4 input) with
       | Some m => if zlist_eqb (m_name m) name then unpack_args (m_inputs m) (skipn 4 input) spare else Err
       | None => Err
       end.

(** * Events *)
(** Event: vm/abi/event.go:16-21; inputs with their indexed flag.  The id is the hash of the
    signature. *)
Record event := Event { e_name : list Z; e_id : list Z; e_inputs : list (ty * bool) }.
(** getEventInputs: vm/abi/abi.go:240-249. *)
Definition plain_inputs (e : event) : list ty := map fst (filter (fun x => negb (snd x)) (e_inputs e)).
Section Hash.
(** types.DataHash. *)
Context (H : list Z -> list Z).
(** Event.Pack: vm/abi/event.go:47-80. *)
Fixpoint event_loop (ins : list (ty * bool)) (vs : list val) : res (list (list Z) * list val) :=
  match ins, vs with
  | (t, indexed) :: ins, v :: vs =>
      if indexed then
        bind (pack t v) (fun p =>
        bind (event_loop ins vs) (fun '(tops, rest) =>
          Ok ((if zlen p <=? 32 then left_pad 32 p else H p) :: tops, rest)))
      else bind (event_loop ins vs) (fun '(tops, rest) => Ok (tops, v :: rest))
  | _, _ => Ok ([], [])
  end.
Definition event_pack (e : event) (vs : list val) : res (list (list Z) * list Z) :=
  if negb (zlen vs =? zlen (e_inputs e)) then Err
  else bind (event_loop (e_inputs e) vs) (fun '(tops, plain) =>
         match plain with
         | [] => Ok (e_id e :: tops, [])
         | _ :: _ => bind (pack_args (plain_inputs e) plain) (fun d => Ok (e_id e :: tops, d))
         end).
End Hash.
(** The topic of an array, slice, string or byte string is returned as it is. *)
Definition opaque_topic (t : ty) : bool := match t with Base b => dynamic b | _ => true end.
(** Event.DirectUnPack: vm/abi/event.go:82-108.  Crash: a topic that is not there. *)
Fixpoint event_args (ins : list (ty * bool)) (topics : list (list Z)) (plain : list val) : res (list val) :=
  match ins with
  | [] => Ok []
  | (t, true) :: ins =>
      match topics with
      | [] => Crash
      | x :: topics =>
          bind (if opaque_topic t then Ok (VByteArr x) else to_go 0 t x []) (fun v =>
          bind (event_args ins topics plain) (fun r => Ok (v :: r)))
      end
  | (_, false) :: ins =>
      match plain with
      | [] => Crash
      | v :: plain => bind (event_args ins topics plain) (fun r => Ok (v :: r))
      end
  end.
Definition event_unpack (e : event) (topics : list (list Z)) (data spare : list Z) : res (list val) :=
  bind (unpack_args (plain_inputs e) data spare) (fun plain => event_args (e_inputs e) (tl topics) plain).
(** DirectUnpackEvent: vm/abi/abi.go:142-153; the events in the order of an iteration. *)
Definition unpack_event (es : list event) (topics : list (list Z)) (data spare : list Z) : res (list Z * list val) :=
  match topics with
  | [] => Err
  | x :: _ => match find (fun e => zlist_eqb (e_id e) x) es with
              | None => Err
              | Some e => bind (event_unpack e topics data spare) (fun vs => Ok (e_name e, vs))
              end
  end.
