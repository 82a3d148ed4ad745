(** Model of the text forms of addresses, token ids, group ids and hashes
    (common/types/address.go, tokentypeid.go, gid.go, hash.go, jsonutils.go).  Strings
    are lists of bytes. *)
From Coq Require Import ZArith List Bool Lia.
From Verif Require Import Lib.
Import ListNotations.
Open Scope Z_scope.

(** Go's encoding/hex: EncodeToString writes lower-case digits; Decode accepts both
    cases and rejects odd lengths and other characters. *)
Definition hexdig (n : Z) : Z := if n <? 10 then 48 + n else 87 + n.
Definition hex_encode (l : list Z) : list Z := flat_map (fun b => [hexdig (b / 16); hexdig (b mod 16)]) l.
Definition nibble (c : Z) : option Z :=
  if (48 <=? c) && (c <=? 57) then Some (c - 48)
  else if (97 <=? c) && (c <=? 102) then Some (c - 87)
  else if (65 <=? c) && (c <=? 70) then Some (c - 55)
  else None.
Fixpoint hex_decode (l : list Z) : option (list Z) :=
  match l with
  | [] => Some []
  | [_] => None
  | a :: b :: r =>
    match nibble a, nibble b, hex_decode r with
    | Some x, Some y, Some t => Some (16 * x + y :: t)
    | _, _, _ => None
    end
  end.
(** Go's slice expression s[i:j] within bounds. *)
Definition slice (i j : Z) (s : list Z) : list Z := firstn (Z.to_nat (j - i)) (skipn (Z.to_nat i) s).
(** strings.HasPrefix *)
Definition has_prefix (p s : list Z) : bool := zlist_eqb (firstn (length p) s) p.

(** helper/common.go:81-87, LDI *)
Definition ldi (l : list Z) : list Z := map (fun b => 255 - b) l.

(** address.go:18-27: "vite_" and sizes. *)
Definition addr_prefix : list Z := [118; 105; 116; 101; 95].
(** tokentypeid.go:14-20: "tti_". *)
Definition tti_prefix : list Z := [116; 116; 105; 95].

Section Hash.
(** vcrypto.Hash: blake2b with the given digest size. *)
Context (H : Z -> list Z -> list Z).

(** address.go:163-174, Hex; None is the text "error address[..]". *)
Definition addr_hex (a : list Z) : option (list Z) :=
  let core := firstn 20 a in
  let kind := nth 20 a 0 in
  if kind =? 0 then Some (addr_prefix ++ hex_encode core ++ hex_encode (H 5 core))
  else if kind =? 1 then Some (addr_prefix ++ hex_encode core ++ hex_encode (ldi (H 5 core)))
  else None.
(** address.go:115-140, ValidHexAddress (and HexToAddress, 98-100), with 218-228
    getAddrCoreFromHex and getAddressChecksumFromHex, 193-205 GenContractAddress and
    GenUserAddress. *)
Definition addr_parse (s : list Z) : option (list Z) :=
  if negb (zlen s =? 55) || negb (has_prefix addr_prefix s) then None
  else
    match hex_decode (slice 5 45 s), hex_decode (slice 45 55 s) with
    | Some core, Some check =>
      if zlist_eqb (H 5 core) check then Some (core ++ [0])
      else if zlist_eqb (H 5 core) (ldi check) then Some (core ++ [1])
      else None
    | _, _ => None
    end.

(** tokentypeid.go:34-36, Hex *)
Definition tti_hex (t : list Z) : list Z := tti_prefix ++ hex_encode t ++ hex_encode (H 2 t).
(** tokentypeid.go:53-83, HexToTokenTypeId and IsValidHexTokenTypeId *)
Definition tti_parse (s : list Z) : option (list Z) :=
  if negb (zlen s =? 28) || negb (has_prefix tti_prefix s) then None
  else
    match hex_decode (slice 4 24 s), hex_decode (slice 24 28 s) with
    | Some t, Some check => if zlist_eqb (H 2 t) check then Some t else None
    | _, _ => None
    end.
End Hash.

(** hash.go:53-55 Hex, 26-35 HexToHash; gid.go:63-65 Hex, 28-37 HexToGid: [n] bytes
    without prefix or checksum. *)
Definition raw_hex (l : list Z) : list Z := hex_encode l.
Definition raw_parse (n : Z) (s : list Z) : option (list Z) :=
  if zlen s =? 2 * n then hex_decode s else None.

(** jsonutils.go:9-18 *)
Definition quote : Z := 34.
Definition is_string (s : list Z) : bool :=
  (2 <=? zlen s) && (nth 0 s 0 =? quote) && (last s 0 =? quote).
Definition trim_quotes (s : list Z) : list Z :=
  if is_string s then slice 1 (zlen s - 1) s else [].
(** strings.Trim of the quote character. *)
Fixpoint trim_left (s : list Z) : list Z :=
  match s with c :: r => if c =? quote then trim_left r else s | [] => [] end.
Definition trim (s : list Z) : list Z := rev (trim_left (rev (trim_left s))).
(** address.go:234-245 and 252-263: UnmarshalJSON and UnmarshalText are the same code. *)
Definition addr_unmarshal (H : Z -> list Z -> list Z) (s : list Z) : option (list Z) :=
  if is_string s then addr_parse H (trim s) else None.
(** tokentypeid.go:102-112 and 119-130 *)
Definition tti_unmarshal (H : Z -> list Z -> list Z) (s : list Z) : option (list Z) :=
  if is_string s then tti_parse H (trim_quotes s) else None.
(** hash.go:99-109, gid.go:69-79 *)
Definition raw_unmarshal (n : Z) (s : list Z) : option (list Z) :=
  if is_string s then raw_parse n (trim_quotes s) else None.
(** MarshalText (address.go:247-249, tokentypeid.go:114-116, hash.go:111-113) is the text
    form; encoding/json puts it between quotes. *)
Definition json_text (s : list Z) : list Z := quote :: s ++ [quote].
