(** Model of the contract interpreter: vm/interpreter.go, vm/jump_table.go,
    vm/gas_table.go, vm/memory.go, vm/memory_table.go, vm/stack.go,
    vm/stack_table.go, vm/instructions.go 337-861, vm/contract.go, vm/util/quota.go.
    The word arithmetic is VmWordModel, the jump analysis VmJumpModel. *)
From Verif Require Import Lib VmWordModel VmJumpModel.

(** ** Instructions *)

(** Instructions that push one value taken from the environment or the machine. *)
Inductive pushop :=
| PAddress | PCaller | PCallvalue | PTimestamp | PHeight | PTokenid | PAccountheight
| PPrevhash | PFromhash | PSeed | PRandom
| PCalldatasize | PCodesize | PReturndatasize | PPc | PMsize.

Inductive instr :=
| IStop | IArith (a : aop) | ISha3 | IBlake2b | IEnv (p : pushop) | IBalance
| ICalldataload | ICalldatacopy | ICodecopy | IReturndatacopy
| IPop | IMload | IMstore | IMstore8 | ISload | ISstore | IJump | IJumpi | IJumpdest
| IPush (n : nat) | IDup (n : nat) | ISwap (n : nat) | ILog (n : nat)
| ICall | ICall2 | IReturn | IRevert.

(** Instruction sets selected by height, vm/interpreter.go 16-42 *)
Inductive iset := SetSimple | SetRand | SetEarth.

(** vm/jump_table.go 41-301 and 303-1003 with the numbering of vm/opcodes.go 22-201;
    [None] is an operation whose [valid] field is false. The on-chain and off-chain
    tables have the same valid opcodes. *)
Definition decode (is : iset) (op : Z) : option instr :=
  if (0x60 <=? op) && (op <=? 0x7f) then Some (IPush (Z.to_nat (op - 0x5f)))
  else if (0x80 <=? op) && (op <=? 0x8f) then Some (IDup (Z.to_nat (op - 0x7f)))
  else if (0x90 <=? op) && (op <=? 0x9f) then Some (ISwap (Z.to_nat (op - 0x8f)))
  else if (0xa0 <=? op) && (op <=? 0xa4) then Some (ILog (Z.to_nat (op - 0xa0)))
  else match op with
  | 0x00 => Some IStop
  | 0x01 => Some (IArith AAdd) | 0x02 => Some (IArith AMul) | 0x03 => Some (IArith ASub)
  | 0x04 => Some (IArith ADiv) | 0x05 => Some (IArith ASdiv) | 0x06 => Some (IArith AMod)
  | 0x07 => Some (IArith ASmod) | 0x08 => Some (IArith AAddmod) | 0x09 => Some (IArith AMulmod)
  | 0x0a => Some (IArith AExp) | 0x0b => Some (IArith ASignextend)
  | 0x10 => Some (IArith ALt) | 0x11 => Some (IArith AGt) | 0x12 => Some (IArith ASlt)
  | 0x13 => Some (IArith ASgt) | 0x14 => Some (IArith AEq) | 0x15 => Some (IArith AIszero)
  | 0x16 => Some (IArith AAnd) | 0x17 => Some (IArith AOr) | 0x18 => Some (IArith AXor)
  | 0x19 => Some (IArith ANot) | 0x1a => Some (IArith AByte) | 0x1b => Some (IArith AShl)
  | 0x1c => Some (IArith AShr) | 0x1d => Some (IArith ASar)
  | 0x20 => Some ISha3 | 0x21 => Some IBlake2b
  | 0x30 => Some (IEnv PAddress) | 0x31 => Some IBalance
  | 0x33 => Some (IEnv PCaller) | 0x34 => Some (IEnv PCallvalue)
  | 0x35 => Some ICalldataload | 0x36 => Some (IEnv PCalldatasize) | 0x37 => Some ICalldatacopy
  | 0x38 => Some (IEnv PCodesize) | 0x39 => Some ICodecopy
  | 0x3d => Some (IEnv PReturndatasize) | 0x3e => Some IReturndatacopy
  | 0x42 => Some (IEnv PTimestamp) | 0x43 => Some (IEnv PHeight)
  | 0x46 => Some (IEnv PTokenid) | 0x47 => Some (IEnv PAccountheight)
  | 0x48 => Some (IEnv PPrevhash) | 0x49 => Some (IEnv PFromhash) | 0x4a => Some (IEnv PSeed)
  | 0x4b => match is with SetSimple => None | _ => Some (IEnv PRandom) end
  | 0x50 => Some IPop | 0x51 => Some IMload | 0x52 => Some IMstore | 0x53 => Some IMstore8
  | 0x54 => Some ISload | 0x55 => Some ISstore | 0x56 => Some IJump | 0x57 => Some IJumpi
  | 0x58 => Some (IEnv PPc) | 0x59 => Some (IEnv PMsize) | 0x5b => Some IJumpdest
  | 0xf1 => Some ICall
  | 0xf2 => match is with SetEarth => Some ICall2 | _ => None end
  | 0xf3 => Some IReturn | 0xfd => Some IRevert
  | _ => None
  end.

(** ** Quota table: the fields of vm/util/quota.go 114-238 the interpreter reads *)
Record gastab := mkGastab {
  g_arith : aop -> Z;   (* AddQuota … SarQuota; ExpQuota for AExp *)
  g_expbyte : Z;
  g_env : pushop -> Z;  (* AddressQuota … MsizeQuota *)
  g_hash : Z; g_hashword : Z; g_balance : Z; g_calldataload : Z;
  g_calldatacopy : Z; g_codecopy : Z; g_returndatacopy : Z; g_copyword : Z;
  g_pop : Z; g_mload : Z; g_mstore : Z; g_mstore8 : Z; g_sload : Z;
  g_sreset : Z; g_sinit : Z; g_sclean : Z; g_snoop : Z; g_smem : Z;
  g_jump : Z; g_jumpi : Z; g_jumpdest : Z; g_push : Z; g_dup : Z; g_swap : Z;
  g_log : Z; g_logtopic : Z; g_logdata : Z; g_callminus : Z; g_memdiv : Z; g_mem : Z }.

(** vm/util/quota.go 271-366 *)
Definition init_table : gastab := {|
  g_arith := fun a => match a with
    | AAdd | ASub | ALt | AGt | ASlt | ASgt | AEq | AIszero | AAnd | AOr | AXor | ANot
    | AByte | AShl | AShr | ASar => 3
    | AMul | ADiv | ASdiv | AMod | ASmod | ASignextend => 5
    | AAddmod | AMulmod => 8 | AExp => 10 end;
  g_expbyte := 50; g_env := fun _ => 2;
  g_hash := 30; g_hashword := 6; g_balance := 400; g_calldataload := 3;
  g_calldatacopy := 3; g_codecopy := 3; g_returndatacopy := 3; g_copyword := 3;
  g_pop := 2; g_mload := 3; g_mstore := 3; g_mstore8 := 3; g_sload := 200;
  g_sreset := 5000; g_sinit := 20000; g_sclean := 100; g_snoop := 200; g_smem := 200;
  g_jump := 8; g_jumpi := 10; g_jumpdest := 1; g_push := 3; g_dup := 3; g_swap := 3;
  g_log := 375; g_logtopic := 375; g_logdata := 8; g_callminus := 10000; g_memdiv := 512; g_mem := 3 |}.

(** vm/util/quota.go 378-497; the later tables (499-549) change no field the
    interpreter reads other than through the send cost parameter. *)
Definition vite_table : gastab := {|
  g_arith := fun a => match a with
    | AAdd | AMul | ASub | ASignextend | ALt | AGt | ASlt | ASgt | AEq | AAnd | AOr | AXor
    | ANot | AByte | AShl | AShr => 2
    | AIszero => 1 | ADiv | AMod | ASar => 3 | ASmod | AAddmod => 4 | ASdiv | AMulmod => 5
    | AExp => 10 end;
  g_expbyte := 50;
  g_env := fun p => match p with PSeed => 200 | PRandom => 250 | _ => 1 end;
  g_hash := 20; g_hashword := 1; g_balance := 150; g_calldataload := 2;
  g_calldatacopy := 3; g_codecopy := 3; g_returndatacopy := 3; g_copyword := 3;
  g_pop := 1; g_mload := 2; g_mstore := 1; g_mstore8 := 1; g_sload := 150;
  g_sreset := 15000; g_sinit := 15000; g_sclean := 0; g_snoop := 200; g_smem := 200;
  g_jump := 4; g_jumpi := 4; g_jumpdest := 1; g_push := 1; g_dup := 1; g_swap := 2;
  g_log := 375; g_logtopic := 375; g_logdata := 12; g_callminus := 13500; g_memdiv := 1024; g_mem := 1 |}.

(** ** Machine state *)

(** A request block appended by CALL/CALL2 (vm/util/common.go MakeRequestBlock) *)
Record vsend := mkSend { sd_to : Z; sd_token : Z; sd_amount : Z; sd_data : list Z }.

(** Everything the running code reads but cannot change. Hash functions, chain
    queries and the price of a request block (gasRequiredForSendBlock,
    getQuotaMultiplierForRS, MultipleCost: gas_table.go 446-466) are parameters. *)
Record venv := mkEnv {
  v_iset : iset; v_offchain : bool;
  v_earth : bool;                 (* upgrade.IsEarthUpgrade(latestSnapshotHeight) *)
  v_gas : gastab;
  v_code : list Z; v_data : list Z;
  v_orig : Z -> list Z;           (* db.GetOriginalValue by storage location *)
  v_env : pushop -> Z;            (* ADDRESS … RANDOM *)
  v_balance : Z -> Z;             (* db.GetBalance of the running contract *)
  v_keccak : list Z -> Z; v_blake : list Z -> Z;
  v_sendcost : vsend -> option Z;
  v_sendhash : list vsend -> Z }.

(** vm/contract.go 15-27, vm/memory.go 12-15, vm/stack.go 9-11. The stack is a list
    with the top first. [s_wr] is the unsaved storage overlay of the database:
    at most one entry per location. *)
Record vst := mkSt {
  s_pc : Z; s_stk : list Z; s_mem : list Z; s_lastgas : Z; s_quota : Z;
  s_wr : list (Z * list Z); s_modified : list Z;
  s_logs : list (list Z * list Z); s_sends : list vsend }.

Inductive verr :=
| EInvalidOpCode | EStackUnderflow | EStackLimit | EMemSizeOverflow | EGasOverflow
| EOutOfQuota | EInvalidJump | EReturnDataOOB | EStorageLimit | ESendCost.
Inductive vpanic := PanicStack | PanicMem | PanicCode.

Inductive vout :=
| ONext (s : vst)                       (* the loop goes on *)
| OHalt (ret : list Z) (s : vst)        (* STOP, RETURN *)
| ORevert (ret : list Z) (s : vst)      (* ErrExecutionReverted *)
| OErr (e : verr) (s : vst)             (* any other error; state at that point *)
| OPanic (p : vpanic).                  (* Go run-time panic *)

(** ** Storage *)
Fixpoint assoc {A} (k : Z) (l : list (Z * A)) : option A :=
  match l with [] => None | (k', v) :: r => if k =? k' then Some v else assoc k r end.
Fixpoint assoc_set {A} (k : Z) (v : A) (l : list (Z * A)) : list (Z * A) :=
  match l with
  | [] => [(k, v)]
  | (k', v') :: r => if k =? k' then (k, v) :: r else (k', v') :: assoc_set k v r
  end.
(** vm/util/db_helper.go 51-64 over vm_db: unsaved value first, then the chain's *)
Definition cur_val (e : venv) (s : vst) (loc : Z) : list Z :=
  match assoc loc (s_wr s) with Some v => v | None => v_orig e loc end.

(** big.Int.Bytes: big-endian without leading zeros *)
Definition bit_len (x : Z) : Z := if x =? 0 then 0 else Z.log2 x + 1.
Definition big_bytes (x : Z) : list Z := be_bytes (Z.to_nat ((bit_len x + 7) / 8)) x.

(** ** Memory *)
(** big.Int.Int64 and Uint64 of a non-negative value *)
Definition to_int64 (x : Z) : Z := let l := x mod two64 in if l <? 2 ^ 63 then l else l - two64.
Definition to_uint64 (x : Z) : Z := x mod two64.

(** vm/memory.go 22-26 *)
Definition mem_resize (m : list Z) (size : Z) : list Z :=
  if zlen m <? size then m ++ repeat 0 (Z.to_nat (size - zlen m)) else m.

Definition slice (m : list Z) (off size : Z) : list Z :=
  firstn (Z.to_nat size) (skipn (Z.to_nat off) m).

(** vm/memory.go 34-60 (get and getPtr). [None] is a slice-bounds panic. Go slices up to
    the capacity: a read past the length but inside spare capacity returns zero
    bytes instead of panicking; the model counts it as out of bounds. *)
Definition mem_get (m : list Z) (off size : Z) : option (list Z) :=
  if size =? 0 then Some []
  else if off <? zlen m then
    if (off <? 0) || (size <? 0) || (zlen m <? off + size) then None
    else Some (slice m off size)
  else Some [].

Definition write_at (m : list Z) (off : Z) (v : list Z) : list Z :=
  firstn (Z.to_nat off) m ++ v ++ skipn (Z.to_nat off + length v) m.

(** vm/memory.go 63-74; when off+size wraps around 2^64 the slice expression panics,
    so every case with off+size beyond the length panics *)
Definition mem_set (m : list Z) (off size : Z) (v : list Z) : option (list Z) :=
  if 0 <? size then
    if zlen m <? off + size then None
    else Some (write_at m off (firstn (Z.to_nat size) v))
  else Some m.

(** vm/memory.go 78-88 with helper.ReadBits: the value in 32 big-endian bytes *)
Definition mem_set32 (m : list Z) (off val : Z) : option (list Z) :=
  if zlen m <? off + 32 then None else Some (write_at m off (be_bytes 32 val)).

(** vm/instructions.go 609: store[off] = byte *)
Definition mem_set8 (m : list Z) (off val : Z) : option (list Z) :=
  if (off <? 0) || (zlen m <=? off) then None else Some (write_at m off [val mod 256]).

(** common/helper/common.go 59-68 *)
Definition right_pad (l : list Z) (n : Z) : list Z := l ++ repeat 0 (Z.to_nat (n - zlen l)).
(** common/helper/common.go 91-97 *)
Definition get_data_big (data : list Z) (start size : Z) : list Z :=
  let s := Z.min start (zlen data) in
  let e := Z.min (s + size) (zlen data) in
  right_pad (slice data s (e - s)) (to_int64 size).

(** ** Checked 64-bit helpers, common/helper *)
Definition safe_add (x y : Z) : option Z := if max_u64 <? x + y then None else Some (x + y).
Definition safe_mul (x y : Z) : option Z := if max_u64 <? x * y then None else Some (x * y).
(** common/helper/common.go 42-48 *)
Definition to_word_size (size : Z) : Z :=
  if max_u64 - 32 + 1 <? size then max_u64 / 32 + 1 else (size + 31) / 32.
(** common/helper/common.go 52-54 *)
Definition big_uint64 (v : Z) : option Z := if 64 <? bit_len v then None else Some (to_uint64 v).

(** ** Stack validation: vm/stack_table.go, the (pop, push) pairs of vm/jump_table.go *)
Definition stack_req (i : instr) : Z * Z :=
  match i with
  | IStop => (0, 0)
  | IArith a => (Z.of_nat (aop_arity a), 1)
  | ISha3 | IBlake2b => (2, 1)
  | IEnv _ => (0, 1)
  | IBalance | ICalldataload | IMload | ISload => (1, 1)
  | ICalldatacopy | ICodecopy | IReturndatacopy => (3, 0)
  | IPop | IJump => (1, 0)
  | IMstore | IMstore8 | ISstore | IJumpi | IReturn | IRevert => (2, 0)
  | IJumpdest => (0, 0)
  | IPush _ => (0, 1)
  | IDup n => (Z.of_nat n, Z.of_nat n + 1)
  | ISwap n => (Z.of_nat n + 1, Z.of_nat n + 1)
  | ILog n => (Z.of_nat n + 2, 0)
  | ICall => (5, 0)
  | ICall2 => (5, 1)
  end.
Definition stack_limit : Z := 1024. (* vm/params.go 12 *)

(** stack.back(n), vm/stack.go 44-46; defined total, [validate] guarantees it is in range *)
Definition back (st : list Z) (n : nat) : Z := nth n st 0.

(** vm/memory_table.go; [None] when the operation has no memorySize function *)
Definition calc_mem_size (off l : Z) : Z := if l =? 0 then 0 else off + l.
Definition mem_size (i : instr) (st : list Z) : option Z :=
  match i with
  | ISha3 | IBlake2b | ILog _ | IReturn | IRevert => Some (calc_mem_size (back st 0) (back st 1))
  | ICalldatacopy | ICodecopy | IReturndatacopy => Some (calc_mem_size (back st 0) (back st 2))
  | IMload | IMstore => Some (calc_mem_size (back st 0) 32)
  | IMstore8 => Some (calc_mem_size (back st 0) 1)
  | ICall => Some (calc_mem_size (back st 3) (back st 4))
  | _ => None
  end.
(** vm/interpreter.go 69-78 *)
Definition memory_size (i : instr) (st : list Z) : option Z :=
  match mem_size i st with
  | None => Some 0
  | Some sz => obind (big_uint64 sz) (fun n => safe_mul (to_word_size n) 32)
  end.

(** ** Gas *)
(** vm/gas_table.go 17-48: (fee, new lastGasCost); 64-bit arithmetic wraps *)
Definition memory_gas (t : gastab) (m : list Z) (lastgas newsize : Z) : option (Z * Z) :=
  if newsize =? 0 then Some (0, lastgas)
  else if 0xffffffffe0 <? newsize then None
  else
    let words := to_word_size newsize in
    let newsize' := wrap64 (words * 32) in
    if zlen m <? newsize' then
      let square := wrap64 (words * words) in
      let lin := wrap64 (words * g_mem t) in
      let quad := square / g_memdiv t in
      let total := wrap64 (lin + quad) in
      Some (wrap64 (total - lastgas), total)
    else Some (0, lastgas).

Inductive gres :=
| GOk (cost : Z) (charge : bool) (lastgas : Z) (modified : list Z)
| GErr (e : verr)
| GPanic.

Definition set_add (k : Z) (l : list Z) : list Z := if existsb (Z.eqb k) l then l else k :: l.

(** vm/gas_table.go 347-394 *)
Definition gas_sstore (e : venv) (s : vst) : gres :=
  let t := v_gas e in
  let loc := back (s_stk s) 0 in
  let new := back (s_stk s) 1 in
  let modified := if v_earth e then set_add loc (s_modified s) else s_modified s in
  if v_earth e && (100 <? zlen modified) then GErr EStorageLimit
  else
    let ok c := GOk c true (s_lastgas s) modified in
    let refund c := GOk c false (s_lastgas s) modified in
    let cur := cur_val e s loc in
    let newb := big_bytes new in
    if zlist_eqb cur newb then ok (g_snoop t)
    else
      let orig := v_orig e loc in
      if zlist_eqb orig cur then
        if zlen orig =? 0 then ok (g_sinit t)
        else if new =? 0 then ok (g_sclean t) else ok (g_sreset t)
      else if zlist_eqb orig newb then
        if zlen orig =? 0 then refund (wrap64 (g_sinit t - g_smem t - g_snoop t))
        else if zlen cur =? 0 then ok (wrap64 (g_snoop t + g_smem t - g_sclean t))
        else refund (wrap64 (g_sreset t - g_smem t - g_snoop t))
      else if (0 <? zlen orig) && (zlen cur =? 0) && (0 <? new) then ok (wrap64 (g_sreset t + g_smem t - g_sclean t))
      else if (0 <? zlen orig) && (0 <? zlen cur) && (new =? 0) then refund (wrap64 (g_sreset t - g_smem t - g_sclean t))
      else ok (g_smem t).

(** memory gas plus a list of checked additions (gas_table.go 211-345, 408-436) *)
Definition gas_mem_plus (t : gastab) (s : vst) (msz : Z) (extra : list (option Z)) : gres :=
  match memory_gas t (s_mem s) (s_lastgas s) msz with
  | None => GErr EGasOverflow
  | Some (fee, lg) =>
    match fold_left (fun acc x => obind acc (fun g => obind x (fun c => safe_add g c))) extra (Some fee) with
    | None => GErr EGasOverflow
    | Some g => GOk g true lg (s_modified s)
    end
  end.

(** common/types/address.go 94-96, tokentypeid.go 49-51: a value that does not fit is
    rejected by SetBytes, the error is dropped and the zero value used *)
Definition big_to_address (x : Z) : Z := if x <? 2 ^ 168 then x else 0.
Definition big_to_token (x : Z) : Z := if x <? 2 ^ 80 then x else 0.

Definition call_block (st : list Z) (data : list Z) : vsend :=
  mkSend (big_to_address (back st 0)) (big_to_token (back st 1)) (back st 2) data.

(** vm/gas_table.go 438-480 *)
Definition gas_call (e : venv) (s : vst) (msz : Z) : gres :=
  let st := s_stk s in
  match memory_gas (v_gas e) (s_mem s) (s_lastgas s) msz with
  | None => GErr EGasOverflow
  | Some (fee, lg) =>
    match mem_get (s_mem s) (to_int64 (back st 3)) (to_int64 (back st 4)) with
    | None => GPanic
    | Some data =>
      match v_sendcost e (call_block st data) with
      | None => GErr ESendCost
      | Some cost =>
        if g_callminus (v_gas e) <? cost then
          match safe_add fee (cost - g_callminus (v_gas e)) with
          | None => GErr EGasOverflow
          | Some g => GOk g true lg (s_modified s)
          end
        else GOk fee true lg (s_modified s)
      end
    end
  end.

(** the gasCost column of vm/jump_table.go and vm/gas_table.go *)
Definition gas_cost (e : venv) (s : vst) (i : instr) (msz : Z) : gres :=
  let t := v_gas e in
  let st := s_stk s in
  let const c := GOk c true (s_lastgas s) (s_modified s) in
  let words n := obind (big_uint64 (back st n)) (fun w => safe_mul (to_word_size w) (g_copyword t)) in
  match i with
  | IStop => const 0
  | IArith AExp =>
    match safe_add (wrap64 ((bit_len (back st 1) + 7) / 8 * g_expbyte t)) (g_arith t AExp) with
    | None => GErr EGasOverflow | Some c => const c end
  | IArith a => const (g_arith t a)
  | ISha3 | IBlake2b => gas_mem_plus t s msz [Some (g_hash t);
      obind (big_uint64 (back st 1)) (fun w => safe_mul (to_word_size w) (g_hashword t))]
  | IEnv p => const (g_env t p)
  | IBalance => const (g_balance t)
  | ICalldataload => const (g_calldataload t)
  | ICalldatacopy => gas_mem_plus t s msz [Some (g_calldatacopy t); words 2%nat]
  | ICodecopy => gas_mem_plus t s msz [Some (g_codecopy t); words 2%nat]
  | IReturndatacopy => gas_mem_plus t s msz [Some (g_returndatacopy t); words 2%nat]
  | IPop => const (g_pop t)
  | IMload => gas_mem_plus t s msz [Some (g_mload t)]
  | IMstore => gas_mem_plus t s msz [Some (g_mstore t)]
  | IMstore8 => gas_mem_plus t s msz [Some (g_mstore8 t)]
  | ISload => const (g_sload t)
  | ISstore => gas_sstore e s
  | IJump => const (g_jump t)
  | IJumpi => const (g_jumpi t)
  | IJumpdest => const (g_jumpdest t)
  | IPush _ => const (g_push t)
  | IDup _ => const (g_dup t)
  | ISwap _ => const (g_swap t)
  | ILog n =>
    match big_uint64 (back st 1) with
    | None => GErr EGasOverflow
    | Some sz => gas_mem_plus t s msz [Some (g_log t); Some (wrap64 (Z.of_nat n * g_logtopic t)); safe_mul sz (g_logdata t)]
    end
  | ICall | ICall2 => gas_call e s msz
  | IReturn | IRevert => gas_mem_plus t s msz []
  end.

(** vm/util/quota.go 33-47 *)
Definition use_quota (left cost : Z) (charge : bool) : option Z :=
  if charge then if left <? cost then None else Some (left - cost)
  else Some (wrap64 (left + cost)).

(** ** Execution *)
Definition set_pc (s : vst) (pc : Z) : vst := mkSt pc (s_stk s) (s_mem s) (s_lastgas s) (s_quota s) (s_wr s) (s_modified s) (s_logs s) (s_sends s).
Definition set_stk (s : vst) (st : list Z) : vst := mkSt (s_pc s) st (s_mem s) (s_lastgas s) (s_quota s) (s_wr s) (s_modified s) (s_logs s) (s_sends s).
Definition set_mem (s : vst) (m : list Z) : vst := mkSt (s_pc s) (s_stk s) m (s_lastgas s) (s_quota s) (s_wr s) (s_modified s) (s_logs s) (s_sends s).
Definition set_gas (s : vst) (q lg : Z) (md : list Z) : vst := mkSt (s_pc s) (s_stk s) (s_mem s) lg q (s_wr s) md (s_logs s) (s_sends s).
Definition set_wr (s : vst) (w : list (Z * list Z)) : vst := mkSt (s_pc s) (s_stk s) (s_mem s) (s_lastgas s) (s_quota s) w (s_modified s) (s_logs s) (s_sends s).
Definition add_log (s : vst) (l : list Z * list Z) : vst := mkSt (s_pc s) (s_stk s) (s_mem s) (s_lastgas s) (s_quota s) (s_wr s) (s_modified s) (s_logs s ++ [l]) (s_sends s).
Definition add_send (s : vst) (b : vsend) : vst := mkSt (s_pc s) (s_stk s) (s_mem s) (s_lastgas s) (s_quota s) (s_wr s) (s_modified s) (s_logs s) (s_sends s ++ [b]).

(** vm/interpreter.go 129-131 *)
Definition advance (s : vst) : vout := ONext (set_pc s (wrap64 (s_pc s + 1))).

(** vm/instructions.go 356-359, 378-396, 406-409, 423-426, 464-467, 487-582, 666-674.
    The off-chain table (jump_table.go 194-237, 75-80) pushes zero for the block-dependent ones.
    returnData is only assigned by REVERT, which ends the loop, so it is always empty
    while code runs (interpreter.go 45, 118-120). *)
Definition push_value (e : venv) (s : vst) (p : pushop) : Z :=
  match p with
  | PCalldatasize => zlen (v_data e)
  | PCodesize => zlen (v_code e)
  | PReturndatasize => 0
  | PPc => s_pc s
  | PMsize => zlen (s_mem s)
  | PAddress | PAccountheight | PPrevhash => v_env e p
  | _ => if v_offchain e then 0 else v_env e p
  end.

Definition swap_top (st : list Z) (n : nat) : option (list Z) :=
  match st with
  | top :: r =>
    match n with
    | O => None
    | S k => match nth_error r k with
             | Some x => Some (x :: firstn k r ++ top :: skipn (S k) r)
             | None => None
             end
    end
  | [] => None
  end.

(** vm/instructions.go 681-701 *)
Definition push_bytes (code : list Z) (pc : Z) (n : nat) : Z :=
  let start := Z.min (zlen code) (pc + 1) in
  let stop := Z.min (zlen code) (start + Z.of_nat n) in
  be_val (right_pad (slice code start (stop - start)) (Z.of_nat n)).

(** vm/instructions.go 636-664: the jump itself *)
Definition jump_to (e : venv) (s : vst) (dest : Z) : vout :=
  match jump_has (v_code e) dest with
  | None => OPanic PanicCode
  | Some false => OErr EInvalidJump s
  | Some true => ONext (set_pc s (to_uint64 dest))
  end.

Definition with_mem (s : vst) (o : option (list Z)) : vout :=
  match o with None => OPanic PanicMem | Some m => advance (set_mem s m) end.

(** the execute column: vm/instructions.go 337-861; [s] already has the cost
    deducted and the memory resized *)
Definition exec (e : venv) (i : instr) (s : vst) : vout :=
  match i, s_stk s with
  | IStop, _ => OHalt [] s
  | IArith a, st => match exec_aop a st with None => OPanic PanicStack | Some st' => advance (set_stk s st') end
  | ISha3, off :: size :: r =>
    match mem_get (s_mem s) (to_int64 off) (to_int64 size) with
    | None => OPanic PanicMem | Some d => advance (set_stk s (v_keccak e d :: r)) end
  | IBlake2b, off :: size :: r =>
    match mem_get (s_mem s) (to_int64 off) (to_int64 size) with
    | None => OPanic PanicMem | Some d => advance (set_stk s (v_blake e d :: r)) end
  | IEnv p, st => advance (set_stk s (push_value e s p :: st))
  | IBalance, t :: r => advance (set_stk s (v_balance e (big_to_token t) :: r))
  | ICalldataload, off :: r => advance (set_stk s (be_val (get_data_big (v_data e) off 32) :: r))
  | ICalldatacopy, mo :: dof :: len :: r =>
    with_mem (set_stk s r) (mem_set (s_mem s) (to_uint64 mo) (to_uint64 len) (get_data_big (v_data e) dof len))
  | ICodecopy, mo :: dof :: len :: r =>
    with_mem (set_stk s r) (mem_set (s_mem s) (to_uint64 mo) (to_uint64 len) (get_data_big (v_code e) dof len))
  | IReturndatacopy, mo :: dof :: len :: r =>
    if (64 <? bit_len (dof + len)) || (0 <? to_uint64 (dof + len)) then OErr EReturnDataOOB (set_stk s r)
    else with_mem (set_stk s r) (mem_set (s_mem s) (to_uint64 mo) (to_uint64 len) [])
  | IPop, _ :: r => advance (set_stk s r)
  | IMload, off :: r =>
    match mem_get (s_mem s) (to_int64 off) 32 with
    | None => OPanic PanicMem | Some d => advance (set_stk s (be_val d :: r)) end
  | IMstore, off :: v :: r => with_mem (set_stk s r) (mem_set32 (s_mem s) (to_uint64 off) v)
  | IMstore8, off :: v :: r => with_mem (set_stk s r) (mem_set8 (s_mem s) (to_int64 off) v)
  | ISload, loc :: r => advance (set_stk s (be_val (cur_val e s loc) :: r))
  | ISstore, loc :: v :: r =>
    let s' := set_stk s r in
    advance (if v_offchain e then s' else set_wr s' (assoc_set loc (big_bytes v) (s_wr s)))
  | IJump, pos :: r => jump_to e (set_stk s r) pos
  | IJumpi, pos :: cond :: r =>
    if cond =? 0 then advance (set_stk s r) else jump_to e (set_stk s r) pos
  | IJumpdest, _ => advance s
  | IPush n, st => advance (set_pc (set_stk s (push_bytes (v_code e) (s_pc s) n :: st)) (wrap64 (s_pc s + Z.of_nat n)))
  | IDup n, st => match n with
      | O => OPanic PanicStack
      | S k => match nth_error st k with None => OPanic PanicStack | Some x => advance (set_stk s (x :: st)) end end
  | ISwap n, st => match swap_top st n with None => OPanic PanicStack | Some st' => advance (set_stk s st') end
  | ILog n, ms :: sz :: r =>
    if Z.of_nat (length r) <? Z.of_nat n then OPanic PanicStack
    else if v_offchain e then advance (set_stk s (skipn n r))
    else match mem_get (s_mem s) (to_int64 ms) (to_int64 sz) with
      | None => OPanic PanicMem
      | Some d => advance (add_log (set_stk s (skipn n r)) (firstn n r, d)) end
  | ICall, _ :: _ :: _ :: off :: size :: r =>
    if v_offchain e then advance (set_stk s r)
    else match mem_get (s_mem s) (to_int64 off) (to_int64 size) with
      | None => OPanic PanicMem
      | Some d => advance (add_send (set_stk s r) (call_block (s_stk s) d)) end
  | ICall2, _ :: _ :: _ :: off :: size :: r =>
    if v_offchain e then advance (set_stk s (0 :: r))
    else match mem_get (s_mem s) (to_int64 off) (to_int64 size) with
      | None => OPanic PanicMem
      | Some d => let s' := add_send s (call_block (s_stk s) d) in
                  advance (set_stk s' (v_sendhash e (s_sends s') :: r)) end
  | IReturn, off :: size :: r =>
    match mem_get (s_mem s) (to_int64 off) (to_int64 size) with
    | None => OPanic PanicMem | Some d => OHalt d (set_stk s r) end
  | IRevert, off :: size :: r =>
    if v_offchain e then OHalt [] (set_stk s r)
    else match mem_get (s_mem s) (to_int64 off) (to_int64 size) with
      | None => OPanic PanicMem | Some d => ORevert d (set_stk s r) end
  | _, _ => OPanic PanicStack
  end.

(** vm/contract.go 41-50 *)
Definition get_op (code : list Z) (pc : Z) : Z := if pc <? zlen code then nth (Z.to_nat pc) code 0 else 0.

(** one round of vm/interpreter.go 55-132 (abort flag and debug logging not modelled) *)
Definition step (e : venv) (s : vst) : vout :=
  match decode (v_iset e) (get_op (v_code e) (s_pc s)) with
  | None => OErr EInvalidOpCode s
  | Some i =>
    let '(pop, push) := stack_req i in
    let len := zlen (s_stk s) in
    if len <? pop then OErr EStackUnderflow s
    else if stack_limit <? len + push - pop then OErr EStackLimit s
    else match memory_size i (s_stk s) with
    | None => OErr EMemSizeOverflow s
    | Some msz =>
      match gas_cost e s i msz with
      | GErr err => OErr err s
      | GPanic => OPanic PanicMem
      | GOk cost charge lg md =>
        match use_quota (s_quota s) cost charge with
        | None => OErr EOutOfQuota (set_gas s 0 lg md)
        | Some q => exec e i (set_mem (set_gas s q lg md) (mem_resize (s_mem s) msz))
        end
      end
    end
  end.

(** vm/interpreter.go 44-53 *)
Definition init_st (quota : Z) : vst := mkSt 0 [] [] 0 quota [] [] [] [].

(** the loop; [None] when the fuel runs out *)
Fixpoint run (fuel : nat) (e : venv) (s : vst) : option vout :=
  match fuel with
  | O => None
  | S f => match step e s with ONext s' => run f e s' | o => Some o end
  end.
