(** Vocabulary for the interpreter theorems. *)
From Verif Require Import Lib VmWordModel VmWordSpec VmModel.

(** The surroundings of a run are sane: code and data are byte strings, values
    delivered by the chain fit a machine word, stored values are at most 32
    bytes, and the quota table is one of those the code ships. *)
Record env_ok (e : venv) : Prop := {
  eo_table : v_gas e = init_table \/ v_gas e = vite_table;
  eo_code : bytes_ok (v_code e) /\ zlen (v_code e) < 2 ^ 62;
  eo_data : bytes_ok (v_data e) /\ zlen (v_data e) < 2 ^ 62;
  eo_env : forall p, is_word (v_env e p);
  eo_balance : forall t, is_word (v_balance e t);
  eo_hash : forall d, is_word (v_keccak e d) /\ is_word (v_blake e d);
  eo_sendhash : forall l, is_word (v_sendhash e l);
  eo_sendcost : forall b c, v_sendcost e b = Some c -> is_u64 c;
  eo_orig : forall k, bytes_ok (v_orig e k) /\ zlen (v_orig e k) <= 32 }.

(** States met while a run that started with [q] quota goes on. *)
Inductive reachable (e : venv) (q : Z) : vst -> Prop :=
| reach_init : reachable e q (init_st q)
| reach_next s s' : reachable e q s -> step e s = ONext s' -> reachable e q s'.

(** Quota available to one run: below 2^32. (The largest amount the ledger hands
    out per block is 1000000, vm/quota/params.go; off-chain reads get 1000000.) *)
Definition quota_ok (q : Z) : Prop := 0 <= q < 2 ^ 32.

(** Price of [w] words of memory under the table in force. *)
Definition memory_price (t : gastab) (w : Z) : Z := w * g_mem t + w * w / g_memdiv t.

(** The state an outcome carries. *)
Definition out_state (o : vout) : option vst :=
  match o with ONext s | OHalt _ s | ORevert _ s | OErr _ s => Some s | OPanic _ => None end.

Definition is_call (i : instr) : bool := match i with ICall | ICall2 => true | _ => false end.

(** ** The documented effect of each instruction *)

(** Byte strings read beyond their end give zero bytes. *)
Definition byte_at (l : list Z) (k : Z) : Z := if k <? 0 then 0 else nth (Z.to_nat k) l 0.
(** [size] bytes from position [off]. *)
Definition read_bytes (l : list Z) (off size : Z) : list Z :=
  map (fun k => byte_at l (off + Z.of_nat k)) (seq 0 (Z.to_nat size)).

(** Stack argument number [n], the top being 0. *)
Definition arg (s : vst) (n : nat) : Z := nth n (s_stk s) 0.
(** The storage the running code sees, as words. *)
Definition storage (e : venv) (s : vst) (k : Z) : Z := be_val (cur_val e s k).

(** What an environment instruction pushes. Off-chain, everything that depends on
    the block being executed reads as zero. *)
Definition env_word (e : venv) (s : vst) (p : pushop) : Z :=
  match p with
  | PCalldatasize => zlen (v_data e) | PCodesize => zlen (v_code e) | PReturndatasize => 0
  | PPc => s_pc s | PMsize => zlen (s_mem s)
  | PAddress | PAccountheight | PPrevhash => v_env e p
  | PCaller | PCallvalue | PTimestamp | PHeight | PTokenid | PFromhash | PSeed | PRandom =>
    if v_offchain e then 0 else v_env e p
  end.

(** The request block a CALL describes. *)
Definition request_of (s : vst) : vsend :=
  mkSend (if arg s 0 <? 2 ^ 168 then arg s 0 else 0) (if arg s 1 <? 2 ^ 80 then arg s 1 else 0) (arg s 2)
         (read_bytes (s_mem s) (arg s 3) (arg s 4)).

(** Operand stack after the instruction. *)
Definition ideal_stack (e : venv) (s : vst) (i : instr) : list Z :=
  let st := s_stk s in
  match i with
  | IStop | IJumpdest => st
  | IArith a => spec_aop a (arg s 0) (arg s 1) (arg s 2) :: skipn (aop_arity a) st
  | ISha3 => v_keccak e (read_bytes (s_mem s) (arg s 0) (arg s 1)) :: skipn 2 st
  | IBlake2b => v_blake e (read_bytes (s_mem s) (arg s 0) (arg s 1)) :: skipn 2 st
  | IEnv p => env_word e s p :: st
  | IBalance => v_balance e (if arg s 0 <? 2 ^ 80 then arg s 0 else 0) :: skipn 1 st
  | ICalldataload => be_val (read_bytes (v_data e) (arg s 0) 32) :: skipn 1 st
  | ICalldatacopy | ICodecopy | IReturndatacopy => skipn 3 st
  | IPop | IJump => skipn 1 st
  | IMload => be_val (read_bytes (s_mem s) (arg s 0) 32) :: skipn 1 st
  | ISload => storage e s (arg s 0) :: skipn 1 st
  | IMstore | IMstore8 | ISstore | IJumpi | IReturn | IRevert => skipn 2 st
  | IPush n => be_val (read_bytes (v_code e) (s_pc s + 1) (Z.of_nat n)) :: st
  | IDup n => nth (n - 1) st 0 :: st
  | ISwap n => nth n st 0 :: firstn (n - 1) (skipn 1 st) ++ nth 0 st 0 :: skipn (n + 1) st
  | ILog n => skipn (n + 2) st
  | ICall => skipn 5 st
  | ICall2 => (if v_offchain e then 0 else v_sendhash e (s_sends s ++ [request_of s])) :: skipn 5 st
  end.

(** Byte [k] of memory after the instruction. *)
Definition ideal_byte (e : venv) (s : vst) (i : instr) (k : Z) : Z :=
  let within n := (arg s 0 <=? k) && (k <? arg s 0 + n) in
  let old := byte_at (s_mem s) k in
  match i with
  | IMstore => if within 32 then arg s 1 / 256 ^ (31 - (k - arg s 0)) mod 256 else old
  | IMstore8 => if within 1 then arg s 1 mod 256 else old
  | ICalldatacopy => if within (arg s 2) then byte_at (v_data e) (arg s 1 + (k - arg s 0)) else old
  | ICodecopy => if within (arg s 2) then byte_at (v_code e) (arg s 1 + (k - arg s 0)) else old
  | _ => old
  end.

(** Storage after the instruction. *)
Definition ideal_storage (e : venv) (s : vst) (i : instr) (k : Z) : Z :=
  match i with
  | ISstore => if v_offchain e then storage e s k else if k =? arg s 0 then arg s 1 else storage e s k
  | _ => storage e s k
  end.

Definition ideal_logs (e : venv) (s : vst) (i : instr) : list (list Z * list Z) :=
  match i with
  | ILog n => if v_offchain e then s_logs s
              else s_logs s ++ [(firstn n (skipn 2 (s_stk s)), read_bytes (s_mem s) (arg s 0) (arg s 1))]
  | _ => s_logs s
  end.

Definition ideal_sends (e : venv) (s : vst) (i : instr) : list vsend :=
  match i with
  | ICall | ICall2 => if v_offchain e then s_sends s else s_sends s ++ [request_of s]
  | _ => s_sends s
  end.

(** Where execution goes on. *)
Definition ideal_pc (s : vst) (i : instr) : Z :=
  match i with
  | IJump => arg s 0
  | IJumpi => if arg s 1 =? 0 then s_pc s + 1 else arg s 0
  | IPush n => s_pc s + 1 + Z.of_nat n
  | _ => s_pc s + 1
  end.

(** [s'] is [s] after instruction [i] (everything except quota and memory size). *)
Record ideal (e : venv) (s : vst) (i : instr) (s' : vst) : Prop := {
  id_stack : s_stk s' = ideal_stack e s i;
  id_mem : forall k, byte_at (s_mem s') k = ideal_byte e s i k;
  id_storage : forall k, storage e s' k = ideal_storage e s i k;
  id_logs : s_logs s' = ideal_logs e s i;
  id_sends : s_sends s' = ideal_sends e s i }.

(** The memory range an instruction touches: (offset, size). *)
Definition touched (s : vst) (i : instr) : Z * Z :=
  match i with
  | ISha3 | IBlake2b | ILog _ | IReturn | IRevert => (arg s 0, arg s 1)
  | ICalldatacopy | ICodecopy | IReturndatacopy => (arg s 0, arg s 2)
  | IMload | IMstore => (arg s 0, 32)
  | IMstore8 => (arg s 0, 1)
  | ICall | ICall2 => (arg s 3, arg s 4)
  | _ => (0, 0)
  end.
