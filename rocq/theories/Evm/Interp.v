(* The EVM: x/evm/core/vm/interpreter.go, instructions.go, evm.go,
   gas_table.go, operations_acl.go, gas.go, contract.go and
   runPrecompiledContract of contracts.go.

   Simplifications.
   - Tracing, preimage recording, the abort flag and object pools are left out.
   - The world is a value (World.v), so a snapshot is the world itself.  The
     error path of a frame returns the world of the failing instruction's start:
     every caller puts its snapshot back.
   - interpreter.returnData, depth and readOnly are fields shared by all frames
     in the program; each is saved and restored around a call there, and kept
     with the frame here.
   - The program counter is a number without wrap-around: it never passes the
     end of the code by more than 33. *)
From Verif Require Import Lib.Base Lib.Bytes Evm.Words Evm.World Evm.Memory Evm.Table Evm.Analysis.
Open Scope N_scope.

(* errors.go: what a run can end with; EHook: the error of a call or create
   hook; EPre: any other error of a precompile *)
Inductive verr :=
| EReverted | EOutOfGas | EGasOverflow | EDepth | EBalance | ECollision | ENonce | EMaxCode | EInvalidCode
| ECodeStore | EInvalidJump | EWrite | EReturnData | EInvalidOp | EUnderflow | EOverflow | EHook | EPre.

(* interface.go, evm.go:62-95 BlockContext, TxContext *)
Record block := Block {
  b_origin : N; b_gasprice : N; b_coinbase : N; b_time : N; b_number : N; b_difficulty : N; b_gaslimit : N;
  b_chainid : N; b_basefee : N; b_hash : N -> N
}.

(* contract.go:46-68 Contract, with the fields of the interpreter that hold during its run *)
Record frame := Frame {
  f_self : N; f_caller : N; f_value : N; f_code : bytes; f_input : bytes; f_ro : bool; f_depth : N
}.

(* ScopeContext and the local variables of Run; the top of the stack is the head of the list *)
Record mach := Mach {
  m_pc : N; m_gas : N; m_stack : list N; m_mem : bytes; m_last : N; m_ret : bytes; m_world : world
}.

Record out := Out { o_ret : bytes; o_err : option verr; o_gas : N; o_world : world }.
(* XFuel: the bound on the number of steps of this model was reached; it never is (Props) *)
Inductive xres := XOut (o : out) | XPanic | XFuel.
Inductive sres := SNext (m : mach) | SDone (o : out) | SPanic | SFuel.

Definition fail (e : verr) (m : mach) : sres := SDone (Out [] (Some e) (m_gas m) (m_world m)).

Definition set_world (m : mach) (w : world) : mach :=
  Mach (m_pc m) (m_gas m) (m_stack m) (m_mem m) (m_last m) (m_ret m) w.
Definition set_gas (m : mach) (g : N) : mach :=
  Mach (m_pc m) g (m_stack m) (m_mem m) (m_last m) (m_ret m) (m_world m).

(* Uint64 of a word *)
Definition lo64 (x : N) : N := x mod U64.
(* data offsets that do not fit become the largest uint64 *)
Definition clip64 (x : N) : N := if U64 <=? x then U64 - 1 else x.

(* instructions.go:29-232 *)
Definition run_un (o : unop) : N -> N := match o with UNot => w_not | UIszero => w_iszero end.
Definition run_bin (o : binop) : N -> N -> N :=
  match o with
  | BAdd => w_add | BMul => w_mul | BSub => w_sub | BDiv => w_div | BSdiv => w_sdiv | BMod => w_mod
  | BSmod => w_smod | BExp => w_exp | BSignextend => w_signextend | BLt => w_lt | BGt => w_gt | BSlt => w_slt
  | BSgt => w_sgt | BEq => w_eq | BAnd => N.land | BOr => N.lor | BXor => N.lxor | BByte => w_byte
  | BShl => w_shl | BShr => w_shr | BSar => w_sar
  end.
Definition run_ter (o : terop) : N -> N -> N -> N := match o with TAddmod => w_addmod | TMulmod => w_mulmod end.

(* stack.go:66-76 Swap: the top with entry n; Dup: entry n-1 again *)
Definition swap (n : nat) (st : list N) : res (list N) :=
  match st, nth_error st n with
  | x :: st', Some y => Ok (y :: firstn (n - 1) st' ++ x :: skipn n st')
  | _, _ => Panic
  end.

(* contract.go:138-145 GetOp: beyond the code is STOP *)
Definition get_op (code : bytes) (pc : N) : N := nth (N.to_nat pc) code 0.

(* instructions.go:882-916 opPush1, makePush: cut off at the end of the code and filled with zeros *)
Definition push_value (code : bytes) (pc : N) (n : nat) : N :=
  be (pad_right (firstn n (skipn (N.to_nat pc + 1) code)) (N.of_nat n)).

(* go-ethereum rlp, crypto.CreateAddress, CreateAddress2 *)
Definition byte_len (x : N) : N := (N.size x + 7) / 8.
Definition rlp_uint (x : N) : bytes :=
  if x =? 0 then [0x80] else if x <? 0x80 then [x]
  else (0x80 + byte_len x) :: to_be (N.to_nat (byte_len x)) x.
Definition rlp_pair (a n : N) : bytes :=
  let body := (0x94 :: to_be 20 a) ++ rlp_uint n in (0xc0 + blen body) :: body.

(* gas.go:36-56 callGas *)
Definition call_gas (avail base req : N) : N :=
  let a := (avail + (U64 - base)) mod U64 in
  let g := a - a / 64 in
  if (U64 <=? req) || (g <? req) then g else req.

Definition reverted (e : verr) : bool := match e with EReverted => true | _ => false end.

(* evm.go:250-257 and its copies: on an error the snapshot is put back and,
   unless the callee reverted, its gas is gone *)
Definition settle (snap : world) (r : xres) : xres :=
  match r with
  | XOut (Out ret (Some e) g w) => XOut (Out ret (Some e) (if reverted e then g else 0) snap)
  | _ => r
  end.

Section Evm.
Variable keccak : bytes -> N.
Variable committed : N -> N -> N.
Variable B : block.
(* precompiled contracts: is the address one, what it asks for its input, and
   what it does (read only?, caller, address, input, gas, value, world):
   returned bytes, error, gas used, world *)
Variable is_pre : N -> bool.
Variable pre_gas : N -> bytes -> N.
Variable pre_run : bool -> N -> N -> bytes -> N -> N -> world -> bytes * option verr * N * world.
(* x/evm/core/vm/opcode_hooks.go: the permission hooks of the EVM keeper *)
Variable call_allowed : N -> N -> bool.
Variable create_allowed : N -> bool.

Let empty := empty keccak.
Let create_account := create_account keccak committed.
Let add_balance := add_balance keccak committed.
Let set_nonce := set_nonce keccak committed.
Let set_code := set_code keccak committed.
Let set_state := set_state keccak committed.
Let transfer := transfer keccak committed.
Let committed_state := committed_state committed.

Definition create_address (a n : N) : N := to_addr (keccak (rlp_pair a n)).
Definition create2_address (a salt : N) (init : bytes) : N :=
  to_addr (keccak (0xff :: to_be 20 a ++ to_be 32 salt ++ to_be 32 (keccak init))).

(* instructions.go:257-590: what is pushed *)
Definition run_env (F : frame) (m : mach) (o : envop) : N :=
  match o with
  | VAddress => f_self F | VOrigin => b_origin B | VCaller => f_caller F | VCallValue => f_value F
  | VCallDataSize => blen (f_input F) | VCodeSize => blen (f_code F) | VGasPrice => b_gasprice B
  | VReturnDataSize => blen (m_ret m) | VCoinbase => b_coinbase B | VTimestamp => b_time B
  | VNumber => b_number B | VDifficulty => b_difficulty B | VGasLimit => b_gaslimit B | VChainID => b_chainid B
  | VSelfBalance => unsigned (balance (m_world m) (f_self F)) | VBaseFee => b_basefee B
  | VPc => m_pc m | VMsize => blen (m_mem m) | VGas => m_gas m
  end.

(* instructions.go:262-530: what replaces the top *)
Definition run_read (F : frame) (m : mach) (o : readop) (x : N) : res N :=
  let w := m_world m in
  match o with
  | RBalance => Ok (unsigned (balance w (to_addr x)))
  | RCallDataLoad => if U64 <=? x then Ok 0 else rbind (get_data (f_input F) x 32) (fun d => Ok (be d))
  | RExtCodeSize => Ok (blen (code w (to_addr x)))
  | RExtCodeHash => Ok (if empty w (to_addr x) then 0 else code_hash w (to_addr x))
  | RBlockhash =>
      if U64 <=? x then Ok 0
      else let upper := lo64 (b_number B) in
           let lower := if upper <? 257 then 0 else upper - 256 in
           Ok (if (lower <=? x) && (x <? upper) then b_hash B x else 0)
  | RSload => Ok (state w (f_self F) x)
  end.

(* instructions.go:302-375 *)
Definition copy_source (F : frame) (m : mach) (o : copyop) (off len : N) : res bytes :=
  match o with
  | CCallData => get_data (f_input F) (clip64 off) (lo64 len)
  | CCode => get_data (f_code F) (clip64 off) (lo64 len)
  | CReturnData =>
      if U64 <=? off then Err
      else let e := (off + len) mod W256 in
           if (U64 <=? e) || (blen (m_ret m) <? e) then Err
           else if e <? off then Panic                     (* slice bounds *)
           else Ok (firstn (N.to_nat (e - off)) (skipn (N.to_nat off) (m_ret m)))
  end.

(* Instructions that change only the stack, the memory and the program counter:
   the new stack, memory and program counter.  Err: the error of the instruction. *)
Definition local (F : frame) (m : mach) (i : instr) : option (res (list N * bytes * N)) :=
  let pc := m_pc m in
  let keep st : res (list N * bytes * N) := Ok (st, m_mem m, pc + 1) in
  match i, m_stack m with
  | IUn o, x :: st => Some (keep (run_un o x :: st))
  | IBin o, x :: y :: st => Some (keep (run_bin o x y :: st))
  | ITer o, x :: y :: z :: st => Some (keep (run_ter o x y z :: st))
  | IKeccak, off :: size :: st =>
      Some (rbind (mget (m_mem m) (lo64 off) (lo64 size)) (fun d => keep (keccak d :: st)))
  | IEnv o, st => Some (keep (run_env F m o :: st))
  | IRead o, x :: st => Some (rbind (run_read F m o x) (fun v => keep (v :: st)))
  | ICopy o, mo :: off :: len :: st =>
      Some (rbind (copy_source F m o off len) (fun d =>
            rbind (mset (m_mem m) (lo64 mo) (lo64 len) d) (fun mem => Ok (st, mem, pc + 1))))
  | IExtCodeCopy, a :: mo :: off :: len :: st =>
      Some (rbind (get_data (code (m_world m) (to_addr a)) (clip64 off) (lo64 len)) (fun d =>
            rbind (mset (m_mem m) (lo64 mo) (lo64 len) d) (fun mem => Ok (st, mem, pc + 1))))
  | IPop, _ :: st => Some (keep st)
  | IMload, off :: st => Some (rbind (mget (m_mem m) (lo64 off) 32) (fun d => keep (be d :: st)))
  | IMstore, off :: v :: st =>
      Some (rbind (mset (m_mem m) (lo64 off) 32 (to_be 32 v)) (fun mem => Ok (st, mem, pc + 1)))
  | IMstore8, off :: v :: st =>
      Some (rbind (mset (m_mem m) (lo64 off) 1 [v mod 256]) (fun mem => Ok (st, mem, pc + 1)))
  | IJump, pos :: st =>
      Some (rbind (valid_jumpdest (f_code F) pos) (fun ok => if ok then Ok (st, m_mem m, pos) else Err))
  | IJumpi, pos :: cond :: st =>
      if cond =? 0 then Some (keep st)
      else Some (rbind (valid_jumpdest (f_code F) pos) (fun ok => if ok then Ok (st, m_mem m, pos) else Err))
  | IJumpdest, st => Some (keep st)
  | IPush n, st => Some (Ok (push_value (f_code F) pc n :: st, m_mem m, pc + N.of_nat n + 1))
  | IDup n, st => match nth_error st (n - 1) with Some x => Some (keep (x :: st)) | None => Some Panic end
  | ISwap n, st => Some (rbind (swap n st) keep)
  | _, _ => None
  end.
Definition local_err (i : instr) : verr := match i with ICopy _ => EReturnData | _ => EInvalidJump end.

(* ---- what an instruction costs beyond its constant ---- *)
Record dres := Dyn { d_cost : N; d_call : N; d_last : N; d_world : world }.

(* a number of bytes on the stack, paid per word *)
Definition word_cost (st : list N) (pos : nat) (per : N) : res N :=
  rbind (back st pos) (fun x => if U64 <=? x then Err else safe_mul (word_size x) per).

(* operations_acl.go:27-96 makeGasSStoreFunc(4800): the cost and the world *)
Definition sstore_gas (self key value : N) (w : world) : res (N * world) :=
  let current := state w self key in
  rbind (if w_slot w self key then Ok (0, w)
         else if w_addr w self then Ok (cold_sload, warm_slot w self key) else Panic)
  (fun c => let '(cost, w1) := c in
   if current =? value then Ok (cost + warm_read, w1)
   else
     let original := committed_state w1 self key in
     if original =? current then
       if original =? 0 then Ok (cost + 20000, w1)
       else Ok (cost + 2900, if value =? 0 then add_refund w1 4800 else w1)
     else
       rbind (if negb (original =? 0) then
                if current =? 0 then sub_refund w1 4800
                else Ok (if value =? 0 then add_refund w1 4800 else w1)
              else Ok w1)
       (fun w2 =>
        let w3 := if original =? value
                  then add_refund w2 (if original =? 0 then 19900 else 2800) else w2 in
        Ok (cost + warm_read, w3))).

(* gas_table.go:335-460 and operations_acl.go:160-192: base costs of a call *)
Definition call_base (k : callop) (st : list N) (w : world) : res N :=
  match k with
  | KCall =>
      rbind (back st 2) (fun v => rbind (back st 1) (fun a =>
      Ok ((if negb (v =? 0) && empty w (to_addr a) then 25000 else 0) + (if v =? 0 then 0 else 9000))))
  | KCallCode => rbind (back st 2) (fun v => Ok (if v =? 0 then 0 else 9000))
  | KDelegate | KStatic => Ok 0
  end.

Definition dynamic (k : dynk) (F : frame) (m : mach) (size : N) : res dres :=
  let st := m_stack m in
  let w := m_world m in
  let last := m_last m in
  let memory := mem_gas (m_mem m) last size in
  let plus (r : res N) : res dres :=
    rbind memory (fun g => rbind r (fun c => rbind (safe_add (fst g) c) (fun t => Ok (Dyn t 0 (snd g) w)))) in
  match k with
  | DNone => Ok (Dyn 0 0 last w)
  | DMem => rbind memory (fun g => Ok (Dyn (fst g) 0 (snd g) w))
  | DCopy pos => plus (word_cost st pos 3)
  | DKeccak => plus (word_cost st 1 6)
  | DCreate2 => plus (word_cost st 2 6)
  | DLog n =>
      rbind (back st 1) (fun len =>
      if U64 <=? len then Err
      else rbind memory (fun g => rbind (safe_add (fst g) 375) (fun a => rbind (safe_add a (n * 375)) (fun b =>
           rbind (safe_mul len 8) (fun c => rbind (safe_add b c) (fun t => Ok (Dyn t 0 (snd g) w)))))))
  | DExp => rbind (back st 1) (fun e => rbind (safe_add (byte_len e * 50) 10) (fun t => Ok (Dyn t 0 last w)))
  | DSload =>
      rbind (back st 0) (fun key =>
      if w_slot w (f_self F) key then Ok (Dyn warm_read 0 last w)
      else Ok (Dyn cold_sload 0 last (warm_slot w (f_self F) key)))
  | DSstore =>
      if m_gas m <=? 2300 then Err
      else rbind (back st 1) (fun value => rbind (back st 0) (fun key =>
           rbind (sstore_gas (f_self F) key value w) (fun c => Ok (Dyn (fst c) 0 last (snd c)))))
  | DExtCodeCopy =>
      rbind memory (fun g => rbind (word_cost st 3 3) (fun c => rbind (safe_add (fst g) c) (fun t =>
      rbind (back st 0) (fun a =>
      if w_addr w (to_addr a) then Ok (Dyn t 0 (snd g) w)
      else rbind (safe_add t (cold_account - warm_read)) (fun t' => Ok (Dyn t' 0 (snd g) (warm w (to_addr a))))))))
  | DAccount =>
      rbind (back st 0) (fun a =>
      if w_addr w (to_addr a) then Ok (Dyn 0 0 last w)
      else Ok (Dyn (cold_account - warm_read) 0 last (warm w (to_addr a))))
  | DCall k =>
      rbind (back st 1) (fun a =>
      let cold := if w_addr w (to_addr a) then 0 else cold_account - warm_read in
      let w1 := if w_addr w (to_addr a) then w else warm w (to_addr a) in
      if m_gas m <? cold then Err
      else rbind (call_base k st w1) (fun b => rbind memory (fun g => rbind (safe_add b (fst g)) (fun base =>
           rbind (back st 0) (fun req =>
           let cg := call_gas (m_gas m - cold) base req in
           rbind (safe_add base cg) (fun t => Ok (Dyn ((t + cold) mod U64) cg (snd g) w1)))))))
  | DSelfdestruct =>
      rbind (back st 0) (fun a =>
      let cold := if w_addr w (to_addr a) then 0 else cold_account in
      let w1 := if w_addr w (to_addr a) then w else warm w (to_addr a) in
      let new := if empty w1 (to_addr a) && negb (balance w1 (f_self F) =? 0)%Z then 25000 else 0 in
      Ok (Dyn (cold + new) 0 last w1))
  end.

(* interpreter.go:196-252: stack limits, constant gas, memory size, dynamic
   gas, growing the memory.  inl: ready to execute, with the gas for a call. *)
Definition pay (F : frame) (m : mach) (o : operation) : (mach * N) + sres :=
  let len := N.of_nat (length (m_stack m)) in
  if len <? op_min o then inr (fail EUnderflow m)
  else if op_max o <? len then inr (fail EOverflow m)
  else if m_gas m <? op_gas o then inr (fail EOutOfGas m)
  else
    let m1 := set_gas m (m_gas m - op_gas o) in
    match op_dyn o with
    | DNone => inl (m1, 0)
    | k =>
      match mem_words (op_mem o) (m_stack m) with
      | Err => inr (fail EGasOverflow m1)
      | Panic => inr SPanic
      | Ok size =>
        match dynamic k F m1 size with
        | Err => inr (fail EOutOfGas m1)
        | Panic => inr SPanic
        | Ok d =>
          if m_gas m1 <? d_cost d then inr (fail EOutOfGas m1)
          else inl (Mach (m_pc m) (m_gas m1 - d_cost d) (m_stack m)
                         (if 0 <? size then resize (m_mem m) size else m_mem m) (d_last d) (m_ret m) (d_world d),
                    d_call d)
        end
      end
    end.

(* ---- calls and creations ---- *)
Definition start (gas : N) (w : world) : mach := Mach 0 gas [] [] 0 [] w.

(* interpreter.go:128-146 Run: nothing to do without code *)
Definition run_frame (rec : frame -> mach -> xres) (F : frame) (gas : N) (w : world) : xres :=
  match f_code F with [] => XOut (Out [] None gas w) | _ => rec F (start gas w) end.

(* contracts.go:261-295 *)
Definition precompile (ro : bool) (caller addr : N) (input : bytes) (gas value : N) (w : world) : xres :=
  if gas <? pre_gas addr input then XOut (Out [] (Some EOutOfGas) gas w)
  else
    let g := gas - pre_gas addr input in
    let '(ret, err, used, w') := pre_run ro caller addr input g value w in
    XOut (Out ret err (g - used) w').

Definition refuse (e : verr) (gas : N) (w : world) : xres := XOut (Out [] (Some e) gas w).

(* evm.go:175-258 Call; depth and ro are those of the calling frame *)
Definition evm_call (rec : frame -> mach -> xres) (ro : bool) (depth caller addr : N) (input : bytes)
    (gas value : N) (w : world) : xres :=
  if negb (call_allowed caller addr) then refuse EHook gas w
  else if 1024 <? depth then refuse EDepth gas w
  else if negb (value =? 0) && negb (can_transfer w caller value) then refuse EBalance gas w
  else if negb (exist w addr) && negb (is_pre addr) && (value =? 0) then XOut (Out [] None gas w)
  else
    let w1 := if exist w addr then w else create_account w addr in
    let w2 := transfer w1 caller addr value in
    settle w (if is_pre addr then precompile false caller addr input gas value w2
              else run_frame rec (Frame addr caller value (code w2 addr) input ro (depth + 1)) gas w2).

(* evm.go:267-312 CallCode *)
Definition evm_callcode (rec : frame -> mach -> xres) (ro : bool) (depth self addr : N) (input : bytes)
    (gas value : N) (w : world) : xres :=
  if negb (call_allowed self addr) then refuse EHook gas w
  else if 1024 <? depth then refuse EDepth gas w
  else if negb (can_transfer w self value) then refuse EBalance gas w
  else settle w (if is_pre addr then precompile true self addr input gas value w
                 else run_frame rec (Frame self self value (code w addr) input ro (depth + 1)) gas w).

(* evm.go:319-356 DelegateCall: caller and value of the calling frame *)
Definition evm_delegate (rec : frame -> mach -> xres) (ro : bool) (depth self caller value addr : N)
    (input : bytes) (gas : N) (w : world) : xres :=
  if negb (call_allowed self addr) then refuse EHook gas w
  else if 1024 <? depth then refuse EDepth gas w
  else settle w (if is_pre addr then precompile true self addr input gas 0 w
                 else run_frame rec (Frame self caller value (code w addr) input ro (depth + 1)) gas w).

(* evm.go:362-417 StaticCall *)
Definition evm_static (rec : frame -> mach -> xres) (depth caller addr : N) (input : bytes) (gas : N)
    (w : world) : xres :=
  if negb (call_allowed caller addr) then refuse EHook gas w
  else if 1024 <? depth then refuse EDepth gas w
  else
    let w1 := add_balance w addr 0 in
    settle w (if is_pre addr then precompile true caller addr input gas 0 w1
              else run_frame rec (Frame addr caller 0 (code w1 addr) input true (depth + 1)) gas w1).

(* evm.go:470-484: the account of the new contract, with its money *)
Definition new_contract (w : world) (caller addr value : N) : world :=
  transfer (set_nonce (create_account w addr) addr 1) caller addr value.

(* evm.go:486-511: what becomes of the returned code *)
Definition deposit (addr : N) (r : xres) : xres :=
  match r with
  | XOut (Out ret None gas w) =>
      if 24576 <? blen ret then XOut (Out ret (Some EMaxCode) gas w)
      else match ret with
           | 0xEF :: _ => XOut (Out ret (Some EInvalidCode) gas w)
           | _ => if gas <? blen ret * 200 then XOut (Out ret (Some ECodeStore) gas w)
                  else XOut (Out ret None (gas - blen ret * 200) (set_code w addr ret))
           end
  | _ => r
  end.

(* evm.go:432-545 create, Create, Create2.  A creation is never read only:
   opCreate and opCreate2 refuse before. *)
Definition evm_create (rec : frame -> mach -> xres) (ro : bool) (depth caller addr : N) (init : bytes)
    (gas value : N) (w : world) : xres :=
  if negb (create_allowed caller) then refuse EHook gas w
  else if 1024 <? depth then refuse EDepth gas w
  else if negb (can_transfer w caller value) then refuse EBalance gas w
  else if U64 <=? nonce w caller + 1 then refuse ENonce gas w
  else
    let w1 := warm (set_nonce w caller (nonce w caller + 1)) addr in
    if negb (nonce w1 addr =? 0)
       || (negb (code_hash w1 addr =? 0) && negb (code_hash w1 addr =? empty_hash keccak))
    then XOut (Out [] (Some ECollision) 0 w1)
    else settle w1 (deposit addr
           (run_frame rec (Frame addr caller value init [] ro (depth + 1)) gas (new_contract w1 caller addr value))).

(* instructions.go:674-840, after the call: flag, memory, gas, return data *)
Definition after_call (m : mach) (st : list N) (ro rs : N) (r : xres) : sres :=
  match r with
  | XPanic => SPanic
  | XFuel => SFuel
  | XOut (Out ret err gas w) =>
      let ok := match err with None => 1 | Some _ => 0 end in
      let copy := match err with None => true | Some e => reverted e end in
      match (if copy then mset (m_mem m) (lo64 ro) (lo64 rs) ret else Ok (m_mem m)) with
      | Ok mem => SNext (Mach (m_pc m + 1) ((m_gas m + gas) mod U64) (ok :: st) mem (m_last m) ret w)
      | _ => SPanic
      end
  end.

(* instructions.go:610-672, after the creation *)
Definition after_create (m : mach) (st : list N) (addr : N) (r : xres) : sres :=
  match r with
  | XPanic => SPanic
  | XFuel => SFuel
  | XOut (Out ret err gas w) =>
      let v := match err with None => addr | Some _ => 0 end in
      let rd := match err with Some e => if reverted e then ret else [] | None => [] end in
      SNext (Mach (m_pc m + 1) ((m_gas m + gas) mod U64) (v :: st) (m_mem m) (m_last m) rd w)
  end.

(* instructions.go:592-880: the instructions that reach beyond the frame, and
   those that end it.  cg: evm.callGasTemp *)
Definition execute (rec : frame -> mach -> xres) (F : frame) (m : mach) (cg : N) (i : instr) : sres :=
  let w := m_world m in
  match local F m i with
  | Some (Ok (st, mem, pc)) => SNext (Mach pc (m_gas m) st mem (m_last m) (m_ret m) w)
  | Some Err => fail (local_err i) m
  | Some Panic => SPanic
  | None =>
    match i, m_stack m with
    | IStop, _ => SDone (Out [] None (m_gas m) w)
    | IUndefined, _ => fail EInvalidOp m
    | ISstore, key :: value :: st =>
        if f_ro F then fail EWrite m
        else SNext (Mach (m_pc m + 1) (m_gas m) st (m_mem m) (m_last m) (m_ret m) (set_state w (f_self F) key value))
    | ILog n, off :: size :: st =>
        if f_ro F then fail EWrite m
        else if (length st <? n)%nat then SPanic
        else match mget (m_mem m) (lo64 off) (lo64 size) with
             | Ok d => SNext (Mach (m_pc m + 1) (m_gas m) (skipn n st) (m_mem m) (m_last m) (m_ret m)
                                   (add_log w (Log (f_self F) (firstn n st) d)))
             | _ => SPanic
             end
    | IReturn, off :: size :: _ =>
        match mget (m_mem m) (lo64 off) (lo64 size) with
        | Ok d => SDone (Out d None (m_gas m) w) | _ => SPanic end
    | IRevert, off :: size :: _ =>
        match mget (m_mem m) (lo64 off) (lo64 size) with
        | Ok d => SDone (Out d (Some EReverted) (m_gas m) w) | _ => SPanic end
    | ISelfdestruct, ben :: _ =>
        if f_ro F then fail EWrite m
        else SDone (Out [] None (m_gas m)
               (suicide (add_balance w (to_addr ben) (balance w (f_self F))) (f_self F)))
    | ICreate, value :: off :: size :: st =>
        if f_ro F then fail EWrite m
        else match mget (m_mem m) (lo64 off) (lo64 size) with
             | Ok init =>
                 let gas := m_gas m - m_gas m / 64 in
                 let addr := create_address (f_self F) (nonce w (f_self F)) in
                 after_create (set_gas m (m_gas m - gas)) st addr
                   (evm_create rec (f_ro F) (f_depth F) (f_self F) addr init gas value w)
             | _ => SPanic
             end
    | ICreate2, value :: off :: size :: salt :: st =>
        if f_ro F then fail EWrite m
        else match mget (m_mem m) (lo64 off) (lo64 size) with
             | Ok init =>
                 let gas := m_gas m - m_gas m / 64 in
                 let addr := create2_address (f_self F) salt init in
                 after_create (set_gas m (m_gas m - gas)) st addr
                   (evm_create rec (f_ro F) (f_depth F) (f_self F) addr init gas value w)
             | _ => SPanic
             end
    | ICall KCall, _ :: a :: value :: io :: is :: ro :: rs :: st =>
        match mget (m_mem m) (lo64 io) (lo64 is) with
        | Ok args =>
            if f_ro F && negb (value =? 0) then fail EWrite m
            else let gas := if value =? 0 then cg else (cg + 2300) mod U64 in
                 after_call m st ro rs
                   (evm_call rec (f_ro F) (f_depth F) (f_self F) (to_addr a) args gas value w)
        | _ => SPanic
        end
    | ICall KCallCode, _ :: a :: value :: io :: is :: ro :: rs :: st =>
        match mget (m_mem m) (lo64 io) (lo64 is) with
        | Ok args =>
            let gas := if value =? 0 then cg else (cg + 2300) mod U64 in
            after_call m st ro rs
              (evm_callcode rec (f_ro F) (f_depth F) (f_self F) (to_addr a) args gas value w)
        | _ => SPanic
        end
    | ICall KDelegate, _ :: a :: io :: is :: ro :: rs :: st =>
        match mget (m_mem m) (lo64 io) (lo64 is) with
        | Ok args =>
            after_call m st ro rs
              (evm_delegate rec (f_ro F) (f_depth F) (f_self F) (f_caller F) (f_value F) (to_addr a) args cg w)
        | _ => SPanic
        end
    | ICall KStatic, _ :: a :: io :: is :: ro :: rs :: st =>
        match mget (m_mem m) (lo64 io) (lo64 is) with
        | Ok args => after_call m st ro rs (evm_static rec (f_depth F) (f_self F) (to_addr a) args cg w)
        | _ => SPanic
        end
    | _, _ => SPanic
    end
  end.

Definition step (rec : frame -> mach -> xres) (F : frame) (m : mach) : sres :=
  let o := operation_of (get_op (f_code F) (m_pc m)) in
  match pay F m o with
  | inr r => r
  | inl (m', cg) => execute rec F m' cg (op_exec o)
  end.

(* interpreter.go:186-264: the loop; fuel bounds the number of instructions
   from the outermost frame to the innermost *)
Fixpoint exec (fuel : nat) (F : frame) (m : mach) : xres :=
  match fuel with
  | O => XFuel
  | S n =>
    match step (exec n) F m with
    | SNext m' => exec n F m'
    | SDone o => XOut o
    | SPanic => XPanic
    | SFuel => XFuel
    end
  end.

(* x/evm/keeper/state_transition.go:380-399 as the outermost caller: depth 0, not read only *)
Definition top_call (fuel : nat) := evm_call (exec fuel) false 0.
Definition top_create (fuel : nat) := evm_create (exec fuel) false 0.
End Evm.
