(* The instruction set: x/evm/core/vm/jump_table.go with the rules in force on
   this chain (London, because Random is nil: keeper/state_transition.go:54)
   and EIP-3855 (PUSH0), the default extra EIP of x/evm/types/params.go. *)
From Verif Require Import Lib.Base Lib.Bytes Evm.Words Evm.Memory.
Open Scope N_scope.

Inductive unop := UNot | UIszero.
Inductive binop := BAdd | BMul | BSub | BDiv | BSdiv | BMod | BSmod | BExp | BSignextend
  | BLt | BGt | BSlt | BSgt | BEq | BAnd | BOr | BXor | BByte | BShl | BShr | BSar.
Inductive terop := TAddmod | TMulmod.
(* instructions that push something known without operands *)
Inductive envop := VAddress | VOrigin | VCaller | VCallValue | VCallDataSize | VCodeSize | VGasPrice
  | VReturnDataSize | VCoinbase | VTimestamp | VNumber | VDifficulty | VGasLimit | VChainID | VSelfBalance
  | VBaseFee | VPc | VMsize | VGas.
(* instructions that replace the top of the stack by something read *)
Inductive readop := RBalance | RCallDataLoad | RExtCodeSize | RExtCodeHash | RBlockhash | RSload.
Inductive copyop := CCallData | CCode | CReturnData.
Inductive callop := KCall | KCallCode | KDelegate | KStatic.

Inductive instr :=
| IStop | IUn (o : unop) | IBin (o : binop) | ITer (o : terop) | IKeccak | IEnv (o : envop) | IRead (o : readop)
| ICopy (o : copyop) | IExtCodeCopy | IPop | IMload | IMstore | IMstore8 | ISstore | IJump | IJumpi | IJumpdest
| IPush (n : nat) | IDup (n : nat) | ISwap (n : nat) | ILog (n : nat)
| ICreate | ICreate2 | ICall (k : callop) | IReturn | IRevert | ISelfdestruct | IUndefined.

(* the dynamic gas functions: gas_table.go, operations_acl.go *)
Inductive dynk :=
| DNone | DMem | DCopy (pos : nat) | DLog (n : N) | DKeccak | DCreate2 | DExp | DSload | DSstore | DExtCodeCopy
| DAccount | DCall (k : callop) | DSelfdestruct.

(* jump_table.go:32-45 operation *)
Record operation := Op { op_exec : instr; op_gas : N; op_dyn : dynk; op_min : N; op_max : N; op_mem : memk }.

(* stack_table.go: minStack(pop, push) and maxStack(pop, push); StackLimit 1024 *)
Definition op (i : instr) (gas : N) (d : dynk) (pop push : N) (m : memk) : operation :=
  Op i gas d pop (1024 + pop - push) m.

(* gas.go:24-31 *)
Definition quick : N := 2.
Definition fastest : N := 3.
Definition fast : N := 5.
Definition mid : N := 8.
Definition slow : N := 10.
Definition ext : N := 20.
(* go-ethereum params/protocol_params.go *)
Definition warm_read : N := 100.
Definition cold_sload : N := 2100.
Definition cold_account : N := 2600.

Definition undefined : operation := op IUndefined 0 DNone 0 0 MNone.

(* jump_table.go:120-1106 and eips.go *)
Definition bin (b : binop) (gas : N) : operation := op (IBin b) gas DNone 2 1 MNone.
Definition env (v : envop) : operation := op (IEnv v) quick DNone 0 1 MNone.

Definition table : list (N * operation) := [
  (0x00, op IStop 0 DNone 0 0 MNone);
  (0x01, bin BAdd fastest); (0x02, bin BMul fast); (0x03, bin BSub fastest); (0x04, bin BDiv fast);
  (0x05, bin BSdiv fast); (0x06, bin BMod fast); (0x07, bin BSmod fast);
  (0x08, op (ITer TAddmod) mid DNone 3 1 MNone); (0x09, op (ITer TMulmod) mid DNone 3 1 MNone);
  (0x0a, op (IBin BExp) 0 DExp 2 1 MNone); (0x0b, bin BSignextend fast);
  (0x10, bin BLt fastest); (0x11, bin BGt fastest); (0x12, bin BSlt fastest); (0x13, bin BSgt fastest);
  (0x14, bin BEq fastest); (0x15, op (IUn UIszero) fastest DNone 1 1 MNone);
  (0x16, bin BAnd fastest); (0x17, bin BOr fastest); (0x18, bin BXor fastest);
  (0x19, op (IUn UNot) fastest DNone 1 1 MNone); (0x1a, bin BByte fastest);
  (0x1b, bin BShl fastest); (0x1c, bin BShr fastest); (0x1d, bin BSar fastest);
  (0x20, op IKeccak 30 DKeccak 2 1 (MAt 0 1));
  (0x30, env VAddress);
  (0x31, op (IRead RBalance) warm_read DAccount 1 1 MNone);
  (0x32, env VOrigin); (0x33, env VCaller); (0x34, env VCallValue);
  (0x35, op (IRead RCallDataLoad) fastest DNone 1 1 MNone);
  (0x36, env VCallDataSize);
  (0x37, op (ICopy CCallData) fastest (DCopy 2) 3 0 (MAt 0 2));
  (0x38, env VCodeSize);
  (0x39, op (ICopy CCode) fastest (DCopy 2) 3 0 (MAt 0 2));
  (0x3a, env VGasPrice);
  (0x3b, op (IRead RExtCodeSize) warm_read DAccount 1 1 MNone);
  (0x3c, op IExtCodeCopy warm_read DExtCodeCopy 4 0 (MAt 1 3));
  (0x3d, env VReturnDataSize);
  (0x3e, op (ICopy CReturnData) fastest (DCopy 2) 3 0 (MAt 0 2));
  (0x3f, op (IRead RExtCodeHash) warm_read DAccount 1 1 MNone);
  (0x40, op (IRead RBlockhash) ext DNone 1 1 MNone);
  (0x41, env VCoinbase); (0x42, env VTimestamp); (0x43, env VNumber); (0x44, env VDifficulty);
  (0x45, env VGasLimit); (0x46, env VChainID);
  (0x47, op (IEnv VSelfBalance) fast DNone 0 1 MNone);
  (0x48, env VBaseFee);
  (0x50, op IPop quick DNone 1 0 MNone);
  (0x51, op IMload fastest DMem 1 1 (MFix 0 32));
  (0x52, op IMstore fastest DMem 2 0 (MFix 0 32));
  (0x53, op IMstore8 fastest DMem 2 0 (MFix 0 1));
  (0x54, op (IRead RSload) 0 DSload 1 1 MNone);
  (0x55, op ISstore 0 DSstore 2 0 MNone);
  (0x56, op IJump mid DNone 1 0 MNone);
  (0x57, op IJumpi slow DNone 2 0 MNone);
  (0x58, env VPc); (0x59, env VMsize); (0x5a, env VGas);
  (0x5b, op IJumpdest 1 DNone 0 0 MNone);
  (0x5f, op (IPush 0) quick DNone 0 1 MNone);
  (0xa0, op (ILog 0) 0 (DLog 0) 2 0 (MAt 0 1)); (0xa1, op (ILog 1) 0 (DLog 1) 3 0 (MAt 0 1));
  (0xa2, op (ILog 2) 0 (DLog 2) 4 0 (MAt 0 1)); (0xa3, op (ILog 3) 0 (DLog 3) 5 0 (MAt 0 1));
  (0xa4, op (ILog 4) 0 (DLog 4) 6 0 (MAt 0 1));
  (0xf0, op ICreate 32000 DMem 3 1 (MAt 1 2));
  (0xf1, op (ICall KCall) warm_read (DCall KCall) 7 1 (MTwo 5 6 3 4));
  (0xf2, op (ICall KCallCode) warm_read (DCall KCallCode) 7 1 (MTwo 5 6 3 4));
  (0xf3, op IReturn 0 DMem 2 0 (MAt 0 1));
  (0xf4, op (ICall KDelegate) warm_read (DCall KDelegate) 6 1 (MTwo 4 5 2 3));
  (0xf5, op ICreate2 32000 DCreate2 4 1 (MAt 1 2));
  (0xfa, op (ICall KStatic) warm_read (DCall KStatic) 6 1 (MTwo 4 5 2 3));
  (0xfd, op IRevert 0 DMem 2 0 (MAt 0 1));
  (0xff, op ISelfdestruct 5000 DSelfdestruct 1 0 MNone)
].

Fixpoint find_op (l : list (N * operation)) (b : N) : operation :=
  match l with [] => undefined | (k, o) :: l' => if k =? b then o else find_op l' b end.

(* one byte: PUSH1-32, DUP1-16 and SWAP1-16 are given by formulas (DUPn needs n
   entries and adds one; SWAPn needs n+1 and keeps the number), the rest by the table *)
Definition operation_of (b : N) : operation :=
  if (0x60 <=? b) && (b <=? 0x7f) then op (IPush (N.to_nat (b - 0x5f))) fastest DNone 0 1 MNone
  else if (0x80 <=? b) && (b <=? 0x8f) then
    let n := b - 0x7f in op (IDup (N.to_nat n)) fastest DNone n (n + 1) MNone
  else if (0x90 <=? b) && (b <=? 0x9f) then
    let n := b - 0x8f in op (ISwap (N.to_nat n)) fastest DNone (n + 1) (n + 1) MNone
  else find_op table b.
