(* Every entry of the instruction table is determined by its instruction, up
   to the constant gas. *)
From Coq Require Import NArith Nnat.
From Verif Require Import Lib.Base Lib.Bytes Evm.Words Evm.Memory Evm.Table.
Open Scope N_scope.

(* how many entries an instruction takes from the stack and puts there *)
Definition pops (i : instr) : N :=
  match i with
  | IStop | IEnv _ | IJumpdest | IPush _ | IUndefined => 0
  | IUn _ | IRead _ | IPop | IMload | IJump | ISelfdestruct => 1
  | IBin _ | IKeccak | IMstore | IMstore8 | ISstore | IJumpi | IReturn | IRevert => 2
  | ITer _ | ICopy _ | ICreate => 3
  | IExtCodeCopy | ICreate2 => 4
  | IDup n => N.of_nat n
  | ISwap n => N.of_nat n + 1
  | ILog n => N.of_nat n + 2
  | ICall KCall | ICall KCallCode => 7
  | ICall KDelegate | ICall KStatic => 6
  end.
Definition pushes (i : instr) : N :=
  match i with
  | IUn _ | IBin _ | ITer _ | IKeccak | IEnv _ | IRead _ | IMload | IPush _ | ICreate | ICreate2 | ICall _ => 1
  | IDup n => N.of_nat n + 1
  | ISwap n => N.of_nat n + 1
  | _ => 0
  end.
Definition dyn_of (i : instr) : dynk :=
  match i with
  | IBin BExp => DExp
  | IKeccak => DKeccak
  | IRead RBalance | IRead RExtCodeSize | IRead RExtCodeHash => DAccount
  | IRead RSload => DSload
  | ICopy _ => DCopy 2
  | IExtCodeCopy => DExtCodeCopy
  | IMload | IMstore | IMstore8 | ICreate | IReturn | IRevert => DMem
  | ISstore => DSstore
  | ILog n => DLog (N.of_nat n)
  | ICreate2 => DCreate2
  | ICall k => DCall k
  | ISelfdestruct => DSelfdestruct
  | _ => DNone
  end.
Definition mem_of (i : instr) : memk :=
  match i with
  | IKeccak | ILog _ | IReturn | IRevert => MAt 0 1
  | ICopy _ => MAt 0 2
  | IExtCodeCopy => MAt 1 3
  | IMload | IMstore => MFix 0 32
  | IMstore8 => MFix 0 1
  | ICreate | ICreate2 => MAt 1 2
  | ICall KCall | ICall KCallCode => MTwo 5 6 3 4
  | ICall KDelegate | ICall KStatic => MTwo 4 5 2 3
  | _ => MNone
  end.
(* instructions after which the frame goes on must cost something *)
Definition ends (i : instr) : bool :=
  match i with IStop | IReturn | IRevert | IUndefined | ISelfdestruct => true | _ => false end.
Definition dyn_min (k : dynk) : N :=
  match k with DExp => 10 | DLog _ => 375 | DSload | DSstore => 100 | _ => 0 end.
Definition gas_min (i : instr) : N :=
  match i with ICreate | ICreate2 => 32000 | ICall _ => 100 | _ => if ends i then 0 else 1 - dyn_min (dyn_of i) end.
Definition instr_ok (i : instr) : bool :=
  match i with
  | IPush n => (n <=? 32)%nat | IDup n | ISwap n => (1 <=? n)%nat && (n <=? 16)%nat | ILog n => (n <=? 4)%nat
  | _ => true
  end.

Definition canon (i : instr) (gas : N) : operation :=
  Op i gas (dyn_of i) (pops i) (1024 + pops i - pushes i) (mem_of i).

Definition good (o : operation) : Prop :=
  o = canon (op_exec o) (op_gas o) /\ instr_ok (op_exec o) = true /\ (gas_min (op_exec o) <=? op_gas o) = true.

Lemma find_op_out l b : Forall (fun p => fst p < 256) l -> 256 <= b -> find_op l b = undefined.
Proof.
  intros H L. induction H as [|[k o] l Hk _ IH]; cbn; [reflexivity|].
  cbn in Hk. destruct (N.eqb_spec k b); [lia|exact IH].
Qed.

Lemma operation_good b : good (operation_of b).
Proof.
  destruct (N.ltb_spec b 256) as [L|L].
  - assert (A : Forall (fun n => good (operation_of (N.of_nat n))) (seq 0 256)).
    { apply Forall_forall. intros n Hn. apply in_seq in Hn. destruct Hn as [_ Hn]. cbn in Hn.
      do 256 (destruct n as [|n]; [repeat split|]). lia. }
    rewrite Forall_forall in A. specialize (A (N.to_nat b)). rewrite N2Nat.id in A. apply A.
    apply in_seq. lia.
  - unfold operation_of.
    destruct (N.leb_spec b 0x7f); [lia|]. destruct (N.leb_spec b 0x8f); [lia|].
    destruct (N.leb_spec b 0x9f); [lia|]. rewrite !andb_false_r.
    rewrite find_op_out; [repeat split|repeat constructor|exact L].
Qed.

Lemma operation_canon b : exists i g, operation_of b = canon i g /\ op_exec (operation_of b) = i /\
  instr_ok i = true /\ gas_min i <= g.
Proof.
  destruct (operation_good b) as (E & I & G). exists (op_exec (operation_of b)), (op_gas (operation_of b)).
  split; [exact E|]. split; [reflexivity|]. split; [exact I|]. now apply N.leb_le.
Qed.
