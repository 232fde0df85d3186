(* x/feemarket: base fee and block gas bookkeeping.
   A LegacyDec (18 decimals, cosmossdk.io/math) is the integer "scaled" value
   d.i; None models the nil LegacyDec{}.  Big integers are Z. *)
From Verif Require Import Lib.Base.
Open Scope Z_scope.

(* cosmossdk.io/math LegacyPrecision = 18 *)
Definition one_dec : Z := 10 ^ 18.
Definition max_uint64 : Z := 2 ^ 64 - 1.
Definition max_int64 : Z := 2 ^ 63 - 1.
(* cosmossdk.io/math maxDecBitLen = 315: MulInt, Mul, Add, Sub panic above it *)
Definition dec_limit : Z := 2 ^ 315.

Definition dec_chk (z : Z) : res Z :=
  if Z.abs z <? dec_limit then Ok z else Panic.

(* LegacyDec.MulInt *)
Definition dec_mul_int (d i : Z) : res Z := dec_chk (d * i).
(* LegacyDec.QuoInt: big.Int.Quo truncates towards zero; division by 0 panics *)
Definition dec_quo_int (d i : Z) : res Z :=
  if i =? 0 then Panic else Ok (Z.quot d i).
Definition dec_add (a b : Z) : res Z := dec_chk (a + b).
Definition dec_sub (a b : Z) : res Z := dec_chk (a - b).

(* chopPrecisionAndRound (cosmossdk.io/math): banker's rounding, sign handled
   symmetrically *)
Definition chop_round_nonneg (z : Z) : Z :=
  let q := z / one_dec in
  let r := z mod one_dec in
  if r =? 0 then q
  else if r <? 5 * 10 ^ 17 then q
  else if 5 * 10 ^ 17 <? r then q + 1
  else if Z.even q then q else q + 1.
Definition chop_round (z : Z) : Z :=
  if z <? 0 then - chop_round_nonneg (- z) else chop_round_nonneg z.
(* LegacyDec.Mul *)
Definition dec_mul (a b : Z) : res Z := dec_chk (chop_round (a * b)).

(* types/feemarket.pb.go Params *)
Record params := Params {
  no_base_fee : bool;
  denominator : Z;            (* uint32 BaseFeeChangeDenominator *)
  elasticity : Z;             (* uint32 ElasticityMultiplier *)
  base_fee : option Z;        (* LegacyDec, None = nil *)
  enable_height : Z;          (* int64 *)
  min_gas_price : option Z;
  min_gas_multiplier : option Z
}.

(* types/params.go 187-206 validateMinGasMultiplier *)
Definition validate_multiplier (m : option Z) : res unit :=
  match m with
  | None => Err
  | Some v => if v <? 0 then Err else if one_dec <? v then Err else Ok tt
  end.

(* types/params.go 122-138 validateMinGasPrice *)
Definition validate_min_gas_price (m : option Z) : res unit :=
  match m with
  | None => Err
  | Some v => if v <? 0 then Err else Ok tt
  end.

(* types/params.go 90-108 Params.Validate.  IsNegative on a nil LegacyDec
   dereferences a nil big.Int: panic. *)
Definition validate (p : params) : res unit :=
  if denominator p =? 0 then Err else
  match base_fee p with
  | None => Panic
  | Some b =>
      if b <? 0 then Err
      else if enable_height p <? 0 then Err
      else rbind (validate_multiplier (min_gas_multiplier p))
                 (fun _ => validate_min_gas_price (min_gas_price p))
  end.

(* types/params.go 118-120 IsBaseFeeEnabled *)
Definition base_fee_enabled (p : params) (height : Z) : bool :=
  negb (no_base_fee p) && (enable_height p <=? height).

(* LegacyMaxDec *)
Definition dec_max (a b : Z) : Z := if a <? b then b else a.

(* keeper/eip1559.go 42-47: the block gas limit; max_gas = None models
   consParams.Block == nil *)
Definition gas_limit (max_gas : option Z) : Z :=
  match max_gas with
  | Some m => if -1 <? m then m else max_uint64
  | None => max_uint64
  end.

(* keeper/eip1559.go 14-93 CalculateBaseFee.  gas_wanted is the stored
   GetBlockGasWanted (uint64).  Ok None is the nil LegacyDec. *)
Definition calculate_base_fee (p : params) (height : Z) (max_gas : option Z)
    (gas_wanted : Z) : res (option Z) :=
  if negb (base_fee_enabled p height) then Ok None
  else if height =? enable_height p then Ok (base_fee p)
  else match base_fee p with
  | None => Ok None
  | Some parent =>
    if elasticity p =? 0 then Panic                              (* line 51 *)
    else
      let target := Z.quot (gas_limit max_gas) (elasticity p) in
      if negb ((0 <=? target) && (target <=? max_uint64)) then Ok None
      else if gas_wanted =? target then Ok (Some parent)
      else if target =? 0 then Ok (Some 0)
      else if target <? gas_wanted then
        rbind (dec_mul_int parent (gas_wanted - target)) (fun x =>
        rbind (dec_quo_int x target) (fun y =>
        rbind (dec_quo_int y (denominator p)) (fun z =>
        rbind (dec_add parent (dec_max z one_dec)) (fun r => Ok (Some r)))))
      else
        rbind (dec_mul_int parent (target - gas_wanted)) (fun x =>
        rbind (dec_quo_int x target) (fun y =>
        rbind (dec_quo_int y (denominator p)) (fun z =>
        rbind (dec_sub parent z) (fun r =>
        match min_gas_price p with
        | None => Panic
        | Some m => Ok (Some (dec_max r m))
        end))))
  end.

(* persistent state touched by the two ABCI hooks *)
Record state := State { st_params : params; st_gas_wanted : Z }.

Definition with_base_fee (p : params) (b : Z) : params :=
  Params (no_base_fee p) (denominator p) (elasticity p) (Some b)
         (enable_height p) (min_gas_price p) (min_gas_multiplier p).

(* keeper/abci.go 16-44 BeginBlock; the telemetry and events are omitted *)
Definition begin_block (s : state) (height : Z) (max_gas : option Z) : res state :=
  rbind (calculate_base_fee (st_params s) height max_gas (st_gas_wanted s))
    (fun r => match r with
     | None => Ok s
     | Some b => Ok (State (with_base_fee (st_params s) b) (st_gas_wanted s))
     end).

(* keeper/abci.go 49-90 EndBlock.  wanted = transient gas wanted and used =
   GasConsumedToLimit, both uint64; the block gas meter is never nil here. *)
Definition end_block (s : state) (wanted used : Z) : res state :=
  if max_int64 <? wanted then Err
  else if max_int64 <? used then Err
  else match min_gas_multiplier (st_params s) with
  | None => Panic
  | Some m =>
      rbind (dec_mul (wanted * one_dec) m) (fun limited =>
        let u := Z.quot (dec_max limited (used * one_dec)) one_dec in
        if (0 <=? u) && (u <=? max_uint64)
        then Ok (State (st_params s) u) else Panic)
  end.

(* one block: height, consensus MaxGas, transient gas wanted, gas consumed *)
Record block := Block { b_height : Z; b_max_gas : option Z; b_wanted : Z; b_used : Z }.

(* BeginBlock then EndBlock; an EndBlock error halts the chain (res) *)
Definition run_block (s : state) (b : block) : res state :=
  rbind (begin_block s (b_height b) (b_max_gas b)) (fun s' =>
  end_block s' (b_wanted b) (b_used b)).

Fixpoint run_blocks (s : state) (bs : list block) : res state :=
  match bs with
  | [] => Ok s
  | b :: bs' => rbind (run_block s b) (fun s' => run_blocks s' bs')
  end.
