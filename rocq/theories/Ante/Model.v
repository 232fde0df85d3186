(* What a transaction must satisfy to be let in: helios-chain/app/ante.
   Modelled: the routing of transactions by extension option (ante.go), the
   rejection of Ethereum messages and the limits on delegated messages
   (cosmos/reject_msgs.go, cosmos/authz.go), the minimum fee and the fee that is
   charged (cosmos/min_price.go, evm/fee_checker.go, the sdk's DeductFee), and
   the gas of signatures (sigverify.go).  Not modelled here: the decorators of
   the sdk between them, and the rest of the Ethereum route (Evmtx). *)
From Verif Require Import Lib.Base.
Open Scope Z_scope.

(* ------------------------------------------------------------------ *)
(* routing: ante.go:16-55                                               *)
(* ------------------------------------------------------------------ *)

(* type URLs *)
Definition url := N.
Definition eth_url : url := 1%N.        (* MsgEthereumTx *)
Definition vesting_url : url := 2%N.    (* MsgCreateVestingAccount *)

Inductive extension := XWeb3 | XEthereum | XDynamicFee | XUnknown.
Inductive handler := HLegacy | HEthereum | HCosmos.

Definition route (opts : list extension) : option handler :=
  match opts with
  | [] => Some HCosmos
  | XWeb3 :: _ => Some HLegacy
  | XEthereum :: _ => Some HEthereum
  | XDynamicFee :: _ => Some HCosmos
  | XUnknown :: _ => None
  end.

(* ------------------------------------------------------------------ *)
(* messages                                                             *)
(* ------------------------------------------------------------------ *)

(* authz.MsgExec carries messages to be run on somebody else's authority, and
   authz.MsgGrant gives that authority for a type of message; None stands for
   content that does not unpack.  All other messages are seen by their type
   only. *)
Inductive msg :=
| MExec (inner : option (list msg))
| MGrant (allows : option url)
| MPlain (u : url).

(* RejectMessagesDecorator, reject_msgs.go:17-27 *)
Definition is_eth (m : msg) : bool := match m with MPlain u => N.eqb u eth_url | _ => false end.
Definition reject_messages (l : list msg) : bool := negb (existsb is_eth l).

(* NewAuthzLimiterDecorator's arguments, cosmos.go:20-23, 50-53; isDisabledMsg, authz.go:87-95 *)
Definition disabled (u : url) : bool := N.eqb u eth_url || N.eqb u vesting_url.

(* authz.go:13 *)
Definition max_nested : nat := 7.

(* checkDisabledMsgs, authz.go:45-83.  nestedLvl is raised by one for every
   MsgExec of the list before its content is looked at, and is not lowered again;
   the result is its value after the message, None an error. *)
Fixpoint check_msg (inner : bool) (lvl : nat) (m : msg) : option nat :=
  match m with
  | MExec None => None
  | MExec (Some l) =>
    let lvl1 := S lvl in
    if (max_nested <=? lvl1)%nat then None else
    match (fix loop (k : nat) (l : list msg) : option nat :=
             match l with
             | [] => Some k
             | m :: l' => match check_msg true k m with None => None | Some k1 => loop k1 l' end
             end) lvl1 l with
    | None => None
    | Some _ => Some lvl1
    end
  | MGrant None => None
  | MGrant (Some u) => if disabled u then None else Some lvl
  | MPlain u => if inner && disabled u then None else Some lvl
  end.
Fixpoint check_loop (inner : bool) (lvl : nat) (l : list msg) : option nat :=
  match l with
  | [] => Some lvl
  | m :: l' => match check_msg inner lvl m with None => None | Some k => check_loop inner k l' end
  end.
Definition check_disabled (inner : bool) (lvl : nat) (l : list msg) : option nat :=
  if (max_nested <=? lvl)%nat then None else check_loop inner lvl l.

(* both Cosmos handlers begin with these two decorators (cosmos.go:18-23, 46-53);
   the Ethereum handler unpacks every message as MsgEthereumTx and fails otherwise
   (evm/mono.go, UnpackEthMsg).  The remaining checks are the argument. *)
Definition let_in (rest : bool) (opts : list extension) (l : list msg) : bool :=
  match route opts with
  | None => false
  | Some HEthereum => forallb is_eth l && rest
  | Some _ => reject_messages l && match check_disabled false 1 l with Some _ => true | None => false end && rest
  end.

(* ------------------------------------------------------------------ *)
(* fees of Cosmos transactions                                          *)
(* ------------------------------------------------------------------ *)

(* LegacyDec: an integer number of 10^-18 *)
Definition one : Z := 10 ^ 18.
Definition ceil_int (d : Z) : Z := if d mod one =? 0 then d / one else d / one + 1.
Definition max_int64 : Z := 2 ^ 63 - 1.

Definition denom := N.
(* the fee offered; None is a nil slice *)
Definition coins := option (list (denom * Z)).
Definition coin_list (c : coins) : list (denom * Z) := match c with Some l => l | None => [] end.
(* Coins.AmountOfNoDenomValidation: the amount of the first coin found; the list is
   known to have at most one coin here *)
Definition amount_of (l : list (denom * Z)) (d : denom) : Z :=
  match find (fun x => N.eqb (fst x) d) l with Some x => snd x | None => 0 end.

(* MinGasPriceDecorator, min_price.go:31-92; mgp is a LegacyDec.  The product of a
   LegacyDec and an integer is exact; LegacyDec's bit limit is not modelled. *)
Definition min_gas_price (base : denom) (mgp : Z) (simulate : bool) (gas : Z) (fee : coins) : bool :=
  let l := coin_list fee in
  let valid := match l with [] => true | [(d, _)] => N.eqb d base | _ => false end in
  if negb valid && negb simulate then false
  else if (mgp =? 0) || simulate then true
  else
    let required := ceil_int (mgp * gas) in
    match fee with
    | None => false
    | Some l =>
      (* IsAnyGTE of an empty list of required coins is false *)
      if 0 <? required then existsb (fun '(d, a) => N.eqb d base && (required <=? a)) l else false
    end.

(* feeChecker, fee_checker.go:45-116.  base_fee None: no base fee; tip None: no
   dynamic fee option, Some None: an option without a price. *)
Definition tip_cap (tip : option (option Z)) : Z :=
  match tip with None => max_int64 * one | Some None => 0 | Some (Some t) => t end.
Definition priority_reduction : Z := 10 ^ 6.
Definition fee_checker (base_fee : option Z) (tip : option (option Z)) (gas fee : Z) : option (Z * Z) :=
  let b := match base_fee with Some b => b | None => 0 end in
  let t := tip_cap tip in
  if t <? 0 then None
  else if gas =? 0 then None
  else
    let cap := Z.quot (fee * one) gas in
    if cap <? b then None
    else
      let price := Z.min (t + b) cap in
      let p := Z.quot (Z.quot (price - b) priority_reduction) one in
      Some (ceil_int (price * gas), if (- 2 ^ 63 <=? p) && (p <=? max_int64) then p else max_int64).

(* the sdk's DeductFeeDecorator: the fee goes from the payer to the collector *)
Definition bank := N -> Z.
Definition deduct (b : bank) (payer collector : N) (v : Z) : option bank :=
  if v =? 0 then Some b
  else if b payer <? v then None
  else Some (fun a => let b1 := if N.eqb a payer then b a - v else b a in if N.eqb a collector then b1 + v else b1).

(* the two decorators in the order of cosmos.go:29-31, outside of simulations *)
Record fee_state := FeeState { f_base : denom; f_min : Z; f_base_fee : option Z; f_payer : N; f_collector : N }.
Definition pay (s : fee_state) (tip : option (option Z)) (gas : Z) (fee : coins) (b : bank) : option (bank * Z * Z) :=
  if negb (min_gas_price (f_base s) (f_min s) false gas fee) then None
  else match fee_checker (f_base_fee s) tip gas (amount_of (coin_list fee) (f_base s)) with
       | None => None
       | Some (v, p) => match deduct b (f_payer s) (f_collector s) v with Some b1 => Some (b1, v, p) | None => None end
       end.

(* ------------------------------------------------------------------ *)
(* gas of signatures: sigverify.go                                      *)
(* ------------------------------------------------------------------ *)

Inductive key := KEth | KEd25519 | KMulti (ks : list key) | KOther.
Inductive sigdata := DSingle | DMulti (bits : list bool) (sigs : list sigdata).
Definition eth_cost : Z := 21000.

(* SigVerificationGasConsumer 36-62 and ConsumeMultisignatureVerificationGas
   65-87.  Going through the set bits with sigIndex is going through the
   signatures in step with them; a missing key or signature is an index out of
   range. *)
Fixpoint sig_gas (k : key) (d : sigdata) {struct k} : res Z :=
  match k with
  | KEth => Ok eth_cost
  | KEd25519 => Err
  | KOther => Err
  | KMulti ks =>
    match d with
    | DSingle => Err
    | DMulti bits sigs =>
      (fix loop (ks : list key) (bits : list bool) (sigs : list sigdata) : res Z :=
         match ks with
         | [] => if existsb (fun b => b) bits then Panic else Ok 0
         | k :: ks' =>
           match bits with
           | [] => Ok 0
           | false :: bits' => loop ks' bits' sigs
           | true :: bits' =>
             match sigs with
             | [] => Panic
             | d :: sigs' =>
               rbind (sig_gas k d) (fun g => rbind (loop ks' bits' sigs') (fun g' => Ok (g + g')))
             end
           end
         end) ks bits sigs
    end
  end.
