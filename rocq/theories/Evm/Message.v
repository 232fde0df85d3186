(* A whole message: x/evm/keeper/state_transition.go:310-438
   ApplyMessageWithConfig around the interpreter.  The London rules are active.
   What follows the refund (the minimum share of the gas limit) is in
   Evmtx/Model.v gas_used; the registration of a new contract for revenue
   (:373-378) does not touch the accounts and is in Revenue/Model.v. *)
From Verif Require Import Lib.Base Lib.Bytes Evm.Words Evm.World Evm.Memory Evm.Interp.
Open Scope N_scope.

Record msg := Msg {
  g_from : N; g_to : option N; g_nonce : N; g_gas : N; g_value : N; g_data : bytes;
  g_list : list (N * list N)                  (* access list: account, slots *)
}.
(* what the message leaves: returned bytes, error, temporaryGasUsed, world *)
Record mres := MRes { r_ret : bytes; r_err : option verr; r_used : N; r_world : world }.

(* go-ethereum v1.10 core.IntrinsicGas with Homestead and EIP-2028; the last two sums are unchecked *)
Definition intrinsic (data : bytes) (list : list (N * list N)) (creation : bool) : res N :=
  let g0 := if creation then 53000 else 21000 in
  rbind (match data with
         | [] => Ok g0
         | _ =>
           let nz := blen (filter (fun b => negb (b =? 0)) data) in
           if (U64 - 1 - g0) / 16 <? nz then Err
           else let g1 := g0 + nz * 16 in
                let z := blen data - nz in
                if (U64 - 1 - g1) / 4 <? z then Err else Ok (g1 + z * 4)
         end)
  (fun g => Ok ((g + N.of_nat (length list) * 2400 + N.of_nat (length (concat (map snd list))) * 1900) mod U64)).

Section Message.
Variable keccak : bytes -> N.
Variable committed : N -> N -> N.
Variable B : block.
Variable is_pre : N -> bool.
Variable pre_gas : N -> bytes -> N.
Variable pre_run : bool -> N -> N -> bytes -> N -> N -> world -> bytes * option verr * N * world.
Variable call_allowed : N -> N -> bool.
Variable create_allowed : N -> bool.
Variable pre_list : list N.                   (* evm.ActivePrecompiles *)

(* x/evm/statedb/statedb.go:429-444 PrepareAccessList *)
Definition prepare (w : world) (from : N) (to : option N) (list : list (N * list N)) : world :=
  let w1 := warm w from in
  let w2 := match to with Some a => warm w1 a | None => w1 end in
  let w3 := fold_left warm pre_list w2 in
  fold_left (fun w el => fold_left (fun w k => warm_slot w (fst el) k) (snd el) (warm w (fst el))) list w3.

Definition apply_message (fuel : nat) (M : msg) (w : world) : res mres :=
  rbind (intrinsic (g_data M) (g_list M) (match g_to M with None => true | Some _ => false end)) (fun cost =>
  if g_gas M <? cost then Err
  else
    let gas := g_gas M - cost in
    let w1 := prepare w (g_from M) (g_to M) (g_list M) in
    let r :=
      match g_to M with
      | Some a => top_call keccak committed B is_pre pre_gas pre_run call_allowed create_allowed fuel
                    (g_from M) a (g_data M) gas (g_value M) w1
      | None =>
          let w2 := set_nonce keccak committed w1 (g_from M) (g_nonce M) in
          match top_create keccak committed B is_pre pre_gas pre_run call_allowed create_allowed fuel
                  (g_from M) (create_address keccak (g_from M) (nonce w2 (g_from M))) (g_data M) gas (g_value M) w2 with
          | XOut (Out ret err lo w3) => XOut (Out ret err lo (set_nonce keccak committed w3 (g_from M) (g_nonce M + 1)))
          | x => x
          end
      end in
    match r with
    | XOut (Out ret err lo w') =>
        if g_gas M <? lo then Err
        else let used := g_gas M - lo in
             let refund := if w_refund w' <? used / 5 then w_refund w' else used / 5 in   (* gas.go:67-75 GasToRefund *)
             Ok (MRes ret err (used - refund) w')
    | _ => Panic
    end).
End Message.
