(* What two claims must share when their votes are counted together. *)
From Verif Require Import Lib.Base Lib.Bytes Lib.Dec Hyperion.Claims.
From Coq Require Import NArith ZArith.
Open Scope Z_scope.

(* the protobuf integer fields are unsigned 64-bit numbers *)
Definition u64 (x : Z) : Prop := 0 <= x < 2 ^ 64.
Definition claim_u64 (c : claim) : Prop :=
  match c with
  | CDeposit c => u64 (d_id c) /\ u64 (d_nonce c) /\ u64 (d_height c)
  | CWithdraw c => u64 (w_id c) /\ u64 (w_nonce c) /\ u64 (w_height c) /\ u64 (w_batch c)
  | CDeployed c => u64 (e_id c) /\ u64 (e_nonce c) /\ u64 (e_height c) /\ u64 (e_decimals c)
  | CValset c => u64 (v_id c) /\ u64 (v_nonce c) /\ u64 (v_height c) /\ u64 (v_valset c) /\ Forall (fun m => u64 (m_power m)) (v_members c)
  end.

(* every field that execution reads, who voted aside *)
Definition same_effect (c1 c2 : claim) : Prop :=
  match c1, c2 with
  | CDeposit a, CDeposit b => d_id a = d_id b /\ d_nonce a = d_nonce b /\ d_height a = d_height b /\ d_token a = d_token b /\
      d_amount a = d_amount b /\ d_sender a = d_sender b /\ d_receiver a = d_receiver b /\ d_data a = d_data b
  | CWithdraw a, CWithdraw b => w_id a = w_id b /\ w_nonce a = w_nonce b /\ w_height a = w_height b /\ w_batch a = w_batch b /\ w_token a = w_token b
  | CDeployed a, CDeployed b => e_id a = e_id b /\ e_nonce a = e_nonce b /\ e_height a = e_height b /\ e_denom a = e_denom b /\
      e_token a = e_token b /\ e_name a = e_name b /\ e_symbol a = e_symbol b /\ e_decimals a = e_decimals b
  | CValset a, CValset b => v_id a = v_id b /\ v_nonce a = v_nonce b /\ v_height a = v_height b /\ v_valset a = v_valset b /\
      v_members a = v_members b /\ v_reward a = v_reward b /\ v_reward_token a = v_reward_token b
  | _, _ => False
  end.

(* the same without the height of a withdrawal and the reward of a validator
   set, which the code leaves out of the hash *)
Definition same_hashed (c1 c2 : claim) : Prop :=
  match c1, c2 with
  | CWithdraw a, CWithdraw b => w_id a = w_id b /\ w_nonce a = w_nonce b /\ w_batch a = w_batch b /\ w_token a = w_token b
  | CValset a, CValset b => v_id a = v_id b /\ v_nonce a = v_nonce b /\ v_height a = v_height b /\ v_valset a = v_valset b /\ v_members a = v_members b
  | _, _ => same_effect c1 c2
  end.

(* no free-text field of a token claim holds the separator, and the data of a
   deposit does not end like a number *)
Definition plain (c : claim) : Prop :=
  match c with
  | CDeployed c => lacks slash (e_denom c) /\ lacks slash (e_name c) /\ lacks slash (e_symbol c)
  | CDeposit c => forall b x, d_data c = b ++ [x] -> is_digit x = false
  | _ => True
  end.
Definition is_deployed (c : claim) : Prop := match c with CDeployed _ => True | _ => False end.

(* two different texts with one hash *)
Definition collision (hash : bytes -> bytes) (a b : bytes) : Prop := a <> b /\ hash a = hash b.
