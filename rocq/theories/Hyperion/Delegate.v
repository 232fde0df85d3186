(* Who acts for which validator on a bridge, and with which key: x/hyperion/keeper/
   msg_server_helios.go 29-271, keeper.go 597-692 and 768-791. One bridge; accounts, and the
   validators with the same bytes, and addresses on the other chain are numbers. *)
From Verif Require Import Lib.Base Lib.Zmap.
Open Scope Z_scope.

(* keeper.go: OrchestratorAddressKey, EthAddressByValidatorKey, ValidatorByEthAddressKey,
   FeeByValidatorKey; orchestrator_data.go: the two fees in the data of an orchestrator *)
Record st := mk_st {
  s_orch : list (Z * Z); s_key : list (Z * Z); s_owner : list (Z * Z); s_fee : list (Z * Z); s_data : list (Z * (Z * Z)) }.
Definition start : st := mk_st [] [] [] [] [].

(* messages: the sender, whether they are a validator, whether the orchestrator's address is
   on the whitelist (or there is none), and whether the fees are in the right coin *)
Inductive msg :=
| Register (v : Z) (validator listed : bool) (orch : option Z) (key : Z)
| RegisterFee (v : Z) (validator listed coin : bool) (orch : option Z) (tx batch : Z)
| UpdateFee (v : Z) (coin : bool) (tx batch : Z)
| DeleteFee (v : Z)
| Unregister (v key : Z).

Section Code.
(* the address on the other chain with the bytes of a validator's *)
Variable self : Z -> Z.
Definition orch_of (v : Z) (o : option Z) : Z := match o with Some o => o | None => v end.
(* all entries of a key *)
Definition del {A} (m : list (Z * A)) (k : Z) : list (Z * A) := filter (fun x => negb (fst x =? k)) m.
Definition has {A} (m : list (Z * A)) (k : Z) : bool := match zget m k with Some _ => true | None => false end.
(* msg_server_helios.go:46-71 and 128-153: the checks that both registrations make *)
Definition free (s : st) (v o : Z) (validator listed : bool) : bool :=
  if negb validator then false else if has (s_orch s) o || has (s_key s) v then false else listed.

Definition step (s : st) (m : msg) : res st :=
  match m with
  (* msg_server_helios.go:29-105 SetOrchestratorAddresses *)
  | Register v va li orch key =>
      let o := orch_of v orch in
      if free s v o va li then
        Ok (mk_st (zset (s_orch s) o v) (zset (s_key s) v key) (zset (s_owner s) key v) (s_fee s)
             (if has (s_data s) o then s_data s else zset (s_data s) o (0, 0)))
      else Err
  (* msg_server_helios.go:107-198 SetOrchestratorAddressesWithFee: the key in the message is
     not used *)
  | RegisterFee v va li coin orch tx batch =>
      let o := orch_of v orch in
      if negb coin then Err else
      if free s v o va li then
        Ok (mk_st (zset (s_orch s) o v) (zset (s_key s) v (self v)) (zset (s_owner s) (self v) v) (zset (s_fee s) v tx)
             (zset (s_data s) o (tx, batch)))
      else Err
  (* msg_server_helios.go:200-232 UpdateOrchestratorAddressesFee *)
  | UpdateFee v coin tx batch =>
      if negb (has (s_fee s) v) then Err else if negb coin then Err else
      if has (s_data s) v then Ok (mk_st (s_orch s) (s_key s) (s_owner s) (zset (s_fee s) v tx) (zset (s_data s) v (tx, batch))) else Err
  (* msg_server_helios.go:234-252 DeleteOrchestratorAddressesFee *)
  | DeleteFee v =>
      if negb (has (s_fee s) v) then Err else Ok (mk_st (s_orch s) (s_key s) (s_owner s) (del (s_fee s) v) (s_data s))
  (* msg_server_helios.go:254-272 UnSetOrchestratorAddresses *)
  | Unregister v key => Ok (mk_st (del (s_orch s) v) (del (s_key s) v) (del (s_owner s) key) (del (s_fee s) v) (s_data s))
  end.
Definition process (s : st) (m : msg) : st := match step s m with Ok s' => s' | _ => s end.
Definition run (s : st) (l : list msg) : st := fold_left process l s.
End Code.
