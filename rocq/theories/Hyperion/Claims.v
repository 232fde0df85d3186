(* The claims validators vote on: fields, stateless validation and the text
   each claim is hashed from.  x/hyperion/types/msgs.go. *)
From Verif Require Import Lib.Base Lib.Bytes Lib.Dec.
From Coq Require Import NArith ZArith String Ascii.
Open Scope Z_scope.

(* a Go string literal as bytes *)
Fixpoint str (s : string) : bytes :=
  match s with EmptyString => [] | String c s' => N_of_ascii c :: str s' end.

Definition slash : N := 47.
Definition quote : N := 34.
Definition space : N := 32.

(* MsgDepositClaim, proto fields used by the keeper (TxHash and RpcUsed are
   carried for queries only and left out) *)
Record deposit := { d_id : Z; d_nonce : Z; d_height : Z; d_token : bytes; d_amount : Z; d_sender : bytes; d_receiver : bytes;
  d_data : bytes; d_orch : bytes }.
(* MsgWithdrawClaim *)
Record withdraw := { w_id : Z; w_nonce : Z; w_height : Z; w_batch : Z; w_token : bytes; w_orch : bytes }.
(* MsgERC20DeployedClaim *)
Record deployed := { e_id : Z; e_nonce : Z; e_height : Z; e_denom : bytes; e_token : bytes; e_name : bytes; e_symbol : bytes;
  e_decimals : Z; e_orch : bytes }.
(* BridgeValidator, types.pb.go:29 *)
Record member := { m_power : Z; m_addr : bytes }.
(* MsgValsetUpdatedClaim *)
Record valset_claim := { v_id : Z; v_nonce : Z; v_height : Z; v_valset : Z; v_members : list member; v_reward : Z; v_reward_token : bytes;
  v_orch : bytes }.

(* the claims Attest stores (EthereumClaim; MsgExternalDataClaim has its own path) *)
Inductive claim :=
| CDeposit (c : deposit) | CWithdraw (c : withdraw) | CDeployed (c : deployed) | CValset (c : valset_claim).

(* GetHyperionId, GetEventNonce, GetBlockHeight of each message *)
Definition claim_id c := match c with CDeposit c => d_id c | CWithdraw c => w_id c | CDeployed c => e_id c | CValset c => v_id c end.
Definition claim_nonce c := match c with CDeposit c => d_nonce c | CWithdraw c => w_nonce c | CDeployed c => e_nonce c | CValset c => v_nonce c end.
Definition claim_height c := match c with CDeposit c => d_height c | CWithdraw c => w_height c | CDeployed c => e_height c | CValset c => v_height c end.
Definition claim_orch c := match c with CDeposit c => d_orch c | CWithdraw c => w_orch c | CDeployed c => e_orch c | CValset c => v_orch c end.

(* go-ethereum IsHexAddress, called by ValidateEthAddress types/ethereum.go:48-56:
   forty hex digits, after an optional 0x or 0X *)
Definition is_hex (c : N) : bool := is_digit c || ((97 <=? c)%N && (c <=? 102)%N) || ((65 <=? c)%N && (c <=? 70)%N).
Definition strip0x (s : bytes) : bytes :=
  match s with a :: b :: r => if (a =? 48)%N && ((b =? 120)%N || (b =? 88)%N) then r else s | _ => s end.
Definition eth_ok (s : bytes) : bool := (List.length (strip0x s) =? 40)%nat && forallb is_hex (strip0x s).

(* CompactTextString of a BridgeValidator (types.pb.go:35): the non-zero fields,
   each followed by a space; an address accepted by eth_ok needs no escape *)
Definition member_text (m : member) : bytes :=
  (if m_power m =? 0 then [] else str "power:" ++ udec (m_power m) ++ [space]) ++
  (match m_addr m with [] => [] | _ => str "ethereum_address:" ++ quote :: m_addr m ++ [quote; space] end).
(* fmt's %s of a slice: elements separated by one space, in brackets *)
Fixpoint joined (l : list member) : bytes :=
  match l with [] => [] | [m] => member_text m | m :: r => member_text m ++ space :: joined r end.
Definition members_text (l : list member) : bytes := str "[" ++ joined l ++ str "]".

(* msgs.go:426-429 *)
Definition deposit_path (c : deposit) : bytes :=
  udec (d_nonce c) ++ slash :: udec (d_height c) ++ slash :: d_token c ++ slash :: dec (d_amount c) ++ slash ::
  d_sender c ++ slash :: d_receiver c ++ slash :: d_data c.
(* msgs.go:454-457 *)
Definition withdraw_path (c : withdraw) : bytes :=
  w_token c ++ slash :: udec (w_batch c) ++ slash :: udec (w_nonce c) ++ slash :: w_token c.
(* msgs.go:551-554 *)
Definition deployed_path (c : deployed) : bytes :=
  udec (e_nonce c) ++ slash :: udec (e_height c) ++ slash :: e_denom c ++ slash :: e_token c ++ slash ::
  e_name c ++ slash :: e_symbol c ++ slash :: udec (e_decimals c).
(* msgs.go:615-618 *)
Definition valset_path (c : valset_claim) : bytes :=
  udec (v_valset c) ++ slash :: udec (v_nonce c) ++ slash :: udec (v_height c) ++ slash :: members_text (v_members c) ++ [slash].
Definition claim_path (c : claim) : bytes :=
  match c with CDeposit c => deposit_path c | CWithdraw c => withdraw_path c | CDeployed c => deployed_path c | CValset c => valset_path c end.

Section Validate.
(* sdk.AccAddressFromBech32 succeeds *)
Variable bech32_ok : bytes -> bool.
(* ValidateBasic of the four messages: msgs.go:364-381, 437-451, 514-525, 582-602 *)
Definition claim_valid (c : claim) : bool :=
  match c with
  | CDeposit c => bech32_ok (d_receiver c) && eth_ok (d_sender c) && eth_ok (d_token c) && bech32_ok (d_orch c) && negb (d_nonce c =? 0)
  | CWithdraw c => negb (w_nonce c =? 0) && negb (w_batch c =? 0) && eth_ok (w_token c) && bech32_ok (w_orch c)
  | CDeployed c => eth_ok (e_token c) && bech32_ok (e_orch c) && negb (e_nonce c =? 0)
  | CValset c => bech32_ok (v_orch c) && negb (v_nonce c =? 0) && eth_ok (v_reward_token c) && forallb (fun m => eth_ok (m_addr m)) (v_members c)
  end.
End Validate.

Section Bucket.
(* tmhash.Sum *)
Variable hash : bytes -> bytes.
Definition claim_hash (c : claim) : bytes := hash (claim_path c).
(* the attestation a vote is counted in: attestation.go:69 and 375-383 *)
Definition bucket (c : claim) : Z * Z * bytes := (claim_id c, claim_nonce c, claim_hash c).
End Bucket.
