(* The list of accounts that may act for validators on a bridge:
   x/hyperion/keeper/msg_server_testnet.go 892-989, keeper.go 1294-1304 and 1582-1599,
   types/whitelisted_addresses.go. *)
From Verif Require Import Lib.Base Lib.Bytes Lib.Zmap.
Open Scope Z_scope.

(* types.CounterpartyChainParams: the chain, the bridge's own number, who set it up *)
Record bridge := mk_bridge { b_chain : Z; b_id : Z; b_init : Z }.
(* stored texts per bridge number; no entry means there is no list *)
Definition st := list (Z * list bytes).
Inductive msg := SetAll (s id : Z) (xs : list bytes) | AddOne (s id : Z) (x : bytes) | RemoveOne (s id : Z) (x : bytes).

Section Whitelist.
(* common.IsHexAddress and common.HexToAddress: the account a text stands for, if any *)
Variable read : bytes -> option Z.
(* common.Address.Hex: the one spelling with the mixed case *)
Variable hex : Z -> bytes.
Variable authority : Z.

(* keeper.go:1294-1304 GetHyperionParamsFromChainId: looks for the chain, first match *)
Definition bridge_of (bs : list bridge) (chain : Z) : option bridge := find (fun b => b_chain b =? chain) bs.
(* msg_server_testnet.go:898-906, 925-933, 960-967; the number in the message is used as a chain's.
   Simplified: the signer's text is read as an account before the comparison with the authority. *)
Definition may (bs : list bridge) (s id : Z) : bool := match bridge_of bs id with None => false | Some b => (s =? authority) || (s =? b_init b) end.
Definition listed (w : st) (id : Z) : list bytes := match zget w id with Some l => l | None => [] end.
Definition step (bs : list bridge) (w : st) (m : msg) : res st :=
  match m with
  (* msg_server_testnet.go:892-917 SetWhitelistedAddresses: stored as written *)
  | SetAll s id xs => if negb (may bs s id) then Err else if forallb (fun x => match read x with Some _ => true | None => false end) xs then Ok (zset w id xs) else Err
  (* msg_server_testnet.go:919-952 AddOneWhitelistedAddress *)
  | AddOne s id x => if negb (may bs s id) then Err else match read x with Some a => Ok (zset w id (listed w id ++ [hex a])) | None => Err end
  (* msg_server_testnet.go:954-989 RemoveOneWhitelistedAddress *)
  | RemoveOne s id x => if negb (may bs s id) then Err else match read x with Some a => Ok (zset w id (filter (fun y => negb (beqb y (hex a))) (listed w id))) | None => Err end
  end.
(* messages with the bridges there are at the time; a failed message changes nothing *)
Definition next (w : st) (p : list bridge * msg) : st := match step (fst p) w (snd p) with Ok w' => w' | _ => w end.
Definition run (w : st) (l : list (list bridge * msg)) : st := fold_left next l w.
(* msg_server_helios.go:65-70 and 147-152, whitelisted_addresses.go:3-10 ContainsAddress *)
Definition admitted (w : st) (id a : Z) : bool := match zget w id with None => true | Some l => existsb (fun x => beqb x (hex a)) l end.
End Whitelist.
