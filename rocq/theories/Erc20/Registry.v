(* The registry of token pairs: x/erc20/keeper/token_pairs.go, proposals.go,
   dynamic_precompiles.go, precompiles.go, params.go, genesis.go, types/genesis.go,
   types/token_pair.go, precompiles/erc20creator/erc20creator.go 100-210 and
   x/hyperion/keeper/tokens.go 218-294.
   Simplifications:
   - the identifier of a pair is the SHA-256 hash of "address|denomination"; the
     model keeps the string itself (no collisions);
   - a contract address is the number of its 20 bytes; the checksummed text of an
     address is a parameter of the theorems;
   - of the bank the model keeps which denominations have metadata and the supplies;
   - whether a deployment or a query of a foreign contract succeeds, and whether
     metadata is valid, are inputs. *)
From Verif Require Import Lib.Base Lib.Bytes Lib.Kv Lib.Zmap.
Open Scope Z_scope.

(* go-ethereum/common: isHexCharacter and its value *)
Definition hexval (c : N) : option Z :=
  if ((48 <=? c) && (c <=? 57))%N then Some (Z.of_N c - 48)
  else if ((97 <=? c) && (c <=? 102))%N then Some (Z.of_N c - 87)
  else if ((65 <=? c) && (c <=? 70))%N then Some (Z.of_N c - 55)
  else None.
Definition is_hexchar (c : N) : bool := match hexval c with Some _ => true | None => false end.
(* has0xPrefix *)
Definition strip0x (s : bytes) : bytes :=
  match s with
  | c :: x :: r => if (N.eqb c 48) && (N.eqb x 120 || N.eqb x 88) then r else s
  | _ => s
  end.
(* IsHexAddress *)
Definition is_hex_address (s : bytes) : bool := Nat.eqb (length (strip0x s)) 40 && forallb is_hexchar (strip0x s).
(* hex.DecodeString, as used by FromHex: the digits up to the first pair that is not
   hexadecimal *)
Fixpoint decode (acc : Z) (s : bytes) : Z :=
  match s with
  | a :: b :: r => match hexval a, hexval b with Some x, Some y => decode (acc * 256 + x * 16 + y) r | _, _ => acc end
  | _ => acc
  end.
Definition two160 : Z := 2 ^ 160.
(* HexToAddress: the last 20 bytes *)
Definition hex_to_addr (s : bytes) : Z :=
  let h := strip0x s in
  decode 0 (if Nat.odd (length h) then 48%N :: h else h) mod two160.

(* types/erc20.pb.go Owner *)
Inductive owner := Unspecified | Module | External.
(* types/erc20.pb.go TokenPair *)
Record pair := mk_pair { p_addr : bytes; p_denom : bytes; p_enabled : bool; p_owner : owner }.
(* token_pair.go 43-46 GetID *)
Definition id_of (p : pair) : bytes := p_addr p ++ [124]%N ++ p_denom p.
(* token_pair.go 48-51 GetERC20Contract *)
Definition contract (p : pair) : Z := hex_to_addr (p_addr p).

Record st := mk_st {
  r_pairs : list (bytes * pair);
  r_denoms : list (bytes * bytes);
  r_erc20 : list (Z * bytes);
  r_dp : list Z;
  r_np : list Z;
  r_on : bool;
  r_meta : list bytes;
  r_supply : list (bytes * Z) }.
Definition empty (on : bool) (meta : list bytes) (supply : list (bytes * Z)) : st := mk_st [] [] [] [] [] on meta supply.

(* token_pairs.go 79-92, 95-157 *)
Definition get_pair (s : st) (id : option bytes) : option pair := match id with None => None | Some i => kget (r_pairs s) i end.
Definition set_pair (s : st) (p : pair) : st := mk_st (kset (r_pairs s) (id_of p) p) (r_denoms s) (r_erc20 s) (r_dp s) (r_np s) (r_on s) (r_meta s) (r_supply s).
(* token_pairs.go 24-29 SetToken *)
Definition set_token (s : st) (p : pair) : st :=
  mk_st (kset (r_pairs s) (id_of p) p) (kset (r_denoms s) (p_denom p) (id_of p)) (zset (r_erc20 s) (contract p) (id_of p))
        (r_dp s) (r_np s) (r_on s) (r_meta s) (r_supply s).
(* token_pairs.go 94-100 DeleteTokenPair *)
Definition delete_pair (s : st) (p : pair) : st :=
  mk_st (kdel (r_pairs s) (id_of p)) (kdel (r_denoms s) (p_denom p)) (zdel (r_erc20 s) (contract p))
        (r_dp s) (r_np s) (r_on s) (r_meta s) (r_supply s).
(* token_pairs.go 58-66 GetTokenPairID: any text that looks like an address is taken
   for one *)
Definition pair_id (s : st) (token : bytes) : option bytes :=
  if is_hex_address token then zget (r_erc20 s) (hex_to_addr token) else kget (r_denoms s) token.
Definition lookup (s : st) (token : bytes) : option pair := get_pair s (pair_id s token).
(* token_pairs.go 158-182 GetCoinAddress, for registered denominations *)
Definition coin_address (s : st) (d : bytes) : option Z :=
  match get_pair s (kget (r_denoms s) d) with Some p => Some (contract p) | None => None end.
(* token_pairs.go 184-206 GetTokenDenom *)
Definition token_denom (s : st) (a : Z) : option bytes :=
  match get_pair s (zget (r_erc20 s) a) with Some p => Some (p_denom p) | None => None end.

(* the bank *)
Definition has_meta (s : st) (d : bytes) : bool := existsb (beqb d) (r_meta s).
Definition add_meta (s : st) (d : bytes) : st := mk_st (r_pairs s) (r_denoms s) (r_erc20 s) (r_dp s) (r_np s) (r_on s) (d :: r_meta s) (r_supply s).
Definition supply (s : st) (d : bytes) : Z := match kget (r_supply s) d with Some x => x | None => 0 end.
Definition mint (s : st) (d : bytes) (x : Z) : st :=
  mk_st (r_pairs s) (r_denoms s) (r_erc20 s) (r_dp s) (r_np s) (r_on s) (r_meta s) (kset (r_supply s) d (supply s d + x)).
(* params.go 54-57 SetDynamicPrecompileEnabled *)
Definition enable (s : st) (a : Z) : st := mk_st (r_pairs s) (r_denoms s) (r_erc20 s) (a :: r_dp s) (r_np s) (r_on s) (r_meta s) (r_supply s).
(* precompiles.go 16-66 GetERC20PrecompileInstance: None for "not a face", Some (Err) for
   a face without its pair *)
Definition face (s : st) (a : Z) : option (res pair) :=
  if existsb (Z.eqb a) (r_np s) || existsb (Z.eqb a) (r_dp s) then
    Some (match get_pair s (zget (r_erc20 s) a) with Some p => Ok p | None => Err end)
  else None.

Section Text.
(* Address.String: "0x" and 40 digits with checksum capitals *)
Variable checksum : Z -> bytes.

Definition erc20_prefix : bytes := [101; 114; 99; 50; 48; 47]%N.
(* proposals.go 16-37 registerERC20 with 39-107 CreateCoinMetadata; good tells that
   the contract answers the queries and the metadata made from it is valid *)
Definition register_erc20 (s : st) (a : Z) (good : bool) : res st :=
  let d := erc20_prefix ++ checksum a in
  if (match zget (r_erc20 s) a with Some _ => true | None => false end) then Err
  else if negb good then Err
  else if has_meta s d then Err
  else if (match kget (r_denoms s) d with Some _ => true | None => false end) then Err
  else Ok (set_token (add_meta s d) (mk_pair (checksum a) d true External)).
(* msg_server.go 304-332 RegisterERC20 by governance; all addresses or none *)
Fixpoint register_all (s : st) (l : list (bytes * bool)) : res st :=
  match l with
  | [] => Ok s
  | (t, good) :: r => if is_hex_address t then rbind (register_erc20 s (hex_to_addr t) good) (fun s' => register_all s' r) else Err
  end.
Definition register_msg (s : st) (l : list (bytes * bool)) : res st := if r_on s then register_all s l else Err.

(* proposals.go 109-130 toggleConversion; msg_server.go 334-361 *)
Definition toggle (s : st) (token : bytes) : res st :=
  if r_on s then match lookup s token with
                 | None => Err
                 | Some p => Ok (set_pair s (mk_pair (p_addr p) (p_denom p) (negb (p_enabled p)) (p_owner p)))
                 end
  else Err.

(* utils.go 144-160 GetIBCDenomAddress: "ibc/" and the text of a 32 byte hash *)
Definition ibc_prefix : bytes := [105; 98; 99; 47]%N.
Definition ibc_addr (d : bytes) : option Z :=
  if has_prefix ibc_prefix d then
    let h := skipn 4 d in
    if Nat.eqb (length h) 64 && forallb is_hexchar h then Some (decode 0 h mod two160) else None
  else None.
(* dynamic_precompiles.go 20-33 RegisterERC20Extension, token_pairs.go 14-22 *)
Definition register_extension (s : st) (d : bytes) : res st :=
  match ibc_addr d with
  | None => Err
  | Some a => let p := mk_pair (checksum a) d true Module in Ok (enable (set_token s p) (contract p))
  end.
(* ibc_callbacks.go 104-130: the part of OnRecvPacket that registers; direct tells that
   the coin comes straight from its own chain.  A coin that is already registered is
   left alone *)
Definition recv (s : st) (d : bytes) (direct : bool) : res st :=
  if negb (r_on s) then Ok s
  else match lookup s d with
       | Some _ => Ok s
       | None => if has_prefix ibc_prefix d && direct then register_extension s d else Ok s
       end.

(* erc20creator.go 100-210 Run; good covers the checks of the texts, the origin, the
   validity of the metadata and the deployment; the contract gets address a *)
Definition create (s : st) (d : bytes) (x a : Z) (good : bool) : res st :=
  if negb good || (32 <? Z.of_nat (length d)) || (x <=? 0) then Err
  else if has_meta s d then Err
  else let s1 := mint (add_meta s d) d x in
       let p := mk_pair (checksum a) d true Module in
       Ok (enable (set_token s1 p) (contract p)).

(* x/hyperion/keeper/tokens.go 218-294 CreateOrLinkTokenToChain: the part that makes a
   pair when there is none; good tells that the metadata is valid *)
Definition link (s : st) (d : bytes) (a : Z) (good : bool) : res st :=
  match lookup s d with
  | Some _ => Ok s
  | None =>
      if negb good then Ok s
      else let p := mk_pair (checksum a) d true Module in
           Ok (mint (enable (set_token (add_meta s d) p) (contract p)) d 1)
  end.

(* msg_server.go 26-60 ConvertERC20 of a contract that is gone: the pair is removed;
   mint.go 17-66 MintingEnabled (the checks of the receiver left out) *)
Definition convert_gone (s : st) (token : bytes) : res st :=
  if negb (r_on s) then Err
  else match lookup s token with
       | None => Err
       | Some p => if negb (p_enabled p) then Err
                   else match p_owner p with External => Ok (delete_pair s p) | _ => Err end
       end.

Inductive op :=
| Register (l : list (bytes * bool))
| Toggle (token : bytes)
| Recv (d : bytes) (direct : bool)
| Create (d : bytes) (x a : Z) (good : bool)
| Link (d : bytes) (a : Z) (good : bool)
| ConvertGone (token : bytes).
Definition step (s : st) (o : op) : res st :=
  match o with
  | Register l => register_msg s l
  | Toggle t => toggle s t
  | Recv d b => recv s d b
  | Create d x a g => create s d x a g
  | Link d a g => link s d a g
  | ConvertGone t => convert_gone s t
  end.
(* a failing operation changes nothing *)
Definition exec (s : st) (o : op) : st := match step s o with Ok s' => s' | _ => s end.
End Text.

(* ---- genesis ---- *)
(* sdk.ValidateDenom: a letter, then 2 to 127 of the allowed characters *)
Definition is_letter (c : N) : bool := ((97 <=? c) && (c <=? 122) || (65 <=? c) && (c <=? 90))%N.
Definition is_denom_char (c : N) : bool := is_letter c || ((48 <=? c) && (c <=? 57))%N || N.eqb c 47 || N.eqb c 58 || N.eqb c 46 || N.eqb c 95 || N.eqb c 45.
Definition denom_ok (d : bytes) : bool :=
  match d with [] => false | c :: r => is_letter c && Nat.leb 2 (length r) && Nat.leb (length r) 127 && forallb is_denom_char r end.
(* types/genesis.go 38-71 Validate (pairs); token_pair.go 53-60 *)
Fixpoint valid_pairs (seen_a seen_d : list bytes) (l : list pair) : bool :=
  match l with
  | [] => true
  | p :: r => negb (existsb (beqb (p_addr p)) seen_a) && negb (existsb (beqb (p_denom p)) seen_d) && denom_ok (p_denom p) && is_hex_address (p_addr p)
              && valid_pairs (p_addr p :: seen_a) (p_denom p :: seen_d) r
  end.
(* genesis.go 19-67 InitGenesis: the lists of precompiles in the parameters are not
   stored (params.go 21-30); the bank has its metadata and supplies already *)
Definition import (l : list pair) (on : bool) (meta : list bytes) (sup : list (bytes * Z)) : st := fold_left set_token l (empty on meta sup).
(* genesis.go 134-139 ExportGenesis; params.go 15-18 GetParams gives empty lists *)
Definition export (s : st) : list pair * bool * list Z := (map snd (r_pairs s), r_on s, []).
