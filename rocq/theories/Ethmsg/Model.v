(** Ethereum transactions inside Cosmos messages.
    Models /repo/helios-chain/x/evm/types/{msg,tx_data,legacy_tx,access_list_tx,
    dynamic_fee_tx,access_list,utils}.go, utils/eth/eth.go, types/int.go,
    types/validation.go and rpc/backend/call_tx.go:98-150.
    The transaction type itself, its byte form and the reading of hexadecimal
    text are go-ethereum's (v1.10.27, outside /repo) and follow its
    core/types/transaction.go, core/types/*_tx.go and common/types.go. *)
From Verif Require Import Lib.Base Lib.Bytes Lib.Codec Ethmsg.Rlp.
From Coq Require Import NArith.
Open Scope Z_scope.

(** ** Transactions as Ethereum knows them *)

(** What every kind of transaction has.  ethtypes.NewTx puts 0 where a number
    is missing, so numbers are never missing here. *)
Record body := Body {
  b_nonce : Z;
  b_gas : Z;
  b_to : option bytes;      (* none: the transaction creates a contract *)
  b_value : Z;
  b_data : bytes;
  b_v : Z;
  b_r : Z;
  b_s : Z
}.

Definition access := list (bytes * list bytes).

Inductive etx :=
| ELegacy (price : Z) (b : body)
| EAccess (cid price : Z) (al : access) (b : body)
| EDynamic (cid tip cap : Z) (al : access) (b : body).

Definition tx_body (t : etx) : body :=
  match t with ELegacy _ b => b | EAccess _ _ _ b => b | EDynamic _ _ _ _ b => b end.

(** *** The byte form *)

Definition r_num (x : Z) : rlp := RStr (bemin x).
Definition r_to (a : option bytes) : rlp := RStr (match a with Some x => x | None => [] end).
Definition r_access (al : access) : rlp :=
  RList (map (fun p => RList [RStr (fst p); RList (map RStr (snd p))]) al).

Definition fields (t : etx) : list rlp :=
  match t with
  | ELegacy price b =>
      [r_num (b_nonce b); r_num price; r_num (b_gas b); r_to (b_to b); r_num (b_value b);
       RStr (b_data b); r_num (b_v b); r_num (b_r b); r_num (b_s b)]
  | EAccess cid price al b =>
      [r_num cid; r_num (b_nonce b); r_num price; r_num (b_gas b); r_to (b_to b); r_num (b_value b);
       RStr (b_data b); r_access al; r_num (b_v b); r_num (b_r b); r_num (b_s b)]
  | EDynamic cid tip cap al b =>
      [r_num cid; r_num (b_nonce b); r_num tip; r_num cap; r_num (b_gas b); r_to (b_to b);
       r_num (b_value b); RStr (b_data b); r_access al; r_num (b_v b); r_num (b_r b); r_num (b_s b)]
  end.

Definition type_bytes (t : etx) : bytes :=
  match t with ELegacy _ _ => [] | EAccess _ _ _ _ => [1%N] | EDynamic _ _ _ _ _ => [2%N] end.

(** Transaction.MarshalBinary *)
Definition marshal (t : etx) : bytes := type_bytes t ++ enc (RList (fields t)).

(** A number below 0 cannot be written: rlp.Encode then writes nothing. *)
Definition numbers (t : etx) : list Z :=
  let rest b := [b_value b; b_v b; b_r b; b_s b] in
  match t with
  | ELegacy price b => price :: rest b
  | EAccess cid price _ b => cid :: price :: rest b
  | EDynamic cid tip cap _ b => cid :: tip :: cap :: rest b
  end.

Definition writable (t : etx) : bool := forallb (fun x => 0 <=? x) (numbers t).

(** What Transaction.Hash hashes (core/types/hashing.go rlpHash and
    prefixedRlpHash, which do not look at the encoder's error) *)
Definition hashed (t : etx) : bytes :=
  if writable t then marshal t else type_bytes t.

(** *** Reading the byte form *)

Definition obind {A B} (o : option A) (f : A -> option B) : option B :=
  match o with Some a => f a | None => None end.
Notation "'get' x <- a ; b" := (obind a (fun x => b)) (at level 200, x pattern, right associativity).

Definition d_num (r : rlp) : option Z :=
  match r with RStr b => if no_lead b then Some (unbe b) else None | _ => None end.
Definition d_u64 (r : rlp) : option Z :=
  get x <- d_num r; if x <? 2 ^ 64 then Some x else None.
Definition d_fix (n : Z) (r : rlp) : option bytes :=
  match r with RStr b => if blen b =? n then Some b else None | _ => None end.
Definition d_to (r : rlp) : option (option bytes) :=
  match r with
  | RStr [] => Some None
  | _ => get a <- d_fix 20 r; Some (Some a)
  end.
Definition d_str (r : rlp) : option bytes := match r with RStr b => Some b | _ => None end.

Fixpoint d_all {A} (f : rlp -> option A) (l : list rlp) : option (list A) :=
  match l with
  | [] => Some []
  | r :: l' => get a <- f r; get q <- d_all f l'; Some (a :: q)
  end.

Definition d_tuple (r : rlp) : option (bytes * list bytes) :=
  match r with
  | RList [a; RList ks] => get x <- d_fix 20 a; get l <- d_all (d_fix 32) ks; Some (x, l)
  | _ => None
  end.

Definition d_access (r : rlp) : option access :=
  match r with RList l => d_all d_tuple l | _ => None end.

Definition d_body (nonce gas to value data v r s : rlp) : option body :=
  get n <- d_u64 nonce; get g <- d_u64 gas; get t <- d_to to; get a <- d_num value;
  get d <- d_str data; get v' <- d_num v; get r' <- d_num r; get s' <- d_num s;
  Some (Body n g t a d v' r' s').

Definition d_legacy (l : list rlp) : option etx :=
  match l with
  | [nonce; price; gas; to; value; data; v; r; s] =>
      get p <- d_num price; get b <- d_body nonce gas to value data v r s; Some (ELegacy p b)
  | _ => None
  end.

Definition d_accesstx (l : list rlp) : option etx :=
  match l with
  | [cid; nonce; price; gas; to; value; data; al; v; r; s] =>
      get c <- d_num cid; get p <- d_num price; get a <- d_access al;
      get b <- d_body nonce gas to value data v r s; Some (EAccess c p a b)
  | _ => None
  end.

Definition d_dynamic (l : list rlp) : option etx :=
  match l with
  | [cid; nonce; tip; cap; gas; to; value; data; al; v; r; s] =>
      get c <- d_num cid; get t <- d_num tip; get p <- d_num cap; get a <- d_access al;
      get b <- d_body nonce gas to value data v r s; Some (EDynamic c t p a b)
  | _ => None
  end.

Definition d_list (b : bytes) : option (list rlp) :=
  match dec b with Some (RList l) => Some l | _ => None end.

(** Transaction.UnmarshalBinary *)
Definition unmarshal (b : bytes) : option etx :=
  match b with
  | [] => None
  | x :: r =>
      if (127 <? x)%N then get l <- d_list b; d_legacy l
      else match x with
           | 1%N => get l <- d_list r; d_accesstx l
           | 2%N => get l <- d_list r; d_dynamic l
           | _ => None
           end
  end.

(** ** Hexadecimal text (a text is the list of its character codes) *)

Definition text := bytes.

Definition dig (upper : bool) (d : N) : N :=
  if (d <? 10)%N then (48 + d)%N else if upper then (55 + d)%N else (87 + d)%N.

Fixpoint hexs (up : nat -> bool) (i : nat) (b : bytes) : text :=
  match b with
  | [] => []
  | x :: r => dig (up i) (x / 16) :: dig (up (S i)) (x mod 16) :: hexs up (S (S i)) r
  end.

Definition hex0x (up : nat -> bool) (b : bytes) : text := 48%N :: 120%N :: hexs up 0 b.

Definition lower (_ : nat) : bool := false.

Definition undig (c : N) : option N :=
  if ((48 <=? c) && (c <=? 57))%N%bool then Some (c - 48)%N
  else if ((97 <=? c) && (c <=? 102))%N%bool then Some (c - 87)%N
  else if ((65 <=? c) && (c <=? 70))%N%bool then Some (c - 55)%N
  else None.

(** hex.DecodeString without its error: what was read before the first bad
    character *)
Fixpoint unhex (s : text) : bytes :=
  match s with
  | x :: y :: r =>
      match undig x, undig y with
      | Some a, Some b => (16 * a + b)%N :: unhex r
      | _, _ => []
      end
  | _ => []
  end.

(** common.has0xPrefix, common.FromHex *)
Definition strip (s : text) : text :=
  match s with
  | 48%N :: x :: r => if ((x =? 120) || (x =? 88))%N%bool then r else s
  | _ => s
  end.

Definition from_hex (s : text) : bytes :=
  let s' := strip s in
  unhex (if Nat.odd (length s') then 48%N :: s' else s').

(** common.BytesToAddress and BytesToHash: cut or filled on the left *)
Definition fit (n : nat) (b : bytes) : bytes :=
  if Nat.leb n (length b) then skipn (length b - n) b else repeat 0%N (n - length b) ++ b.

Definition hex_to_address (s : text) : bytes := fit 20 (from_hex s).
Definition hex_to_hash (s : text) : bytes := fit 32 (from_hex s).

(** common.IsHexAddress; types/validation.go:22-30 ValidateAddress *)
Definition is_hex_address (s : text) : bool :=
  let s' := strip s in
  Nat.eqb (length s') 40 && forallb (fun c => match undig c with Some _ => true | None => false end) s'.

(** ** Messages *)

(** The protobuf fields common to LegacyTx, AccessListTx and DynamicFeeTx. *)
Record pbody := Pbody {
  p_nonce : Z;
  p_gas : Z;
  p_to : text;
  p_amount : option Z;
  p_data : bytes;
  p_v : bytes;
  p_r : bytes;
  p_s : bytes
}.

Definition paccess := list (text * list text).

Inductive tdata :=
| TLegacy (price : option Z) (b : pbody)
| TAccess (cid price : option Z) (al : paccess) (b : pbody)
| TDynamic (cid tip cap : option Z) (al : paccess) (b : pbody).

Definition td_body (d : tdata) : pbody :=
  match d with TLegacy _ b => b | TAccess _ _ _ b => b | TDynamic _ _ _ _ b => b end.

(** MsgEthereumTx; the deprecated field Size_ is a float64 of which only being
    0 matters. *)
Record emsg := Emsg { m_data : tdata; m_size : Z; m_hash : text; m_from : text }.

Section Hashing.

(** The hash function, and which letters of an address are written in upper
    case (EIP-55, a function of the address). *)
Variable keccak : bytes -> bytes.
Variable caps : bytes -> nat -> bool.

Definition tx_hash (t : etx) : bytes := keccak (hashed t).

(** access_list.go:14-36 NewAccessList *)
Definition new_access (al : access) : paccess :=
  map (fun p => (hex0x (caps (fst p)) (fst p), map (hex0x lower) (snd p))) al.

(** access_list.go:40-60 ToEthAccessList *)
Definition to_eth_access (al : paccess) : access :=
  map (fun p => (hex_to_address (fst p), map hex_to_hash (snd p))) al.

(** types/int.go:26-36 SafeNewIntFromBigInt, IsValidInt256 *)
Definition valid256 (x : Z) : bool := Z.abs x <? 2 ^ 256.

Definition safe_int (x : Z) : res Z := if valid256 x then Ok x else Err.

(** sdkmath.NewIntFromBigInt, which SetSignatureValues calls on the chain id *)
Definition must_int (x : Z) : res Z := if valid256 x then Ok x else Panic.

(** v.Bytes() as SetSignatureValues stores it *)
Definition new_body (b : body) (amount : Z) : pbody :=
  Pbody (b_nonce b) (b_gas b)
        (match b_to b with Some a => hex0x (caps a) a | None => [] end)
        (Some amount) (b_data b) (bemin (Z.abs (b_v b))) (bemin (Z.abs (b_r b))) (bemin (Z.abs (b_s b))).

(** tx_data.go:57-76 NewTxDataFromTx with legacy_tx.go:16-46 NewLegacyTx,
    access_list_tx.go:17-52 newAccessListTx, dynamic_fee_tx.go:17-60
    NewDynamicFeeTx *)
Definition new_tx_data (t : etx) : res tdata :=
  rbind (safe_int (b_value (tx_body t))) (fun a =>
  match t with
  | ELegacy price b =>
      rbind (safe_int price) (fun p => Ok (TLegacy (Some p) (new_body b a)))
  | EAccess cid price al b =>
      rbind (safe_int price) (fun p =>
      rbind (must_int cid) (fun c => Ok (TAccess (Some c) (Some p) (new_access al) (new_body b a))))
  | EDynamic cid tip cap al b =>
      rbind (safe_int cap) (fun p =>
      rbind (safe_int tip) (fun q =>
      rbind (must_int cid) (fun c => Ok (TDynamic (Some c) (Some q) (Some p) (new_access al) (new_body b a)))))
  end).

(** msg.go:135-149 FromEthereumTx (on an empty message) *)
Definition from_eth (t : etx) : res emsg :=
  rbind (new_tx_data t) (fun d => Ok (Emsg d 0 (hex0x lower (tx_hash t)) [])).

(** *** Taking the transaction out again *)

Definition num (o : option Z) : Z := match o with Some x => x | None => 0 end.

(** GetTo: legacy_tx.go:119-125, access_list_tx.go:132-138,
    dynamic_fee_tx.go:146-152 *)
Definition get_to (s : text) : option bytes :=
  match s with [] => None | _ => Some (hex_to_address s) end.

(** utils/eth/eth.go:37-48 RawSignatureValues; no bytes stand for no value,
    which ethtypes.NewTx reads as 0 *)
Definition sig_value (b : bytes) : Z := unbe b.

Definition as_body (p : pbody) : body :=
  Body (p_nonce p) (p_gas p) (get_to (p_to p)) (num (p_amount p)) (p_data p)
       (sig_value (p_v p)) (sig_value (p_r p)) (sig_value (p_s p)).

(** AsEthereumData (legacy_tx.go:129-142, access_list_tx.go:142-157,
    dynamic_fee_tx.go:156-172) and msg.go:286-293 AsTransaction *)
Definition as_tx (d : tdata) : etx :=
  match d with
  | TLegacy price b => ELegacy (num price) (as_body b)
  | TAccess cid price al b => EAccess (num cid) (num price) (to_eth_access al) (as_body b)
  | TDynamic cid tip cap al b => EDynamic (num cid) (num tip) (num cap) (to_eth_access al) (as_body b)
  end.

(** *** What the rest of the chain asks of a message *)

(** utils/eth/eth.go:13-33 DeriveChainID *)
Definition derive_chain_id (v : Z) : option Z :=
  if v <? 1 then None
  else if v <? 2 ^ 64 then
    if (v =? 27) || (v =? 28) then Some 0
    else if v <? 35 then None
    else Some ((v - 35) / 2)
  else Some ((v - 35) / 2).

(** GetChainID *)
Definition chain_id (d : tdata) : option Z :=
  match d with
  | TLegacy _ b => derive_chain_id (sig_value (p_v b))
  | TAccess cid _ _ _ => cid
  | TDynamic cid _ _ _ _ => cid
  end.

(** tx_data.go:79-82 fee, 88-93 cost; the price is there once the message has
    passed its checks, before that a missing one would make this panic *)
Definition fee (d : tdata) : Z :=
  match d with
  | TLegacy price b => num price * p_gas b
  | TAccess _ price _ b => num price * p_gas b
  | TDynamic _ _ cap _ b => num cap * p_gas b
  end.

Definition cost (d : tdata) : Z := fee d + num (p_amount (td_body d)).

(** utils.go:150-152 EffectiveGasPrice and the methods of the same name *)
Definition effective_price (base : Z) (d : tdata) : Z :=
  match d with
  | TLegacy price _ => num price
  | TAccess _ price _ _ => num price
  | TDynamic _ tip cap _ _ => Z.min (num tip + base) (num cap)
  end.

Definition effective_fee (base : Z) (d : tdata) : Z := effective_price base d * p_gas (td_body d).
Definition effective_cost (base : Z) (d : tdata) : Z :=
  effective_fee base d + num (p_amount (td_body d)).

(** Validate: legacy_tx.go:164-204, access_list_tx.go:186-231,
    dynamic_fee_tx.go:198-257 *)
Definition price_ok (o : option Z) : bool :=
  match o with Some p => (0 <=? p) && valid256 p | None => false end.

Definition amount_ok (o : option Z) : bool :=
  match o with Some a => (0 <=? a) && valid256 a | None => true end.

Definition to_ok (s : text) : bool := match s with [] => true | _ => is_hex_address s end.

Definition validate (d : tdata) : bool :=
  match d with
  | TLegacy price _ => price_ok price
  | TAccess _ price _ _ => price_ok price
  | TDynamic _ tip cap _ _ => price_ok tip && price_ok cap && (num tip <=? num cap)
  end
  && valid256 (fee d)
  && amount_ok (p_amount (td_body d))
  && to_ok (p_to (td_body d))
  && match chain_id d with Some _ => true | None => false end.

(** msg.go:159-199 ValidateBasic *)
Definition validate_basic (m : emsg) : bool :=
  to_ok (m_from m)
  && (m_size m =? 0)
  && negb (p_gas (td_body (m_data m)) =? 0)
  && (p_gas (td_body (m_data m)) <? 2 ^ 63)
  && validate (m_data m)
  && beqb (m_hash m) (hex0x lower (tx_hash (as_tx (m_data m)))).

(** *** Sending raw bytes *)

(** Transaction.Protected *)
Definition protected (t : etx) : bool :=
  match t with
  | ELegacy _ b =>
      negb ((b_v b =? 27) || (b_v b =? 28) || (b_v b =? 1) || (b_v b =? 0))
  | _ => true
  end.

(** What is broadcast: the message, and the fee (in units of the smallest
    denomination; none is put when it is 0) and gas limit of the Cosmos
    transaction around it. *)
Record sent := Sent { s_msg : emsg; s_fee : Z; s_gas : Z; s_hash : bytes }.

(** msg.go:327-362 BuildTx *)
Definition build_tx (m : emsg) : res sent :=
  rbind (must_int (fee (m_data m))) (fun f =>
  Ok (Sent (Emsg (m_data m) (m_size m) (m_hash m) []) f (p_gas (td_body (m_data m)))
           (tx_hash (as_tx (m_data m))))).

(** rpc/backend/call_tx.go:98-150 SendRawTransaction up to the broadcast *)
Definition send_raw (unprotected_allowed : bool) (b : bytes) : res sent :=
  match unmarshal b with
  | None => Err
  | Some t =>
      if negb unprotected_allowed && negb (protected t) then Err
      else rbind (from_eth t) (fun m => if validate_basic m then build_tx m else Err)
  end.

End Hashing.
