(** What it means for a message to stand for a transaction. *)
From Verif Require Import Lib.Base Lib.Bytes Lib.Codec Ethmsg.Rlp Ethmsg.Model.
From Coq Require Import NArith.
Open Scope Z_scope.

(** A byte string of [n] bytes. *)
Definition fixed (n : Z) (b : bytes) : Prop := bytes_ok b /\ blen b = n.

(** A transaction of Ethereum: 64-bit nonce and gas, addresses of 20 bytes,
    storage keys of 32, no negative number. *)
Definition wf_body (b : body) : Prop :=
  0 <= b_nonce b < 2 ^ 64 /\ 0 <= b_gas b < 2 ^ 64 /\
  match b_to b with Some a => fixed 20 a | None => True end /\
  bytes_ok (b_data b) /\
  0 <= b_value b /\ 0 <= b_v b /\ 0 <= b_r b /\ 0 <= b_s b.

Definition wf_access (al : access) : Prop :=
  Forall (fun p => fixed 20 (fst p) /\ Forall (fixed 32) (snd p)) al.

Definition wf_tx (t : etx) : Prop :=
  match t with
  | ELegacy price b => 0 <= price /\ wf_body b
  | EAccess cid price al b => 0 <= cid /\ 0 <= price /\ wf_access al /\ wf_body b
  | EDynamic cid tip cap al b => 0 <= cid /\ 0 <= tip /\ 0 <= cap /\ wf_access al /\ wf_body b
  end.

(** The most it says it pays for one unit of gas; the tip it offers at most;
    what it pays at a base fee (EIP-1559). *)
Definition max_price (t : etx) : Z :=
  match t with ELegacy p _ => p | EAccess _ p _ _ => p | EDynamic _ _ cap _ _ => cap end.
Definition max_tip (t : etx) : Z :=
  match t with ELegacy p _ => p | EAccess _ p _ _ => p | EDynamic _ tip _ _ _ => tip end.
Definition price_at (base : Z) (t : etx) : Z :=
  match t with
  | ELegacy p _ => p
  | EAccess _ p _ _ => p
  | EDynamic _ tip cap _ _ => if tip + base <? cap then tip + base else cap
  end.

Definition tx_gas (t : etx) : Z := b_gas (tx_body t).
Definition tx_value (t : etx) : Z := b_value (tx_body t).

(** The chain the transaction names, if it names one; a legacy transaction
    names it through its signature (EIP-155), or signs for every chain. *)
Definition names_chain (t : etx) : Prop :=
  match t with
  | ELegacy _ b => b_v b = 27 \/ b_v b = 28 \/ 35 <= b_v b
  | EAccess cid _ _ _ => True
  | EDynamic cid _ _ _ _ => True
  end.

Definition chain_number (t : etx) : Z :=
  match t with ELegacy _ _ => 0 | EAccess cid _ _ _ => cid | EDynamic cid _ _ _ _ => cid end.

Definition for_one_chain (t : etx) : Prop :=
  match t with
  | ELegacy _ b => b_v b <> 27 /\ b_v b <> 28 /\ b_v b <> 0 /\ b_v b <> 1
  | _ => True
  end.

(** The transactions the node takes. *)
Definition takes (t : etx) : Prop :=
  1 <= tx_gas t < 2 ^ 63 /\
  max_tip t <= max_price t /\
  max_price t * tx_gas t < 2 ^ 256 /\
  tx_value t < 2 ^ 256 /\
  chain_number t < 2 ^ 256 /\
  names_chain t.

(** The fields of a message as protobuf delivers them: 64-bit numbers, bytes,
    integers of at most 256 bits. *)
Definition int_ok (o : option Z) : Prop := match o with Some x => Z.abs x < 2 ^ 256 | None => True end.

Definition wf_pbody (p : pbody) : Prop :=
  0 <= p_nonce p < 2 ^ 64 /\ 0 <= p_gas p < 2 ^ 64 /\ bytes_ok (p_to p) /\ bytes_ok (p_data p) /\
  bytes_ok (p_v p) /\ bytes_ok (p_r p) /\ bytes_ok (p_s p) /\ int_ok (p_amount p).

Definition wf_tdata (d : tdata) : Prop :=
  match d with
  | TLegacy price b => int_ok price /\ wf_pbody b
  | TAccess cid price al b => int_ok cid /\ int_ok price /\ wf_pbody b
  | TDynamic cid tip cap al b => int_ok cid /\ int_ok tip /\ int_ok cap /\ wf_pbody b
  end.

(** The chain id written in the message is not negative. *)
Definition chain_not_negative (d : tdata) : Prop :=
  match d with
  | TLegacy _ _ => True
  | TAccess cid _ _ _ => 0 <= num cid
  | TDynamic cid _ _ _ _ => 0 <= num cid
  end.

(** The text of an address: 40 hexadecimal digits, with or without 0x. *)
Definition hex_digit (c : N) : Prop :=
  (48 <= c <= 57 \/ 65 <= c <= 70 \/ 97 <= c <= 102)%N.
Definition address_text (s : text) : Prop :=
  exists prefix digits, s = prefix ++ digits /\
    (prefix = [] \/ prefix = [48%N; 120%N] \/ prefix = [48%N; 88%N]) /\
    length digits = 40%nat /\ Forall hex_digit digits.

(** The text fields are addresses or empty, the deprecated field is not used,
    no amount is negative and no field that must be there is missing. *)
Definition present (o : option Z) : Prop := exists x, o = Some x /\ 0 <= x.

Definition well_written (m : emsg) : Prop :=
  (m_from m = [] \/ address_text (m_from m)) /\
  m_size m = 0 /\
  (p_to (td_body (m_data m)) = [] \/ address_text (p_to (td_body (m_data m)))) /\
  (p_amount (td_body (m_data m)) = None \/ present (p_amount (td_body (m_data m)))) /\
  match m_data m with
  | TLegacy price _ => present price
  | TAccess cid price _ _ => present price /\ cid <> None
  | TDynamic cid tip cap _ _ => present tip /\ present cap /\ cid <> None
  end.
