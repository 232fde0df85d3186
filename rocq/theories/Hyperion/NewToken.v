(* Deposits of tokens the chain has not seen before: x/hyperion/keeper/tokens.go 195-294 and
   316-377, attestation_handler.go 42-142, attestation.go 271-290. One bridge; tokens of the
   other chain only (coins of this chain are in Pool.v). A text is the list of its bytes. *)
From Verif Require Import Lib.Base Lib.Zmap Lib.Dec.
Open Scope Z_scope.

Definition text := list Z.
Fixpoint same (a b : text) : bool :=
  match a, b with [], [] => true | x :: a', y :: b' => (x =? y) && same a' b' | _, _ => false end.

(* ---- the SDK: names of coins, and bank metadata ---- *)
Definition is_letter (c : Z) : bool := ((65 <=? c) && (c <=? 90)) || ((97 <=? c) && (c <=? 122)).
(* a-zA-Z0-9/:._- : the digits, slash, dot and dash are 45 to 57 *)
Definition allowed (c : Z) : bool := is_letter c || ((45 <=? c) && (c <=? 58)) || (c =? 95).
(* sdk.ValidateDenom: [a-zA-Z][a-zA-Z0-9/:._-]{2,127} *)
Definition denom_ok (t : text) : bool :=
  match t with [] => false | c :: r => is_letter c && forallb allowed r && (2 <=? length r)%nat && (length r <=? 127)%nat end.
(* strings.TrimSpace leaves nothing; spaces outside ASCII are left out: a text of such spaces
   is refused further down as well *)
Definition blank (t : text) : bool := forallb (fun c => (c =? 32) || ((9 <=? c) && (c <=? 13))) t.
(* banktypes.Metadata.Validate for two units, the base with exponent 0 and the display with
   exponent d *)
Inductive verdict := Fine | BadDisplay | Other.
Definition validate (base name symbol display : text) (d : Z) : verdict :=
  if blank name then Other else if blank symbol then Other else if negb (denom_ok base) then Other
  else if negb (denom_ok display) then BadDisplay
  else if d <=? 0 then Other else if same display base then Other else Fine.

(* tokens.go:195-216 sanitizeSymbol *)
Definition hel : text := [72; 69; 76; 45].
Definition sanitize (symbol : text) : text :=
  let f := filter allowed symbol in
  match f with
  | [] => symbol
  | _ => if (127 <? length f)%nat then firstn 127 f else if (length f <? 3)%nat then hel ++ symbol else f
  end.

Record meta := mk_meta { m_symbol : text; m_name : text; m_dec : Z }.
Record tok := mk_tok { t_symbol : text; t_dec : Z }.
(* tokens.go:218-294 CreateOrLinkTokenToChain without a pair: the symbol of the new coin *)
Definition create (base symbol : text) (d : Z) : option tok :=
  match validate base symbol symbol symbol d with
  | Fine => Some (mk_tok symbol d)
  | BadDisplay => let s := sanitize symbol in match validate base s s s d with Fine => Some (mk_tok s d) | _ => None end
  | Other => None
  end.

(* the data of a deposit: empty, not JSON, or JSON with or without metadata *)
Inductive data := Empty | NotJson | Json (m : option meta).
(* tokens.go:316-335 ValidateTokenMetaData *)
Definition meta_ok (m : meta) : bool := (m_dec m <=? 18) && (length (m_name m) <=? 100)%nat && (length (m_symbol m) <=? 30)%nat.
(* tokens.go:337-377 parseClaimData, extractTokenMetadataInClaimDataWithDefault *)
Definition extract (d : data) (default : meta) : meta :=
  match d with
  | Json (Some m) => if meta_ok m then match m_symbol m with [] => default | _ => m end else default
  | _ => default
  end.

(* types/ethereum.go:62 NewHyperionDenom *)
Definition hyperion_dash : text := [104; 121; 112; 101; 114; 105; 111; 110; 45].
Section Code.
Variable h : Z.                (* the number of the bridge *)
Variable addr : Z -> text.     (* the checksummed text of a contract's address *)
Definition denom (c : Z) : text := hyperion_dash ++ map Z.of_N (udec h) ++ 45 :: addr c.

(* the coins of a contract: who has how many, and the supply *)
Record st := mk_st { s_tok : list (Z * tok); s_bal : Z -> Z -> Z; s_sup : Z -> Z }.
Definition start : st := mk_st [] (fun _ _ => 0) (fun _ => 0).
Definition module_acc : Z := -1.
Definition pool_acc : Z := -2.
Definition give (s : st) (c a n : Z) : st :=
  mk_st (s_tok s) (fun c' a' => s_bal s c' a' + if (c' =? c) && (a' =? a) then n else 0) (fun c' => s_sup s c' + if c' =? c then n else 0).
(* a deposit: the sender's address is readable; the receiver, unless unreadable or the sender
   is on the blacklist *)
Record deposit := mk_dep { d_sender : bool; d_to : option Z; d_contract : Z; d_amount : Z; d_data : data }.
(* tokens.go:261-271: the new pair, and one unit for the module *)
Definition known (s : st) (c : Z) (d : data) : option st :=
  match zget (s_tok s) c with
  | Some _ => Some s
  | None =>
      let m := extract d (mk_meta (denom c) (denom c) 18) in
      match create (denom c) (m_symbol m) (m_dec m) with
      | Some t => Some (give (mk_st (zset (s_tok s) c t) (s_bal s) (s_sup s)) c module_acc 1)
      | None => None
      end
  end.
(* attestation_handler.go:44-142 *)
Definition handle (s : st) (x : deposit) : res st :=
  if negb (d_sender x) then Err else
  match known s (d_contract x) (d_data x) with
  | None => Err
  | Some s1 =>
      if 2 ^ 256 <=? s_sup s1 (d_contract x) + d_amount x then Err
      else Ok (give s1 (d_contract x) (match d_to x with Some a => a | None => pool_acc end) (d_amount x))
  end.
(* attestation.go:271-290: an error undoes everything, and the event counts as done *)
Definition process (s : st) (x : deposit) : st := match handle s x with Ok s' => s' | _ => s end.
Definition run (s : st) (l : list deposit) : st := fold_left process l s.
End Code.
