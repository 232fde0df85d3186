(* Typed-data signatures: the bytes a wallet signs for a Cosmos transaction
   (eip712/*.go; the encoder is go-ethereum's apitypes, of which the repository
   keeps a copy in app/ante/typeddata/typed_data.go: lines cited from there). *)
From Coq Require Import String Ascii NArith.
From Verif Require Import Lib.Base Lib.Bytes Lib.Codec Lib.Dec.
Open Scope Z_scope.

Definition text (s : string) : bytes := map N_of_ascii (list_ascii_of_string s).

(* A JSON value as gjson and encoding/json hand it over. Numbers are the value
   after the conversion to float64; only whole ones are kept (others are refused
   by parseInteger).  Objects list their keys once (the payload is canonical). *)
Inductive json :=
| JNull
| JBool (b : bool)
| JNum (z : Z)
| JStr (s : bytes)
| JArr (l : list json)
| JObj (kvs : list (bytes * json)).

(* A field type: base name and whether it is an array ("[]" behind the name). *)
Definition tref := (bytes * bool)%type.
Definition field := (bytes * tref)%type.
Definition types := list (bytes * list field).

Fixpoint get {A} (k : bytes) (l : list (bytes * A)) : option A :=
  match l with
  | [] => None
  | (k', a) :: r => if beqb k k' then Some a else get k r
  end.

Definition has {A} (k : bytes) (l : list (bytes * A)) : bool :=
  match get k l with Some _ => true | None => false end.

Definition tx_name := text "Tx".
Definition t_string := text "string".
Definition t_bool := text "bool".
Definition t_int64 := text "int64".

(* eip712/types.go:36-76 *)
Definition base_types : types :=
  [ (text "EIP712Domain",
      [(text "name", (t_string, false)); (text "version", (t_string, false));
       (text "chainId", (text "uint256", false));
       (text "verifyingContract", (t_string, false)); (text "salt", (t_string, false))]);
    (tx_name,
      [(text "account_number", (t_string, false)); (text "chain_id", (t_string, false));
       (text "fee", (text "Fee", false)); (text "memo", (t_string, false));
       (text "sequence", (t_string, false))]);
    (text "Fee", [(text "amount", (text "Coin", true)); (text "gas", (t_string, false))]);
    (text "Coin", [(text "denom", (t_string, false)); (text "amount", (t_string, false))]) ].

Section Typed.
(* keccak256 *)
Variable keccak : bytes -> bytes.
(* golang.org/x/text/cases.Title(language.English, cases.NoLower) *)
Variable title : bytes -> bytes.
(* math.HexOrDecimal256.UnmarshalText (typed_data.go:345-350) *)
Variable read_int : bytes -> option Z.

(* ---- the payload: eip712/message.go ---- *)

(* message.go:138-140 *)
Definition msg_field (i : nat) : bytes := text "msg" ++ udec (Z.of_nat i).

(* message.go:114-134, called from 78-83 *)
Fixpoint add_msgs (i : nat) (msgs : list json) (kvs : list (bytes * json))
  : res (list (bytes * json)) :=
  match msgs with
  | [] => Ok kvs
  | m :: r =>
      if has (msg_field i) kvs then Err
      else match m with
           | JObj _ => add_msgs (S i) r (kvs ++ [(msg_field i, m)])
           | _ => Err
           end
  end.

(* message.go:144-151 *)
Definition without_msgs (kvs : list (bytes * json)) : list (bytes * json) :=
  filter (fun kv => negb (beqb (fst kv) (text "msgs"))) kvs.

(* message.go:69-110: the messages become fields msg0, msg1, ... *)
Definition flatten (kvs : list (bytes * json)) : res (list (bytes * json) * nat) :=
  match get (text "msgs") kvs with
  | None => Err
  | Some JNull => Ok (without_msgs kvs, 0%nat)
  | Some (JArr msgs) =>
      rbind (add_msgs 0 msgs kvs) (fun kvs' => Ok (without_msgs kvs', List.length msgs))
  | Some _ => Err
  end.

(* ---- the types: eip712/types.go ---- *)

Fixpoint insert_desc {A} (x : bytes * A) (l : list (bytes * A)) : list (bytes * A) :=
  match l with
  | [] => [x]
  | y :: r => if bltb (fst x) (fst y) then y :: insert_desc x r else x :: l
  end.

(* types.go:224-244: keys in descending order *)
Definition sort_desc {A} (l : list (bytes * A)) : list (bytes * A) :=
  fold_right insert_desc [] l.

Fixpoint split_on (c : N) (b : bytes) : list bytes :=
  match b with
  | [] => [[]]
  | x :: r =>
      if N.eqb x c then [] :: split_on c r
      else match split_on c r with
           | [] => [[x]]
           | p :: ps => (x :: p) :: ps
           end
  end.

Definition root_prefix := text "_".

(* types.go:338-356. The path of dotted names is a list of names here; the names
   of a payload have no dots. *)
Definition sanitize (parts : list bytes) : bytes :=
  concat (map (fun p => if beqb p root_prefix then text "Type"
                        else concat (map title (split_on 95%N p))) parts).

Definition tref_eqb (a b : tref) : bool := beqb (fst a) (fst b) && Bool.eqb (snd a) (snd b).

(* types.go:320-332 *)
Fixpoint fields_eqb (a b : list field) : bool :=
  match a, b with
  | [], [] => true
  | x :: a', y :: b' => beqb (fst x) (fst y) && tref_eqb (snd x) (snd y) && fields_eqb a' b'
  | _, _ => false
  end.

(* types.go:278-314: the first index whose type is the same or not yet there *)
Fixpoint add_from (fuel : nat) (i : Z) (T : types) (def : bytes) (fs : list field)
  : res (types * bytes) :=
  match fuel with
  | O => Err
  | S fuel' =>
      let nm := def ++ udec i in
      match get nm T with
      | Some fs' => if fields_eqb fs fs' then Ok (T, nm) else add_from fuel' (i + 1) T def fs
      | None => Ok (T ++ [(nm, fs)], nm)
      end
  end.

Definition max_duplicates : nat := 1000.
Definition add_types := add_from max_duplicates 0.

(* What types.go:156-217 does with one field. *)
Inductive plan :=
| PSkip
| PFixed (t : tref)
| PStruct (arr : bool) (g : list bytes -> types -> res (types * bytes)).

(* types.go:156-217, the loop over the sorted fields; the name of a struct is
   sanitised once more before it is referred to (204). *)
Fixpoint run (ps : list (bytes * plan)) (prefix : list bytes) (T : types)
  : res (types * list field) :=
  match ps with
  | [] => Ok (T, [])
  | (k, PSkip) :: r => run r prefix T
  | (k, PFixed t) :: r => rbind (run r prefix T) (fun '(T', fs) => Ok (T', (k, t) :: fs))
  | (k, PStruct arr g) :: r =>
      rbind (g (prefix ++ [k]) T) (fun '(T1, nm) =>
      rbind (run r prefix T1) (fun '(T2, fs) => Ok (T2, (k, (sanitize [nm], arr)) :: fs)))
  end.

(* types.go:249-254 *)
Definition type_def (prefix : list bytes) (root : bytes) : bytes :=
  match prefix with
  | [p] => if beqb p root_prefix then root else sanitize prefix
  | _ => sanitize prefix
  end.

(* types.go:143-220 with getEthTypeForJSON (361-375); an array is described by its
   first item, an empty one as an array of strings; null and arrays of arrays are
   left out. *)
Fixpoint gen (root : bytes) (j : json) : list bytes -> types -> res (types * bytes) :=
  match j with
  | JObj kvs =>
      let plans := map (fun kv => (fst kv,
        match snd kv with
        | JNull => PSkip
        | JBool _ => PFixed (t_bool, false)
        | JNum _ => PFixed (t_int64, false)
        | JStr _ => PFixed (t_string, false)
        | JObj _ => PStruct false (gen root (snd kv))
        | JArr [] => PFixed (t_string, true)
        | JArr (x :: _) =>
            match x with
            | JNull => PSkip
            | JBool _ => PFixed (t_bool, true)
            | JNum _ => PFixed (t_int64, true)
            | JStr _ => PFixed (t_string, true)
            | JObj _ => PStruct true (gen root x)
            | JArr _ => PSkip
            end
        end)) kvs in
      fun prefix T =>
        rbind (run (sort_desc plans) prefix T) (fun '(T', fs) =>
        add_types T' (type_def prefix root) fs)
  | _ => fun _ _ => Err
  end.

(* types.go:115-128 *)
Definition msg_root_type (m : list (bytes * json)) : res bytes :=
  match get (text "type") m with
  | Some (JStr s) =>
      if beqb s [] then Err else Ok (text "Type" ++ last (split_on 47%N s) [])
  | _ => Err
  end.

(* types.go:132-137 *)
Definition add_tx_field (T : types) (f nm : bytes) : types :=
  map (fun e => if beqb (fst e) tx_name then (fst e, snd e ++ [(f, (nm, false))]) else e) T.

(* types.go:78-86 with addMsgTypesToRoot (91-111) *)
Fixpoint gen_msgs (n i : nat) (kvs : list (bytes * json)) (T : types) : res types :=
  match n with
  | O => Ok T
  | S n' =>
      match get (msg_field i) kvs with
      | Some (JObj m) =>
          rbind (msg_root_type m) (fun root =>
          rbind (gen root (JObj m) [root_prefix] T) (fun '(T', nm) =>
          gen_msgs n' (S i) kvs (add_tx_field T' (msg_field i) nm)))
      | _ => Err
      end
  end.

(* types.go:35-87 *)
Definition create_types (kvs : list (bytes * json)) (n : nat) : res types :=
  gen_msgs n 0 kvs base_types.

(* ---- the encoder: apitypes ---- *)

Definition is_upper (c : N) : bool := (65 <=? c)%N && (c <=? 90)%N.
Definition is_lower (c : N) : bool := (97 <=? c)%N && (c <=? 122)%N.
(* \w of typedDataReferenceTypeRegexp (typed_data.go:114) *)
Definition is_word (c : N) : bool :=
  is_upper c || is_lower c || is_digit c || N.eqb c 95%N.

(* typed_data.go:636-664. Of the primitive types (667-777) only those that the
   generated types can use are listed. *)
Definition valid_field (T : types) (nm : bytes) (f : field) : bool :=
  let '(fname, (b, arr)) := f in
  negb (beqb fname []) &&
  match b with
  | [] => false
  | c :: r =>
      negb (beqb nm b && negb arr) &&
      (if is_upper c then has b T && forallb is_word r
       else beqb b t_string || beqb b t_bool || beqb b t_int64 || beqb b (text "uint256"))
  end.

Definition valid_types (T : types) : bool :=
  forallb (fun e => negb (beqb (fst e) []) && forallb (valid_field T (fst e)) (snd e)) T.

Definition mem (k : bytes) (l : list bytes) : bool := existsb (beqb k) l.

(* typed_data.go:150-178 *)
Fixpoint deps (fuel : nat) (T : types) (b : bytes) (found : list bytes) : list bytes :=
  match fuel with
  | O => found
  | S fuel' =>
      if mem b found then found
      else match get b T with
           | None => found
           | Some fs =>
               fold_left (fun found f =>
                 fold_left (fun found d => if mem d found then found else found ++ [d])
                   (deps fuel' T (fst (snd f)) found) found)
                 fs (found ++ [b])
           end
  end.

Fixpoint insert_asc (x : bytes) (l : list bytes) : list bytes :=
  match l with
  | [] => [x]
  | y :: r => if bltb y x then y :: insert_asc x r else x :: l
  end.

Definition type_text (t : tref) : bytes := fst t ++ (if snd t then text "[]" else []).

(* typed_data.go:195-206: the last byte is cut off before the closing bracket *)
Definition block (T : types) (nm : bytes) : bytes :=
  let fs := match get nm T with Some fs => fs | None => [] end in
  removelast (nm ++ text "("
              ++ concat (map (fun f => type_text (snd f) ++ text " " ++ fst f ++ text ",") fs))
  ++ text ")".

(* typed_data.go:184-209 *)
Definition encode_type (T : types) (nm : bytes) : bytes :=
  match deps (S (List.length T)) T nm [] with
  | [] => []
  | _ :: r => block T nm ++ concat (map (block T) (fold_right insert_asc [] r))
  end.

(* typed_data.go:212-214 *)
Definition type_hash (T : types) (nm : bytes) : bytes := keccak (encode_type T nm).

(* math.U256Bytes: two's complement *)
Definition u256 (z : Z) : bytes := be 32 (z mod 2 ^ 256).

(* typed_data.go:320-370 for int64: whole numbers that fit int64, and texts whose
   number has at most 64 bits *)
Definition parse_int64 (j : json) : res Z :=
  match j with
  | JNum z => if (- 2 ^ 63 <=? z) && (z <? 2 ^ 63) then Ok z else Err
  | JStr s => match read_int s with
              | Some z => if Z.abs z <? 2 ^ 64 then Ok z else Err
              | None => Err
              end
  | _ => Err
  end.

(* typed_data.go:373-433 for the types that occur *)
Definition enc_prim (b : bytes) (j : json) : res bytes :=
  if beqb b t_bool then match j with JBool x => Ok (u256 (if x then 1 else 0)) | _ => Err end
  else if beqb b t_string then match j with JStr s => Ok (keccak s) | _ => Err end
  else if beqb b t_int64 then rbind (parse_int64 j) (fun z => Ok (u256 z))
  else Err.

Fixpoint cat (l : list (res bytes)) : res bytes :=
  match l with
  | [] => Ok []
  | x :: r => rbind x (fun a => rbind (cat r) (fun b => Ok (a ++ b)))
  end.

(* typed_data.go:238-296, one value of a struct type (its data hashed) or a
   primitive one; [e] encodes the value as a struct. *)
Definition item (T : types) (e : bytes -> res bytes) (j : json) (b : bytes) : res bytes :=
  if has b T then rbind (e b) (fun d => Ok (keccak d)) else enc_prim b j.

(* typed_data.go:235-297 *)
Fixpoint enc_fields (fs : list field) (vs : list (bytes * (tref -> res bytes))) : res bytes :=
  match fs with
  | [] => Ok []
  | (k, t) :: r =>
      match get k vs with
      | None => Err
      | Some f => rbind (f t) (fun a => rbind (enc_fields r vs) (fun b => Ok (a ++ b)))
      end
  end.

(* typed_data.go:220-299 (the validation in 221 is done once, in [raw_data]) *)
Fixpoint enc (T : types) (j : json) (nm : bytes) : res bytes :=
  match j with
  | JObj kvs =>
      let vs := map (fun kv => (fst kv, fun t : tref =>
        match snd kv with
        | JArr l =>
            if snd t
            then rbind (cat (map (fun x => item T (enc T x) x (fst t)) l))
                       (fun d => Ok (keccak d))
            else item T (fun _ => Err) (snd kv) (fst t)
        | _ => if snd t then Err else item T (enc T (snd kv)) (snd kv) (fst t)
        end)) kvs in
      let fs := match get nm T with Some fs => fs | None => [] end in
      if (List.length fs <? List.length kvs)%nat then Err
      else rbind (enc_fields fs vs) (fun b => Ok (type_hash T nm ++ b))
  | _ => Err
  end.

(* eip712/domain.go:9-19 through HashStruct("EIP712Domain", ...): the chain number
   as int64; a negative one is refused as uint256 (typed_data.go:366-368) *)
Definition domain_separator (T : types) (cid : Z) : res bytes :=
  let z := if cid mod 2 ^ 64 <? 2 ^ 63 then cid mod 2 ^ 64 else cid mod 2 ^ 64 - 2 ^ 64 in
  if z <? 0 then Err
  else Ok (keccak (type_hash T (text "EIP712Domain")
                   ++ keccak (text "Cosmos Web3") ++ keccak (text "1.0.0")
                   ++ u256 z ++ keccak (text "cosmos") ++ keccak (text "0"))).

(* eip712/eip712.go:9-34 and typed_data.go:125-138 (as apitypes.TypedDataAndHash) *)
Definition raw_data (cid : Z) (kvs : list (bytes * json)) : res bytes :=
  rbind (flatten kvs) (fun '(message, n) =>
  rbind (create_types message n) (fun T =>
  if negb (valid_types T) then Err
  else
  rbind (domain_separator T cid) (fun ds =>
  rbind (enc T (JObj message) tx_name) (fun d =>
  Ok ([25; 1]%N ++ ds ++ keccak d))))).

(* ---- sign documents: eip712/encoding.go ---- *)

(* A sign document in protobuf form, as far as it is looked at; messages as their
   amino JSON. *)
Record sign_doc := mkDoc {
  d_chain : bytes;
  d_account : Z;
  d_signers : list Z;                (* sequence of each signer info *)
  d_amount : list (bytes * Z);       (* fee coins: denom, amount *)
  d_gas : Z;
  d_payer : bytes;
  d_granter : bytes;
  d_memo : bytes;
  d_timeout : Z;
  d_extensions : nat;                (* number of extension options of both kinds *)
  d_msgs : list json
}.

(* types.ParseChainID, as a number *)
Variable chain_number : bytes -> option Z.
(* GetMsgV1Signers of a message *)
Variable signers : json -> option (list bytes).

(* encoding.go:212-239 *)
Definition one_signer (msgs : list json) : bool :=
  match msgs with
  | [] => false
  | m :: r =>
      match signers m with
      | Some [a] => forallb (fun m' => match signers m' with
                                       | Some [b] => beqb a b | _ => false end) r
      | _ => false
      end
  end.

Definition coin_json (c : bytes * Z) : json :=
  JObj [(text "amount", JStr (dec (snd c))); (text "denom", JStr (fst c))].

(* legacytx.StdSignBytes of encoding.go:173-187: sorted keys, whole numbers as
   texts; the fee has the amount and the gas only, and the timeout is 0 and thus
   left out. *)
Definition payload (d : sign_doc) (seqno : Z) : list (bytes * json) :=
  [ (text "account_number", JStr (udec (d_account d)));
    (text "chain_id", JStr (d_chain d));
    (text "fee", JObj [(text "amount", JArr (map coin_json (d_amount d)));
                       (text "gas", JStr (udec (d_gas d)))]);
    (text "memo", JStr (d_memo d));
    (text "msgs", JArr (d_msgs d));
    (text "sequence", JStr (udec seqno)) ].

(* encoding.go:122-198 *)
Definition doc_bytes (d : sign_doc) : res bytes :=
  if negb (d_timeout d =? 0) || negb (d_extensions d =? 0)%nat then Err
  else match d_signers d with
       | [s] =>
           if negb (one_signer (d_msgs d)) then Err
           else match chain_number (d_chain d) with
                | None => Err
                | Some c => raw_data (c mod 2 ^ 64) (payload d s)
                end
       | _ => Err
       end.
End Typed.
