(* Coins made by users: x/tokenfactory (keeper/admins.go, bankactions.go,
   createdenom.go, creators.go, genesis.go, msg_server.go, params.go, grpc_query.go and
   types/denoms.go, keys.go, msgs.go, genesis.go, authorityMetadata.go).
   Simplifications:
   - an account is a number; the text form of an address (bech32) is read by [dec] and
     written by [enc], both parameters;
   - the bank is the balance of every account, the supply, the metadata of each
     denomination, and what vesting holds back; of the metadata the fields the module
     does not touch are one byte string;
   - the protobuf form of the authority metadata is its only field, the admin;
   - the parameters are kept beside the store (their key is the single byte 5);
   - a message runs after its ValidateBasic, as in a transaction. *)
From Verif Require Import Lib.Base Lib.Bytes Lib.Kv Lib.Coins.
Open Scope Z_scope.

(* bank Metadata: Base, Name, Symbol, Decimals, DenomUnits, and everything else
   (description, display, URI, logo, contract address, chains) *)
Record meta := mk_meta { m_base : bytes; m_name : bytes; m_symbol : bytes; m_decimals : Z;
                         m_units : list (bytes * Z); m_rest : bytes }.

Record st := mk_st {
  f_store : list (bytes * bytes);     (* the store of the module *)
  f_fee : coins;                      (* Params.DenomCreationFee *)
  f_meta : list (bytes * meta);       (* bank: denomination metadata *)
  f_bal : Z -> bytes -> Z;            (* bank: balances *)
  f_sup : bytes -> Z                  (* bank: supply *)
}.
Definition set_store (s : st) v := mk_st v (f_fee s) (f_meta s) (f_bal s) (f_sup s).
Definition set_fee (s : st) v := mk_st (f_store s) v (f_meta s) (f_bal s) (f_sup s).
Definition set_meta (s : st) v := mk_st (f_store s) (f_fee s) v (f_bal s) (f_sup s).
Definition set_bal (s : st) v := mk_st (f_store s) (f_fee s) (f_meta s) v (f_sup s).
Definition set_sup (s : st) v := mk_st (f_store s) (f_fee s) (f_meta s) (f_bal s) v.

(* strings.Split with a separator of one byte: always at least one part *)
Fixpoint split (c : N) (s : bytes) : list bytes :=
  match s with
  | [] => [[]]
  | x :: r =>
      if (x =? c)%N then [] :: split c r
      else match split c r with p :: ps => (x :: p) :: ps | [] => [[x]] end
  end.
(* strings.Join *)
Fixpoint join (c : N) (l : list bytes) : bytes :=
  match l with [] => [] | [p] => p | p :: r => p ++ c :: join c r end.

Definition slash : N := 47.
Definition bar : N := 124.
Definition factory : bytes := [102; 97; 99; 116; 111; 114; 121]%N.
Definition ahelios : bytes := [97; 104; 101; 108; 105; 111; 115]%N.

(* cosmos-sdk types/coin.go ValidateDenom: [a-zA-Z][a-zA-Z0-9/:._-]{2,127} *)
Definition is_letter (c : N) : bool := ((97 <=? c) && (c <=? 122) || (65 <=? c) && (c <=? 90))%N.
Definition is_digit (c : N) : bool := ((48 <=? c) && (c <=? 57))%N.
Definition denom_char (c : N) : bool :=
  is_letter c || is_digit c || (c =? 47)%N || (c =? 58)%N || (c =? 46)%N || (c =? 95)%N || (c =? 45)%N.
Definition valid_denom (d : bytes) : bool :=
  match d with
  | c :: r => is_letter c && forallb denom_char r && Nat.leb 2 (length r) && Nat.leb (length r) 127
  | [] => false
  end.
Definition short (p : bytes) : bool := Nat.ltb (length p) 1.

(* keys.go 29-45 *)
Definition denom_prefix (d : bytes) : bytes := join bar [[2%N]; d; []].
Definition creator_prefix (c : bytes) : bytes := join bar [[3%N]; c; []].
Definition creators_prefix : bytes := [3%N] ++ [bar].
Definition authority_key (d : bytes) : bytes := denom_prefix d ++ [1%N].

Record env := mk_env {
  e_locked : Z -> bytes -> Z;    (* held back by vesting *)
  e_blocked : Z -> bool;         (* accounts that may not receive *)
  e_mvalid : meta -> bool        (* bank Metadata.Validate *)
}.

Section Factory.
Variables (dec : bytes -> option Z) (enc : Z -> bytes).
(* the module account, the community pool, the governance account *)
Variables (M P : Z) (gov : bytes).

(* denoms.go 31-64 GetTokenDenom *)
Definition token_denom (creator sub : bytes) : option bytes :=
  if Nat.ltb 44 (length sub) then None
  else if Nat.ltb (length sub) 1 then None
  else if existsb short (split slash sub) then None
  else if Nat.ltb 75 (length creator) then None
  else if existsb (N.eqb slash) creator || Nat.ltb (length creator) 1 then None
  else match dec creator with
       | None => None
       | Some a => let d := join slash [factory; enc a; sub] in if valid_denom d then Some d else None
       end.

(* denoms.go 66-108 DeconstructDenom *)
Definition deconstruct (d : bytes) : option (bytes * bytes) :=
  if negb (valid_denom d) then None
  else match split slash d with
       | p0 :: p1 :: p2 :: ps =>
           if negb (beqb p0 factory) then None
           else match dec p1 with
                | None => None
                | Some a => if existsb short (p2 :: ps) then None
                            else Some (enc a, join slash (p2 :: ps))
                end
       | _ => None
       end.

(* admins.go 10-20 GetAuthorityMetadata: no entry reads as no admin *)
Definition get_admin (s : st) (d : bytes) : bytes :=
  match kget (f_store s) (authority_key d) with Some a => a | None => [] end.
(* authorityMetadata.go 7-15; genesis.go 45-50 *)
Definition admin_ok (a : bytes) : bool :=
  match a with [] => true | _ => match dec a with Some _ => true | None => false end end.
(* admins.go 22-38 setAuthorityMetadata *)
Definition set_admin (s : st) (d a : bytes) : res st :=
  if admin_ok a then Ok (set_store s (kset (f_store s) (authority_key d) a)) else Err.

(* creators.go 8-11 addDenomFromCreator *)
Definition add_denom (s : st) (creator d : bytes) : st :=
  set_store s (kset (f_store s) (creator_prefix creator ++ d) d).
(* creators.go 13-24 getDenomsFromCreator *)
Definition denoms_of (s : st) (creator : bytes) : list bytes := map fst (pscan (f_store s) (creator_prefix creator) [] None).

(* bank: add to (or take from) a balance *)
Definition badd (b : Z -> bytes -> Z) (a : Z) (d : bytes) (x : Z) : Z -> bytes -> Z :=
  fun a' d' => if (a' =? a) && beqb d' d then b a' d' + x else b a' d'.
Definition sadd (f : bytes -> Z) (d : bytes) (x : Z) : bytes -> Z := fun d' => if beqb d' d then f d' + x else f d'.
Fixpoint bmove (b : Z -> bytes -> Z) (from to : Z) (c : coins) : Z -> bytes -> Z :=
  match c with [] => b | (d, x) :: r => bmove (badd (badd b from d (- x)) to d x) from to r end.
(* bank SendCoins: what vesting holds back cannot be spent *)
Definition send (e : env) (s : st) (from to : Z) (c : coins) : res st :=
  if forallb (fun '(d, x) => x <=? f_bal s from d - e_locked e from d) c
  then Ok (set_bal s (bmove (f_bal s) from to c)) else Err.

(* createdenom.go 30-62 createDenomAfterValidation *)
Definition new_meta (d sub name symbol : bytes) (decimals : Z) : meta :=
  mk_meta d name symbol decimals ((d, 0) :: if decimals =? 0 then [] else [(sub, decimals)]) [].
Definition create_after (s : st) (creator d sub name symbol : bytes) (decimals : Z) : res st :=
  rbind (set_admin (set_meta s (kset (f_meta s) d (new_meta d sub name symbol decimals))) d creator)
        (fun s1 => Ok (add_denom s1 creator d)).
(* createdenom.go 64-82 validateCreateDenom *)
Definition validate_create (s : st) (creator sub : bytes) : option bytes :=
  if negb (f_sup s sub =? 0) then None
  else match token_denom creator sub with
       | None => None
       | Some d => match kget (f_meta s) d with Some _ => None | None => Some d end
       end.
(* createdenom.go 84-97 chargeForCreateDenom *)
Definition charge (e : env) (s : st) (creator : bytes) : res st :=
  match dec creator with
  | None => Err
  | Some a => match f_fee s with [] => Ok s | _ => send e s a P (f_fee s) end
  end.
(* createdenom.go 13-26; msgs.go 68-80, msg_server.go 40-57 *)
Definition create (e : env) (s : st) (creator sub name symbol : bytes) (decimals : Z) : res (bytes * st) :=
  match validate_create s creator sub with
  | None => Err
  | Some d => rbind (charge e s creator) (fun s1 =>
              rbind (create_after s1 creator d sub name symbol decimals) (fun s2 => Ok (d, s2)))
  end.

(* bankactions.go 12-36 mintTo; the bank keeper of the module only mints factory
   coins (denoms.go 110-123) *)
Definition mint_to (e : env) (s : st) (d : bytes) (x : Z) (to : bytes) : res st :=
  match deconstruct d with
  | None => Err
  | Some _ =>
      if x <=? 0 then Err
      else let s1 := set_sup (set_bal s (badd (f_bal s) M d x)) (sadd (f_sup s) d x) in
           match dec to with
           | None => Err
           | Some a => if e_blocked e a then Err else send e s1 M a [(d, x)]
           end
  end.
(* bankactions.go 38-58 burnFrom; taking more than the supply panics *)
Definition burn_from (e : env) (s : st) (d : bytes) (x : Z) (from : bytes) : res st :=
  if x <=? 0 then Err
  else match dec from with
       | None => Err
       | Some a =>
           rbind (send e s a M [(d, x)]) (fun s1 =>
             if f_bal s1 M d <? x then Err
             else if f_sup s1 d <? x then Panic
             else Ok (set_sup (set_bal s1 (badd (f_bal s1) M d (- x))) (sadd (f_sup s1) d (- x))))
       end.

Definition is_some {A} (o : option A) : bool := match o with Some _ => true | None => false end.
(* msgs.go 101-112 and msg_server.go 59-87 *)
Definition mint (e : env) (s : st) (sender d : bytes) (x : Z) : res st :=
  if negb (is_some (dec sender)) then Err
  else if negb (valid_denom d) || (x <=? 0) then Err
  else if negb (is_some (kget (f_meta s) d)) then Err
  else if negb (beqb sender (get_admin s d)) then Err
  else mint_to e s d x sender.
(* msgs.go 133-144 and msg_server.go 89-104 *)
Definition burn (e : env) (s : st) (sender d : bytes) (x : Z) : res st :=
  if negb (is_some (dec sender)) then Err
  else if negb (valid_denom d) || (x <=? 0) then Err
  else burn_from e s d x sender.
(* msgs.go 165-182 and msg_server.go 106-131; admins.go 40-49 *)
Definition change_admin (s : st) (sender d new : bytes) : res st :=
  if negb (is_some (dec sender)) || negb (is_some (dec new)) || negb (is_some (deconstruct d)) then Err
  else if negb (beqb sender (get_admin s d)) then Err
  else set_admin s d new.
(* msgs.go 203-230 and msg_server.go 133-169 *)
Definition set_metadata (e : env) (s : st) (sender : bytes) (m : meta) : res st :=
  if negb (is_some (dec sender)) || negb (e_mvalid e m) || beqb (m_base m) ahelios || negb (valid_denom (m_base m)) then Err
  else if Nat.ltb 2 (length (split slash (m_base m))) && negb (is_some (deconstruct (m_base m))) then Err
  else let a := get_admin s (m_base m) in
       if negb ((negb (beqb a []) && beqb sender a) || (beqb a [] && beqb sender gov)) then Err
       else match kget (f_meta s) (m_base m) with
            | Some old => if negb (m_decimals old =? 0) && negb (m_decimals old =? m_decimals m) then Err
                          else Ok (set_meta s (kset (f_meta s) (m_base m) m))
            | None => Ok (set_meta s (kset (f_meta s) (m_base m) m))
            end.
(* msg_server.go 26-38; params.go 40-72 *)
Definition update_params (s : st) (sender : bytes) (fee : coins) : res st :=
  if negb (beqb sender gov) then Err
  else if negb (cvalidb fee && forallb (fun '(d, _) => valid_denom d) fee) then Err
  else Ok (set_fee s fee).

(* types/genesis.pb.go GenesisDenom *)
Record gdenom := mk_gd { g_denom : bytes; g_admin : bytes; g_name : bytes; g_symbol : bytes; g_decimals : Z }.
(* genesis.go 36-62 ExportGenesis: the metadata of a denomination without metadata is empty *)
Definition export1 (s : st) (d : bytes) : gdenom :=
  match kget (f_meta s) d with
  | Some m => mk_gd d (get_admin s d) (m_name m) (m_symbol m) (m_decimals m)
  | None => mk_gd d (get_admin s d) [] [] 0
  end.
Definition export (s : st) : coins * list gdenom := (f_fee s, map (fun q => export1 s (snd q)) (pscan (f_store s) creators_prefix [] None)).
(* genesis.go 12-34 InitGenesis *)
Definition import1 (s : st) (g : gdenom) : res st :=
  match deconstruct (g_denom g) with
  | None => Panic
  | Some (creator, sub) =>
      match create_after s creator (g_denom g) sub (g_name g) (g_symbol g) (g_decimals g) with
      | Ok s1 => match set_admin s1 (g_denom g) (g_admin g) with Ok s2 => Ok s2 | _ => Panic end
      | _ => Panic
      end
  end.
Fixpoint import_all (s : st) (l : list gdenom) : res st :=
  match l with [] => Ok s | g :: r => rbind (import1 s g) (fun s1 => import_all s1 r) end.
Definition import (s : st) (g : coins * list gdenom) : res st := import_all (set_fee s (fst g)) (snd g).
(* types/genesis.go 23-53 Validate *)
Fixpoint valid_denoms (seen : list bytes) (l : list gdenom) : bool :=
  match l with
  | [] => true
  | g :: r => negb (existsb (beqb (g_denom g)) seen) && is_some (deconstruct (g_denom g)) && admin_ok (g_admin g)
              && valid_denoms (g_denom g :: seen) r
  end.
Definition valid_genesis (g : coins * list gdenom) : bool :=
  cvalidb (fst g) && forallb (fun '(d, _) => valid_denom d) (fst g) && valid_denoms [] (snd g).
(* what can happen to the coins: the messages of the module, transfers between
   accounts, other modules making coins and metadata of their own, and a restart of the
   chain from its exported genesis (the bank, initialised first, restores its own data) *)
Inductive op :=
| OCreate (sender sub name symbol : bytes) (decimals : Z)
| OMint (sender d : bytes) (x : Z)
| OBurn (sender d : bytes) (x : Z)
| OChangeAdmin (sender d new : bytes)
| OSetMetadata (sender : bytes) (m : meta)
| OParams (sender : bytes) (fee : coins)
| OSend (from to : Z) (d : bytes) (x : Z)
| OForeign (a : Z) (d : bytes) (x : Z)
| OForeignMeta (m : meta)
| ORestart.
Definition run (e : env) (s : st) (o : op) : res st :=
  match o with
  | OCreate c sub n y k => rbind (create e s c sub n y k) (fun r => Ok (snd r))
  | OMint c d x => mint e s c d x
  | OBurn c d x => burn e s c d x
  | OChangeAdmin c d n => change_admin s c d n
  | OSetMetadata c m => set_metadata e s c m
  | OParams c fee => update_params s c fee
  | OSend from to d x => if x <=? 0 then Err else send e s from to [(d, x)]
  | OForeign a d x => if is_some (deconstruct d) || (f_bal s a d + x <? 0) then Err
                      else Ok (set_sup (set_bal s (badd (f_bal s) a d x)) (sadd (f_sup s) d x))
  | OForeignMeta m => if is_some (deconstruct (m_base m)) then Err else Ok (set_meta s (kset (f_meta s) (m_base m) m))
  | ORestart => import (mk_st [] [] (f_meta s) (f_bal s) (f_sup s)) (export s)
  end.
(* a message that fails or panics changes nothing (the transaction is rolled back) *)
Definition step (e : env) (s : st) (o : op) : st := match run e s o with Ok s' => s' | _ => s end.
Fixpoint runs (s : st) (l : list (env * op)) : st :=
  match l with [] => s | (e, o) :: r => runs (step e s o) r end.

End Factory.
