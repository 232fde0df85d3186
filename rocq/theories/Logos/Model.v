(* Logos on chain and the pages that serve them: x/logos/keeper, server/cdn.go.
   A text is the list of its bytes. Hashes are numbers: the hexadecimal texts of SHA-256 all
   have the same length, so their order as keys is that of the numbers. *)
From Verif Require Import Lib.Base Lib.Zmap.
Open Scope Z_scope.

(* ---- encoding/base64 of the standard library: StdEncoding.DecodeString ---- *)
Definition sextet (c : Z) : option Z :=
  if (65 <=? c) && (c <=? 90) then Some (c - 65)
  else if (97 <=? c) && (c <=? 122) then Some (c - 71)
  else if (48 <=? c) && (c <=? 57) then Some (c + 4)
  else if c =? 43 then Some 62 else if c =? 47 then Some 63 else None.
Definition pad : Z := 61.
Definition newline (c : Z) : bool := (c =? 10) || (c =? 13).
Definition byte1 (x y : Z) : Z := x * 4 + y / 16.
Definition byte2 (y z : Z) : Z := y mod 16 * 16 + z / 4.
Definition byte3 (z w : Z) : Z := z mod 4 * 64 + w.
(* decodeQuantum, on a text without line ends; the spare bits before padding are not looked
   at, as the encoding is not a strict one *)
Fixpoint quanta (l : list Z) : option (list Z) :=
  match l with
  | [] => Some []
  | a :: b :: c :: d :: r =>
      match sextet a, sextet b with
      | Some x, Some y =>
          if c =? pad then
            if d =? pad then match r with [] => Some [byte1 x y] | _ => None end else None
          else match sextet c with
               | Some z =>
                   if d =? pad then match r with [] => Some [byte1 x y; byte2 y z] | _ => None end
                   else match sextet d, quanta r with
                        | Some w, Some s => Some (byte1 x y :: byte2 y z :: byte3 z w :: s)
                        | _, _ => None
                        end
               | None => None
               end
      | _, _ => None
      end
  | _ => None
  end.
Definition decode (t : list Z) : option (list Z) := quanta (filter (fun c => negb (newline c)) t).

(* Go: int(u) * 4 / 3 for a uint64 u, with wrapping and division towards zero *)
Definition to_int (u : Z) : Z := (u + 2 ^ 63) mod 2 ^ 64 - 2 ^ 63.
Definition text_limit (max : Z) : Z := Z.quot (to_int (to_int max * 4)) 3.

(* ---- x/logos/types: Logo, GenesisState, Params ---- *)
Record logo := mk_logo { g_hash : Z; g_data : list Z; g_at : option Z }.
Record state := mk_state { l_max : Z; l_logos : list (Z * logo) }.
Record genesis := mk_genesis { n_max : option Z; n_logos : list logo }.

Section Code.
(* SHA-256 of a text; image.Decode: the width and height if the bytes are a PNG image *)
Variable sha : list Z -> Z.
Variable png : list Z -> option (Z * Z).

(* keeper.go:46-51 SetLogo *)
Definition set_logo (s : state) (g : logo) : state := mk_state (l_max s) (zset (l_logos s) (g_hash g) g).
(* keeper.go:54-64 GetLogo *)
Definition get_logo (s : state) (k : Z) : option logo := zget (l_logos s) k.
(* keeper.go:66-94 ValidateBase64Logo *)
Definition validate (s : state) (t : list Z) : bool :=
  if text_limit (l_max s) <? Z.of_nat (length t) then false
  else match decode t with
       | None => false
       | Some b => match png b with Some (w, h) => (w =? 200) && (h =? 200) | None => false end
       end.
(* keeper.go:97-119 StoreLogo *)
Definition store_logo (s : state) (height : Z) (t : list Z) : res (state * Z) :=
  if validate s t then Ok (set_logo s (mk_logo (sha t) t (Some height)), sha t) else Err.
(* genesis.go:10-16 InitGenesis on an empty store *)
Definition init (n : genesis) : res state :=
  match n_max n with
  | None => Panic
  | Some m => Ok (fold_left set_logo (n_logos n) (mk_state m []))
  end.
(* genesis.go:20-35 ExportGenesis *)
Definition export (s : state) : genesis := mk_genesis (Some (l_max s)) (zvals (l_logos s)).
(* types/params.go:51-56, genesis.go:7-12 ValidateBasic *)
Definition basic (n : genesis) : res unit := match n_max n with None => Panic | Some m => if m <? 1024 * 1024 then Err else Ok tt end.

(* the messages and precompile calls *)
Inductive op :=
| Upload (height : Z) (creator_ok : bool) (t : list Z)  (* msg_server.go:26-47, precompiles/logos/methods.go:22-57 *)
| Create (height : Z) (t : list Z)                      (* erc20creator.go:122-129, precompiles/hyperion/methods.go:86-92 *)
| SetMax (authority : bool) (m : Z).                    (* msg_server.go:53-64: not validated *)
Definition step (s : state) (o : op) : res state :=
  match o with
  | Upload h ok t => if ok then match store_logo s h t with Ok (s', _) => Ok s' | _ => Err end else Err
  | Create h t => match t with [] => Ok s | _ => match store_logo s h t with Ok (s', _) => Ok s' | _ => Err end end
  | SetMax a m => if a then Ok (mk_state m (l_logos s)) else Err
  end.
(* a failed message changes nothing *)
Definition next (s : state) (o : op) : state := match step s o with Ok s' => s' | _ => s end.
Definition run (s : state) (os : list op) : state := fold_left next os s.

(* ---- server/cdn.go ---- *)
(* "data:image/png;base64," *)
Definition data_prefix : list Z := [100; 97; 116; 97; 58; 105; 109; 97; 103; 101; 47; 112; 110; 103; 59; 98; 97; 115; 101; 54; 52; 44].
(* strings.TrimPrefix *)
Fixpoint starts (p t : list Z) : bool :=
  match p, t with [], _ => true | a :: p', b :: t' => (a =? b) && starts p' t' | _, [] => false end.
Definition trim (t : list Z) : list Z := if starts data_prefix t then skipn (length data_prefix) t else t.
(* 58-65, 109-118, 139-147 *)
Definition send (t : list Z) : res (list Z) := match decode (trim t) with Some b => Ok b | None => Err end.
(* 122-148 /hash/{hash} *)
Definition serve_hash (s : state) (k : Z) : res (list Z) := match get_logo s k with Some g => send (g_data g) | None => Err end.
(* 203-243 getTokenLogo and 39-66 /token/{address}; gen is GenerateTokenLogoBase64. pair is
   the denomination of the token, meta its metadata: symbol and hash of the logo, if any *)
Variable gen : Z -> list Z.
Definition dots : Z := 0.
Definition serve_token (s : state) (pair : option Z) (meta : option (Z * option Z)) : res (list Z) :=
  let none := send (gen dots) in
  match pair with
  | None => none
  | Some denom =>
      match meta with
      | None => send (gen denom)
      | Some (symbol, None) => send (gen symbol)
      | Some (_, Some k) => match get_logo s k with Some g => match g_data g with [] => none | t => send t end | None => none end
      end
  end.
End Code.
