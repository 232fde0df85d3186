(* The RPC answer cache: rpc/cache/cache.go and the wrapper around it in
   rpc/namespaces/ethereum/eth/cached_api.go.
   Texts are lists of Unicode code points, with a separate mark for a byte that
   is not valid UTF-8. *)
From Coq Require Import String Ascii.
From Verif Require Import Lib.Base.
Open Scope Z_scope.

(* ------------------------------------------------------------------ *)
(* Request keys                                                        *)

(* A Go string, as json.Marshal ranges over it. *)
Inductive uchar :=
| Rune (n : N)
| BadByte (n : N).

Definition text := list uchar.

(* A call parameter. Every parameter of the cached methods is a uint64, or a
   value that marshals to a JSON string (string, hexutil.Uint64,
   common.Address). PBad is a value json.Marshal refuses; its text is what
   fmt prints for it with the verb v. *)
Inductive param :=
| PText (t : text)
| PNum (n : N)
| PBad (t : text).

Definition hex_digit (n : N) : N := if (n <? 10)%N then (48 + n)%N else (87 + n)%N.

(* encoding/json appendString with HTML escaping on (what json.Marshal uses):
   the escapes of one code point. Code points from 128 on are copied except
   U+2028 and U+2029; an invalid byte becomes the six characters �. *)
Definition esc (c : uchar) : list N :=
  match c with
  | BadByte _ => [92; 117; 102; 102; 102; 100]%N
  | Rune n =>
      if ((n =? 34) || (n =? 92))%N then [92; n]%N
      else if (n =? 10)%N then [92; 110]%N
      else if (n =? 13)%N then [92; 114]%N
      else if (n =? 9)%N then [92; 116]%N
      else if (n =? 8)%N then [92; 98]%N
      else if (n =? 12)%N then [92; 102]%N
      else if ((n <? 32) || (n =? 60) || (n =? 62) || (n =? 38))%N then
        [92; 117; 48; 48; hex_digit (n / 16); hex_digit (n mod 16)]%N
      else if ((n =? 8232) || (n =? 8233))%N then
        [92; 117; 50; 48; 50; hex_digit (n mod 16)]%N
      else [n]
  end.

Definition quoted (t : text) : list N := 34%N :: flat_map esc t ++ [34%N].

(* strconv: decimal digits *)
Fixpoint digits_aux (fuel : nat) (n : N) (acc : list N) : list N :=
  match fuel with
  | O => acc
  | S f => let acc' := (48 + n mod 10)%N :: acc in
           if (n <? 10)%N then acc' else digits_aux f (n / 10) acc'
  end.
Definition digits (n : N) : list N := digits_aux (S (N.to_nat (N.log2 n))) n [].

Definition enc_param (p : param) : option (list N) :=
  match p with
  | PText t => Some (quoted t)
  | PNum n => Some (digits n)
  | PBad _ => None
  end.

Fixpoint enc_params (l : list param) : option (list N) :=
  match l with
  | [] => Some []
  | [p] => enc_param p
  | p :: r => match enc_param p, enc_params r with
              | Some a, Some b => Some (a ++ 44%N :: b)
              | _, _ => None
              end
  end.

Fixpoint ascii_text (s : string) : text :=
  match s with
  | EmptyString => []
  | String a r => Rune (N_of_ascii a) :: ascii_text r
  end.

Definition codes (s : string) : list N := map N_of_ascii (list_ascii_of_string s).

(* cache.go:113-121: json.Marshal(map[string]interface{}{"method":…, "params":…});
   map keys are written in sorted order. *)
Definition json (m : string) (ps : list param) : option (list N) :=
  match enc_params ps with
  | None => None
  | Some b =>
      Some (codes "{""method"":" ++ quoted (ascii_text m) ++ codes ",""params"":[" ++ b ++ codes "]}")
  end.

(* fmt.Sprintf("%s-%v", method, params): the parameters between square brackets,
   separated by one space, texts unquoted. *)
Definition show (p : param) : list uchar :=
  match p with
  | PText t => t
  | PNum n => map Rune (digits n)
  | PBad t => t
  end.
Fixpoint show_all (l : list param) : list uchar :=
  match l with
  | [] => []
  | [p] => show p
  | p :: r => show p ++ Rune 32 :: show_all r
  end.

Section WithHash.
(* SHA-256 followed by the hexadecimal rendering *)
Variable sha : list N -> list N.

(* The two shapes of key: a 64-digit hexadecimal hash, or the fallback text.
   (They cannot coincide as strings: the fallback contains a dash.) *)
Inductive key :=
| KHash (h : list N)
| KText (t : list uchar).

(* cache.go:111-131 generateKey, GenerateKey *)
Definition gen_key (m : string) (ps : list param) : key :=
  match json m ps with
  | Some j => KHash (sha j)
  | None => KText (ascii_text m ++ [Rune 45; Rune 91] ++ show_all ps ++ [Rune 93])
  end.

Definition uchar_eqb (a b : uchar) : bool :=
  match a, b with
  | Rune x, Rune y => (x =? y)%N
  | BadByte x, BadByte y => (x =? y)%N
  | _, _ => false
  end.
Fixpoint list_eqb {A} (eqb : A -> A -> bool) (a b : list A) : bool :=
  match a, b with
  | [], [] => true
  | x :: a', y :: b' => eqb x y && list_eqb eqb a' b'
  | _, _ => false
  end.
Definition key_eqb (a b : key) : bool :=
  match a, b with
  | KHash x, KHash y => list_eqb N.eqb x y
  | KText x, KText y => list_eqb uchar_eqb x y
  | _, _ => false
  end.

(* ------------------------------------------------------------------ *)
(* The LRU store (hashicorp/golang-lru v2), most recently used first    *)

Record entry (V : Type) := mk_entry { e_data : V; e_expires : Z; e_created : Z }.
Arguments mk_entry {V}. Arguments e_data {V}. Arguments e_expires {V}. Arguments e_created {V}.

Section WithValues.
(* the values a method can answer with *)
Variable V : Type.
Notation slot := (key * entry V)%type (only parsing).

Fixpoint lru_find (l : list slot) (k : key) : option (entry V) :=
  match l with
  | [] => None
  | (k', e) :: r => if key_eqb k' k then Some e else lru_find r k
  end.
Fixpoint lru_remove (l : list slot) (k : key) : list slot :=
  match l with
  | [] => []
  | (k', e) :: r => if key_eqb k' k then lru_remove r k else (k', e) :: lru_remove r k
  end.
(* Cache.Get: the entry becomes the most recently used. *)
Definition lru_get (l : list slot) (k : key) : list slot * option (entry V) :=
  match lru_find l k with
  | Some e => ((k, e) :: lru_remove l k, Some e)
  | None => (l, None)
  end.
(* Cache.Add: replaces, or inserts and evicts the least recently used entry
   when the size exceeds the capacity. *)
Definition lru_add (cap : nat) (l : list slot) (k : key) (e : entry V) : list slot :=
  firstn cap ((k, e) :: lru_remove l k).

(* ------------------------------------------------------------------ *)
(* Calls                                                                *)

(* What calling a method yields: a value, an untyped nil, or an error. *)
Inductive answer := AVal (v : V) | ANil | AErr.

(* A method call that is between its lookup and its return. *)
Inductive stage :=
| Looking                       (* has to ask the node *)
| Got (a : answer).             (* has the node's answer, not yet stored *)
Record flight := mk_flight { f_no : Z; f_method : string; f_params : list param; f_stage : stage }.

(* Observable happenings, with the call's number and the time. *)
Inductive obs :=
| OCall (c : Z) (m : string) (ps : list param) (t : Z)
| OFetch (c : Z) (m : string) (ps : list param) (t : Z) (a : answer)
| OStore (c : Z) (m : string) (ps : list param) (t : Z) (v : V)
| OReturn (c : Z) (m : string) (ps : list param) (t : Z) (a : answer)
| OClear.

Record st := mk_st { s_now : Z; s_cache : list slot; s_next : Z; s_flights : list flight }.

(* cache.go:21-36 NewRPCCache *)
Definition init (now : Z) : st := mk_st now [] 0 [].

(* What can happen, in any order: time passes; a client calls a method (the
   lookup under the read lock); the node computes the answer of a waiting call;
   a call that has its answer stores it (under the write lock) and returns it;
   the cleaning routine runs; the cache is cleared. *)
Inductive event :=
| ETick (d : Z)
| ECall (m : string) (ps : list param)
| EFetch (c : Z)
| EFinish (c : Z)
| ECleanup
| EClear.

(* capacity of the LRU; time to live per cached method; the node's answers as
   a function of time *)
Variable cap : nat.
Variable ttl_of : string -> option Z.
Variable node : Z -> string -> list param -> answer.

Fixpoint find_flight (l : list flight) (c : Z) : option flight :=
  match l with [] => None | f :: r => if f_no f =? c then Some f else find_flight r c end.
Definition drop_flight (l : list flight) (c : Z) : list flight := filter (fun f => negb (f_no f =? c)) l.

(* cache.go:134-150 GetBlock. (Two lookups may overlap since both hold the read
   lock; their effects, removals of expired entries and moves to the front,
   amount to running one after the other.) *)
Definition get_block (now : Z) (l : list slot) (k : key) : list slot * option V :=
  match lru_get l k with
  | (l', None) => (l', None)
  | (l', Some e) => if e_expires e <? now then (lru_remove l' k, None) else (l', Some (e_data e))
  end.

(* cache.go:186-198 SetBlockWithTTL *)
Definition set_block (now : Z) (l : list slot) (k : key) (v : V) (ttl : Z) : list slot :=
  lru_add cap l k (mk_entry v (now + ttl) now).

(* cache.go:229-244 Cleanup: every key, oldest first, is looked up (which moves
   it to the front) and removed if expired. *)
Definition clean_one (now : Z) (l : list slot) (k : key) : list slot :=
  match lru_get l k with
  | (l', None) => l'
  | (l', Some e) => if e_expires e <? now then lru_remove l' k else l'
  end.
Definition cleanup (now : Z) (l : list slot) : list slot :=
  fold_left (clean_one now) (rev (map fst l)) l.

(* cache.go:95-108 InterceptCall, 152-177 GetWithCache and
   cached_api.go:54-91 interceptMethodCall: they do the same steps. *)
Definition step (s : st) (ev : event) : st * list obs :=
  match ev with
  | ETick d => (mk_st (s_now s + Z.max 0 d) (s_cache s) (s_next s) (s_flights s), [])
  | ECall m ps =>
      let c := s_next s in
      let called := OCall c m ps (s_now s) in
      match ttl_of m with
      | None => (mk_st (s_now s) (s_cache s) (c + 1) (mk_flight c m ps Looking :: s_flights s), [called])
      | Some _ =>
          match get_block (s_now s) (s_cache s) (gen_key m ps) with
          | (l', Some v) =>
              (mk_st (s_now s) l' (c + 1) (s_flights s), [called; OReturn c m ps (s_now s) (AVal v)])
          | (l', None) =>
              (mk_st (s_now s) l' (c + 1) (mk_flight c m ps Looking :: s_flights s), [called])
          end
      end
  | EFetch c =>
      match find_flight (s_flights s) c with
      | Some (mk_flight _ m ps Looking) =>
          let a := node (s_now s) m ps in
          (mk_st (s_now s) (s_cache s) (s_next s)
             (mk_flight c m ps (Got a) :: drop_flight (s_flights s) c), [OFetch c m ps (s_now s) a])
      | _ => (s, [])
      end
  | EFinish c =>
      match find_flight (s_flights s) c with
      | Some (mk_flight _ m ps (Got a)) =>
          let s' l := mk_st (s_now s) l (s_next s) (drop_flight (s_flights s) c) in
          match ttl_of m, a with
          | Some ttl, AVal v =>
              (s' (set_block (s_now s) (s_cache s) (gen_key m ps) v ttl),
               [OStore c m ps (s_now s) v; OReturn c m ps (s_now s) a])
          | _, _ => (s' (s_cache s), [OReturn c m ps (s_now s) a])
          end
      | _ => (s, [])
      end
  | ECleanup => (mk_st (s_now s) (cleanup (s_now s) (s_cache s)) (s_next s) (s_flights s), [])
  | EClear => (mk_st (s_now s) [] (s_next s) (s_flights s), [OClear])
  end.

(* The history is kept oldest first. *)
Fixpoint run_from (s : st) (log : list obs) (evs : list event) : st * list obs :=
  match evs with
  | [] => (s, log)
  | ev :: r => let '(s', o) := step s ev in run_from s' (log ++ o) r
  end.
Definition run (t0 : Z) (evs : list event) : st * list obs := run_from (init t0) [] evs.

End WithValues.
End WithHash.
Arguments AVal {V}. Arguments ANil {V}. Arguments AErr {V}.
Arguments mk_entry {V}. Arguments e_data {V}. Arguments e_expires {V}. Arguments e_created {V}.

(* cache.go:49-71 setDefaultCachedMethods, in seconds *)
Definition default_methods : list (string * Z) :=
  [("GetAllHyperionTransferTxs"%string, 15);
   ("GetHyperionAccountTransferTxsByPageAndSize"%string, 15);
   ("GetValidatorWithHisAssetsAndCommission"%string, 15);
   ("GetValidatorsByPageAndSizeWithHisAssetsAndCommissionAndDelegation"%string, 15);
   ("GetAllWhitelistedAssets"%string, 15);
   ("GetLastTransactionsInfo"%string, 15);
   ("GetAccountLastTransactionsInfo"%string, 60);
   ("GetTokensByChainIdAndPageAndSize"%string, 60);
   ("GetActiveValidatorCount"%string, 60);
   ("GetValidatorCount"%string, 60);
   ("GetTokenDetails"%string, 300);
   ("ChainId"%string, 300);
   ("BlockNumber"%string, 5);
   ("GetHyperionHistoricalFees"%string, 15);
   ("GetValidatorHyperionData"%string, 60);
   ("GetCoinbase"%string, 60);
   ("GetCoinInfo"%string, 15);
   ("GetProposalsByPageAndSize"%string, 15);
   ("GetProposalsByPageAndSizeWithFilter"%string, 15);
   ("GetValidatorAPYDetails"%string, 60);
   ("GetValidatorsAPYByPageAndSize"%string, 60)].

Fixpoint method_ttl (l : list (string * Z)) (m : string) : option Z :=
  match l with
  | [] => None
  | (n, t) :: r => if String.eqb n m then Some t else method_ttl r m
  end.

(* cache.go:74-92 IsMethodCached, GetMethodTTL; times in nanoseconds *)
Definition default_ttl_of (m : string) : option Z :=
  option_map (fun t => t * 1000000000) (method_ttl default_methods m).

(* cached_api.go:38 the capacity in use *)
Definition default_cap : nat := 1000.
