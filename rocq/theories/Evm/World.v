(* The state the interpreter reads and writes (x/evm/core/vm/interface.go
   StateDB), as a value: a snapshot is a copy, a revert puts the copy back.
   Statedb/Model.v models the journal that the program keeps instead, and
   C18_journal_acts_as_copying proves that the two give the same answers. *)
From Verif Require Import Lib.Base Lib.Bytes.
Open Scope N_scope.

Definition upd {A} (f : N -> A) (k : N) (v : A) : N -> A := fun x => if x =? k then v else f x.

(* what can be read about an account *)
Record acct := Acct {
  x_nonce : N; x_bal : Z; x_hash : N; x_code : bytes; x_stor : N -> N; x_suicided : bool
}.

(* go-ethereum types.Log: the fields the interpreter fills in *)
Record log := Log { l_addr : N; l_topics : list N; l_data : bytes }.

Record world := World {
  w_acct : N -> option acct;
  w_refund : N;
  w_logs : list log;
  w_addr : N -> bool;         (* access list: addresses *)
  w_slot : N -> N -> bool     (* access list: storage slots *)
}.

Definition set_acct (w : world) (a : N) (x : acct) : world :=
  World (upd (w_acct w) a (Some x)) (w_refund w) (w_logs w) (w_addr w) (w_slot w).

Section World.
Variable keccak : bytes -> N.
(* storage as the transaction found it: statedb.go:227-233 GetCommittedState *)
Variable committed : N -> N -> N.

Definition empty_hash : N := keccak [].

(* statedb.go:160-169 *)
Definition exist (w : world) (a : N) : bool := match w_acct w a with Some _ => true | None => false end.
Definition empty (w : world) (a : N) : bool :=
  match w_acct w a with
  | Some x => (x_nonce x =? 0) && (x_bal x =? 0)%Z && (x_hash x =? empty_hash)
  | None => true
  end.
(* statedb.go:172-233 *)
Definition balance (w : world) (a : N) : Z := match w_acct w a with Some x => x_bal x | None => 0%Z end.
Definition nonce (w : world) (a : N) : N := match w_acct w a with Some x => x_nonce x | None => 0 end.
Definition code (w : world) (a : N) : bytes := match w_acct w a with Some x => x_code x | None => [] end.
Definition code_hash (w : world) (a : N) : N := match w_acct w a with Some x => x_hash x | None => 0 end.
Definition state (w : world) (a k : N) : N := match w_acct w a with Some x => x_stor x k | None => 0 end.
Definition committed_state (w : world) (a k : N) : N := match w_acct w a with Some _ => committed a k | None => 0 end.

(* statedb.go:284-315 createObject, CreateAccount: a new object has no storage
   of its own yet, so its slots read as what the chain holds *)
Definition blank (a : N) (bal : Z) : acct := Acct 0 bal empty_hash [] (committed a) false.
Definition here (w : world) (a : N) : acct := match w_acct w a with Some x => x | None => blank a 0 end.
Definition create_account (w : world) (a : N) : world := set_acct w a (blank a (balance w a)).

(* statedb.go:360-397, state_object.go:100-254; 18 decimals, so amounts are not scaled *)
Definition add_balance (w : world) (a : N) (v : Z) : world :=
  let x := here w a in set_acct w a (Acct (x_nonce x) (x_bal x + v) (x_hash x) (x_code x) (x_stor x) (x_suicided x)).
Definition set_nonce (w : world) (a n : N) : world :=
  let x := here w a in set_acct w a (Acct n (x_bal x) (x_hash x) (x_code x) (x_stor x) (x_suicided x)).
Definition set_code (w : world) (a : N) (c : bytes) : world :=
  let x := here w a in set_acct w a (Acct (x_nonce x) (x_bal x) (keccak c) c (x_stor x) (x_suicided x)).
Definition set_state (w : world) (a k v : N) : world :=
  let x := here w a in set_acct w a (Acct (x_nonce x) (x_bal x) (x_hash x) (x_code x) (upd (x_stor x) k v) (x_suicided x)).
(* statedb.go:404-418 *)
Definition suicide (w : world) (a : N) : world :=
  match w_acct w a with
  | None => w
  | Some x => set_acct w a (Acct (x_nonce x) 0 (x_hash x) (x_code x) (x_stor x) true)
  end.
(* statedb.go:127-156 *)
Definition add_log (w : world) (l : log) : world :=
  World (w_acct w) (w_refund w) (w_logs w ++ [l]) (w_addr w) (w_slot w).
Definition add_refund (w : world) (g : N) : world :=
  World (w_acct w) ((w_refund w + g) mod 2 ^ 64) (w_logs w) (w_addr w) (w_slot w).
Definition sub_refund (w : world) (g : N) : res world :=
  if w_refund w <? g then Panic
  else Ok (World (w_acct w) (w_refund w - g) (w_logs w) (w_addr w) (w_slot w)).
(* statedb.go:447-469 *)
Definition warm (w : world) (a : N) : world :=
  World (w_acct w) (w_refund w) (w_logs w) (upd (w_addr w) a true) (w_slot w).
Definition warm_slot (w : world) (a k : N) : world :=
  World (w_acct w) (w_refund w) (w_logs w) (upd (w_addr w) a true) (upd (w_slot w) a (upd (w_slot w a) k true)).

(* x/evm/core/core/utils.go:13-22 CanTransfer, Transfer *)
Definition can_transfer (w : world) (a : N) (v : N) : bool := (Z.of_N v <=? balance w a)%Z.
Definition transfer (w : world) (from to v : N) : world :=
  add_balance (add_balance w from (- Z.of_N v)) to (Z.of_N v).
End World.
