(* What the EVM expects of its state database, stated without a journal:
   taking a snapshot keeps a copy of the whole visible state, reverting puts
   the copy back. *)
From Verif Require Import Lib.Base Lib.Bytes Lib.Amap Statedb.Model.
Open Scope Z_scope.

(* everything the interface lets one read about an account *)
Record sacc := Sacc {
  x_nonce : N; x_bal : Z; x_hash : word; x_code : bytes; x_stor : word -> word; x_suicided : bool
}.

(* everything the interface lets one read *)
Record world := World {
  w_acct : addr -> option sacc;
  w_refund : N;
  w_logs : list (N * N);
  w_addr : addr -> bool;
  w_slot : addr -> word -> bool
}.

(* the current world, the copies kept by snapshots (oldest first, with their
   identifiers), the next identifier, the committed storage *)
Record spec := Spec {
  p_now : world;
  p_saved : list (N * world);
  p_next : N;
  p_committed : addr -> word -> word;
  p_logbase : N
}.

Definition set_acct (w : world) (a : addr) (x : sacc) : world :=
  World (upd (w_acct w) a (Some x)) (w_refund w) (w_logs w) (w_addr w) (w_slot w).
Definition set_now (p : spec) (w : world) : spec := Spec w (p_saved p) (p_next p) (p_committed p) (p_logbase p).

(* the copy kept under id, and the copies older than it *)
Fixpoint find_saved {A} (l : list (N * A)) (id : N) : option (list (N * A) * A) :=
  match l with
  | [] => None
  | (i, w) :: l' => if N.eqb i id then Some ([], w)
                    else match find_saved l' id with Some (before, c) => Some ((i, w) :: before, c) | None => None end
  end.

Section Keccak.
Variable keccak : bytes -> word.

(* an account nothing was written to; its storage is what the chain holds *)
Definition fresh (p : spec) (a : addr) (bal : Z) : sacc :=
  Sacc 0 bal (keccak []) [] (p_committed p a) false.

Definition here (p : spec) (a : addr) : sacc :=
  match w_acct (p_now p) a with Some x => x | None => fresh p a 0 end.

Definition touch (p : spec) (a : addr) (f : sacc -> sacc) : spec := set_now p (set_acct (p_now p) a (f (here p a))).

Definition sstep (p : spec) (x : op) : res (out * spec) :=
  let w := p_now p in
  match x with
  | Exist a => Ok (OBool (match w_acct w a with Some _ => true | None => false end), p)
  | Empty a => Ok (OBool (match w_acct w a with
                          | Some x => N.eqb (x_nonce x) 0 && (x_bal x =? 0) && N.eqb (x_hash x) (keccak [])
                          | None => true end), p)
  | GetBalance a => Ok (OInt (match w_acct w a with Some x => x_bal x | None => 0 end), p)
  | GetNonce a => Ok (ONat (match w_acct w a with Some x => x_nonce x | None => 0%N end), p)
  | GetCode a => Ok (OBytes (match w_acct w a with Some x => x_code x | None => [] end), p)
  | GetCodeSize a => Ok (ONat (match w_acct w a with Some x => N.of_nat (length (x_code x)) | None => 0%N end), p)
  | GetCodeHash a => Ok (ONat (match w_acct w a with Some x => x_hash x | None => 0%N end), p)
  | GetState a k => Ok (ONat (match w_acct w a with Some x => x_stor x k | None => 0%N end), p)
  | GetCommittedState a k => Ok (ONat (match w_acct w a with Some _ => p_committed p a k | None => 0%N end), p)
  | GetRefund => Ok (ONat (w_refund w), p)
  | HasSuicided a => Ok (OBool (match w_acct w a with Some x => x_suicided x | None => false end), p)
  | Logs => Ok (OLogs (w_logs w), p)
  | AddBalance a v => Ok (OUnit, touch p a (fun x => Sacc (x_nonce x) (x_bal x + v) (x_hash x) (x_code x) (x_stor x) (x_suicided x)))
  | SubBalance a v => Ok (OUnit, touch p a (fun x => Sacc (x_nonce x) (x_bal x - v) (x_hash x) (x_code x) (x_stor x) (x_suicided x)))
  | SetNonce a n => Ok (OUnit, touch p a (fun x => Sacc n (x_bal x) (x_hash x) (x_code x) (x_stor x) (x_suicided x)))
  | SetCode a c => Ok (OUnit, touch p a (fun x => Sacc (x_nonce x) (x_bal x) (keccak (bytes_of c)) (bytes_of c) (x_stor x) (x_suicided x)))
  | SetState a k v => Ok (OUnit, touch p a (fun x => Sacc (x_nonce x) (x_bal x) (x_hash x) (x_code x) (upd (x_stor x) k v) (x_suicided x)))
  | Suicide a => match w_acct w a with
                 | None => Ok (OBool false, p)
                 | Some _ => Ok (OBool true, touch p a (fun x => Sacc (x_nonce x) 0 (x_hash x) (x_code x) (x_stor x) true))
                 end
  | CreateAccount a => Ok (OUnit, touch p a (fun x => fresh p a (x_bal x)))
  | AddLog d => Ok (OUnit, set_now p (World (w_acct w) (w_refund w)
                     (w_logs w ++ [(d, (p_logbase p + N.of_nat (length (w_logs w)))%N)]) (w_addr w) (w_slot w)))
  | AddRefund g => Ok (OUnit, set_now p (World (w_acct w) ((w_refund w + g) mod 2 ^ 64)%N (w_logs w) (w_addr w) (w_slot w)))
  | SubRefund g => if (w_refund w <? g)%N then Panic
                   else Ok (OUnit, set_now p (World (w_acct w) (w_refund w - g)%N (w_logs w) (w_addr w) (w_slot w)))
  | AddAddressToAccessList a => Ok (OUnit, set_now p (World (w_acct w) (w_refund w) (w_logs w) (upd (w_addr w) a true) (w_slot w)))
  | AddSlotToAccessList a k => Ok (OUnit, set_now p (World (w_acct w) (w_refund w) (w_logs w) (upd (w_addr w) a true)
                                 (upd (w_slot w) a (upd (w_slot w a) k true))))
  | AddressInAccessList a => Ok (OBool (w_addr w a), p)
  | SlotInAccessList a k => Ok (OBool2 (w_addr w a) (w_slot w a k), p)
  | Snapshot => Ok (ONat (p_next p), Spec w (p_saved p ++ [(p_next p, w)]) (p_next p + 1)%N (p_committed p) (p_logbase p))
  | RevertToSnapshot id => match find_saved (p_saved p) id with
                           | None => Panic
                           | Some (before, copy) => Ok (OUnit, Spec copy before (p_next p) (p_committed p) (p_logbase p))
                           end
  | Precompile _ => Panic
  end.

Fixpoint srun (p : spec) (l : list op) : res (list out * spec) :=
  match l with
  | [] => Ok ([], p)
  | x :: l' => rbind (sstep p x) (fun '(o, p1) => rbind (srun p1 l') (fun '(os, p2) => Ok (o :: os, p2)))
  end.

(* the world a transaction starts from *)
Definition world0 (st : store) : world :=
  World (fun a => match st_acct st a with
                  | None => None
                  | Some seq => Some (Sacc seq (st_bal st a) (k_code_hash keccak st a)
                                        (if N.eqb (k_code_hash keccak st a) (keccak []) then [] else bytes_of (st_code st (k_code_hash keccak st a)))
                                        (k_state st a) false)
                  end) 0 [] (fun _ => false) (fun _ _ => false).
Definition spec0 (st : store) (logbase : N) : spec := Spec (world0 st) [] 0 (k_state st) logbase.

(* ------------------------------------------------------------------ *)
(* what can be read off a state database without changing it            *)
(* ------------------------------------------------------------------ *)

(* code and slots of an object as Code() and GetState() return them *)
Definition code_of (st : store) (o : obj) : bytes := bytes_of (fst (obj_code keccak st o)).
Definition slot_of (st : store) (a : addr) (o : obj) (k : word) : word := fst (obj_state st a o k).

Definition see_obj (st : store) (a : addr) (o : obj) : sacc :=
  Sacc (a_nonce (o_acct o)) (a_bal (o_acct o)) (a_hash (o_acct o)) (code_of st o) (slot_of st a o) (o_suicided o).

Definition see (s : sdb) (a : addr) : option sacc :=
  match fst (get_obj keccak s a) with Some o => Some (see_obj (d_ctx s) a o) | None => None end.

Definition acc_eq (x y : sacc) : Prop :=
  x_nonce x = x_nonce y /\ x_bal x = x_bal y /\ x_hash x = x_hash y /\ x_code x = x_code y /\
  (forall k, x_stor x k = x_stor y k) /\ x_suicided x = x_suicided y.
Definition oacc_eq (x y : option sacc) : Prop :=
  match x, y with Some a, Some b => acc_eq a b | None, None => True | _, _ => False end.

(* the store the next precompile call starts from *)
Definition cache_of (s : sdb) : store := match d_cache s with Some c => c | None => d_ctx s end.

(* two databases nobody can tell apart by reading, by calling precompiles or
   by committing the set of touched accounts *)
Definition same_reads (s t : sdb) : Prop :=
  (forall a, oacc_eq (see s a) (see t a)) /\
  d_refund s = d_refund t /\ d_logs s = d_logs t /\ d_al s = d_al t /\
  d_dirties s = d_dirties t /\ d_ctx s = d_ctx t /\ cache_of s = cache_of t.

Definition no_precompile (x : op) : Prop := match x with Precompile _ => False | _ => True end.
(* precompiles that do not commit the transaction's state themselves *)
Definition no_inner_commit (x : op) : Prop := match x with Precompile p => pr_commit_first p = false | _ => True end.
Definition none_failed (os : list out) : Prop := ~ In (OPre PreFailed) os.
End Keccak.

(* the operations of a history that no later revert undoes, in order *)
Fixpoint survivors_from (cur : list op) (saved : list (N * list op)) (next : N) (ops : list op) : list op :=
  match ops with
  | [] => cur
  | x :: l =>
    match x with
    | Snapshot => survivors_from cur (saved ++ [(next, cur)]) (next + 1)%N l
    | RevertToSnapshot id => match find_saved saved id with
                             | Some (before, c) => survivors_from c before next l
                             | None => cur                       (* the run stops with a panic *)
                             end
    | _ => survivors_from (cur ++ [x]) saved next l
    end
  end.
Definition survivors (ops : list op) : list op := survivors_from [] [] 0 ops.

Definition adds_address (a : addr) (x : op) : bool :=
  match x with AddAddressToAccessList b | AddSlotToAccessList b _ => N.eqb a b | _ => false end.
Definition adds_slot (a : addr) (k : word) (x : op) : bool :=
  match x with AddSlotToAccessList b l => N.eqb a b && N.eqb k l | _ => false end.

(* operations that mark an account as touched whatever they write *)
Definition stamps (a : addr) (x : op) : bool :=
  match x with SetNonce b _ | SetCode b _ => N.eqb a b | _ => false end.
