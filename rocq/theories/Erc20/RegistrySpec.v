(* What the registry of token pairs is asked to do. *)
From Verif Require Import Lib.Base Lib.Bytes Lib.Kv Lib.Zmap Erc20.Registry.
Open Scope Z_scope.

(* the list that the query for all pairs gives *)
Definition listing (s : st) : list pair := map snd (r_pairs s).

(* the text of an address is its own address again *)
Definition text_ok (checksum : Z -> bytes) : Prop :=
  forall a, 0 <= a < two160 -> is_hex_address (checksum a) = true /\ hex_to_addr (checksum a) = a.

(* the pair an operation adds to a state, with every other lookup kept *)
Definition adds (s s' : st) (p : pair) : Prop :=
  In p (listing s') /\ coin_address s (p_denom p) = None /\ token_denom s (contract p) = None
  /\ (forall d, d <> p_denom p -> coin_address s' d = coin_address s d)
  /\ (forall q, In q (listing s') <-> q = p \/ In q (listing s)).

(* What is asked of an operation: a contract made anew has an address that is not
   registered, and (erc20creator) a denomination that is not registered; the bridge links
   denominations that do not look like an address. *)
Definition op_ok (s : st) (o : op) : Prop :=
  match o with
  | Create d _ a _ => coin_address s d = None /\ token_denom s a = None /\ 0 <= a < two160
  | Link d a _ => is_hex_address d = false /\ token_denom s a = None /\ 0 <= a < two160
  | Recv d _ => match ibc_addr d with Some a => lookup s d = None -> token_denom s a = None | None => True end
  | _ => True
  end.
Definition deletes (o : op) : bool := match o with ConvertGone _ => true | _ => false end.

Section Runs.
Variable checksum : Z -> bytes.
Fixpoint run (s : st) (l : list op) : st := match l with [] => s | o :: r => run (exec checksum s o) r end.
Fixpoint all_ok (s : st) (l : list op) : Prop := match l with [] => True | o :: r => op_ok s o /\ all_ok (exec checksum s o) r end.
End Runs.
