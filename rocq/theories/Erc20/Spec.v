(* What a user of a coin's ERC-20 face is entitled to, in terms of the queries
   balanceOf, allowance and totalSupply. *)
From Verif Require Import Lib.Base Lib.Bytes Lib.Coins Lib.Zmap Erc20.Model.
Open Scope Z_scope.

(* the states the chain can be in: coin lists are valid, one entry per account *)
Definition grant_ok (g : grant) : Prop := match g_auth g with Send l _ => cvalid l | Generic => True end.
Definition wf (s : st) : Prop :=
  zsorted (s_bank s) /\ Forall (fun p => cvalid (snd p)) (s_bank s) /\ Forall (fun p => grant_ok (snd p)) (s_grants s).
(* vesting never holds back a negative amount; the ABI decoder delivers unsigned
   256-bit amounts *)
Definition env_ok (e : env) : Prop := forall a d, 0 <= e_locked e a d.
Definition uint256 (x : Z) : Prop := 0 <= x <= max_uint256.
Definition call_ok (c : call) : Prop :=
  match c with
  | CTransfer _ x | CTransferFrom _ _ x | CApprove _ x | CIncrease _ x | CDecrease _ x => uint256 x
  end.

(* the allowance of any token, of any owner, towards any spender *)
Definition allowances (e : env) (s : st) (d : bytes) (owner spender : Z) : Z := allowance (mk_token d 0) e s owner spender.

(* x units of d go from one account to another, nothing else changes *)
Definition moved (d : bytes) (from to x : Z) (s s' : st) : Prop :=
  forall d' a, balance_of s' d' a =
    balance_of s d' a + (if beqb d' d then (if a =? to then x else 0) - (if a =? from then x else 0) else 0).
(* no balance of any denomination changes *)
Definition same_balances (s s' : st) : Prop := forall d a, balance_of s' d a = balance_of s d a.
(* the allowance of one pair in one denomination becomes x, all others stay *)
Definition allowance_becomes (e : env) (d : bytes) (owner spender x : Z) (s s' : st) : Prop :=
  forall d' o p, allowances e s' d' o p = if beqb d' d && (o =? owner) && (p =? spender) then x else allowances e s d' o p.
(* all others stay, now and at any later time *)
Definition others_same (e : env) (d : bytes) (owner spender : Z) (s s' : st) : Prop :=
  forall e' d' o p, e_now e <= e_now e' -> beqb d' d && (o =? owner) && (p =? spender) = false ->
  allowances e' s' d' o p = allowances e' s d' o p.
Definition same_allowances (e : env) (s s' : st) : Prop := forall d o p, allowances e s' d o p = allowances e s d o p.

(* a bank transfer from a to b of x > 0 units goes through exactly if *)
Definition can_send (e : env) (s : st) (d : bytes) (from to x : Z) : Prop :=
  e_send_enabled e d = true /\ e_blocked e to = false /\ e_locked e from d + x <= balance_of s d from.
(* the receivers the owner's grant to the spender is limited to, if any *)
Definition receiver_allowed (s : st) (owner spender to : Z) : Prop :=
  match pget (s_grants s) (spender, owner) with
  | Some (mk_grant (Send _ allow) _) => allow = [] \/ In to allow
  | _ => True
  end.
(* a live grant of another kind between the two, or one at its last instant:
   both make a change of the allowance fail *)
Definition live_generic (e : env) (s : st) (owner spender : Z) : Prop :=
  exists t, get_authorization e s spender owner = Some (Generic, t).
Definition last_instant (e : env) (s : st) (owner spender : Z) : Prop :=
  exists a, get_authorization e s spender owner = Some (a, Some (e_now e)).

(* a run of calls, of several tokens and callers, each under its circumstances;
   failing calls change nothing *)
Record step := mk_step { p_env : env; p_tok : token; p_caller : Z; p_call : call }.
Definition exec (s : st) (p : step) : st :=
  match run (p_tok p) (p_env p) s (p_caller p) (p_call p) with Ok s' => s' | _ => s end.
Definition succeeds (s : st) (p : step) : bool := is_ok (run (p_tok p) (p_env p) s (p_caller p) (p_call p)).
Definition step_ok (p : step) : Prop := env_ok (p_env p) /\ call_ok (p_call p).

(* over a run: what the spender took from the owner with transferFrom, and what
   the owner granted the spender *)
Fixpoint taken (d : bytes) (owner spender : Z) (s : st) (ps : list step) : Z :=
  match ps with
  | [] => 0
  | p :: r =>
      (match p_call p with
       | CTransferFrom f _ x =>
           if succeeds s p && beqb (t_denom (p_tok p)) d && (f =? owner) && (p_caller p =? spender) then x else 0
       | _ => 0
       end) + taken d owner spender (exec s p) r
  end.
Fixpoint granted (d : bytes) (owner spender : Z) (s : st) (ps : list step) : Z :=
  match ps with
  | [] => 0
  | p :: r =>
      (match p_call p with
       | CApprove q x | CIncrease q x =>
           if succeeds s p && beqb (t_denom (p_tok p)) d && (p_caller p =? owner) && (q =? spender) then x else 0
       | _ => 0
       end) + granted d owner spender (exec s p) r
  end.
(* the limit in the grant, expired or not *)
Definition limit_of (s : st) (d : bytes) (owner spender : Z) : Z :=
  match pget (s_grants s) (spender, owner) with
  | Some (mk_grant (Send l _) _) => amt l d
  | _ => 0
  end.
