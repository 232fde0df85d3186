(* What the pool and its batches must look like, stated without the functions that
   maintain them. *)
From Verif Require Import Lib.Base Lib.Bytes Hyperion.Pool.
From Coq Require Import Sorting.Sorted.
Open Scope list_scope.
Open Scope Z_scope.

(* ---- where a transfer is (C32) -------------------------------------------- *)

(* How often transfer [i] of bridge [h] is listed as waiting for a batch. *)
Definition times_waiting (s : st) (h i : Z) : nat :=
  count_occ Z.eq_dec (flat_map snd (filter (fun e => fst (fst (fst e)) =? h) (p_index s))) i.

(* How often it occurs in batches. *)
Definition times_batched (s : st) (h i : Z) : nat :=
  List.length (filter (fun t => (t_h t =? h) && (t_id t =? i)) (flat_map b_txs (p_batches s))).

(* Whether it is pending at all. *)
Definition pending (s : st) (h i : Z) (t : tx) : Prop :=
  In t (p_pool s) /\ t_h t = h /\ t_id t = i.

Record well_placed (s : st) : Prop := {
  (* one entry per identifier *)
  wp_unique : forall h i t u, pending s h i t -> pending s h i u -> t = u;
  wp_nodup : NoDup (p_pool s);
  (* a pending transfer is waiting once or in one batch once, never both *)
  wp_once : forall h i t, pending s h i t -> (times_waiting s h i + times_batched s h i = 1)%nat;
  (* nothing else is waiting or batched *)
  wp_only : forall h i, (forall t, ~ pending s h i t) ->
              times_waiting s h i = 0%nat /\ times_batched s h i = 0%nat;
  (* it waits under its own token and fee *)
  wp_waiting : forall h tok fee ids i, In ((h, tok, fee), ids) (p_index s) -> In i ids ->
              exists t, pending s h i t /\ t_token t = tok /\ t_fee t = fee;
  (* a batch holds the transfers as queued, all of its own bridge and token *)
  wp_batched : forall b t, In b (p_batches s) -> In t (b_txs b) ->
              In t (p_pool s) /\ t_h t = b_h b /\ t_token t = b_token b
}.

(* Waiting and pending: what a new batch may take. *)
Definition available (s : st) (h : Z) (token : bytes) (t : tx) : Prop :=
  In t (p_pool s) /\ t_h t = h /\ t_token t = token /\ times_waiting s h (t_id t) = 1%nat.

Definition availableb (s : st) (h : Z) (token : bytes) (t : tx) : bool :=
  (t_h t =? h) && beqb (t_token t) token && (times_waiting s h (t_id t) =? 1)%nat.

Definition available_list (s : st) (h : Z) (token : bytes) : list tx :=
  filter (availableb s h token) (p_pool s).

(* ---- money (C31) ------------------------------------------------------------- *)

Definition sum_by {A} (f : A -> Z) (l : list A) : Z := fold_right (fun a r => f a + r) 0 l.

(* Fees owed for pending transfers. *)
Definition fees_pending (s : st) : Z := sum_by t_fee (p_pool s).

(* The tokens the chain knows: bridge and contract to denomination and origin. *)
Notation registry := (Z -> bytes -> option (bytes * bool)) (only parsing).

Definition denom_is (reg : registry) (d : bytes) (t : tx) : bool :=
  match reg (t_h t) (t_token t) with Some (d', _) => beqb d' d | None => false end.

(* Amount of [d] taken from senders and not yet given back or released. *)
Definition owed (reg : registry) (s : st) (d : bytes) : Z :=
  sum_by (fun t => if denom_is reg d t then t_amount t else 0) (p_pool s).

(* Amount of one contract's token in pending transfers. *)
Definition owed_token (s : st) (h : Z) (token : bytes) : Z :=
  sum_by (fun t => if (t_h t =? h) && beqb (t_token t) token then t_amount t else 0) (p_pool s).

(* A step's view of the tokens is the registry's. *)
Definition sees (reg : registry) (e : env) : Prop :=
  (forall h t, e_by_token e h t = reg h t) /\
  (forall h d t o, e_by_denom e h d = Some (t, o) -> reg h t = Some (d, o)).

(* Coins that leave to, or come from, the other chain in one step. *)
Definition released (reg : registry) (s : st) (h n : Z) (token d : bytes) : Z :=
  sum_by (fun b => if is_batch h n token b
                   then sum_by (fun t => if denom_is reg d t then t_amount t else 0) (b_txs b)
                   else 0) (p_batches s).

(* ---- histories ------------------------------------------------------------------ *)

(* The administrator messages that set the batch counter back. *)
Definition resets (c : step) : bool :=
  match c with UpdateContract _ | DeleteChain _ => true | _ => false end.

(* Nobody signs for the module account. *)
Definition user_step (c : step) : Prop :=
  match c with
  | Transfer a _ _ _ => a <> mod_acc
  | Send _ a _ _ _ _ _ => a <> mod_acc
  | CancelSend _ _ a => True
  | _ => True
  end.

Definition empty_pool (s : st) : Prop :=
  p_pool s = [] /\ p_index s = [] /\ p_batches s = [].

(* The other chain returns no more of a coin than was brought there: what the contract
   holds, less what is still on its way out.  Deposits are of known tokens. *)
Definition honest_step (reg : registry) (s : st) (c : step) : Prop :=
  match c with
  | Deposit h t x _ =>
      match reg h t with
      | None => False
      | Some (_, true) => x <= p_locked s h t - owed_token s h t
      | Some (_, false) => True
      end
  | _ => True
  end.

Fixpoint honest (reg : registry) (s : st) (l : list (env * step)) : Prop :=
  match l with
  | [] => True
  | (e, c) :: r => honest_step reg s c /\
      match exec e s c with Ok s' => honest reg s' r | _ => honest reg s r end
  end.

(* What one step brings in from (positive) or releases to (negative) the other chains. *)
Definition net_step (reg : registry) (e : env) (s : st) (c : step) (d : bytes) : Z :=
  match c with
  | Deposit h t x _ =>
      match exec e s c, reg h t with
      | Ok _, Some (d', _) => if beqb d d' then x else 0
      | _, _ => 0
      end
  | Withdraw h n t _ => - released reg s h n t d
  | _ => 0
  end.

Fixpoint net (reg : registry) (s : st) (l : list (env * step)) (d : bytes) : Z :=
  match l with
  | [] => 0
  | (e, c) :: r => net_step reg e s c d +
      match exec e s c with Ok s' => net reg s' r d | _ => net reg s r d end
  end.

(* Every token waiting to leave is known, and each coin of this chain that waits is
   covered by the balance kept for the contract. *)
Definition backed (reg : registry) (s : st) : Prop :=
  (forall t, In t (p_pool s) -> reg (t_h t) (t_token t) <> None) /\
  (forall h t d, reg h t = Some (d, true) -> owed_token s h t <= p_locked s h t).

(* The module account can pay every fee it holds. *)
Definition solvent (s : st) : Prop :=
  (forall a d, 0 <= p_bal s a d) /\ fees_pending s <= p_bal s mod_acc ahelios.

(* What account [a] is owed in [d] for a list of transfers. *)
Definition due (reg : registry) (a d : bytes) (l : list tx) : Z :=
  sum_by (fun t => if beqb a (t_sender t)
                   then (if denom_is reg d t then t_amount t else 0) + (if beqb d ahelios then t_fee t else 0)
                   else 0) l.

(* ---- reachable states ------------------------------------------------------------- *)

(* Nothing pending yet and no negative balance. *)
Definition start (s : st) : Prop := empty_pool s /\ forall a d, 0 <= p_bal s a d.

(* No step signed by the module account, none that sets the batch counter back. *)
Definition ordinary (l : list (env * step)) : Prop :=
  Forall (fun ec : env * step => user_step (snd ec) /\ resets (snd ec) = false) l.

Definition reached (s : st) : Prop := exists s0 l, start s0 /\ ordinary l /\ run s0 l = Ok s.

(* [x] of coin [d] on account [a], nothing anywhere else. *)
Definition on (a d : bytes) (x : Z) (a' d' : bytes) : Z := if beqb a' a && beqb d' d then x else 0.

Definition same_money (s s' : st) : Prop :=
  p_bal s' = p_bal s /\ p_supply s' = p_supply s /\ p_locked s' = p_locked s.
