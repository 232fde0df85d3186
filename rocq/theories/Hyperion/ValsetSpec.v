(* What bridge validator sets are expected to do. *)
From Coq Require Import Sorting.Sorted.
From Verif Require Import Lib.Base Lib.Zmap Hyperion.Valset.
Open Scope Z_scope.

(* The bonded validators with a registered Ethereum address, with that address. *)
Definition registration (b : bridge) (v : sval) : option Z := zget (b_eth b) (sv_op v).
Fixpoint enrolled (b : bridge) (l : list sval) : list (sval * Z) :=
  match l with
  | [] => []
  | v :: r => match registration b v with Some e => (v, e) :: enrolled b r | None => enrolled b r end
  end.
Definition voting (l : list (sval * Z)) : Z := zsum (map (fun x => sv_power (fst x)) l).
(* share of 2^32-1 that corresponds to a voting power, rounded down *)
Definition share (p t x : Z) : Prop := x * t <= p * U32 < (x + 1) * t.

(* Powers of two sets, address by address. *)
Fixpoint power_of (l : list member) (e : Z) : Z :=
  match l with [] => 0 | x :: r => if m_eth x =? e then m_power x else power_of r e end.
Definition addresses (l : list member) : list Z := map m_eth l.
Definition changed (a b : list member) (es : list Z) : Z := zsum (map (fun e => Z.abs (power_of a e - power_of b e)) es).
(* all addresses that occur, once each *)
Definition involved (a b : list member) : list Z := nodup Z.eq_dec (addresses a ++ addresses b).

(* a comes before b on the bridge: more power, or the same and an earlier address *)
Definition ahead (rank : Z -> Z) (a b : member) : Prop :=
  m_power b < m_power a \/ (m_power a = m_power b /\ rank (m_eth a) <= rank (m_eth b)).

(* ---- histories ---- *)
Definition judged (h : Z) (evs : list event) : list Z :=
  flat_map (fun e => match e with EvJudged h' n _ _ => if h' =? h then [n] else [] | _ => [] end) evs.
Definition created (h : Z) (evs : list event) : list valset :=
  flat_map (fun e => match e with EvSet h' v _ => if h' =? h then [v] else [] | _ => [] end) evs.
Definition slashed (h n : Z) (evs : list event) : list Z :=
  flat_map (fun e => match e with EvSlash h' n' o => if (h' =? h) && (n' =? n) then [o] else [] | _ => [] end) evs.

(* the validators that owe a confirmation of set v, when it is judged *)
Definition owes (acc_of : Z -> Z) (b : bridge) (v : valset) (x : sval) : Prop :=
  sv_jailed x = false /\ (exists t, sv_start x = Some t /\ t < v_height v) /\
  exists w, zget (b_orch b) (acc_of (sv_op x)) = Some w /\
    (forall c e, In c (b_confs b) -> cf_nonce c = v_nonce v -> zget (b_eth b) w = Some e -> cf_eth c <> e).
Definition owes_leaving (acc_of : Z -> Z) (p : cparams) (b : bridge) (v : valset) (x : uval) : Prop :=
  uv_unbonding x = true /\ (exists t, uv_start x = Some t /\ t < v_height v) /\ v_height v < uv_height x + p_uwindow p /\
  (exists w, zget (b_orch b) (acc_of (uv_op x)) = Some w) /\
  (forall c e, In c (b_confs b) -> cf_nonce c = v_nonce v -> zget (b_eth b) (uv_op x) = Some e -> cf_eth c <> e).

(* every block uses these chains *)
Definition blocks_use (ps : list cparams) (o : op) : Prop :=
  match o with OBlock _ _ ps' => ps' = ps | _ => True end.
(* chains without an offset, with the same window, never reset *)
Definition plain (w : Z) (p : cparams) : Prop := p_offset p = 0 /\ p_window p = w /\ p_reset p = false.
(* the offset of chain h is always o *)
Definition offset_is (h o : Z) (x : op) : Prop :=
  match x with OBlock _ _ ps => forall p, In p ps -> p_h p = h -> p_offset p = o | _ => True end.
(* chain h appears at most once in a block's parameters *)
Definition one_entry (x : op) : Prop :=
  match x with OBlock _ _ ps => NoDup (map p_h ps) | _ => True end.
