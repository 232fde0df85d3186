(* What a contract asks for when it calls another one. *)
From Verif Require Import Lib.Base Lib.Bytes Evm.Words Evm.World Evm.Memory Evm.Table Evm.Interp Evm.DataSpec.
Open Scope N_scope.

Record request := Request {
  q_gas : N; q_addr : N; q_value : N;     (* gas to send, callee, amount *)
  q_in : N; q_insize : N;                 (* memory with the input *)
  q_out : N; q_outsize : N;               (* memory for the answer *)
  q_rest : list N                         (* the stack below *)
}.
Definition operands (k : callop) (st : list N) : option request :=
  match k, st with
  | KCall, g :: x :: v :: i :: il :: o :: ol :: st' | KCallCode, g :: x :: v :: i :: il :: o :: ol :: st' =>
      Some (Request g (x mod 2 ^ 160) v i il o ol st')
  | KDelegate, g :: x :: i :: il :: o :: ol :: st' | KStatic, g :: x :: i :: il :: o :: ol :: st' =>
      Some (Request g (x mod 2 ^ 160) 0 i il o ol st')
  | _, _ => None
  end.
Definition opcode (k : callop) : N := match k with KCall => 0xf1 | KCallCode => 0xf2 | KDelegate => 0xf4 | KStatic => 0xfa end.

(* the end of the memory used *)
Definition span (q : request) : N := N.max (reach (q_in q) (q_insize q)) (reach (q_out q) (q_outsize q)).
(* the price without memory and without what is sent: access, a payment, an account that begins to exist *)
Definition base_price (keccak : bytes -> N) (k : callop) (w : world) (q : request) : N :=
  (if w_addr w (q_addr q) then 100 else 2600) + (if q_value q =? 0 then 0 else 9000) +
  (match k with KCall => if negb (q_value q =? 0) && empty keccak w (q_addr q) then 25000 else 0 | _ => 0 end).
(* what is left after that price and the memory *)
Definition gas_left (m : mach) (price hi : N) : N := m_gas m + m_last m - price - mem_total (words_for m hi).
(* EIP-150: what was asked for, but at most all but one 64th *)
Definition gas_sent (left asked : N) : N := N.min asked (left - left / 64).
(* a payment comes with 2300 gas for the callee *)
Definition with_stipend (q : request) (g : N) : N := if q_value q =? 0 then g else g + 2300.

(* bytes of the answer that reach the caller's memory *)
Definition copied (q : request) (ret : bytes) (err : option verr) : N :=
  match err with
  | None => N.min (q_outsize q) (blen ret)
  | Some e => if reverted e then N.min (q_outsize q) (blen ret) else 0
  end.

(* money moves from one account to another, and nothing else happens *)
Definition pays (w w' : world) (from to v : N) : Prop :=
  (forall b, balance w' b = (balance w b - (if (b =? from)%N then Z.of_N v else 0) + (if (b =? to)%N then Z.of_N v else 0))%Z) /\
  (forall b, exist w' b = exist w b /\ nonce w' b = nonce w b /\ code w' b = code w b /\ code_hash w' b = code_hash w b) /\
  (forall b j, state w' b j = state w b j) /\
  w_logs w' = w_logs w /\ w_refund w' = w_refund w /\ w_addr w' = w_addr w /\ w_slot w' = w_slot w.

(* what the caller of a frame sees of its end *)
Definition seen_by_caller (before : world) (r : xres) : xres :=
  match r with
  | XOut (Out ret (Some e) g w) => XOut (Out ret (Some e) (if reverted e then g else 0) before)
  | _ => r
  end.

(* the frame a call to a contract runs in: whose storage, sender, amount, code, input, read only, depth *)
Definition callee (k : callop) (F : frame) (q : request) (input : bytes) (w : world) : frame :=
  let a := q_addr q in
  match k with
  | KCall => Frame a (f_self F) (q_value q) (code w a) input (f_ro F) (f_depth F + 1)
  | KCallCode => Frame (f_self F) (f_self F) (q_value q) (code w a) input (f_ro F) (f_depth F + 1)
  | KDelegate => Frame (f_self F) (f_caller F) (f_value F) (code w a) input (f_ro F) (f_depth F + 1)
  | KStatic => Frame a (f_self F) 0 (code w a) input true (f_depth F + 1)
  end.
(* the money that moves when the callee starts *)
Definition handed (k : callop) (F : frame) (q : request) (w w' : world) : Prop :=
  match k with
  | KCall => pays w w' (f_self F) (q_addr q) (q_value q)
  | KStatic => pays w w' (q_addr q) (q_addr q) 0
  | KCallCode | KDelegate => w' = w
  end.

(* only a nonce has changed, and an account has been used *)
Definition counted (w w' : world) (a n used : N) : Prop :=
  (forall b, nonce w' b = if b =? a then n else nonce w b) /\
  (forall b, exist w' b = exist w b /\ balance w' b = balance w b /\ code w' b = code w b /\ code_hash w' b = code_hash w b) /\
  (forall b j, state w' b j = state w b j) /\
  w_logs w' = w_logs w /\ w_refund w' = w_refund w /\ w_slot w' = w_slot w /\
  (forall b, w_addr w' b = w_addr w b || (b =? used)).
(* a new account for a contract, with nonce 1, no code yet and v from another account *)
Definition born (committed : N -> N -> N) (w w' : world) (from a v : N) : Prop :=
  (exist w' a = true /\ nonce w' a = 1 /\ code w' a = [] /\ forall j, state w' a j = committed a j) /\
  (forall b, balance w' b = (balance w b - (if (b =? from)%N then Z.of_N v else 0) + (if (b =? a)%N then Z.of_N v else 0))%Z) /\
  (forall b, b <> a -> exist w' b = exist w b /\ nonce w' b = nonce w b /\ code w' b = code w b /\ code_hash w' b = code_hash w b /\
             forall j, state w' b j = state w b j) /\
  w_logs w' = w_logs w /\ w_refund w' = w_refund w /\ w_addr w' = w_addr w /\ w_slot w' = w_slot w.
(* an account has its code *)
Definition deployed (keccak : bytes -> N) (w w' : world) (a : N) (c : bytes) : Prop :=
  (forall b, code w' b = if b =? a then c else code w b) /\
  (forall b, code_hash w' b = if b =? a then keccak c else code_hash w b) /\
  (forall b, exist w' b = exist w b /\ balance w' b = balance w b /\ nonce w' b = nonce w b) /\
  (forall b j, state w' b j = state w b j) /\
  w_logs w' = w_logs w /\ w_refund w' = w_refund w /\ w_addr w' = w_addr w /\ w_slot w' = w_slot w.
(* what a contract may consist of *)
Definition acceptable (ret : bytes) : Prop := blen ret <= 24576 /\ byte_at ret 0 <> 0xEF.
