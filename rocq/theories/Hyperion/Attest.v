(* Votes on external events: the attestation store of one bridge, the claim
   messages, the tally and the pruning at the end of a block.
   x/hyperion/keeper/attestation.go, x/hyperion/abci.go. *)
From Verif Require Import Lib.Base Lib.Bytes Lib.Codec Lib.Kv Lib.Dec Hyperion.Keys Hyperion.Claims.
From Coq Require Import NArith ZArith.
Open Scope Z_scope.

(* Attestation, attestation.pb.go (RpcsUsed left out: never read here) *)
Record att := { a_observed : bool; a_height : Z; a_claim : claim; a_votes : list bytes }.

(* records keyed by an unsigned number: the nonce-observed and skipped-nonce
   stores of one bridge, whose keys are unambiguous by C38 *)
Section Zmap.
Context {V : Type}.
Fixpoint zget (m : list (Z * V)) (k : Z) : option V :=
  match m with [] => None | (j, v) :: r => if k =? j then Some v else zget r k end.
Definition zdel (m : list (Z * V)) (k : Z) : list (Z * V) := filter (fun p => negb (k =? fst p)) m.
Definition zset (m : list (Z * V)) (k : Z) (v : V) : list (Z * V) := (k, v) :: zdel m k.
End Zmap.

(* what the keeper reads from elsewhere while one message or block runs *)
Record env := {
  n_height : Z;                             (* ctx.BlockHeight *)
  n_bonded : list bytes;                    (* StakingKeeper.GetBondedValidatorsByPower, operator addresses *)
  n_power : bytes -> Z;                     (* StakingKeeper.GetLastValidatorPower; zero when unknown *)
  n_keyed : bytes -> bool;                  (* GetEthAddressByValidator finds a key for this bridge *)
  n_validator : bytes -> option bytes;      (* GetOrchestratorValidator for this bridge *)
  n_is_bonded : bytes -> bool;              (* StakingKeeper.Validator(..).IsBonded *)
  n_data_ok : claim -> bool;                (* parseClaimData and ValidateTokenMetaData accept the data of a deposit *)
  n_orch_data : bytes -> bool               (* GetOrchestratorHyperionData finds a record for a voter *)
}.

(* keeper.go:810-830 *)
Definition total_power (e : env) : Z :=
  fold_left (fun acc v => if n_keyed e v then acc + n_power e v else acc) (n_bonded e) 0.
(* attestation.go:182-184; math.Int.Quo truncates *)
Definition required_power (total pct : Z) : Z := Z.quot (total * pct) 100.

Definition colon : N := 58.
(* attestation.go:98: "<validator>:<tx hash>" *)
Definition vote_text (v tx : bytes) : bytes := v ++ colon :: tx.
(* types/attestation.go:5-13 *)
Definition contains_vote (votes : list bytes) (v : bytes) : bool := existsb (has_prefix (v ++ [colon])) votes.
(* strings.Split(vote, ":")[0] *)
Fixpoint voter (s : bytes) : bytes :=
  match s with [] => [] | c :: r => if (c =? colon)%N then [] else c :: voter r end.

Section Attest.
Variable hash : bytes -> bytes.            (* tmhash.Sum *)
Variable bech32_ok : bytes -> bool.        (* sdk.AccAddressFromBech32 *)
Variable app : Type.                       (* everything the attestation handler may change *)
Variable handle : env -> app -> claim -> option app.   (* AttestationHandler.Handle; None is an error *)

(* types.GetAttestationKeyWithHash: nonce then hash, under the prefix of the bridge *)
Definition att_key (c : claim) : bytes := b8 (claim_nonce c) ++ claim_hash hash c.

Record st := {
  s_atts : list (bytes * att);              (* OracleAttestationKey *)
  s_last : Z;                               (* LastObservedEventNonceKey *)
  s_eth : Z * Z;                            (* LastObservedEthereumBlockHeightKey: their height, our height *)
  s_nonces : list (Z * Z);                  (* NonceObservedKey: nonce, height *)
  s_skipped : list (Z * (Z * Z));           (* SkippedNonceKey: nonce, StartHeight, EndHeight *)
  s_events : list (bytes * (Z * Z));        (* LastEventByValidatorKey: nonce, height *)
  s_app : app;
  s_done : list claim                       (* EventAttestationObserved, newest first *)
}.

Definition with_atts s x := {| s_atts := x; s_last := s_last s; s_eth := s_eth s; s_nonces := s_nonces s; s_skipped := s_skipped s; s_events := s_events s; s_app := s_app s; s_done := s_done s |}.
Definition with_last s n h := {| s_atts := s_atts s; s_last := n; s_eth := h; s_nonces := s_nonces s; s_skipped := s_skipped s; s_events := s_events s; s_app := s_app s; s_done := s_done s |}.
Definition with_nonces s x := {| s_atts := s_atts s; s_last := s_last s; s_eth := s_eth s; s_nonces := x; s_skipped := s_skipped s; s_events := s_events s; s_app := s_app s; s_done := s_done s |}.
Definition with_skipped s x := {| s_atts := s_atts s; s_last := s_last s; s_eth := s_eth s; s_nonces := s_nonces s; s_skipped := x; s_events := s_events s; s_app := s_app s; s_done := s_done s |}.
Definition with_events s x := {| s_atts := s_atts s; s_last := s_last s; s_eth := s_eth s; s_nonces := s_nonces s; s_skipped := s_skipped s; s_events := x; s_app := s_app s; s_done := s_done s |}.
Definition with_app s x := {| s_atts := s_atts s; s_last := s_last s; s_eth := s_eth s; s_nonces := s_nonces s; s_skipped := s_skipped s; s_events := s_events s; s_app := x; s_done := s_done s |}.
Definition with_done s x := {| s_atts := s_atts s; s_last := s_last s; s_eth := s_eth s; s_nonces := s_nonces s; s_skipped := s_skipped s; s_events := s_events s; s_app := s_app s; s_done := x |}.

(* keeper.go:1407-1423 *)
Definition store_nonce_observed (e : env) (s : st) (n h : Z) : st :=
  if n_height e <? 244300 then s else with_nonces s (zset (s_nonces s) n h).
Definition nonce_already_observed (e : env) (s : st) (n : Z) : bool :=
  if n_height e <? 244300 then false else match zget (s_nonces s) n with Some _ => true | None => false end.

(* attestation.go:22-123, after the lookup of the validator *)
Definition attest (e : env) (s : st) (v : bytes) (c : claim) (tx : bytes) : res st :=
  let s :=
    match kget (s_events s) v with
    | Some (n, h) => if (n =? 0) && (h =? 0) then with_events s (kset (s_events s) v (s_last s, fst (s_eth s))) else s
    | None => with_events s (kset (s_events s) v (s_last s, fst (s_eth s)))
    end in
  let a :=
    match kget (s_atts s) (att_key c) with
    | Some a => a
    | None => {| a_observed := false; a_height := n_height e; a_claim := c; a_votes := [] |}
    end in
  if a_observed a then Err
  else if nonce_already_observed e s (claim_nonce c) then Err
  else if (34800 <? n_height e) && contains_vote (a_votes a) v then Err
  else
    let a' := {| a_observed := a_observed a; a_height := a_height a; a_claim := a_claim a; a_votes := a_votes a ++ [vote_text v tx] |} in
    let s := with_atts s (kset (s_atts s) (att_key c) a') in
    Ok (with_events s (kset (s_events s) v (claim_nonce c, claim_height c))).

(* DepositClaim, WithdrawClaim, ERC20DeployedClaim, ValsetUpdateClaim:
   msg_server_hyperion.go:425-490 and the three like it.  GetClaimer panics on a
   message ValidateBasic rejects; such a message never gets here. *)
Definition submit (e : env) (s : st) (c : claim) (tx : bytes) : res st :=
  if negb (claim_valid bech32_ok c) then Err
  else match n_validator e (claim_orch c) with
       | None => Err
       | Some v => if negb (n_is_bonded e v) then Err
                   else if negb (match c with CDeposit _ => n_data_ok e c | _ => true end) then Err
                   else attest e s v c tx
       end.

(* the numbers lo, lo+1, .., hi-1 *)
Definition range (lo hi : Z) : list Z := map (fun i => lo + Z.of_nat i) (seq 0 (Z.to_nat (hi - lo))).
(* attestation.go:236-240, uint64 arithmetic *)
Definition skip_range (last n : Z) : list Z :=
  if 1 <? (n - last) mod 2 ^ 64 then range ((last + 1) mod 2 ^ 64) n else [].

(* processAttestation, attestation.go:271-290: a failing handler leaves no trace *)
Definition process (e : env) (s : st) (c : claim) : st :=
  match handle e (s_app s) c with Some a => with_app s a | None => s end.

(* the body of the threshold branch, attestation.go:219-262 (rpc statistics and
   ProcessClaimData, which does nothing, left out) *)
Definition observe (e : env) (s : st) (a : att) : st :=
  let c := a_claim a in
  let n := claim_nonce c in
  let last := s_last s in
  let s := if last <? n then with_last s n (claim_height c, n_height e) else s in
  let s := with_skipped s (fold_left (fun m k => zset m k (last, claim_height c)) (skip_range last n) (s_skipped s)) in
  let s := store_nonce_observed e s n (claim_height c) in
  let s := with_atts s (kset (s_atts s) (att_key c) {| a_observed := true; a_height := a_height a; a_claim := a_claim a; a_votes := a_votes a |}) in
  let s := process e s c in
  let s := with_done s (c :: s_done s) in
  with_skipped s (zdel (s_skipped s) n).

(* the vote loop, attestation.go:204-262: true when some prefix reaches the threshold *)
Fixpoint reached (e : env) (required acc : Z) (votes : list bytes) : bool :=
  match votes with
  | [] => false
  | x :: r => let acc := acc + n_power e (voter x) in if required <=? acc then true else reached e required acc r
  end.
Definition try_attestation (e : env) (s : st) (a : att) : st :=
  if a_observed a then s
  else if reached e (required_power (total_power e) 66) 0 (a_votes a) then observe e s a else s.

(* GetAttestationMapping and the sorted keys, attestation.go:424-449 and abci.go:219-226:
   by increasing nonce, within a nonce in store order *)
Fixpoint insert_nonce (n : Z) (l : list Z) : list Z :=
  match l with [] => [n] | x :: r => if n <? x then n :: l else if n =? x then l else x :: insert_nonce n r end.
Definition nonces_of (l : list att) : list Z := fold_right (fun a => insert_nonce (claim_nonce (a_claim a))) [] l.
Definition by_nonce (l : list att) : list att :=
  flat_map (fun n => filter (fun a => claim_nonce (a_claim a) =? n) l) (nonces_of l).

(* abci.go:213-259 *)
Definition tally (e : env) (s : st) : st := fold_left (try_attestation e) (by_nonce (map snd (s_atts s))) s.

(* abci.go:90-200.  StoreFinalizedTx and the orchestrator statistics are not
   modelled, except that a missing record of a voter ends the whole pruning. *)
Fixpoint prune_loop (e : env) (last : Z) (l : list att) (s : st) : st :=
  match l with
  | [] => s
  | a :: r =>
      if (claim_nonce (a_claim a) <? last) && a_observed a then
        let s := with_atts s (kdel (s_atts s) (att_key (a_claim a))) in
        let s := store_nonce_observed e s (claim_nonce (a_claim a)) (a_height a) in
        match a_claim a with
        | CDeposit _ => if forallb (fun x => n_orch_data e (voter x)) (a_votes a) then prune_loop e last r s else s
        | _ => prune_loop e last r s
        end
      else prune_loop e last r s
  end.
Definition prune (e : env) (s : st) : st := prune_loop e (s_last s) (by_nonce (map snd (s_atts s))) s.

(* the one-off cleaning of a bridge, abci.go:43-57, as far as this state goes *)
Definition clean (s : st) : st := with_events (with_atts (with_nonces s []) []) [].

Inductive step :=
| Submit (e : env) (c : claim) (tx : bytes)
| EndBlock (e : env)
| Clean                                     (* this bridge is cleaned *)
| CleanOther.                               (* another bridge is cleaned: CleanAllNonceObserved, keeper.go:1538-1546, ignores the id *)

Definition do (s : st) (x : step) : st :=
  match x with
  | Submit e c tx => match submit e s c tx with Ok s' => s' | _ => s end
  | EndBlock e => prune e (tally e s)
  | Clean => clean s
  | CleanOther => with_nonces s []
  end.
Definition run (s : st) (l : list step) : st := fold_left do l s.

(* a bridge that has seen nothing beyond nonce n *)
Definition fresh (n : Z) (a : app) : st :=
  {| s_atts := []; s_last := n; s_eth := (0, 0); s_nonces := []; s_skipped := []; s_events := []; s_app := a; s_done := [] |}.
End Attest.
