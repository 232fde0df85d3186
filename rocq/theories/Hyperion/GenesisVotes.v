(* Exporting the bridge to genesis and starting a chain from it: votes on external events.
   x/hyperion/keeper/genesis.go. *)
From Verif Require Import Lib.Base Lib.Bytes Lib.Kv Hyperion.Claims Hyperion.Attest.
From Coq Require Import ZArith.
Open Scope Z_scope.

Record vote_sub := mk_sub {
  g_atts : list att;
  g_last : Z;
  g_eth : Z * Z
}.

Section Votes.
Variable hash : bytes -> bytes.
Variable app : Type.
Variable val_of : bytes -> option bytes.    (* sdk.ValAddressFromBech32 *)
Notation st := (st app).

(* genesis.go:200-214, attestation.go:424-449: by increasing event nonce *)
Definition export_votes (s : st) : vote_sub := mk_sub (by_nonce (map snd (s_atts app s))) (s_last app s) (s_eth app s).

(* genesis.go:106-114 *)
Definition put_att (s : st) (a : att) : st := with_atts app s (kset (s_atts app s) (att_key hash (a_claim a)) a).

(* genesis.go:137-150: a stored vote is "<validator>:<tx hash>" *)
Definition put_event (a : att) (s : st) (vote : bytes) : st :=
  match val_of vote with
  | None => s
  | Some v =>
      let last := match kget (s_events app s) v with Some (n, _) => n | None => 0 end in
      if last <? claim_nonce (a_claim a)
      then with_events app s (kset (s_events app s) v (claim_nonce (a_claim a), claim_height (a_claim a))) else s
  end.
Definition put_events (s : st) (a : att) : st := fold_left (put_event a) (a_votes a) s.

(* genesis.go:105-151 for one bridge *)
Definition import_votes (s : st) (g : vote_sub) : st :=
  let s := fold_left put_att (g_atts g) s in
  let s := with_last app s (g_last g) (g_eth g) in
  fold_left put_events (g_atts g) s.

(* The rest of the application is carried over by the other modules; the history of
   executed claims is what outsiders saw. *)
Definition new_chain (s : st) : st :=
  {| s_atts := []; s_last := 0; s_eth := (0, 0); s_nonces := []; s_skipped := []; s_events := []; s_app := s_app app s; s_done := s_done app s |}.
Definition restart (s : st) : st := import_votes (new_chain s) (export_votes s).
End Votes.
