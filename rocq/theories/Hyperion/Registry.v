(* The bridges there are and who runs them: x/hyperion/keeper/msg_server_testnet.go 19-44,
   145-268, msg_server_helios.go 285-333, keeper.go 1002-1011 and 1294-1304. *)
From Verif Require Import Lib.Base Lib.Bytes.
Open Scope Z_scope.

(* types.CounterpartyChainParams, five of its fields; accounts instead of their texts *)
Record bridge := mk_bridge { g_chain : Z; g_id : Z; g_init : Z; g_name : bytes; g_paused : bool }.
Inductive msg :=
| Add (s : Z) (b : bridge) (validator valid : bool)   (* the founder has power; ValidateBasic of the rest *)
| ChangeInit (s chain : Z) (new : option Z)           (* None: the text is empty *)
| Rename (s chain : Z) (name : bytes)
| Pause (s chain : Z) (on : bool)                     (* PauseChain and UnpauseChain *)
| Delete (s chain : Z).

Section Registry.
Variable authority : Z.
(* keeper.go:1294-1304 GetHyperionParamsFromChainId *)
Definition look (bs : list bridge) (chain : Z) : option bridge := find (fun b => g_chain b =? chain) bs.
Definition runs (s : Z) (b : bridge) : bool := (s =? authority) || (s =? g_init b).
(* keeper.go:1002-1011 SetCounterpartyChainParams: by the bridge's own number, first match *)
Fixpoint put (bs : list bridge) (id : Z) (b : bridge) : list bridge :=
  match bs with [] => [] | c :: r => if g_id c =? id then b :: r else c :: put r id b end.
(* msg_server_testnet.go:232-241 and 256-265: the loop goes on past bridges of others *)
Fixpoint pause (bs : list bridge) (s chain : Z) (on : bool) : list bridge :=
  match bs with
  | [] => []
  | c :: r => if (g_chain c =? chain) && runs s c then mk_bridge (g_chain c) (g_id c) (g_init c) (g_name c) on :: r else c :: pause r s chain on
  end.
(* msg_server_testnet.go:209-214 *)
Fixpoint drop (bs : list bridge) (chain : Z) : list bridge := match bs with [] => [] | c :: r => if g_chain c =? chain then r else c :: drop r chain end.

Definition step (bs : list bridge) (m : msg) : res (list bridge) :=
  match m with
  (* msg_server_helios.go:285-333 AddCounterpartyChainParams; tokens and counters are not modelled *)
  | Add s b validator valid =>
      if negb (s =? authority) then Err else if negb validator then Err else if negb valid then Err else
      if g_id b =? 0 then Err else if negb (g_id b =? g_chain b) then Err else
      if existsb (fun c => (g_id c =? g_id b) || (g_chain c =? g_chain b)) bs then Err else Ok (bs ++ [b])
  (* msg_server_testnet.go:19-43 ChangeInitializer: no test that the bridge was found *)
  | ChangeInit s chain new =>
      if chain =? 0 then Err else
      match new, look bs chain with
      | None, _ => Err
      | Some _, None => Panic
      | Some a, Some b => if runs s b then Ok (put bs chain (mk_bridge (g_chain b) (g_id b) a (g_name b) (g_paused b))) else Err
      end
  (* msg_server_testnet.go:145-169 UpdateChainName *)
  | Rename s chain name =>
      if chain =? 0 then Err else
      match look bs chain with
      | None => Err
      | Some b => if runs s b then Ok (put bs chain (mk_bridge (g_chain b) (g_id b) (g_init b) name (g_paused b))) else Err
      end
  (* msg_server_testnet.go:221-268 *)
  | Pause s chain on => if chain =? 0 then Err else Ok (pause bs s chain on)
  (* msg_server_testnet.go:171-219 DeleteChain; what becomes of transfers is in Pool.v *)
  | Delete s chain =>
      if chain =? 0 then Err else
      match look bs chain with None => Err | Some b => if runs s b then Ok (drop bs chain) else Err end
  end.
(* a failed message changes nothing *)
Definition next (bs : list bridge) (m : msg) : list bridge := match step bs m with Ok bs' => bs' | _ => bs end.
Definition run (bs : list bridge) (l : list msg) : list bridge := fold_left next l bs.
End Registry.
