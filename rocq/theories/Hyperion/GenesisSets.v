(* Exporting the bridge to genesis and starting a chain from it: validator sets,
   confirmations and keys.  x/hyperion/keeper/genesis.go, keeper.go. *)
From Verif Require Import Lib.Base Lib.Zmap Hyperion.Valset.
Open Scope Z_scope.

Record set_sub := mk_sub {
  g_h : Z;
  g_sets : list valset;
  g_confs : list conf;
  g_batches : list batch;
  g_bconfs : list bconf;
  g_keys : list (Z * Z * Z);        (* validator, orchestrator, Ethereum address; no bridge id *)
  g_observed : Z                    (* LastObservedValset, by its nonce *)
}.

Section Code.
(* the place of an Ethereum address among the addresses ordered by their text *)
Variable rank : Z -> Z.

(* keeper.go:1106-1173 GetOrchestratorAddresses: the last orchestrator of a validator in
   key order wins; a validator without one panics *)
Definition orch_of (b : bridge) (v : Z) : option Z :=
  fold_left (fun acc x => if snd x =? v then Some (fst x) else acc) (b_orch b) None.
Fixpoint key_list (b : bridge) (l : list (Z * Z)) : res (list (Z * Z * Z)) :=
  match l with
  | [] => Ok []
  | (v, e) :: r =>
      match orch_of b v with
      | None => Panic
      | Some o => rbind (key_list b r) (fun ks => Ok ((v, o, e) :: ks))
      end
  end.
(* sort by the text of the address.  Those with one address come in the random order of a Go
   map; here they keep theirs. *)
Fixpoint insert_key (k : Z * Z * Z) (l : list (Z * Z * Z)) : list (Z * Z * Z) :=
  match l with
  | [] => [k]
  | j :: r => if rank (snd j) <? rank (snd k) then j :: insert_key k r else k :: l
  end.
Definition export_keys (b : bridge) : res (list (Z * Z * Z)) :=
  rbind (key_list b (b_eth b)) (fun ks => Ok (fold_right insert_key [] ks)).

Definition same_batch (x y : batch) : bool := (bt_token x =? bt_token y) && (bt_nonce x =? bt_nonce y).
Definition bconfs_of (b : bridge) (x : batch) : list bconf :=
  filter (fun c => (bc_token c =? bt_token x) && (bc_nonce c =? bt_nonce x)) (b_bconfs b).

(* genesis.go:169-245; GetValsets (keeper.go:283-297) sorts by descending nonce; [*nil] panics
   when no set was observed *)
Definition export_one (s : st) (h : Z) : res set_sub :=
  let b := s_br s h in
  let sets := rev (zvals (b_sets b)) in
  rbind (export_keys b) (fun ks =>
  match b_observed b with
  | None => Panic
  | Some n => Ok (mk_sub h sets (flat_map (fun v => confs_of b (v_nonce v)) sets)
                           (b_batches b) (flat_map (bconfs_of b) (b_batches b)) ks n)
  end).
Fixpoint export_all (s : st) (hs : list Z) : res (list set_sub) :=
  match hs with
  | [] => Ok []
  | h :: r => rbind (export_one s h) (fun g => rbind (export_all s r) (fun l => Ok (g :: l)))
  end.

(* SetValsetConfirm, keeper.go:422-437; SetBatchConfirm, 515-534; StoreBatchUnsafe *)
Definition put_conf (l : list conf) (c : conf) : list conf :=
  c :: filter (fun d => negb ((cf_nonce d =? cf_nonce c) && (cf_orch d =? cf_orch c))) l.
Definition put_bconf (l : list bconf) (c : bconf) : list bconf :=
  c :: filter (fun d => negb ((bc_token d =? bc_token c) && (bc_nonce d =? bc_nonce c) && (bc_orch d =? bc_orch c))) l.
Definition put_batch (l : list batch) (x : batch) : list batch :=
  x :: filter (fun y => negb (same_batch y x)) l.
(* SetOrchestratorValidator, SetEthAddressForValidator: keeper.go:598-642 *)
Definition put_key (b : bridge) (k : Z * Z * Z) : bridge :=
  let '(v, o, e) := k in
  with_keys b (zset (b_orch b) o v) (zset (b_eth b) v e) (zset (b_byeth b) e v).

(* genesis.go:71-165 InitGenesis for one sub-state.  The exported keys have HyperionId 0. *)
Definition import_one (s : st) (g : set_sub) : st :=
  let b := fold_left store_set (g_sets g) (s_br s (g_h g)) in
  let b := with_confs b (fold_left put_conf (g_confs g) (b_confs b)) in
  let b := with_batches b (fold_left put_batch (g_batches g) (b_batches b)) in
  let b := with_bconfs b (fold_left put_bconf (g_bconfs g) (b_bconfs b)) in
  let s := put s (g_h g) (with_observed b (g_observed g)) in
  put s 0 (fold_left put_key (g_keys g) (s_br s 0)).

(* The new chain continues at the same height; the last unbonding height, the last judged
   set and everything else not exported is back at its start. *)
Definition restart (s : st) (hs : list Z) : res st :=
  rbind (export_all s hs) (fun gs => Ok (fold_left import_one gs (init (s_height s)))).
End Code.
