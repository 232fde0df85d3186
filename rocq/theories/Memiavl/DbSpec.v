(* What the database properties talk about: the timeline of committed states,
   which schedules of calls and crashes are considered, what a call sequence
   means for each store. *)
From Verif Require Import Lib.Base Lib.Bytes Memiavl.Model Memiavl.HashModel Memiavl.DbModel.
Open Scope Z_scope.

(* an upgrade that adds a store *)
Definition addition (u : upgrade) : Prop := up_delete u = false /\ up_rename_from u = [].

Section S.
Variable sha : bytes -> bytes.

(* A new database has version 0 and no stores; an imported one has its first log
   entry right after the imported version.  Store names are distinct, every
   store is at the version of the whole, the commit info is up to date. *)
Definition base_ok (base : mtree) : Prop :=
  (mt_version base = 0 /\ mt_trees base = [] /\ 0 <= mt_init base \/
   1 <= mt_version base /\ mt_init base = mt_version base + 1) /\
  NoDup (map fst (mt_trees base)) /\
  Forall (fun p => t_version (snd p) = mt_version base) (mt_trees base) /\
  mt_infos base = build_infos sha (mt_trees base).

(* Calls made the way the state machine makes them: upgrades come before the
   change sets of their block, in one call or as additions; the first multi-store
   call of a block names each store once; a snapshot is started with nothing
   pending.  In a [strict] schedule no log entry is lost in a crash; only there
   are rollbacks considered. *)
Definition regular (strict : bool) (d : db) (s : step) : Prop :=
  match s with
  | DUpgrades us => we_changes (d_pending d) = [] /\ (we_upgrades (d_pending d) = [] \/ Forall addition us)
  | DChangeSets cs => we_changes (d_pending d) = [] -> NoDup (map nc_name cs)
  | DRewrite => d_pending d = empty_entry
  | DReopen lost => strict = true -> lost = O /\ d_queue d = []
  | DRollback target => strict = true /\ 1 <= target /\ d_queue d = []
  | _ => True
  end.

(* the states the database had right after each commit; after reopening only
   versions up to the one found remain on the timeline *)
Definition advance_timeline (tl : list mtree) (s : step) (d' : db) : list mtree :=
  match s with
  | DCommit _ => tl ++ [d_mt d']
  | DReopen _ | DRollback _ => filter (fun m => mt_version m <=? mt_version (d_mt d')) tl
  | _ => tl
  end.

Inductive runs (strict : bool) (base : mtree) (async : bool) (keep : Z) : db -> list mtree -> Prop :=
| runs_start : runs strict base async keep (fresh_db base async keep) [base]
| runs_step d tl s d' : runs strict base async keep d tl -> regular strict d s -> dstep sha d s = Ok d' ->
    runs strict base async keep d' (advance_timeline tl s d').
End S.

(* the calls made between two commits *)
Inductive call := CUpgrades (us : list upgrade) | CChangeSets (cs : list named_changes) | CChangeSet (name : bytes) (ps : list kvpair).
Definition call_step (c : call) : step :=
  match c with CUpgrades us => DUpgrades us | CChangeSets cs => DChangeSets cs | CChangeSet n ps => DChangeSet n ps end.

(* all the pairs a list of change sets contains for one store, in order *)
Definition pairs_for (name : bytes) (cs : list named_changes) : list kvpair :=
  flat_map (fun c => if beqb (nc_name c) name then nc_pairs c else []) cs.
