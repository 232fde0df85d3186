(* Filling the database from a state-sync snapshot: versiondb/client/restore.go. *)
From Verif Require Import Lib.Base Lib.Bytes Lib.Codec Versiondb.Model.
From Verif Require Memiavl.Model Memiavl.SnapshotModel.
Open Scope Z_scope.

(* the items of a snapshot stream; Broken: a read error *)
Inductive sitem :=
| SStore (name : bytes)
| SNode (n : Memiavl.SnapshotModel.enode)
| SOther
| SBroken.
(* 83-121 readSnapshotEntries: what is sent on the channel.  Every way to stop is the same for
   the receiver: the error is logged (68-74), and the one of a node without a store is nil
   (104 wraps a nil error). *)
Fixpoint read_entries (store : bytes) (items : list sitem) : list (bytes * bytes * bytes) :=
  match items with
  | [] => []
  | SStore name :: r => read_entries name r
  | SNode n :: r =>
      match store with
      | [] => []
      | _ => if 127 <? Memiavl.SnapshotModel.e_height n then [] else
             (store, Memiavl.SnapshotModel.e_key n, match Memiavl.SnapshotModel.e_value n with Some v => v | None => [] end) :: read_entries store r
      end
  | SOther :: _ => []
  | SBroken :: _ => []
  end.
(* 23-80 RestoreVersionDBCmd, after the snapshot was found *)
Definition restore (s : st) (height : Z) (items : list sitem) : st := import s height (read_entries [] items).

(* what the exporter writes: the stores one after the other, each as its nodes (the exporter
   of the trees is Memiavl.SnapshotModel) *)
Definition snapshot_items (stores : list (bytes * list Memiavl.SnapshotModel.enode)) : list sitem :=
  flat_map (fun s => SStore (fst s) :: map SNode (snd s)) stores.
