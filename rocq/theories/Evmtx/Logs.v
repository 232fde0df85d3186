(* eth_getLogs: rpc/namespaces/ethereum/eth/filters/{filters,utils}.go over the results of
   the blocks a node has. *)
From Verif Require Import Lib.Base Evmtx.Model Evmtx.Spec.
Open Scope Z_scope.

Section Masks.
Variable mask_a mask_t : Z -> Z.

(* what a node can read: its head, the results of the blocks it keeps, and the logs of
   scheduled tasks per height (an error counts as none) *)
Record node := mk_node { n_head : Z; n_block : Z -> option block_result; n_cron : Z -> list log }.

(* utils.go:50-58 includes *)
Definition includes (l : list Z) (a : Z) : bool := existsb (Z.eqb a) l.
(* utils.go:33-44: position by position, an empty list is a wildcard *)
Fixpoint topics_match (subs : list (list Z)) (ts : list Z) : bool :=
  match subs, ts with
  | [], _ => true
  | sub :: subs', t :: ts' => (match sub with [] => true | _ => existsb (Z.eqb t) sub end) && topics_match subs' ts'
  | _ :: _, [] => false
  end.
(* utils.go:16-48 FilterLogs; the range is optional *)
Definition filter_logs (from to : option Z) (addrs : list Z) (subs : list (list Z)) (ls : list log) : list log :=
  filter (fun l =>
    negb (match from with Some f => (0 <=? f) && (l_block l <? f) | None => false end) &&
    negb (match to with Some t => (0 <=? t) && (t <? l_block l) | None => false end) &&
    (match addrs with [] => true | _ => includes addrs (l_addr l) end) &&
    (length subs <=? length (l_topics l))%nat && topics_match subs (l_topics l)) ls.
(* go-ethereum's BloomLookup *)
Definition lookup (bloom m : Z) : bool := Z.land bloom m =? m.
(* utils.go:61-88 bloomFilter *)
Definition bloom_filter (bloom : Z) (addrs : list Z) (subs : list (list Z)) : bool :=
  (match addrs with [] => true | _ => existsb (fun a => lookup bloom (mask_a a)) addrs end) &&
  forallb (fun sub => match sub with [] => true | _ => existsb (fun t => lookup bloom (mask_t t)) sub end) subs.

(* filters.go:188-209 blockLogs with rpc/backend/utils.go:212-227, 272-284 *)
Definition block_logs (addrs : list Z) (subs : list (list Z)) (r : block_result) : list log :=
  if bloom_filter (br_bloom r) addrs subs
  then filter_logs None None addrs subs (flat_map (fun x => event_logs (events x)) (br_results r))
  else [].
(* filters.go:212-224 cronBlockLogs *)
Definition cron_logs (n : node) (addrs : list Z) (subs : list (list Z)) (h : Z) : list log :=
  filter_logs None None addrs subs (n_cron n h).

Inductive answer := ATooWide | ATooMany | ALogs (ls : list log).
(* filters.go:159-184, the loop. A block that cannot be read ends it with no logs at all. *)
Fixpoint scan (n : node) (addrs : list Z) (subs : list (list Z)) (limit : Z) (h : Z) (todo : nat) (acc : list log) : answer :=
  match todo with
  | O => ALogs acc
  | Datatypes.S k =>
      match n_block n h with
      | None => ALogs []
      | Some r =>
          let a := block_logs addrs subs r in
          let b := cron_logs n addrs subs h in
          if limit <? Z.of_nat (length acc + length a + length b) then ATooMany
          else scan n addrs subs limit (h + 1) k (acc ++ a ++ b)
      end
  end.
Definition overhang : Z := 600.
(* filters.go:134-143: negative means the head, zero the first block *)
Definition bound (head x : Z) : Z := if x <? 0 then head else if x =? 0 then 1 else x.
(* filters.go:97-185 Logs for a range *)
Definition get_logs (n : node) (from to : Z) (addrs : list Z) (subs : list (list Z)) (limit blocks : Z) : answer :=
  let f := bound (n_head n) from in
  let t := bound (n_head n) to in
  if blocks <? t - f then ATooWide else
  if n_head n <? f then ALogs [] else
  let t := if n_head n + overhang <? t then n_head n + overhang else t in
  scan n addrs subs limit f (Z.to_nat (t + 1 - f)) [].
(* filters.go:102-120 Logs for one block, named by its hash (here: by its height) *)
Definition get_block_logs (n : node) (h : Z) (addrs : list Z) (subs : list (list Z)) : answer :=
  match n_block n h with
  | None => ALogs []
  | Some r => ALogs (block_logs addrs subs r)
  end.
End Masks.
