(* eth_feeHistory: rpc/backend/chain_info.go:184-323 FeeHistory and
   rpc/backend/utils.go:105-209 processBlock.  Floating point numbers are
   abstract: F for ratios, P for percentiles; ratio used limit is
   used / limit and threshold used p is uint64(used * p / 100).  The cache is
   shared by all callers of the process; calls are taken one at a time (the
   program does not lock it). *)
From Verif Require Import Lib.Base.
Open Scope Z_scope.

(* a block: base fee, gas used and limit as eth_getBlockByNumber shows them,
   and for each transaction the gas it used and the tips of its Ethereum messages *)
Record blk := Blk { b_fee : Z; b_used : Z; b_limit : Z; b_txs : list (Z * list Z) }.

Definition wrap64 (x : Z) : Z := (x + 2 ^ 63) mod 2 ^ 64 - 2 ^ 63.

Section Fees.
Variables F P : Type.
Variable ratio : Z -> Z -> F.
Variable threshold : Z -> P -> Z.

(* rpc/types/types.go:146-150 OneFeeHistory *)
Record entry := Entry { e_fee : Z; e_next : Z; e_ratio : F; e_rewards : list Z }.

(* utils.go:162-186: every message counts with the gas of its whole transaction *)
Definition offers (b : blk) : list (Z * Z) := flat_map (fun t => map (fun tip => (fst t, tip)) (snd t)) (b_txs b).

(* utils.go:194 sort.Sort by tip; equal tips in some order *)
Fixpoint insert (x : Z * Z) (l : list (Z * Z)) : list (Z * Z) :=
  match l with
  | [] => [x]
  | y :: r => if snd x <=? snd y then x :: l else y :: insert x r
  end.
Definition sort (l : list (Z * Z)) : list (Z * Z) := fold_right insert [] l.

(* utils.go:196-206 *)
Fixpoint advance (sum tip : Z) (rest : list (Z * Z)) (thr : Z) : Z * Z * list (Z * Z) :=
  match rest with
  | [] => (sum, tip, rest)
  | (g, t) :: rest' => if sum <? thr then advance (sum + g) t rest' thr else (sum, tip, rest)
  end.
Fixpoint pick (sum tip : Z) (rest : list (Z * Z)) (thrs : list Z) : list Z :=
  match thrs with
  | [] => []
  | thr :: more => let '(sum', tip', rest') := advance sum tip rest thr in tip' :: pick sum' tip' rest' more
  end.
Definition rewards (sorted : list (Z * Z)) (thrs : list Z) : list Z :=
  match sorted with
  | [] => map (fun _ => 0) thrs
  | (g, t) :: rest => pick g t rest thrs
  end.

(* the node: blocks 1, 2, ... and the cache *)
Record node := Node { n_blocks : list blk; n_cache : list (Z * entry) }.
Definition head (n : node) : Z := Z.of_nat (length (n_blocks n)).
(* rpc/types/block.go:98-107 Int64: block 0 is read as block 1 *)
Definition block_at (n : node) (id : Z) : option blk :=
  let h := if id =? 0 then 1 else id in
  if (1 <=? h) && (h <=? head n) then nth_error (n_blocks n) (Z.to_nat (h - 1)) else None.
Definition cached (id : Z) (c : list (Z * entry)) : option entry :=
  match find (fun p => fst p =? id) c with Some p => Some (snd p) | None => None end.

(* processBlock; the header made from the newest block has gas limit and gas
   used 0 (rpc/types/utils.go:88-89), so CalcBaseFee gives its own base fee *)
Definition process (n : node) (b : blk) (ps : list P) : res entry :=
  if b_limit b <=? 0 then Err
  else
    match block_at n (head n) with
    | None => Err
    | Some hb => Ok (Entry (b_fee b) (b_fee hb) (ratio (b_used b) (b_limit b))
                           (rewards (sort (offers b)) (map (threshold (b_used b)) ps)))
    end.

(* the loop over the blocks; None: error; the cache is filled on the way *)
Fixpoint collect (n : node) (ps : list P) (ids : list Z) (c : list (Z * entry)) : option (list entry) * list (Z * entry) :=
  match ids with
  | [] => (Some [], c)
  | id :: more =>
      match cached id c with
      | Some e => let '(r, c') := collect n ps more c in
                  (match r with Some es => Some (e :: es) | None => None end, c')
      | None =>
          match block_at n id with
          | None => (None, c)
          | Some b =>
              match process n b ps with
              | Ok e => let '(r, c') := collect n ps more ((id, e) :: c) in
                        (match r with Some es => Some (e :: es) | None => None end, c')
              | _ => (None, c)
              end
          end
      end
  end.

(* a row of the answer: Reward[j], or 0 when the cached entry has fewer *)
Definition row (ps : list P) (e : entry) : list Z := map (fun j => nth j (e_rewards e) 0) (seq 0 (length ps)).

Record history := History { h_oldest : Z; h_fees : list (option Z); h_ratios : list F; h_rewards : option (list (list Z)) }.
Definition fees_of (es : list entry) : list (option Z) :=
  match es with
  | [] => [None]
  | e0 :: _ => map (fun e => Some (e_fee e)) es ++ [Some (e_next (last es e0))]
  end.

(* int64 arithmetic; count is a uint64 *)
Definition fee_history (cap : Z) (n : node) (count : Z) (lst : Z) (ps : list P) : res history * node :=
  let block_end := if lst <? 0 then head n else lst in
  let blocks := wrap64 count in
  if cap <? blocks then (Err, n)
  else
    let after := wrap64 (block_end + 1) in
    let blocks := if after <? blocks then after else blocks in
    let start := wrap64 (after - blocks) in
    if blocks <? 0 then (Panic, n)                       (* make with a negative length *)
    else
      let '(r, c) := collect n ps (map (fun i => start + Z.of_nat i) (seq 0 (Z.to_nat blocks))) (n_cache n) in
      match r with
      | None => (Err, Node (n_blocks n) c)
      | Some es =>
          let kept := filter (fun p => (head n - fst p) mod 2 ^ 64 <=? cap) c in   (* uint64 subtraction *)
          (Ok (History start (fees_of es) (map e_ratio es)
                 (match ps with [] => None | _ => Some (map (row ps) es) end)),
           Node (n_blocks n) kept)
      end.

(* what happens to a node *)
Inductive event := NewBlock (b : blk) | Query (count lst : Z) (ps : list P).
Definition step (cap : Z) (n : node) (e : event) : node :=
  match e with
  | NewBlock b => Node (n_blocks n ++ [b]) (n_cache n)
  | Query count lst ps => snd (fee_history cap n count lst ps)
  end.
Definition run (cap : Z) (evs : list event) : node := fold_left (step cap) evs (Node [] []).
End Fees.
