(* C48: the RPC cache. *)
From Coq Require Import String.
From Verif Require Import Lib.Base Rpc.Cache Rpc.CacheSpec Rpc.CacheProofs Rpc.CacheProofs2.
Open Scope Z_scope.

Section Claims.
Variable sha : list N -> list N.
Variable V : Type.
Variable cap : nat.
Variable ttl_of : string -> option Z.
Variable node : Z -> string -> list param -> answer V.
Notation run := (run sha V cap ttl_of node).
Notation run_from := (run_from sha V cap ttl_of node).
Notation step := (step sha V cap ttl_of node).

Lemma reach t0 evs s log : run t0 evs = (s, log) -> inv sha V cap ttl_of node s log.
Proof. intro R. eapply run_inv; [apply inv_init|exact R]. Qed.

Lemma fetch_called evs : forall s log s' log', inv sha V cap ttl_of node s log ->
  (forall c m ps t a, In (OFetch V c m ps t a) log -> exists t1, In (OCall V c m ps t1) log) ->
  run_from s log evs = (s', log') ->
  (forall c m ps t a, In (OFetch V c m ps t a) log' -> exists t1, In (OCall V c m ps t1) log').
Proof.
  induction evs as [|ev evs IH]; intros s log s' log' I H E; cbn [Cache.run_from] in E.
  - injection E as <- <-. exact H.
  - destruct (step s ev) as [s1 o] eqn:S. eapply IH; [eapply step_inv; [exact I|exact S]| |exact E].
    intros c m ps t a X. apply in_app_or in X. destruct X as [X|X].
    + destruct (H _ _ _ _ _ X) as [t1 Y]. exists t1. apply in_or_app. auto.
    + destruct ev as [d|m1 ps1|c1|c1| |]; cbn [Cache.step] in S.
      * injection S as <- <-. destruct X.
      * destruct (ttl_of m1); [destruct (get_block V (s_now V s) (s_cache V s) (gen_key sha m1 ps1)) as [l' [v|]]|];
          injection S as <- <-; cbn [In] in X; intuition discriminate.
      * destruct (find_flight V (s_flights V s) c1) as [[c0 m1 ps1 [|a1]]|] eqn:F; injection S as <- <-; [|destruct X|destruct X].
        destruct X as [X|[]]. injection X as <- <- <- <- <-. apply find_flight_in in F. destruct F as [F1 F2]. cbn [f_no] in F2. subst c0.
        destruct (i_flights _ _ _ _ _ _ _ I _ F1) as (t1 & A & _). exists t1. apply in_or_app. left. exact A.
      * destruct (find_flight V (s_flights V s) c1) as [[c0 m1 ps1 [|a1]]|] eqn:F; try (injection S as <- <-; destruct X).
        cbv zeta in S. destruct (ttl_of m1), a1; injection S as <- <-; cbn [In] in X; intuition discriminate.
      * injection S as <- <-. destruct X.
      * injection S as <- <-. cbn [In] in X. intuition discriminate.
Qed.

(* Every answer is either what the node said during this very call, or a value
   that a call with the same key got from the node, stored since the cache was
   last cleared and within the time to live; and then the method is a cached one. *)
Theorem C48_answer_source t0 evs s log before c m ps t a after :
  run t0 evs = (s, log) -> log = before ++ OReturn V c m ps t a :: after ->
  computed_for V node before c m ps t a \/
  exists v m' ps', a = AVal v /\ ttl_of m <> None /\ gen_key sha m ps = gen_key sha m' ps' /\
    stored_answer V node ttl_of before m' ps' t v.
Proof.
  intros R E. destruct (i_rets _ _ _ _ _ _ _ (reach _ _ _ _ R) _ _ _ _ _ _ _ E) as [H|(v & m' & ps' & A & B & _ & C & D)]; [left; exact H|].
  right. exists v, m', ps'. auto.
Qed.

(* For requests made of text and numbers, a stored value is only given to the
   same method with the same parameters, unless the hash function has been broken. *)
Theorem C48_same_request_only t0 evs s log before c m ps t a after :
  run t0 evs = (s, log) -> log = before ++ OReturn V c m ps t a :: after ->
  (forall c' m' ps' t', In (OCall V c' m' ps' t') log -> plain ps') ->
  computed_for V node before c m ps t a \/
  (exists v, a = AVal v /\ ttl_of m <> None /\ stored_answer V node ttl_of before m ps t v) \/
  exists x y, x <> y /\ sha x = sha y.
Proof.
  intros R E P. destruct (i_rets _ _ _ _ _ _ _ (reach _ _ _ _ R) _ _ _ _ _ _ _ E) as [H|(v & m' & ps' & A & B & (t1 & C0 & _) & C & D)]; [left; exact H|].
  right. destruct D as (c' & t2 & t3 & ttl & D1 & D2 & D3).
  assert (P1 : plain ps). { apply (P c m ps t1). rewrite E. apply in_or_app. left. exact C0. }
  assert (P2 : plain ps').
  { destruct (fetch_called evs (init V t0) [] s log (inv_init _ _ _ _ _ _) (fun _ _ _ _ _ X => match X with end) R c' m' ps' t2 (AVal v)) as [t4 X].
    - rewrite E. apply in_or_app. left. exact D2.
    - exact (P _ _ _ _ X). }
  destruct (gen_key_inj sha m ps m' ps' P1 P2 C) as [[<- <-]|K]; [left|right; exact K].
  exists v. split; [exact A|]. split; [exact B|]. exists c', t2, t3, ttl. auto.
Qed.

(* Methods that are not in the table are always computed afresh. *)
Theorem C48_uncached_fresh t0 evs s log before c m ps t a after :
  run t0 evs = (s, log) -> log = before ++ OReturn V c m ps t a :: after -> ttl_of m = None ->
  computed_for V node before c m ps t a.
Proof.
  intros R E T. destruct (C48_answer_source _ _ _ _ _ _ _ _ _ _ _ R E) as [H|(v & m' & ps' & _ & B & _)]; [exact H|congruence].
Qed.

(* An error, or an empty answer, is never a stored one. *)
Theorem C48_errors_not_cached t0 evs s log before c m ps t a after :
  run t0 evs = (s, log) -> log = before ++ OReturn V c m ps t a :: after -> a = AErr \/ a = ANil ->
  computed_for V node before c m ps t a.
Proof.
  intros R E T. destruct (C48_answer_source _ _ _ _ _ _ _ _ _ _ _ R E) as [H|(v & m' & ps' & A & _)]; [exact H|].
  destruct T; congruence.
Qed.

(* Each call is answered at most once. *)
Theorem C48_one_answer_per_call t0 evs s log before c m ps t a after m' ps' t' a' :
  run t0 evs = (s, log) -> log = before ++ OReturn V c m ps t a :: after ->
  ~ In (OReturn V c m' ps' t' a') before /\ ~ In (OReturn V c m' ps' t' a') after.
Proof.
  intros R E. pose proof (i_once _ _ _ _ _ _ _ (reach _ _ _ _ R)) as O1. split; [eapply O1; exact E|].
  intro X. apply in_split in X. destruct X as (l1 & l2 & ->).
  apply (O1 (before ++ OReturn V c m ps t a :: l1) c m' ps' t' a' l2 m ps t a).
  - rewrite E, <- app_assoc. reflexivity.
  - apply in_or_app. right. left. reflexivity.
Qed.

(* A waiting call can always be completed, and then gets the node's answer of
   the moment it asked, whatever the other calls have done to the cache. *)
Theorem C48_waiting_call_completes s c m ps :
  find_flight V (s_flights V s) c = Some (mk_flight V c m ps (Looking V)) ->
  exists s' o, run_from s [] [EFetch c; EFinish c] = (s', o) /\
    In (OReturn V c m ps (s_now V s) (node (s_now V s) m ps)) o.
Proof.
  intro F. cbn [Cache.run_from Cache.step]. rewrite F. cbn [s_flights find_flight f_no]. rewrite Z.eqb_refl.
  cbn [s_now s_cache]. destruct (ttl_of m); [destruct (node (s_now V s) m ps)|]; eexists _, _; (split; [reflexivity|]); cbn; auto.
Qed.

(* The store never grows beyond its capacity and holds one entry per key. *)
Theorem C48_bounded t0 evs s log :
  run t0 evs = (s, log) -> (length (s_cache V s) <= cap)%nat /\ NoDup (map fst (s_cache V s)).
Proof. intro R. pose proof (reach _ _ _ _ R) as I. split; [apply (i_cap _ _ _ _ _ _ _ I)|apply (i_nodup _ _ _ _ _ _ _ I)]. Qed.

(* Once an answer is stored, repeating the request within the time to live does
   not ask the node again, as long as fewer other requests than the capacity
   were made in between, the cache was not cleared, and nothing with the same
   key and a shorter life was stored. *)
Theorem C48_repeat_is_served t0 evs1 s1 log1 c s2 o m ps t v ttl evs s3 l2 :
  run t0 evs1 = (s1, log1) -> step s1 (EFinish c) = (s2, o) -> In (OStore V c m ps t v) o -> ttl_of m = Some ttl ->
  run_from s2 [] evs = (s3, l2) ->
  ~ In (OClear V) l2 -> s_now V s3 <= t + ttl ->
  (forall c' m' ps' t' v' ttl', In (OStore V c' m' ps' t' v') l2 -> gen_key sha m' ps' = gen_key sha m ps ->
     ttl_of m' = Some ttl' -> t + ttl <= t' + ttl') ->
  (forall K, NoDup K -> (forall k, In k K -> k <> gen_key sha m ps /\ uses_key sha ttl_of l2 k) -> (length K < cap)%nat) ->
  exists w s4, step s3 (ECall m ps) =
    (s4, [OCall V (s_next V s3) m ps (s_now V s3); OReturn V (s_next V s3) m ps (s_now V s3) (AVal w)]).
Proof.
  intros R1 S IO T R2 NC LT ST B.
  pose proof (reach _ _ _ _ R1) as I1.
  assert (P2 : placed V (gen_key sha m ps) (t + ttl) (uses_key sha ttl_of l2) (s_cache V s2)).
  { cbn [Cache.step] in S. destruct (find_flight V (s_flights V s1) c) as [[c0 m0 ps0 [|a0]]|] eqn:F; try (injection S as <- <-; destruct IO).
    cbv zeta in S. destruct (ttl_of m0) as [ttl0|] eqn:T0; [|destruct a0; injection S as <- <-; cbn [In] in IO; intuition discriminate].
    destruct a0 as [v0| |]; try (injection S as <- <-; cbn [In] in IO; intuition discriminate).
    injection S as <- <-. destruct IO as [IO|[IO|[]]]; [|discriminate IO].
    injection IO as -> -> E1 E2. subst t v0. cbn [s_cache]. unfold set_block, lru_add.
    rewrite T in T0. injection T0 as <-.
    apply (placed_firstn V node); [exact B|]. apply (placed_front V node); [apply (i_nodup _ _ _ _ _ _ _ I1)|]. cbn [e_expires]. lia. }
  assert (P3 : placed V (gen_key sha m ps) (t + ttl) (uses_key sha ttl_of l2) (s_cache V s3)).
  { apply (placed_run sha V cap ttl_of node _ _ _ evs s2 [] s3 l2 P2 R2 l2); auto. }
  destruct (placed_find _ _ _ _ _ P3) as (e & F & L).
  exists (e_data e). cbn [Cache.step]. rewrite T. unfold get_block, lru_get. rewrite F.
  assert (X : (e_expires e <? s_now V s3) = false) by lia. rewrite X. eauto.
Qed.

(* When calls never overlap, the answers to one request never go back: if the
   node's answers grow with time, so do the answers given. *)
Theorem C48_one_at_a_time_never_back t0 evs s log m ps rank before c t v after v' :
  run t0 evs = (s, log) -> one_at_a_time sha V cap ttl_of node (init V t0) evs ->
  (forall t1 t2 v1 v2, t1 <= t2 -> node t1 m ps = AVal v1 -> node t2 m ps = AVal v2 -> rank v1 <= rank v2) ->
  (forall c' m' ps' t' w, In (OStore V c' m' ps' t' w) log -> gen_key sha m' ps' = gen_key sha m ps -> m' = m /\ ps' = ps) ->
  log = before ++ OReturn V c m ps t (AVal v) :: after -> answered V before m ps v' -> rank v' <= rank v.
Proof.
  intros R ONE G AL E A.
  pose proof (run_sinv sha V cap ttl_of node m ps rank G evs (init V t0) [] s log (inv_init _ _ _ _ _ _) (sinv_init _ _ _ _ _ _ _ G _) R AL ONE) as Q.
  exact (q_order _ _ _ _ _ _ _ _ _ Q _ _ _ _ _ _ E A).
Qed.
End Claims.

(* Whatever the table says, no default time to live exceeds five minutes, and
   the block number is kept for five seconds. *)
Theorem C48_default_lives m ttl : default_ttl_of m = Some ttl -> 5000000000 <= ttl <= 300000000000.
Proof.
  unfold default_ttl_of, default_methods. cbn [method_ttl].
  repeat match goal with |- context [String.eqb ?a m] => destruct (String.eqb a m) end;
    cbn [option_map]; intro H; try discriminate H; injection H as <-; lia.
Qed.
Example default_block_number : default_ttl_of "BlockNumber" = Some 5000000000 /\ default_ttl_of "SendRawTransaction" = None.
Proof. split; reflexivity. Qed.

(* ---------------- a concrete node: it answers with the current time ---------------- *)
Section Examples.
Let id (l : list N) : list N := l.
Let clock (t : Z) (m : string) (ps : list param) : answer Z := AVal t.
Let flaky (t : Z) (m : string) (ps : list param) : answer Z := if t <? 3 then AErr else AVal t.
Let sec := 1000000000.

Example repeat_is_served_ex :
  snd (run id Z default_cap default_ttl_of clock 0
         [ECall "BlockNumber" []; EFetch 0; EFinish 0; ETick (5 * sec); ECall "BlockNumber" []; ETick 1; ECall "BlockNumber" []]) =
  [OCall Z 0 "BlockNumber" [] 0; OFetch Z 0 "BlockNumber" [] 0 (AVal 0); OStore Z 0 "BlockNumber" [] 0 0; OReturn Z 0 "BlockNumber" [] 0 (AVal 0);
   OCall Z 1 "BlockNumber" [] (5 * sec); OReturn Z 1 "BlockNumber" [] (5 * sec) (AVal 0);
   OCall Z 2 "BlockNumber" [] (5 * sec + 1)].
Proof. vm_compute. reflexivity. Qed.

Example errors_ex :
  snd (run id Z default_cap default_ttl_of flaky 0
         [ECall "BlockNumber" []; EFetch 0; EFinish 0; ETick 5; ECall "BlockNumber" []; EFetch 1; EFinish 1]) =
  [OCall Z 0 "BlockNumber" [] 0; OFetch Z 0 "BlockNumber" [] 0 AErr; OReturn Z 0 "BlockNumber" [] 0 AErr;
   OCall Z 1 "BlockNumber" [] 5; OFetch Z 1 "BlockNumber" [] 5 (AVal 5); OStore Z 1 "BlockNumber" [] 5 5; OReturn Z 1 "BlockNumber" [] 5 (AVal 5)].
Proof. vm_compute. reflexivity. Qed.

Example one_at_a_time_ex :
  one_at_a_time id Z default_cap default_ttl_of clock (init Z 0)
    [ECall "BlockNumber" []; EFetch 0; EFinish 0; ETick 7; ECall "ChainId" []; EFetch 1; EFinish 1] /\
  (forall t1 t2 v1 v2, t1 <= t2 -> clock t1 "BlockNumber"%string [] = AVal v1 -> clock t2 "BlockNumber"%string [] = AVal v2 -> v1 <= v2).
Proof.
  split; [vm_compute; repeat split|]. unfold clock. intros t1 t2 v1 v2 L A B. injection A as <-. injection B as <-. exact L.
Qed.

(* With a capacity of two, a third request pushes out the one used longest ago. *)
Example eviction_ex :
  let r := run id Z 2 default_ttl_of clock 0
         [ECall "ChainId" []; EFetch 0; EFinish 0; ECall "GetCoinbase" []; EFetch 1; EFinish 1;
          ECall "ChainId" []; ECall "GetCoinInfo" []; EFetch 3; EFinish 3] in
  map fst (s_cache Z (fst r)) = [gen_key id "GetCoinInfo" []; gen_key id "ChainId" []].
Proof. vm_compute. reflexivity. Qed.

(* When calls overlap, a client can be told a block number older than one that
   had already been given out before it asked. *)
Theorem C48_overlapping_calls_go_back_refuted :
  exists evs s log l1 l2 l3 v c1 t1 c2 t2 w,
    run id Z default_cap default_ttl_of clock 0 evs = (s, log) /\
    log = l1 ++ OReturn Z c1 "BlockNumber" [] t1 (AVal v) :: l2 ++ OCall Z c2 "BlockNumber" [] t2 :: OReturn Z c2 "BlockNumber" [] t2 (AVal w) :: l3 /\
    w < v.
Proof.
  exists [ETick 10; ECall "BlockNumber" []; ECall "BlockNumber" []; EFetch 0; ETick 1; EFetch 1; EFinish 1; EFinish 0; ECall "BlockNumber" []].
  eexists _, _.
  exists [OCall Z 0 "BlockNumber" [] 10; OCall Z 1 "BlockNumber" [] 10; OFetch Z 0 "BlockNumber" [] 10 (AVal 10); OFetch Z 1 "BlockNumber" [] 11 (AVal 11);
          OStore Z 1 "BlockNumber" [] 11 11], [OStore Z 0 "BlockNumber" [] 11 10; OReturn Z 0 "BlockNumber" [] 11 (AVal 10)], [].
  exists 11, 1, 11, 2, 11, 10. split; [vm_compute; reflexivity|]. split; [reflexivity|lia].
Qed.

(* The life of an answer is counted from when it was stored, not from when the
   node computed it: an answer can be older than its time to live. *)
Theorem C48_older_than_its_life_refuted :
  exists evs s log c t v ttl,
    run id Z default_cap default_ttl_of clock 0 evs = (s, log) /\ default_ttl_of "BlockNumber" = Some ttl /\
    In (OReturn Z c "BlockNumber" [] t (AVal v)) log /\ (forall t', clock t' "BlockNumber" [] = AVal v -> t' + ttl < t) /\
    In (OCall Z c "BlockNumber" [] t) log.
Proof.
  exists [ECall "BlockNumber" []; EFetch 0; ETick (60 * sec); EFinish 0; ETick (5 * sec); ECall "BlockNumber" []].
  eexists _, _. exists 1, (65 * sec), 0, (5 * sec). split; [vm_compute; reflexivity|]. split; [reflexivity|].
  split; [cbn; auto 9|]. split; [|cbn; auto 9]. unfold clock. intros t' E. injection E as ->. vm_compute. reflexivity.
Qed.
End Examples.

(* When a parameter cannot be encoded as JSON the key is a plain text that
   different parameter lists share. *)
Theorem C48_fallback_key_refuted :
  exists m ps ps', ps <> ps' /\ forall sha, gen_key sha m ps = gen_key sha m ps'.
Proof.
  exists "m"%string, [PBad [Rune 120]; PText [Rune 97; Rune 32; Rune 98]], [PBad [Rune 120]; PText [Rune 97]; PText [Rune 98]].
  split; [discriminate|]. intro sha. reflexivity.
Qed.

(* Texts that are not valid UTF-8 share the key of another text. *)
Theorem C48_invalid_text_key_refuted :
  exists m ps ps', ps <> ps' /\ forall sha, gen_key sha m ps = gen_key sha m ps'.
Proof.
  exists "GetProposalsByPageAndSizeWithFilter"%string, [PText [BadByte 200]], [PText [BadByte 201]].
  split; [discriminate|]. intro sha. reflexivity.
Qed.

Example same_request_only_ex :
  plain [PText (ascii_text "0x1"); PNum 7] /\
  gen_key (fun l => l) "m" [PText (ascii_text "1"); PNum 1] <> gen_key (fun l => l) "m" [PNum 1; PText (ascii_text "1")].
Proof. split; [repeat constructor|]. vm_compute. intro H. discriminate H. Qed.

Print Assumptions C48_answer_source.
Print Assumptions C48_same_request_only.
Print Assumptions C48_uncached_fresh.
Print Assumptions C48_errors_not_cached.
Print Assumptions C48_one_answer_per_call.
Print Assumptions C48_waiting_call_completes.
Print Assumptions C48_bounded.
Print Assumptions C48_repeat_is_served.
Print Assumptions C48_one_at_a_time_never_back.
Print Assumptions C48_default_lives.
Print Assumptions C48_overlapping_calls_go_back_refuted.
Print Assumptions C48_older_than_its_life_refuted.
Print Assumptions C48_fallback_key_refuted.
Print Assumptions C48_invalid_text_key_refuted.
