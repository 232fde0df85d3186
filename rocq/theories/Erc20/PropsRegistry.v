(* C79: the registry of token pairs is one-to-one: a coin has at most one contract and a
   contract at most one coin, whatever is registered, switched, created, bridged or
   removed; a registered pair is never redirected.
   C80: a chain restarted from an exported genesis has the same pairs. *)
From Verif Require Import Lib.Base Lib.Bytes Lib.Kv Lib.Zmap Erc20.Registry Erc20.RegistrySpec Erc20.RegistryProofs.
Open Scope Z_scope.

(* the two lookups are inverse to each other after every history of operations from a
   genesis with distinct contracts *)
Theorem C79_one_to_one : forall checksum l on m u ops, text_ok checksum -> valid_pairs [] [] l = true -> NoDup (map contract l) ->
  all_ok checksum (import l on m u) ops ->
  let s := run checksum (import l on m u) ops in
  (forall d a, coin_address s d = Some a <-> token_denom s a = Some d)
  /\ (forall d e a, coin_address s d = Some a -> coin_address s e = Some a -> d = e).
Proof.
  intros checksum l on m u ops T H N A s. assert (V : inv s) by (apply run_inv; [exact T|apply (import_inv l on m u H N)|exact A]). split; [intros; apply one_to_one; exact V|].
  intros d e a D E. apply (one_to_one s d a V) in D. apply (one_to_one s e a V) in E. congruence.
Qed.

(* the list of all pairs says the same as the lookups, with no pair twice; looking up by
   the text of the contract gives the pair, and looking up by the denomination does unless
   the denomination looks like an address *)
Theorem C79_listing : forall checksum l on m u ops, text_ok checksum -> valid_pairs [] [] l = true -> NoDup (map contract l) ->
  all_ok checksum (import l on m u) ops ->
  let s := run checksum (import l on m u) ops in
  NoDup (listing s)
  /\ (forall d a, coin_address s d = Some a <-> exists p, In p (listing s) /\ p_denom p = d /\ contract p = a)
  /\ (forall p q, In p (listing s) -> In q (listing s) -> p_denom p = p_denom q \/ contract p = contract q -> p = q)
  /\ (forall p, In p (listing s) -> lookup s (p_addr p) = Some p /\ (is_hex_address (p_denom p) = false -> lookup s (p_denom p) = Some p))
  /\ (forall t p, lookup s t = Some p -> In p (listing s) /\ (if is_hex_address t then contract p = hex_to_addr t else p_denom p = t)).
Proof.
  intros checksum l on m u ops T H N A s. assert (V : inv s) by (apply run_inv; [exact T|apply (import_inv l on m u H N)|exact A]). split; [apply listed_nodup; exact V|]. split; [|split; [|split]].
  - intros d a. split; [apply coin_listed; exact V|]. intros (p & Hp & <- & <-). apply listed_coin; assumption.
  - intros p q. apply listed_same. exact V.
  - intros p Hp. apply (listed s p V) in Hp. destruct (iv_1 s V _ _ Hp) as (_ & B & C & D). unfold lookup, pair_id. rewrite B. fold (contract p). rewrite D. split; [exact Hp|]. intros ->. rewrite C. exact Hp.
  - intros t p L. split; [apply (listed s p V); exact (lookup_inv s t p V L)|]. unfold lookup, pair_id in L. destruct (is_hex_address t).
    + destruct (zget (r_erc20 s) (hex_to_addr t)) as [i|] eqn:E; [|discriminate]. cbn [get_pair] in L. destruct (iv_3 s V _ _ E) as (q & Hq & Cq). congruence.
    + destruct (kget (r_denoms s) t) as [i|] eqn:E; [|discriminate]. cbn [get_pair] in L. destruct (iv_2 s V _ _ E) as (q & Hq & Cq). congruence.
Qed.

(* no operation but the removal of a vanished contract changes what a registered coin or
   contract is paired with, at any later time *)
Fixpoint no_delete (l : list op) : bool := match l with [] => true | o :: r => negb (deletes o) && no_delete r end.
Theorem C79_never_redirected : forall checksum l on m u before after d a, text_ok checksum -> valid_pairs [] [] l = true -> NoDup (map contract l) ->
  all_ok checksum (import l on m u) (before ++ after) -> no_delete after = true ->
  coin_address (run checksum (import l on m u) before) d = Some a ->
  coin_address (run checksum (import l on m u) (before ++ after)) d = Some a /\ token_denom (run checksum (import l on m u) (before ++ after)) a = Some d.
Proof.
  intros checksum l on m u before after d a T H N. assert (V : inv (import l on m u)) by apply (import_inv l on m u H N). revert V. generalize (import l on m u). clear H N. induction before as [|o before IH]; intros s V A D K.
  - cbn [app run] in *. assert (G : coin_address (run checksum s after) d = Some a).
    { revert s V A K. induction after as [|o after IH]; intros s V A K; [exact K|]. destruct A as [A1 A2]. cbn [no_delete] in D. apply andb_prop in D. destruct D as [D1 D2]. apply negb_true_iff in D1. cbn [run].
      apply IH; [exact D2|apply exec_inv; assumption|exact A2|]. unfold exec. destruct (step checksum s o) as [s'| |] eqn:E; try exact K. apply (kept checksum T s o s' d a V A1 D1 E K). }
    split; [exact G|]. apply one_to_one; [apply run_inv; assumption|exact G].
  - destruct A as [A1 A2]. cbn [app run] in *. apply IH; auto. apply exec_inv; assumption.
Qed.

(* registering a contract, a first packet, erc20creator and the bridge each add just one pair *)
Theorem C79_additions : forall checksum l on m u ops, text_ok checksum -> valid_pairs [] [] l = true -> NoDup (map contract l) ->
  all_ok checksum (import l on m u) ops ->
  let s := run checksum (import l on m u) ops in
  (forall t g s', register_msg checksum s [(t, g)] = Ok s' ->
     let p := mk_pair (checksum (hex_to_addr t)) (erc20_prefix ++ checksum (hex_to_addr t)) true External in adds s s' p /\ contract p = hex_to_addr t)
  /\ (forall d x a g s', op_ok s (Create d x a g) -> create checksum s d x a g = Ok s' -> let p := mk_pair (checksum a) d true Module in adds s s' p /\ contract p = a)
  /\ (forall d a g s', op_ok s (Link d a g) -> link checksum s d a g = Ok s' -> s' = s \/ let p := mk_pair (checksum a) d true Module in adds s s' p /\ contract p = a)
  /\ (forall d b s', op_ok s (Recv d b) -> recv checksum s d b = Ok s' ->
       s' = s \/ exists a, ibc_addr d = Some a /\ let p := mk_pair (checksum a) d true Module in adds s s' p /\ contract p = a).
Proof.
  intros checksum l on m u ops T H N A s. assert (V : inv s) by (apply run_inv; [exact T|apply (import_inv l on m u H N)|exact A]). split; [|split; [|split]].
  - intros t g s' R. unfold register_msg in R. destruct (r_on s); [|discriminate]. cbn [register_all] in R. destruct (is_hex_address t); [|discriminate].
    destruct (register_erc20 checksum s (hex_to_addr t) g) as [s1| |] eqn:E; try discriminate. cbn [rbind] in R. injection R as <-. exact (proj2 (register_spec checksum T s _ g s1 (hex_range t) V E)).
  - intros d x a g s' O R. exact (proj2 (create_spec checksum T s d x a g s' V O R)).
  - intros d a g s' O R. destruct (link_spec checksum T s d a g s' V O R) as [X|X]; [left; exact X|right; exact (proj2 X)].
  - intros d b s' O R. destruct (recv_spec checksum T s d b s' V O R) as [X|(a & E & X)]; [left; exact X|right]. exists a. split; [exact E|exact (proj2 X)].
Qed.

(* switching a pair flips its flag and nothing else; removing one takes away that pair and
   nothing else, and only a pair of a foreign contract *)
Theorem C79_toggle_and_removal : forall checksum l on m u ops, text_ok checksum -> valid_pairs [] [] l = true -> NoDup (map contract l) ->
  all_ok checksum (import l on m u) ops ->
  let s := run checksum (import l on m u) ops in
  (forall t s', toggle s t = Ok s' -> exists p, lookup s t = Some p /\ let q := mk_pair (p_addr p) (p_denom p) (negb (p_enabled p)) (p_owner p) in
     lookup s' t = Some q /\ (forall x, In x (listing s') <-> x = q \/ (x <> p /\ In x (listing s))) /\ (forall d, coin_address s' d = coin_address s d)
     /\ r_dp s' = r_dp s /\ r_supply s' = r_supply s /\ r_meta s' = r_meta s)
  /\ (forall t s', convert_gone s t = Ok s' -> exists p, lookup s t = Some p /\ p_owner p = External /\ p_enabled p = true /\ coin_address s' (p_denom p) = None
     /\ (forall d, d <> p_denom p -> coin_address s' d = coin_address s d) /\ (forall q, In q (listing s') <-> q <> p /\ In q (listing s))
     /\ r_dp s' = r_dp s /\ r_supply s' = r_supply s /\ r_meta s' = r_meta s).
Proof.
  intros checksum l on m u ops T H N A s. assert (V : inv s) by (apply run_inv; [exact T|apply (import_inv l on m u H N)|exact A]). split; intros t s'; [apply toggle_spec|apply gone_spec]; exact V.
Qed.

(* the code of a coin's contract always finds its pair, made by the chain itself, and
   serves the coin that is registered for that contract *)
Theorem C79_face : forall checksum l on m u ops a r, text_ok checksum -> valid_pairs [] [] l = true -> NoDup (map contract l) ->
  all_ok checksum (import l on m u) ops ->
  let s := run checksum (import l on m u) ops in
  face s a = Some r -> exists p, r = Ok p /\ contract p = a /\ p_owner p = Module /\ token_denom s a = Some (p_denom p) /\ coin_address s (p_denom p) = Some a.
Proof.
  intros checksum l on m u ops a r T H N A s F. apply face_spec; [|exact F]. apply run_inv; [exact T|apply (import_inv l on m u H N)|exact A].
Qed.

(* ---- a concrete history ---- *)
(* "uatom", "udai" *)
Definition uatom : bytes := [117;97;116;111;109]%N.
Definition udai : bytes := [117;100;97;105]%N.
(* "ibc/" and 64 digits 1 *)
Definition voucher : bytes := ibc_prefix ++ repeat 49%N 64.
Definition gen : list pair := [mk_pair (lower 5) uatom true Module].
Definition hist : list op := [Register [(lower 7, true); (lower 8, true)]; Recv voucher true; Create udai 1000 9 true; Link [104;121;112]%N 10 true; Toggle uatom; ConvertGone (lower 7)].
Example C79_example : text_ok lower /\ valid_pairs [] [] gen = true /\ NoDup (map contract gen) /\ all_ok lower (import gen true [] [(uatom, 50)]) hist
  /\ (let s := run lower (import gen true [] [(uatom, 50)]) hist in
      length (listing s) = 5%nat /\ coin_address s udai = Some 9 /\ token_denom s 8 = Some (erc20_prefix ++ lower 8) /\ token_denom s 7 = None /\ face s 9 = Some (Ok (mk_pair (lower 9) udai true Module))
      /\ supply s udai = 1000 /\ lookup s uatom = Some (mk_pair (lower 5) uatom false Module)).
Proof.
  split; [exact lower_text|]. split; [vm_compute; reflexivity|]. split; [vm_compute; repeat constructor; intros []|]. split.
  - vm_compute. repeat (split || intro || discriminate || exact I || reflexivity).
  - vm_compute. repeat split.
Qed.

(* ---- where the claim fails ---- *)
(* the validation of a genesis compares the texts of addresses, so it accepts two pairs
   for one contract *)
Definition big : list pair := [mk_pair (lower 10) uatom true Module; mk_pair ([48;120]%N ++ repeat 48%N 39 ++ [65]%N) udai true Module].
Theorem C79_genesis_contracts_refuted :
  ~ (forall l on m u, valid_pairs [] [] l = true -> let s := import l on m u in forall d a, coin_address s d = Some a -> token_denom s a = Some d).
Proof.
  intro H. specialize (H big true [] [] ltac:(vm_compute; reflexivity) uatom 10 ltac:(vm_compute; reflexivity)). vm_compute in H. discriminate.
Qed.
(* erc20creator asks only whether the bank has metadata for the denomination: with a
   registered coin that has none, it redirects the pair and mints units of that coin *)
Theorem C79_create_redirects_refuted :
  ~ (forall s d x a g s', token_denom s a = None -> 0 <= a < two160 -> inv s -> create lower s d x a g = Ok s' -> forall e b, coin_address s e = Some b -> coin_address s' e = Some b).
Proof.
  intro H. set (s := import gen true [] [(uatom, 50)]). destruct (create lower s uatom 1000 9 true) as [s'| |] eqn:E; [|vm_compute in E; discriminate|vm_compute in E; discriminate].
  assert (V : inv s) by (apply import_inv; [vm_compute; reflexivity|vm_compute; repeat constructor; intros []]).
  specialize (H s uatom 1000 9 true s' ltac:(vm_compute; reflexivity) ltac:(split; [discriminate|reflexivity]) V E uatom 5 ltac:(vm_compute; reflexivity)). vm_compute in E. injection E as <-. vm_compute in H. discriminate.
Qed.
Theorem C79_create_mints_refuted :
  ~ (forall s d x a g s', inv s -> create lower s d x a g = Ok s' -> supply s d = 0).
Proof.
  intro H. set (s := import gen true [] [(uatom, 50)]). destruct (create lower s uatom 1000 9 true) as [s'| |] eqn:E; [|vm_compute in E; discriminate|vm_compute in E; discriminate].
  assert (V : inv s) by (apply import_inv; [vm_compute; reflexivity|vm_compute; repeat constructor; intros []]).
  specialize (H s uatom 1000 9 true s' V E). vm_compute in H. discriminate.
Qed.
(* a denomination of forty hexadecimal digits that starts with a letter is a valid
   denomination, but looking it up takes it for an address: its pair cannot be switched *)
Definition hexdenom : bytes := repeat 97%N 40.
Theorem C79_lookup_by_denom_refuted :
  ~ (forall l on m u d a, valid_pairs [] [] l = true -> NoDup (map contract l) -> let s := import l on m u in coin_address s d = Some a -> lookup s d <> None /\ (r_on s = true -> is_ok (toggle s d) = true)).
Proof.
  intro H. destruct (H [mk_pair (lower 5) hexdenom true Module] true [] [] hexdenom 5) as [A _]; [vm_compute; reflexivity|vm_compute; repeat constructor; intros []|vm_compute; reflexivity|]. apply A. vm_compute. reflexivity.
Qed.
(* and the bridge redirects the pair of such a coin *)
Theorem C79_link_redirects_refuted :
  ~ (forall s d a g s', token_denom s a = None -> 0 <= a < two160 -> inv s -> link lower s d a g = Ok s' -> forall e b, coin_address s e = Some b -> coin_address s' e = Some b).
Proof.
  intro H. set (s := import [mk_pair (lower 5) hexdenom true Module] true [] []). destruct (link lower s hexdenom 9 true) as [s'| |] eqn:E; [|vm_compute in E; discriminate|vm_compute in E; discriminate].
  assert (V : inv s) by (apply import_inv; [vm_compute; reflexivity|vm_compute; repeat constructor; intros []]).
  specialize (H s hexdenom 9 true s' ltac:(vm_compute; reflexivity) ltac:(split; [discriminate|reflexivity]) V E hexdenom 5 ltac:(vm_compute; reflexivity)). vm_compute in E. injection E as <-. vm_compute in H. discriminate.
Qed.

(* a contract whose pair was removed cannot be registered again: the metadata of its coin
   stays in the bank *)
Theorem C79_register_again_refuted :
  ~ (forall s t s1, register_msg lower s [(t, true)] = Ok s1 -> forall s2, convert_gone s1 t = Ok s2 -> is_ok (register_msg lower s2 [(t, true)]) = true).
Proof.
  intro H. set (s := import gen true [] []). destruct (register_msg lower s [(lower 7, true)]) as [s1| |] eqn:E; [|vm_compute in E; discriminate|vm_compute in E; discriminate].
  destruct (convert_gone s1 (lower 7)) as [s2| |] eqn:F; [|vm_compute in E; injection E as <-; vm_compute in F; discriminate|vm_compute in E; injection E as <-; vm_compute in F; discriminate].
  specialize (H s (lower 7) s1 E s2 F). vm_compute in E. injection E as <-. vm_compute in F. injection F as <-. vm_compute in H. discriminate.
Qed.

(* ---- C80: export and import ---- *)
Definition restart (s : st) : st := let '(l, on, _) := export s in import l on (r_meta s) (r_supply s).
(* after a restart from the exported genesis every lookup, the listing, the switch and the
   bank are the same *)
Theorem C80_pairs_survive_partial : forall checksum l on m u ops, text_ok checksum -> valid_pairs [] [] l = true -> NoDup (map contract l) ->
  all_ok checksum (import l on m u) ops ->
  let s := run checksum (import l on m u) ops in
  listing (restart s) = listing s /\ (forall t, lookup (restart s) t = lookup s t) /\ (forall d, coin_address (restart s) d = coin_address s d) /\ (forall a, token_denom (restart s) a = token_denom s a)
  /\ r_on (restart s) = r_on s /\ r_meta (restart s) = r_meta s /\ r_supply (restart s) = r_supply s.
Proof.
  intros checksum l on m u ops T H N A s. assert (V : inv s) by (apply run_inv; [exact T|apply (import_inv l on m u H N)|exact A]).
  destruct (round_trip s (r_on s) (r_meta s) (r_supply s) V) as (_ & P & D & E). unfold restart, export, listing, lookup, pair_id, coin_address, token_denom, get_pair. fold (listing s) in *. unfold listing in *. rewrite P, D, E.
  assert (K : forall l x, r_on (fold_left set_token l x) = r_on x /\ r_meta (fold_left set_token l x) = r_meta x /\ r_supply (fold_left set_token l x) = r_supply x).
  { clear. induction l as [|p l IH]; intro x; [auto|]. cbn [fold_left]. destruct (IH (set_token x p)) as (A & B & C). rewrite A, B, C. auto. }
  destruct (K (map snd (r_pairs s)) (empty (r_on s) (r_meta s) (r_supply s))) as (A1 & A2 & A3). unfold import. rewrite A1, A2, A3. auto 10.
Qed.
(* the exported genesis passes the validation when the denominations are valid, and the
   restarted registry keeps its guarantees under any further operations *)
Theorem C80_export_is_valid : forall checksum l on m u ops, text_ok checksum -> valid_pairs [] [] l = true -> NoDup (map contract l) ->
  all_ok checksum (import l on m u) ops ->
  let s := run checksum (import l on m u) ops in
  (forall p, In p (listing s) -> denom_ok (p_denom p) = true) ->
  valid_pairs [] [] (fst (fst (export s))) = true /\ NoDup (map contract (fst (fst (export s)))).
Proof.
  intros checksum l on m u ops T H N A s. assert (V : inv s) by (apply run_inv; [exact T|apply (import_inv l on m u H N)|exact A]). intro F. split.
  - apply export_valid; [exact V|]. apply Forall_forall. exact F.
  - apply nodup_by; [apply listed_nodup; exact V|]. intros x y Hx Hy E. apply (listed_same s); auto.
Qed.
Example C80_example : let s := run lower (import gen true [] [(uatom, 50)]) hist in
  (forall p, In p (listing s) -> denom_ok (p_denom p) = true) /\ length (listing (restart s)) = 5%nat /\ coin_address (restart s) voucher <> None.
Proof.
  cbv zeta. split; [|split; [vm_compute; reflexivity|vm_compute; discriminate]]. intros p Hp.
  assert (F : forallb (fun p => denom_ok (p_denom p)) (listing (run lower (import gen true [] [(uatom, 50)]) hist)) = true) by (vm_compute; reflexivity). rewrite forallb_forall in F. exact (F p Hp).
Qed.
(* which contracts have the chain's own code is not exported: after a restart the
   contract of a coin does not answer, and a further packet with that coin does not bring
   it back *)
Theorem C80_faces_survive_refuted :
  ~ (forall ops, all_ok lower (import gen true [] []) ops -> let s := run lower (import gen true [] []) ops in forall a, face s a <> None -> face (restart s) a <> None).
Proof.
  intro H. refine (H [Recv voucher true] ltac:(vm_compute; tauto) (decode 0 (repeat 49%N 40)) _ _); [vm_compute; discriminate|vm_compute; reflexivity].
Qed.
Theorem C80_faces_return_refuted :
  ~ (forall d a s', let s := run lower (import gen true [] []) [Recv d true] in ibc_addr d = Some a -> face s a <> None -> recv lower (restart s) d true = Ok s' -> face s' a <> None).
Proof.
  intro H. set (s := run lower (import gen true [] []) [Recv voucher true]). destruct (recv lower (restart s) voucher true) as [s'| |] eqn:E; [|vm_compute in E; discriminate|vm_compute in E; discriminate].
  refine (H voucher (decode 0 (repeat 49%N 40)) s' _ _ E _); [vm_compute; reflexivity|vm_compute; discriminate|]. vm_compute in E. injection E as <-. vm_compute. reflexivity.
Qed.

Print Assumptions C79_one_to_one.
Print Assumptions C79_listing.
Print Assumptions C79_never_redirected.
Print Assumptions C79_additions.
Print Assumptions C79_toggle_and_removal.
Print Assumptions C79_face.
Print Assumptions C79_genesis_contracts_refuted.
Print Assumptions C79_create_redirects_refuted.
Print Assumptions C79_create_mints_refuted.
Print Assumptions C79_lookup_by_denom_refuted.
Print Assumptions C79_link_redirects_refuted.
Print Assumptions C79_register_again_refuted.
Print Assumptions C80_pairs_survive_partial.
Print Assumptions C80_export_is_valid.
Print Assumptions C80_faces_survive_refuted.
Print Assumptions C80_faces_return_refuted.
