(* C118: logos are what their hash says, stay, and are served as uploaded. *)
From Verif Require Import Lib.Base Lib.Zmap Logos.Model Logos.Spec Logos.Proofs.
Open Scope Z_scope.

Section Claims.
Variable sha : list Z -> Z.
Variable png : list Z -> option (Z * Z).
Let run := run sha png.
Let step := step sha png.
Let store_logo := store_logo sha png.

(* Started from fine logos and with limits of at most m, every stored logo is stored under
   the hash of its text, and its text stands for a PNG image of 200 by 200 and at most m
   bytes. *)
Theorem C118_every_logo_is_fine : forall m g s os, m < 2 ^ 61 -> init g = Ok s -> (exists x, n_max g = Some x /\ 0 <= x <= m) ->
  Forall (fun l => fine sha png m (g_hash l) l) (n_logos g) -> limits_within m os ->
  forall k l, get_logo (run s os) k = Some l -> fine sha png m k l.
Proof.
  intros m g s os M Hs (x & Hx & Lx) F W k l G. unfold init in Hs. rewrite Hx in Hs. assert (s = fold_left set_logo (n_logos g) (mk_state x [])) as -> by congruence.
  destruct (fold_logos (n_logos g) (mk_state x [])) as (E & So & P).
  assert (good sha png m (fold_left set_logo (n_logos g) (mk_state x []))) as G0.
  { split; [rewrite E; exact Lx|]. split; [apply So; constructor|]. apply (P (fine sha png m)); [discriminate|exact F]. }
  destruct (run_good sha png m os _ M G0 W) as (_ & _ & H). apply H. exact G.
Qed.

(* A text is accepted exactly when it is at most a third longer than the limit and stands for
   a PNG image of 200 by 200; then it is put under its hash, with the height, and nothing
   else changes. *)
Theorem C118_what_storing_does : forall s h t, 0 <= l_max s < 2 ^ 61 ->
  (forall s' k, store_logo s h t = Ok (s', k) <->
     (Z.of_nat (length t) <= room (l_max s) /\ exists b, reads_as t b /\ png b = Some (200, 200)) /\
     k = sha t /\ s' = mk_state (l_max s) (zset (l_logos s) (sha t) (mk_logo (sha t) t (Some h)))) /\
  store_logo s h t <> Panic.
Proof.
  intros s h t M. unfold store_logo, Model.store_logo. pose proof (validate_spec png s t M) as V. split.
  - intros s' k. destruct (validate png s t).
    + split.
      * intro H. split; [apply V; reflexivity|]. split; [congruence|]. assert (s' = set_logo s (mk_logo (sha t) t (Some h))) as -> by congruence. reflexivity.
      * intros (_ & -> & ->). reflexivity.
    + split; [discriminate|]. intros (H & _). apply V in H. discriminate.
  - destruct (validate png s t); discriminate.
Qed.

(* Whoever uploads an image of 200 by 200 whose base64 text fits gets its hash, and from then
   on, whatever else happens, that hash and every token that names it are served exactly
   these bytes. Different texts are assumed to have different hashes. *)
Theorem C118_served_as_uploaded : forall gen s h b, (forall x y, sha x = sha y -> x = y) -> 0 <= l_max s < 2 ^ 61 ->
  bytes b -> b <> [] -> png b = Some (200, 200) -> Z.of_nat (length (encode b)) <= room (l_max s) ->
  exists s', store_logo s h (encode b) = Ok (s', sha (encode b)) /\ step s (Upload h true (encode b)) = Ok s' /\ step s (Create h (encode b)) = Ok s' /\
    forall os, serve_hash (run s' os) (sha (encode b)) = Ok b /\
      forall denom symbol, serve_token gen (run s' os) (Some denom) (Some (symbol, Some (sha (encode b)))) = Ok b.
Proof.
  intros gen s h b Inj M B Ne P L. set (t := encode b) in *. assert (reads_as t b) as R by (apply encode_reads, B).
  assert (validate png s t = true) as V by (apply validate_spec; [exact M|]; split; [exact L|]; exists b; auto).
  assert (t <> []) as Nt. { intro E. rewrite E in R. apply decode_reads in R. cbn in R. congruence. }
  exists (set_logo s (mk_logo (sha t) t (Some h))). unfold store_logo, step, Model.step, Model.store_logo. rewrite V. split; [reflexivity|]. split; [reflexivity|]. split.
  { destruct t; [contradiction|reflexivity]. }
  intro os. assert (holds sha (run (set_logo s (mk_logo (sha t) t (Some h))) os) t) as (g & G & D).
  { apply run_holds; [exact Inj|]. exists (mk_logo (sha t) t (Some h)). cbn [set_logo l_logos g_hash]. rewrite zget_zset_same. auto. }
  assert (send t = Ok b) as S. { unfold send. apply decode_reads in R. rewrite (trim_decoded t b R), R. reflexivity. }
  split.
  - unfold serve_hash, get_logo. rewrite G, D. exact S.
  - intros denom symbol. unfold serve_token, get_logo. rewrite G, D. destruct t; [contradiction|exact S].
Qed.

(* Nobody can remove a logo or change its text. *)
Theorem C118_logos_stay : forall s os k l, (forall x y, sha x = sha y -> x = y) -> get_logo s k = Some l -> k = sha (g_data l) ->
  exists l', get_logo (run s os) k = Some l' /\ g_data l' = g_data l.
Proof.
  intros s os k l Inj G ->. apply run_holds; [exact Inj|]. exists l. auto.
Qed.

(* A chain started from an export has the same limit and the same logos. *)
Theorem C118_export : forall g s0 os, init g = Ok s0 -> let s := run s0 os in init (export s) = Ok s.
Proof.
  intros g s0 os I s. assert (keyed s) as K by (apply run_keyed, (init_keyed g), I). clearbody s. clear I. destruct s as [x m]. destruct K as [So H]. unfold init, export. cbn [n_max n_logos l_max l_logos] in *. f_equal.
  assert (forall pre, Forall (fun p => Forall (fun q => q < fst p) (zkeys pre)) m -> zsorted m -> (forall k l, In (k, l) m -> g_hash l = k) ->
    fold_left set_logo (zvals m) (mk_state x pre) = mk_state x (pre ++ m)) as G.
  { clear So H. induction m as [|[k l] m IH]; intros pre F So H; cbn [zvals map snd fold_left]; [rewrite app_nil_r; reflexivity|].
    unfold set_logo at 2. cbn [l_max l_logos]. rewrite (H k l) by (left; reflexivity). rewrite zset_last by exact (Forall_inv F). apply zsorted_cons in So as [So Lt].
    change (fold_left set_logo (zvals m) (mk_state x (pre ++ [(k, l)])) = mk_state x (pre ++ (k, l) :: m)).
    rewrite IH; [rewrite <- app_assoc; reflexivity| |exact So|intros k' l' I; apply H; right; exact I].
    rewrite Forall_forall. intros [k' l'] I. unfold zkeys. rewrite map_app. apply Forall_app. split.
    - pose proof (Forall_inv_tail F) as F'. rewrite Forall_forall in F'. exact (F' _ I).
    - constructor; [|constructor]. cbn [fst]. rewrite Forall_forall in Lt. apply Lt. apply in_map_iff. exists (k', l'). auto. }
  apply (G []); [rewrite Forall_forall; intros; constructor|exact So|]. intros k l I. apply H. apply in_zget; assumption.
Qed.

(* Unknown hashes are served nothing, and a fine logo is served as the bytes it stands for. *)
Theorem C118_served_only_what_is_stored : forall m s k b, (forall l, get_logo s k = Some l -> fine sha png m k l) ->
  (serve_hash s k = Ok b <-> exists l, get_logo s k = Some l /\ reads_as (g_data l) b).
Proof.
  intros m s k b F. unfold serve_hash. destruct (get_logo s k) as [l|]; [|split; [discriminate|intros (l & E & _); discriminate]].
  destruct (F l eq_refl) as (_ & _ & b' & R & _). pose proof R as D. apply decode_reads in D. unfold send. rewrite (trim_decoded _ _ D), D. split.
  - intro E. assert (b' = b) as -> by congruence. eauto.
  - intros (l' & E & R'). assert (l' = l) as -> by congruence. f_equal. exact (reads_unique _ _ _ R R').
Qed.

(* Only governance sets the limit, and that changes nothing else; an upload needs a readable
   sender; a token may be made without a logo. *)
Theorem C118_messages : forall s, (forall a m s', step s (SetMax a m) = Ok s' <-> a = true /\ s' = mk_state m (l_logos s)) /\
  (forall h t, step s (Upload h false t) = Err) /\ (forall h, step s (Create h []) = Ok s) /\
  (forall h t s', t <> [] -> (step s (Create h t) = Ok s' <-> step s (Upload h true t) = Ok s')).
Proof.
  intro s. repeat match goal with |- _ /\ _ => split end.
  - intros [] m s'; cbn; split; try discriminate; [intro E; split; congruence|intros [_ ->]; reflexivity|intros [E _]; discriminate].
  - reflexivity.
  - reflexivity.
  - intros h [|c t] s' N; [contradiction|]. reflexivity.
Qed.

(* Images of exactly the largest size are refused when that is not a multiple of three, as
   with the default of 1048576 bytes. *)
Theorem C118_largest_image_refuted : forall s h t b, 0 <= l_max s < 2 ^ 61 -> l_max s mod 3 <> 0 -> reads_as t b -> Z.of_nat (length b) = l_max s -> store_logo s h t = Err.
Proof.
  intros s h t b M N R L. unfold store_logo, Model.store_logo. destruct (validate png s t) eqn:V; [|reflexivity]. apply validate_spec in V as (Len & _); [|exact M].
  apply reads_length in R. exfalso. rewrite L in R. unfold room in Len. generalize dependent (l_max s). intros. lia.
Qed.

(* The same image has as many hashes as it has texts: with one line end more, and for an
   image of 3n+1 bytes with other spare bits. *)
Theorem C118_one_image_many_hashes_refuted : forall s h b, (forall x y, sha x = sha y -> x = y) -> 0 <= l_max s < 2 ^ 61 ->
  bytes b -> png b = Some (200, 200) -> Z.of_nat (length (encode b)) + 1 <= room (l_max s) ->
  exists s1 s2, store_logo s h (encode b) = Ok (s1, sha (encode b)) /\ store_logo s1 h (encode b ++ [10]) = Ok (s2, sha (encode b ++ [10])) /\
    sha (encode b ++ [10]) <> sha (encode b) /\ serve_hash s2 (sha (encode b)) = Ok b /\ serve_hash s2 (sha (encode b ++ [10])) = Ok b.
Proof.
  intros s h b Inj M B P L. set (t := encode b) in *. assert (reads_as t b) as R by (apply encode_reads, B).
  assert (reads_as (t ++ [10]) b) as R'. { apply decode_reads. apply decode_reads in R. unfold decode in *. rewrite filter_app. cbn [filter newline Z.eqb]. rewrite app_nil_r. exact R. }
  assert (validate png s t = true) as V by (apply validate_spec; [exact M|]; split; [lia|]; exists b; auto).
  assert (t ++ [10] <> t) as Ne. { intro E. apply (f_equal (@length Z)) in E. rewrite app_length in E. cbn [length] in E. lia. }
  exists (set_logo s (mk_logo (sha t) t (Some h))), (set_logo (set_logo s (mk_logo (sha t) t (Some h))) (mk_logo (sha (t ++ [10])) (t ++ [10]) (Some h))).
  unfold store_logo, Model.store_logo. rewrite V. assert (validate png (set_logo s (mk_logo (sha t) t (Some h))) (t ++ [10]) = true) as V'.
  { apply validate_spec; [exact M|]. split; [rewrite app_length; cbn [length set_logo l_max]; lia|]. exists b. auto. }
  rewrite V'. apply decode_reads in R. apply decode_reads in R'. repeat match goal with |- _ /\ _ => split end; try reflexivity.
  - intro E. apply Inj in E. contradiction.
  - unfold serve_hash, get_logo. cbn [set_logo l_logos g_hash]. rewrite zget_zset_other by (intro E; apply Inj in E; contradiction). rewrite zget_zset_same. cbn [g_data].
    unfold send. rewrite (trim_decoded t b R), R. reflexivity.
  - unfold serve_hash, get_logo. cbn [set_logo l_logos g_hash]. rewrite zget_zset_same. cbn [g_data]. unfold send. rewrite (trim_decoded _ b R'), R'. reflexivity.
Qed.

(* Storing a logo again changes the height at which it was created. *)
Theorem C118_date_changes_refuted : forall s h h' t s1 k, store_logo s h t = Ok (s1, k) -> exists s2, store_logo s1 h' t = Ok (s2, k) /\
  get_logo s1 k = Some (mk_logo k t (Some h)) /\ get_logo s2 k = Some (mk_logo k t (Some h')).
Proof.
  intros s h h' t s1 k H. unfold store_logo, Model.store_logo in *. destruct (validate png s t) eqn:V; [|discriminate].
  assert (s1 = set_logo s (mk_logo (sha t) t (Some h))) as -> by congruence. assert (k = sha t) as -> by congruence.
  replace (validate png (set_logo s (mk_logo (sha t) t (Some h))) t) with true by (rewrite <- V; reflexivity).
  eexists. split; [reflexivity|]. unfold get_logo. cbn [set_logo l_logos g_hash]. rewrite !zget_zset_same. auto.
Qed.

(* Limits are not checked when governance sets them: with 2^63 bytes, no logo at all is
   accepted any more. A genesis with such a limit passes its check. *)
Theorem C118_limit_overflow_refuted : forall s, exists s', step s (SetMax true (2 ^ 63)) = Ok s' /\ basic (mk_genesis (Some (2 ^ 63)) []) = Ok tt /\
  forall h t, t <> [] -> store_logo s' h t = Err.
Proof.
  intro s. exists (mk_state (2 ^ 63) (l_logos s)). split; [reflexivity|]. split; [reflexivity|]. intros h t N. unfold store_logo, Model.store_logo, validate. cbn [l_max].
  change (text_limit (2 ^ 63)) with 0. destruct t as [|c t]; [contradiction|]. reflexivity.
Qed.

(* A genesis may put any text under any hash; it stays there and is what the hash is served. *)
Theorem C118_genesis_unchecked_refuted : forall k t h b, reads_as t b -> exists s, basic (mk_genesis (Some (1024 * 1024)) [mk_logo k t h]) = Ok tt /\
  init (mk_genesis (Some (1024 * 1024)) [mk_logo k t h]) = Ok s /\ get_logo s k = Some (mk_logo k t h) /\ serve_hash s k = Ok b.
Proof.
  intros k t h b R. exists (mk_state (1024 * 1024) [(k, mk_logo k t h)]). split; [reflexivity|]. split; [reflexivity|].
  unfold serve_hash, get_logo. cbn [l_logos zget]. rewrite Z.eqb_refl. split; [reflexivity|]. cbn [g_data]. unfold send. apply decode_reads in R. rewrite (trim_decoded t b R), R. reflexivity.
Qed.
End Claims.
Print Assumptions C118_every_logo_is_fine.
Print Assumptions C118_what_storing_does.
Print Assumptions C118_served_as_uploaded.
Print Assumptions C118_logos_stay.
Print Assumptions C118_export.
Print Assumptions C118_served_only_what_is_stored.
Print Assumptions C118_messages.
Print Assumptions C118_largest_image_refuted.
Print Assumptions C118_one_image_many_hashes_refuted.
Print Assumptions C118_date_changes_refuted.
Print Assumptions C118_limit_overflow_refuted.
Print Assumptions C118_genesis_unchecked_refuted.

(* ---- a case: "images" are byte strings that start with 137 80 ---- *)
Fixpoint lg_unary (p r : positive) : positive := match p with xH => xI (xI r) | xO q => xO (xO (lg_unary q r)) | xI q => xO (xI (lg_unary q r)) end.
Definition lg_code (z : Z) : positive := match z with Z0 => xH | Zpos p => xO p | Zneg p => xI p end.
Definition lg_hash (l : list Z) : Z := Zpos (fold_right (fun z r => lg_unary (lg_code z) r) xH l).
Definition lg_png (b : list Z) : option (Z * Z) := match b with 137 :: 80 :: w :: h :: _ => Some (w, h) | _ => None end.
Definition lg_image : list Z := [137; 80; 200; 200; 7].
(* "iVDIyAc=" *)
Definition lg_text : list Z := [105; 86; 68; 73; 121; 65; 99; 61].

Example C118_case :
  let s0 := mk_state 1000 [] in encode lg_image = lg_text /\ bytes lg_image /\ lg_png lg_image = Some (200, 200) /\
  (exists s1, store_logo lg_hash lg_png s0 5 lg_text = Ok (s1, lg_hash lg_text) /\
     serve_hash (run lg_hash lg_png s1 [SetMax true 3; Upload 6 true lg_text; Create 7 (lg_text ++ [13; 10])]) (lg_hash lg_text) = Ok lg_image /\
     serve_token (fun _ => []) s1 (Some 1) (Some (2, Some (lg_hash lg_text))) = Ok lg_image) /\
  store_logo lg_hash lg_png s0 5 (encode [137; 80; 199; 200]) = Err /\ store_logo lg_hash lg_png (mk_state 5 []) 5 lg_text = Err /\
  store_logo lg_hash lg_png s0 5 (data_prefix ++ lg_text) = Err /\ decode [81; 82; 61; 61] = decode [81; 81; 61; 61].
Proof.
  cbv zeta. split; [reflexivity|]. split; [repeat apply Forall_cons; try apply Forall_nil; lia|]. split; [reflexivity|]. split.
  { eexists. split; [vm_compute; reflexivity|]. split; vm_compute; reflexivity. }
  vm_compute. auto.
Qed.
Example C118_case_hash : forall a b, lg_hash a = lg_hash b -> a = b.
Proof.
  assert (forall p q r s, lg_unary p r = lg_unary q s -> p = q /\ r = s) as U.
  { induction p as [p IH|p IH|]; intros [q|q|] r s; cbn [lg_unary]; intro E; try discriminate; try (injection E as E; apply IH in E as [-> ->]; auto). injection E as ->. auto. }
  assert (forall x y, lg_code x = lg_code y -> x = y) as C by (intros [|p|p] [|q|q]; cbn; intro E; congruence).
  intros a b E. unfold lg_hash in E. assert (fold_right (fun z r => lg_unary (lg_code z) r) xH a = fold_right (fun z r => lg_unary (lg_code z) r) xH b) as H by congruence. clear E.
  revert b H. induction a as [|x a IH]; intros [|y b] H; cbn [fold_right] in H; [reflexivity| | |].
  - destruct (lg_code y); discriminate.
  - destruct (lg_code x); discriminate.
  - apply U in H as [H1 H2]. apply C in H1. apply IH in H2. congruence.
Qed.
