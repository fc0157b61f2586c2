(** C35, C36, C37: command line options. *)
From Verif Require Import Base BaseLemmas CsvModel DfModel DfCsvProofs OptModel OptSpec OptProofs JsonPrintProofs.
Local Open Scope Z_scope.

(** [ovf] is what the compiled program computes where the int arithmetic of
    the name hash overflows; nothing is assumed about it. *)

(** C35: a parse reads the command line from left to right. *)
Theorem C35_parse : forall ovf atof ops o p args,
  Forall op_well_typed ops -> opt_run ovf atof ops = Ok o ->
  let ds := decls_of ops in
  let rs := rest_declared ops in
  (set_from_args ovf atof o (p :: args) = Fatal /\
   forall l r, reads ds atoi atof args l r -> ~ demands_met ds rs l r) \/
  (exists o' l r, set_from_args ovf atof o (p :: args) = Ok o' /\ reads ds atoi atof args l r /\
   (forall n i k v, called ds n i k -> last_assigned l i = Some v ->
      get_value ovf k o' n = Ok v /\ is_set ovf o' n = Ok true) /\
   (forall n i k, called ds n i k -> last_assigned l i = None -> is_set ovf o' n = Ok false) /\
   get_rest o' = match rs, r with Some _, _ :: _ => Some r | _, _ => None end).
Proof.
  intros ovf atof ops o p args W E ds rs. apply reach in E as I; auto. fold ds rs in I.
  pose proof (set_from_args_spec ovf atof o ds rs p args I) as S.
  destruct (set_from_args ovf atof o (p :: args)) as [o'| | |]; [right|left; auto|tauto|tauto].
  destruct S as (I' & l & r & R & _ & [F Gr]). exists o', l, r. split; auto. split; auto.
  split; [|split; auto].
  - intros n i k v C L. destruct (fetch_called _ _ _ _ _ _ _ I' C) as (q & d & Fq & Q & D & K & M).
    destruct (F _ _ _ D Q) as [S V]. rewrite L in S, V. split.
    + eapply get_value_val; eauto; [|apply M]. rewrite <- K. apply M.
    + unfold is_set. unfold fetch in Fq. rewrite (find_called _ _ _ _ _ _ _ I' C) in *. cbn [bind] in *. rewrite Fq. cbn. now rewrite S.
  - intros n i k C L. destruct (fetch_called _ _ _ _ _ _ _ I' C) as (q & d & Fq & Q & D & K & M).
    destruct (F _ _ _ D Q) as [S _]. rewrite L in S.
    unfold is_set. unfold fetch in Fq. rewrite (find_called _ _ _ _ _ _ _ I' C) in *. cbn [bind] in *. rewrite Fq. cbn. now rewrite S.
Qed.
Print Assumptions C35_parse.

(** The reading is a function of the declarations and the command line. *)
Theorem C35_deterministic : forall ovf atof ops o args l r l' r',
  Forall op_well_typed ops -> opt_run ovf atof ops = Ok o ->
  reads (decls_of ops) atoi atof args l r -> reads (decls_of ops) atoi atof args l' r' -> l = l' /\ r = r'.
Proof.
  intros ovf atof ops o args l r l' r' W E. apply reach in E as I; auto.
  assert (UN : forall a i j k k', called (decls_of ops) a i k -> called (decls_of ops) a j k' -> i = j /\ k = k')
    by (intros; eapply called_unique; eauto).
  intro R. revert l' r'. induction R; intros l2 r2 R2; inversion R2; subst;
    try (exfalso; match goal with Q : forall i k, ~ called _ ?a i k, C : called _ ?a _ _ |- _ => eapply Q; exact C end);
    try (match goal with Q : called _ ?a _ _, C : called _ ?a _ _ |- _ => destruct (UN _ _ _ _ _ Q C) as [? ?]; subst; try discriminate end);
    auto; edestruct IHR; eauto; subst; auto.
Qed.
Print Assumptions C35_deterministic.

(** The decimal text of an int reads as that int. *)
Theorem C35_int_text : forall z, INT_MIN <= z <= INT_MAX -> atoi (print_int z) = z.
Proof.
  intros z H. refine (proj2 (print_int_read (fun _ => false) z _)). unfold in_int. lia.
Qed.
Print Assumptions C35_int_text.

(** Options used below: -n|--num (int), -v (flag), --name (string). *)
Definition ex_format : list (N * vargs) :=
  [(73%N, AI [45; 110; 124; 45; 45; 110; 117; 109]%N 7); (98%N, AB [45; 118]%N 0);
   (115%N, AS [45; 45; 110; 97; 109; 101]%N (Some [120%N])); (114%N, AR)].
Definition ex_args : list (list N) :=
  [[112]; [97]; [45; 110]; [45; 118]; [45; 45; 110; 117; 109]; [52; 50]; [98]]%N. (* p a -n -v --num 42 b *)
Example C35_example : forall ovf atof, exists o o',
  opt_run ovf atof [OAdd ex_format; OHelp] = Ok o /\ Forall op_well_typed [OAdd ex_format; OHelp] /\
  set_from_args ovf atof o ex_args = Ok o' /\
  get_int ovf o' [45; 110]%N = Ok 42 /\ get_bool ovf o' [45; 118]%N = Ok 0 /\
  get_string ovf o' [45; 45; 110; 97; 109; 101]%N = Ok (Some [120%N]) /\ get_rest o' = Some [[97]; [98]]%N.
Proof.
  intros ovf atof. eexists. eexists. split; [vm_compute; reflexivity|]. split.
  - constructor; [|constructor; [exact Logic.I|constructor]].
    constructor; [left; discriminate|]. constructor; [left; discriminate|]. constructor; [left; discriminate|].
    constructor; [right; discriminate|constructor].
  - split; [vm_compute; reflexivity|]. split; [vm_compute; reflexivity|]. split; [vm_compute; reflexivity|]. split; [vm_compute; reflexivity|]. vm_compute; reflexivity.
Qed.

(** C36: the table accepts exactly the legal, pairwise different names. *)
Theorem C36_accepts : forall ovf atof ops, Forall op_well_typed ops -> adds_only ops ->
  (opt_run ovf atof ops = Fatal /\ ~ table_ok (decls_of ops)) \/
  (exists o, opt_run ovf atof ops = Ok o /\ table_ok (decls_of ops)).
Proof.
  intros ovf atof ops W A. pose proof (run_adds ovf atof ops options_alloc [] None (alloc_inv ovf) W A) as R.
  unfold opt_run. destruct (for_each _ ops options_alloc) as [o| | |]; [right|left; auto|tauto|tauto].
  exists o. split; auto. apply R.
Qed.
Print Assumptions C36_accepts.

(** Lookup after any history: an option is found under its names, with its
    type only; a name nobody declared is reported.  The names are hashed with
    int arithmetic that may overflow: see [C36_long_names_refuted]. *)
Theorem C36_lookup_partial : forall ovf atof ops o n,
  Forall op_well_typed ops -> opt_run ovf atof ops = Ok o ->
  (forall i k, called (decls_of ops) n i k ->
     (exists b, is_set ovf o n = Ok b) /\
     (forall k', same_type k k' -> exists v, get_value ovf k' o n = Ok v) /\
     (forall k', ~ same_type k k' -> get_value ovf k' o n = Fatal) /\
     (forall j k', called (decls_of ops) n j k' -> j = i /\ k' = k)) /\
  ((forall i k, ~ called (decls_of ops) n i k) ->
     is_set ovf o n = Fatal /\ forall k, get_value ovf k o n = Fatal).
Proof.
  intros ovf atof ops o n W E. apply reach in E as I; auto. split.
  - intros i k C. destruct (fetch_called _ _ _ _ _ _ _ I C) as (q & d & Fq & Q & D & K & M).
    assert (T : q_type q = type_of k) by (rewrite <- K; apply M).
    assert (TV : typed (q_type q) (q_val q)) by apply M. rewrite T in TV.
    split; [|split; [|split]].
    + exists (q_set q). unfold is_set. unfold fetch in Fq. rewrite (find_called _ _ _ _ _ _ _ I C) in *. cbn [bind] in *. now rewrite Fq.
    + intros k' S. destruct k, k'; cbn in S; try tauto; cbn [get_value];
        unfold get_bool, get_int, get_double, get_string; rewrite Fq; cbn [bind]; rewrite T; cbn [type_of];
        destruct (q_val q); cbn in TV; try tauto; eexists; reflexivity.
    + intros k' S. destruct k, k'; cbn in S; try tauto; cbn [get_value]; auto;
        unfold get_bool, get_int, get_double, get_string; rewrite Fq; cbn [bind]; rewrite T; reflexivity.
    + intros j k' C'. destruct (called_unique _ _ _ _ _ _ _ _ _ I C C'); auto.
  - intro U. destruct (fetch_unknown _ _ _ _ _ I U) as [F1 F2]. split; auto.
    intro k. destruct k; cbn [get_value]; unfold get_bool, get_int, get_double, get_string; rewrite ?F1; reflexivity.
Qed.
Print Assumptions C36_lookup_partial.

(** Where the hash is defined by the C standard it is what the model uses. *)
Theorem C36_hash_agrees : forall ovf key z, hash_strict key = Ok z -> hash_code ovf key = z.
Proof.
  intros ovf key z. unfold hash_strict, hash_code. generalize 0.
  induction key as [|c key IH]; cbn; intros h E; [congruence|].
  apply bind_ok in E as (m & E1 & E). apply bind_ok in E as (h' & E2 & E).
  unfold chk_int in E1, E2. unfold arith. destruct (in_int (h * 31)); [|discriminate]. injection E1 as <-.
  destruct (in_int (h * 31 + schar c)); [|discriminate]. injection E2 as <-. auto.
Qed.
Print Assumptions C36_hash_agrees.

(** Names and arguments of seven or more ASCII characters overflow the hash:
    signed overflow, undefined in C.  Up to six characters are fine. *)
Theorem C36_long_names_refuted : forall key, Forall (fun c => (0 < c < 128)%N) key ->
  (7 <= length key)%nat -> nth 0 key 0%N = 45%N -> hash_strict key = UB.
Proof.
  intros key F L H.
  assert (G : forall k h, Forall (fun c => (0 < c < 128)%N) k -> 45 <= h ->
     hash_strict_loop h k = UB \/ exists z, hash_strict_loop h k = Ok z /\ h * 31 ^ Z.of_nat (length k) <= z <= INT_MAX \/ k = []).
  { induction k as [|c k IH]; intros h Fk Hh; [right; exists 0; auto|]. apply Forall_cons_iff in Fk as [Fc Fk].
    cbn [hash_strict_loop]. unfold chk_int.
    assert (S : schar c = Z.of_N c) by (unfold schar; destruct (N.ltb_spec c 128); lia).
    rewrite S. destruct (in_int (h * 31)) eqn:I1; cbn [bind]; auto.
    destruct (in_int (h * 31 + Z.of_N c)) eqn:I2; cbn [bind]; auto.
    unfold in_int in I2.
    destruct (IH (h * 31 + Z.of_N c) Fk ltac:(lia)) as [U|[z [[E B]| ->]]]; auto.
    - right. exists z. left. split; auto. cbn [length]. rewrite Nat2Z.inj_succ, Z.pow_succ_r by lia.
      pose proof (Z.pow_pos_nonneg 31 (Z.of_nat (length k)) ltac:(lia) ltac:(lia)). nia.
    - right. exists (h * 31 + Z.of_N c). left. cbn. split; auto. lia. }
  destruct key as [|c key]; [cbn in L; lia|]. cbn in H. subst c. apply Forall_cons_iff in F as [_ F].
  unfold hash_strict. cbn [hash_strict_loop]. cbn -[hash_strict_loop].
  destruct (G key 45 F ltac:(lia)) as [U|[z [[E B]| ->]]]; auto.
  - exfalso. assert (31 ^ 6 <= 31 ^ Z.of_nat (length key)) by (apply Z.pow_le_mono_r; cbn in L; lia).
    change (31 ^ 6) with 887503681 in H. unfold INT_MAX in B. lia.
  - cbn in L. lia.
Qed.
Print Assumptions C36_long_names_refuted.
Theorem C36_short_names : forall key, Forall (fun c => (0 < c < 128)%N) key ->
  (length key <= 6)%nat -> nth 0 key 0%N = 45%N -> exists z, hash_strict key = Ok z.
Proof.
  intros key F L H.
  assert (G : forall k h, Forall (fun c => (0 < c < 128)%N) k -> 0 <= h -> (h + 128) * 31 ^ Z.of_nat (length k) <= INT_MAX ->
     exists z, hash_strict_loop h k = Ok z).
  { induction k as [|c k IH]; intros h Fk Hh B; [exists h; auto|]. apply Forall_cons_iff in Fk as [Fc Fk].
    cbn [hash_strict_loop]. unfold chk_int.
    assert (S : schar c = Z.of_N c) by (unfold schar; destruct (N.ltb_spec c 128); lia).
    cbn [length] in B. rewrite Nat2Z.inj_succ, Z.pow_succ_r in B by lia.
    pose proof (Z.pow_pos_nonneg 31 (Z.of_nat (length k)) ltac:(lia) ltac:(lia)) as P.
    assert (B1 : (h * 31 + Z.of_N c + 128) * 31 ^ Z.of_nat (length k) <= INT_MAX) by nia.
    assert (h * 31 + Z.of_N c + 128 <= INT_MAX) by nia.
    rewrite S. assert (I1 : in_int (h * 31) = true) by (unfold in_int, INT_MIN in *; lia).
    assert (I2 : in_int (h * 31 + Z.of_N c) = true) by (unfold in_int, INT_MIN in *; lia).
    rewrite I1. cbn [bind]. rewrite I2. cbn [bind]. apply IH; auto. lia. }
  destruct key as [|c key]; [discriminate|]. cbn in H. subst c. apply Forall_cons_iff in F as [_ F].
  unfold hash_strict. cbn -[hash_strict_loop]. cbn [hash_strict_loop]. cbn -[hash_strict_loop].
  destruct key as [|c key]; [exists 45; auto|]. apply Forall_cons_iff in F as [Fc F].
  cbn [hash_strict_loop]. 
  assert (S : schar c = Z.of_N c) by (unfold schar; destruct (N.ltb_spec c 128); lia).
  rewrite S. unfold chk_int. change (in_int (45 * 31)) with true. cbn [bind].
  assert (I2 : in_int (45 * 31 + Z.of_N c) = true) by (unfold in_int, INT_MIN, INT_MAX; lia).
  rewrite I2. cbn [bind]. apply G; [auto|lia|]. 
  assert (31 ^ Z.of_nat (length key) <= 31 ^ 4) by (apply Z.pow_le_mono_r; cbn in L; lia).
  change (31 ^ 4) with 923521 in H. unfold INT_MAX. nia.
Qed.
Print Assumptions C36_short_names.
Example C36_hash_example : hash_strict [45; 45; 118; 101; 114; 98; 111; 115; 101]%N = UB. (* --verbose *)
Proof. reflexivity. Qed.

(** Two names of one sort: the first is silently dropped. *)
Theorem C36_two_short_refuted : forall ovf atof, exists o,
  opt_run ovf atof [OAdd [(98%N, AB [45; 97; 124; 45; 98]%N 0)]] = Ok o /\
  is_set ovf o [45; 98]%N = Ok false /\ is_set ovf o [45; 97]%N = Fatal.
Proof.
  intros. eexists. split; [vm_compute; reflexivity|]. split; vm_compute; reflexivity.
Qed.
Print Assumptions C36_two_short_refuted.

(** Non-vacuity: "-a" and "--ab" and "-B" (in one bucket or not) coexist; repeating "-a" is refused. *)
Example C36_example : forall ovf atof,
  (exists o, opt_run ovf atof [OAdd [(98%N, AB [45; 97; 124; 45; 45; 97; 98]%N 0); (105%N, AI [45; 65]%N 3)]] = Ok o /\
     get_int ovf o [45; 65]%N = Ok 3 /\ get_bool ovf o [45; 97]%N = Ok 0 /\ get_int ovf o [45; 97]%N = Fatal) /\
  opt_run ovf atof [OAdd [(98%N, AB [45; 97]%N 0); (105%N, AI [45; 45; 98; 124; 45; 97]%N 3)]] = Fatal.
Proof.
  intros. split; [|vm_compute; reflexivity]. eexists. split; [vm_compute; reflexivity|].
  split; [vm_compute; reflexivity|]. split; [vm_compute; reflexivity|]. vm_compute; reflexivity.
Qed.

(** C37: whatever happened before, after a successful parse the required
    options were given in it and the others not given hold their defaults. *)
Theorem C37_required_defaults : forall ovf atof ops o p args o',
  Forall op_well_typed ops -> opt_run ovf atof ops = Ok o -> set_from_args ovf atof o (p :: args) = Ok o' ->
  exists l r, reads (decls_of ops) atoi atof args l r /\
    (forall i d, nth_error (decls_of ops) i = Some d -> d_required d = true -> last_assigned l i <> None) /\
    (rest_declared ops = Some true -> r <> []) /\
    (forall n i k v, called (decls_of ops) n i k -> last_assigned l i = None -> default_of k = Some v ->
       get_value ovf k o' n = Ok v).
Proof.
  intros ovf atof ops o p args o' W E P. apply reach in E as I; auto.
  pose proof (set_from_args_spec ovf atof o _ _ p args I) as S. rewrite P in S.
  destruct S as (I' & l & r & R & [D1 D2] & [F Gr]). exists l, r. split; auto. split; auto. split; auto.
  intros n i k v C L Dv. destruct (fetch_called _ _ _ _ _ _ _ I' C) as (q & d & Fq & Q & D & K & M).
  destruct (F _ _ _ D Q) as [S V]. rewrite L, K in V.
  eapply get_value_val; eauto; [rewrite <- K; apply M| |apply M].
  rewrite V. destruct k; cbn in Dv; try discriminate; injection Dv as <-; reflexivity.
Qed.
Print Assumptions C37_required_defaults.

(** Before the first parse every option holds its default. *)
Theorem C37_before_parse : forall ovf atof ops o n i k v,
  Forall op_well_typed ops -> adds_only ops -> opt_run ovf atof ops = Ok o ->
  called (decls_of ops) n i k -> default_of k = Some v ->
  get_value ovf k o n = Ok v /\ is_set ovf o n = Ok false.
Proof.
  intros ovf atof ops o n i k v W A E C Dv. apply reach in E as I; auto.
  pose proof (run_adds ovf atof ops options_alloc [] None (alloc_inv ovf) W A) as R.
  unfold opt_run in E. rewrite E in R. destruct R as [_ R]. specialize (R (Forall_nil _)).
  destruct (fetch_called _ _ _ _ _ _ _ I C) as (q & d & Fq & Q & D & K & M).
  pose proof (proj1 (Forall_forall _ _) R q (nth_error_In _ _ Q)) as [S V].
  assert (Df : q_def q = def_of k) by (rewrite <- K; apply M). split.
  - eapply get_value_val; eauto; [rewrite <- K; apply M| |apply M].
    rewrite V, Df. destruct k; cbn in Dv; try discriminate; injection Dv as <-; reflexivity.
  - unfold is_set. unfold fetch in Fq. rewrite (find_called _ _ _ _ _ _ _ I C) in *. cbn [bind] in *. rewrite Fq. cbn. now rewrite S.
Qed.
Print Assumptions C37_before_parse.

(** Two parses in a row: -v of the first is gone after the second; a missing
    required -n is fatal. *)
Example C37_example : forall ovf atof, exists o o',
  opt_run ovf atof [OAdd ex_format; OParse [[112]; [45; 118]; [45; 110]; [49]]%N] = Ok o /\
  get_bool ovf o [45; 118]%N = Ok 1 /\ get_int ovf o [45; 110]%N = Ok 1 /\
  set_from_args ovf atof o [[112]; [45; 110]; [50]]%N = Ok o' /\
  get_bool ovf o' [45; 118]%N = Ok 0 /\ get_int ovf o' [45; 110]%N = Ok 2 /\
  set_from_args ovf atof o' [[112]; [45; 118]]%N = Fatal.
Proof.
  intros. eexists. eexists. split; [vm_compute; reflexivity|]. split; [vm_compute; reflexivity|].
  split; [vm_compute; reflexivity|]. split; [vm_compute; reflexivity|]. split; [vm_compute; reflexivity|].
  split; [vm_compute; reflexivity|]. vm_compute; reflexivity.
Qed.
