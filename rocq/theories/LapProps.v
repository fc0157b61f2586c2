(** C161: calls of LAPACK. *)
From Verif Require Import Base Gray LapModel LapSpec.
Local Open Scope Z_scope.

Lemma svd_calls lapack ju jv m n A lda S U ldu Vt ldvt : answers lapack -> 1 <= m -> 1 <= n -> m <= lda -> m <= ldu -> n <= ldvt ->
  room A (lda * n) -> room S (Z.min m n) -> (ju = JobA -> room U (ldu * m)) -> (jv = JobA -> room Vt (ldvt * n)) ->
  exists q wk lw, nx_svd lapack ju jv m n A lda S U ldu Vt ldvt = Ok [q; mkSvd ju jv m n A lda S U ldu Vt ldvt wk lw] /\
    valid_query q /\ valid_svd (mkSvd ju jv m n A lda S U ldu Vt ldvt wk lw).
Proof.
  intros AN M N LA LU LV RA RS RU RV. unfold nx_svd, query_lwork.
  assert (Q : valid_query (query ju jv m n)) by (unfold valid_query, svd_sizes, query; cbn; repeat split; intros; lia).
  destruct (AN _ Q) as [I W]. destruct (lapack (query ju jv m n)) as [info work]. cbn [fst snd s_m s_n query] in I, W. subst info. cbn [Z.eqb bind].
  assert (1 <= work) by (unfold min_work in W; lia). destruct (Z.ltb_spec work 0); [lia|].
  eexists _, _, _. split; [reflexivity|]. split; [exact Q|].
  unfold valid_svd, svd_sizes. cbn. repeat split; intros; try lia; auto.
Qed.
Ltac svd := intros; unfold nx_svd_only_s, nx_svd_us, nx_svd_svt, nx_svd_usvt;
  match goal with |- exists q c, nx_svd ?l ?ju ?jv ?m ?n ?A ?lda ?S ?U ?ldu ?Vt ?ldvt = _ /\ _ =>
    let H := fresh in assert (H := svd_calls l ju jv m n A lda S U ldu Vt ldvt);
    destruct H as (? & ? & ? & ? & ? & ?); try assumption; try lia; try discriminate; try (intros _; assumption) end;
  eexists _, _; (split; [eassumption|]); (split; [assumption|]); (split; [assumption|]); unfold decomposes; cbn; repeat split.

(** Whatever LAPACK does, if it answers queries: each function asks for the work size and
    then decomposes the matrix of the caller, with valid arguments and work of the size
    answered; the results asked for go to the arrays of the caller. *)
Theorem C161_only_s : forall lapack S m n A lda, answers lapack -> 1 <= m -> 1 <= n -> m <= lda ->
  room A (lda * n) -> room S (Z.min m n) ->
  exists q c, nx_svd_only_s lapack S m n A lda = Ok [q; c] /\ valid_query q /\ valid_svd c /\ decomposes c m n A lda S None None.
Proof. svd. Qed.
Print Assumptions C161_only_s.
Theorem C161_us : forall lapack U ldu S m n A lda, answers lapack -> 1 <= m -> 1 <= n -> m <= lda -> m <= ldu ->
  room A (lda * n) -> room S (Z.min m n) -> room U (ldu * m) ->
  exists q c, nx_svd_us lapack U ldu S m n A lda = Ok [q; c] /\ valid_query q /\ valid_svd c /\ decomposes c m n A lda S (Some (U, ldu)) None.
Proof. svd. Qed.
Print Assumptions C161_us.
Theorem C161_svt : forall lapack S Vt ldvt m n A lda, answers lapack -> 1 <= m -> 1 <= n -> m <= lda -> n <= ldvt ->
  room A (lda * n) -> room S (Z.min m n) -> room Vt (ldvt * n) ->
  exists q c, nx_svd_svt lapack S Vt ldvt m n A lda = Ok [q; c] /\ valid_query q /\ valid_svd c /\ decomposes c m n A lda S None (Some (Vt, ldvt)).
Proof. svd. Qed.
Print Assumptions C161_svt.
Theorem C161_usvt : forall lapack U ldu S Vt ldvt m n A lda, answers lapack -> 1 <= m -> 1 <= n -> m <= lda -> m <= ldu -> n <= ldvt ->
  room A (lda * n) -> room S (Z.min m n) -> room U (ldu * m) -> room Vt (ldvt * n) ->
  exists q c, nx_svd_usvt lapack U ldu S Vt ldvt m n A lda = Ok [q; c] /\ valid_query q /\ valid_svd c /\ decomposes c m n A lda S (Some (U, ldu)) (Some (Vt, ldvt)).
Proof. svd. Qed.
Print Assumptions C161_usvt.

(** That LAPACK could not decompose the matrix (info of the second call) is not told:
    the outcome is the same whatever it answers there. *)
Theorem C161_failure_refuted : forall lapack lapack' ju jv m n A lda S U ldu Vt ldvt,
  (forall c, s_lwork c = -1 -> lapack c = lapack' c) ->
  nx_svd lapack ju jv m n A lda S U ldu Vt ldvt = nx_svd lapack' ju jv m n A lda S U ldu Vt ldvt.
Proof. intros. unfold nx_svd, query_lwork. rewrite H; reflexivity. Qed.
Print Assumptions C161_failure_refuted.

(** Symmetric systems up to size 46340: a valid call for the system of the caller, and
    true exactly if LAPACK solved it.  Wrong sizes and NULL stop the program.  Missing:
    larger systems, see C161_large_refuted. *)
Theorem C161_sym_partial : forall lapack upper n n_rhs A lda B ldb ipiv, 1 <= n <= 46340 -> 1 <= n_rhs -> n <= lda -> n <= ldb ->
  lda * n <= A -> ldb * n_rhs <= B -> n <= ipiv ->
  exists c b, nx_dsym_solver lapack upper n n_rhs (Some A) lda (Some B) ldb (Some ipiv) = Ok (c, b) /\ valid_sysv c /\ (b = true <-> lapack c = 0) /\
    y_upper c = upper /\ y_n c = n /\ y_nrhs c = n_rhs /\ y_A c = A /\ y_lda c = lda /\ y_B c = B /\ y_ldb c = ldb /\ y_ipiv c = ipiv.
Proof.
  intros lapack upper n n_rhs A lda B ldb ipiv N R LA LB RA RB RI. unfold nx_dsym_solver.
  destruct (Z.geb_spec n 1), (Z.geb_spec n_rhs 1), (Z.geb_spec lda n), (Z.geb_spec ldb n); try lia. cbn [andb].
  assert (1 <= n * n <= 2147395600) by nia. rewrite chk_int_in by (unfold INT_MIN, INT_MAX; lia). cbn [bind].
  eexists _, _. split; [reflexivity|]. split; [unfold valid_sysv; cbn; repeat split; lia|]. split; [apply Z.eqb_eq|]. cbn. repeat split.
Qed.
Print Assumptions C161_sym_partial.
Theorem C161_sym_checked : forall lapack upper n n_rhs A lda B ldb ipiv,
  A = None \/ B = None \/ ipiv = None \/ n < 1 \/ n_rhs < 1 \/ lda < n \/ ldb < n ->
  nx_dsym_solver lapack upper n n_rhs A lda B ldb ipiv = Fatal.
Proof.
  intros lapack upper n n_rhs [A|] lda [B|] ldb [ipiv|] H; try reflexivity. unfold nx_dsym_solver.
  destruct H as [H|[H|[H|H]]]; try discriminate. destruct (Z.geb_spec n 1), (Z.geb_spec n_rhs 1), (Z.geb_spec lda n), (Z.geb_spec ldb n); try reflexivity; lia.
Qed.
Print Assumptions C161_sym_checked.
(** Larger systems: the size of the work array overflows int. *)
Theorem C161_large_refuted : forall lapack upper n n_rhs A lda B ldb ipiv, 46341 <= n -> 1 <= n_rhs -> n <= lda -> n <= ldb ->
  nx_dsym_solver lapack upper n n_rhs (Some A) lda (Some B) ldb (Some ipiv) = UB.
Proof.
  intros lapack upper n n_rhs A lda B ldb ipiv N R LA LB. unfold nx_dsym_solver.
  destruct (Z.geb_spec n 1), (Z.geb_spec n_rhs 1), (Z.geb_spec lda n), (Z.geb_spec ldb n); try lia. cbn [andb].
  assert (2147488281 <= n * n) by nia. unfold chk_int, in_int. destruct (Z.leb_spec (n * n) INT_MAX); [unfold INT_MAX in *; lia|]. now rewrite andb_false_r.
Qed.
Print Assumptions C161_large_refuted.

(** A LAPACK that answers, and a 4 x 3 matrix. *)
Example C161_example : let lapack c := (0, min_work (s_m c) (s_n c)) in answers lapack /\
  nx_svd_us lapack (Some 16) 4 (Some 3) 4 3 (Some 12) 4
  = Ok [mkSvd JobA JobN 4 3 None 4 None None 4 None 3 1 (-1); mkSvd JobA JobN 4 3 (Some 12) 4 (Some 3) (Some 16) 4 None 3 15 15].
Proof. cbv zeta. split; [intros c _; cbn; lia|reflexivity]. Qed.
