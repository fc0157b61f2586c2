(** What the documentation of LAPACK demands of calls of xGESVD and DSYSV. *)
From Verif Require Import Base LapModel.
Local Open Scope Z_scope.

(** An array with room for [k] numbers. *)
Definition room (a : option Z) (k : Z) : Prop := exists l, a = Some l /\ k <= l.
(** The smallest work array of xGESVD: max(1, 3 min(m,n) + max(m,n), 5 min(m,n)). *)
Definition min_work (m n : Z) : Z := Z.max 1 (Z.max (3 * Z.min m n + Z.max m n) (5 * Z.min m n)).
(** The scalar arguments. *)
Definition svd_sizes (c : gesvd) : Prop :=
  0 <= s_m c /\ 0 <= s_n c /\ Z.max 1 (s_m c) <= s_lda c /\
  1 <= s_ldu c /\ (s_jobu c = JobA -> s_m c <= s_ldu c) /\ 1 <= s_ldvt c /\ (s_jobvt c = JobA -> s_n c <= s_ldvt c).
(** A query of the work size: no array but work is used. *)
Definition valid_query (c : gesvd) : Prop := svd_sizes c /\ s_lwork c = -1 /\ 1 <= s_work c.
(** A decomposition: U and Vt are used if asked for. *)
Definition valid_svd (c : gesvd) : Prop :=
  svd_sizes c /\ min_work (s_m c) (s_n c) <= s_lwork c <= s_work c /\
  room (s_A c) (s_lda c * s_n c) /\ room (s_S c) (Z.min (s_m c) (s_n c)) /\
  (s_jobu c = JobA -> room (s_U c) (s_ldu c * s_m c)) /\ (s_jobvt c = JobA -> room (s_Vt c) (s_ldvt c * s_n c)).
(** LAPACK answers valid queries with a work size that is enough. *)
Definition answers (lapack : gesvd -> Z * Z) : Prop :=
  forall c, valid_query c -> fst (lapack c) = 0 /\ min_work (s_m c) (s_n c) <= snd (lapack c).
Definition valid_sysv (c : sysv) : Prop :=
  0 <= y_n c /\ 0 <= y_nrhs c /\ Z.max 1 (y_n c) <= y_lda c /\ Z.max 1 (y_n c) <= y_ldb c /\ 1 <= y_lwork c <= y_work c /\
  y_lda c * y_n c <= y_A c /\ y_ldb c * y_nrhs c <= y_B c /\ y_n c <= y_ipiv c.
(** A decomposition of the m x n matrix A of the caller, with the results asked for in
    the arrays of the caller. *)
Definition decomposes (c : gesvd) (m n : Z) (A : option Z) (lda : Z) (S : option Z) (U Vt : option (option Z * Z)) : Prop :=
  s_m c = m /\ s_n c = n /\ s_A c = A /\ s_lda c = lda /\ s_S c = S /\
  match U with Some (U, ldu) => s_jobu c = JobA /\ s_U c = U /\ s_ldu c = ldu | None => s_jobu c = JobN end /\
  match Vt with Some (Vt, ldvt) => s_jobvt c = JobA /\ s_Vt c = Vt /\ s_ldvt c = ldvt | None => s_jobvt c = JobN end.
