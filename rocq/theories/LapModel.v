(** The wrappers of LAPACK: src/nx_svd.c and src/nx_linear_solvers.c.

    Simplifications.  An array is the number of its elements, None for NULL; its
    contents are LAPACK's business.  LAPACK itself is a function from the arguments of
    a call to info and, for a query, the work size answered.  The two precisions have the
    same code; the work size answered is taken as an integer.  malloc does not fail.  The
    model gives the calls made. *)
From Verif Require Import Base.
Local Open Scope Z_scope.

Inductive job := JobN | JobA.
(** Arguments of dgesvd_ and sgesvd_. *)
Record gesvd := mkSvd { s_jobu : job; s_jobvt : job; s_m : Z; s_n : Z; s_A : option Z; s_lda : Z; s_S : option Z;
  s_U : option Z; s_ldu : Z; s_Vt : option Z; s_ldvt : Z; s_work : Z; s_lwork : Z }.
Section Svd.
(** info, and the number left in work[0]. *)
Variable lapack : gesvd -> Z * Z.
(** nx_dgesvd_query_lwork, src/nx_svd.c:119-141 and 50-72. *)
Definition query (jobu jobvt : job) (m n : Z) : gesvd := mkSvd jobu jobvt m n None m None None m None n 1 (-1).
Definition query_lwork (jobu jobvt : job) (m n : Z) : res Z :=
  let '(info, work) := lapack (query jobu jobvt m n) in if info =? 0 then Ok work else Fatal.
(** nx_dsvd, 143-153, and nx_ssvd, 74-84.  A negative size wraps to a huge one in
    NX_NEW, which fails. *)
Definition nx_svd (jobu jobvt : job) (m n : Z) (A : option Z) (lda : Z) (S U : option Z) (ldu : Z) (Vt : option Z) (ldvt : Z) : res (list gesvd) :=
  let* lwork := query_lwork jobu jobvt m n in
  if lwork <? 0 then Fatal
  else Ok [query jobu jobvt m n; mkSvd jobu jobvt m n A lda S U ldu Vt ldvt lwork lwork].
(** 155-181 and 86-112. *)
Definition nx_svd_only_s (S : option Z) (m n : Z) (A : option Z) (lda : Z) := nx_svd JobN JobN m n A lda S None m None n.
Definition nx_svd_us (U : option Z) (ldu : Z) (S : option Z) (m n : Z) (A : option Z) (lda : Z) := nx_svd JobA JobN m n A lda S U ldu None n.
Definition nx_svd_svt (S Vt : option Z) (ldvt m n : Z) (A : option Z) (lda : Z) := nx_svd JobN JobA m n A lda S None m Vt ldvt.
Definition nx_svd_usvt (U : option Z) (ldu : Z) (S Vt : option Z) (ldvt m n : Z) (A : option Z) (lda : Z) := nx_svd JobA JobA m n A lda S U ldu Vt ldvt.
End Svd.

(** Arguments of dsysv_. *)
Record sysv := mkSys { y_upper : bool; y_n : Z; y_nrhs : Z; y_A : Z; y_lda : Z; y_ipiv : Z; y_B : Z; y_ldb : Z; y_work : Z; y_lwork : Z }.
(** nx_dsym_solver, src/nx_linear_solvers.c:36-57: the call and the result. *)
Definition nx_dsym_solver (lapack : sysv -> Z) (upper : bool) (n n_rhs : Z) (A : option Z) (lda : Z) (B : option Z) (ldb : Z) (ipiv : option Z) : res (sysv * bool) :=
  match A, B, ipiv with
  | Some A, Some B, Some ipiv =>
    if (n >=? 1) && (n_rhs >=? 1) && (lda >=? n) && (ldb >=? n) then
      let* lwork := chk_int (n * n) in
      let c := mkSys upper n n_rhs A lda ipiv B ldb lwork lwork in
      Ok (c, lapack c =? 0)
    else Fatal
  | _, _, _ => Fatal
  end.
