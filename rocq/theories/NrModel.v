(** Estimation from normalized matches: nx_homography_estimate_norm_ransac,
    src/nx_homography.c:345-360, and nx_fundamental_estimate_norm_ransac,
    src/nx_epipolar.c:280-299.

    Simplifications.  Real numbers.  The estimation itself (nx_homography_estimate_ransac,
    nx_fundamental_estimate_ransac; RansacModel.v) is a parameter: from matches and
    tolerance it gives the matrix, the matches and the number returned. *)
From Coq Require Import Reals.
From Verif Require Import Base ProjModel.
Local Open Scope R_scope.

Section NormRansac.
Variable ransac : list pmatch -> R -> mat3 * list pmatch * Z.
Definition homography_norm_ransac (l : list pmatch) (inlier_tolerance : R) : mat3 * list pmatch * Z :=
  let '(st, l) := normalize_matches l in
  let norm_tol := inlier_tolerance / sdp st in
  let '(h, l, n) := ransac l norm_tol in
  (denormalize_homography st h, denormalize_matches st l, n).
Definition fundamental_norm_ransac (l : list pmatch) (inlier_tolerance : R) : mat3 * list pmatch * Z :=
  let '(st, l) := normalize_matches l in
  let norm_tol := inlier_tolerance / sdp st in
  let '(F, l, n) := ransac l norm_tol in
  (denormalize_fundamental st F, denormalize_matches st l, n).
End NormRansac.
