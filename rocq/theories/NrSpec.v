(** Results of estimations from matches. *)
From Coq Require Import Reals Permutation.
From Verif Require Import Base ProjModel GeoSpec ProjSpec.
Local Open Scope R_scope.

(** A match agrees with a homography: its point is mapped closer than [t] to its partner. *)
Definition agrees_h (H : mat3) (t : R) (c : pmatch) : Prop := exists y, maps_to H (mx c) y /\ distance y (mxp c) < t.
(** A match agrees with a fundamental matrix: its second point is closer than [t] to a
    point of the epipolar line of the first. *)
Definition agrees_f (F : mat3) (t : R) (c : pmatch) : Prop :=
  let L := lin F (h3 (mx c)) in (v0 L <> 0 \/ v1 L <> 0) /\ exists q, dot (h3 q) L = 0 /\ distance (mxp c) q < t.
(** The result of an estimation from the matches [l]: the same matches, in any order,
    flagged exactly if they agree with the matrix; their number, or zero. *)
Definition flagged (agrees : mat3 -> R -> pmatch -> Prop) (l : list pmatch) (t : R) (r : mat3 * list pmatch * Z) : Prop :=
  let '(A, l', n) := r in
  Permutation (map (set_inlier true) l') (map (set_inlier true) l) /\
  (forall c, In c l' -> inlier c = true <-> agrees A t c) /\
  (n = 0%Z \/ n = Z.of_nat (length (filter inlier l'))).
