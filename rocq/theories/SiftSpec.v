(** What matching and caching are expected to do. *)
From Verif Require Import Base Flt KeyModel SiftModel.

Local Open Scope Z_scope.

(** Squared Euclidean distance of two byte vectors. *)
Fixpoint dist (a b : list N) : Z :=
  match a, b with x :: a', y :: b' => (Z.of_N x - Z.of_N y) * (Z.of_N x - Z.of_N y) + dist a' b' | _, _ => 0 end.
(** Descriptor [i] of an array of descriptors. *)
Definition descriptor (d : list N) (i : nat) : list N := firstn 128 (skipn (128 * i) d).
(** Distance from descriptor [i] of the first set to [j] of the second. *)
Definition desc_dist (desc descp : list N) (i j : nat) : Z := dist (descriptor desc i) (descriptor descp j).

(** [j] is the first of the nearest among 0 .. np-1. *)
Definition first_nearest (D : nat -> Z) (np j : nat) : Prop :=
  (j < np)%nat /\ (forall k, (k < np)%nat -> D j <= D k) /\ (forall k, (k < j)%nat -> D j < D k).
(** The distance of the second nearest; INT_MAX when there is no second. *)
Definition second_distance (D : nat -> Z) (np j : nat) (d : Z) : Prop :=
  (np = 1%nat /\ d = INT_MAX) \/
  ((exists k, (k < np)%nat /\ k <> j /\ D k = d) /\ forall k, (k < np)%nat -> k <> j -> d <= D k).

(** [m] links keypoint [k] to keypoint [kp] at squared distance [d]: positions
    in the original image, distance, 0.3 pixels at the scale of each keypoint,
    ids, not yet an inlier. *)
Definition links (k kp : key) (d : Z) (m : pmatch) : Prop :=
  p_x m = fmul (flt_of_bits (k_xs k)) (flt_of_bits (k_scale k)) /\
  p_y m = fmul (flt_of_bits (k_ys k)) (flt_of_bits (k_scale k)) /\
  p_xp m = fmul (flt_of_bits (k_xs kp)) (flt_of_bits (k_scale kp)) /\
  p_yp m = fmul (flt_of_bits (k_ys kp)) (flt_of_bits (k_scale kp)) /\
  p_cost m = FF (d * U) /\
  p_sigma_x m = fmul (mkf (3 * U) 10) (flt_of_bits (k_scale k)) /\
  p_sigma_xp m = fmul (mkf (3 * U) 10) (flt_of_bits (k_scale kp)) /\
  p_id m = k_id k /\ p_idp m = k_id kp /\ p_inlier m = false.

(** The ratio test: d0 < thr^2 d1, in single precision. *)
Definition ratio_test (thr : flt) (d0 d1 : Z) : bool := f_lt (of_int d0) (fmul (fmul thr thr) (of_int d1)).
(** Keypoint [i] is matched with [j]: nearest, and clearly nearer than the
    second nearest. *)
Definition accepted (desc descp : list N) (np : nat) (thr : flt) (i j : nat) : Prop :=
  first_nearest (desc_dist desc descp i) np j /\
  exists d1, second_distance (desc_dist desc descp i) np j d1 /\ ratio_test thr (desc_dist desc descp i j) d1 = true.
