(** Theorems about matrices, rotations and quaternions (C83-C85), over the reals.
    The notions used in the statements are in GeoSpec. *)
From Verif Require Import GeoModel GeoSpec GeoProofs.
From Coq Require Import Lra.
Local Open Scope R_scope.

(** C83: products compose the maps; transform applies the map; the product that
    skips the zeros of an upper triangular factor is the product. *)
Theorem C83_product : forall A B u,
  lin (dmat3_mul A B) u = lin A (lin B u) /\ dmat3_transform A u = lin A u /\ lin dmat3_eye u = u /\
  (upper_triangular A -> dmat3_mul_ua A B = dmat3_mul A B).
Proof. intros. split; [apply mul_lin|]. split; [apply transform_lin|]. split; [apply eye_lin|]. apply mul_ua_mul. Qed.
Print Assumptions C83_product.

Theorem C83_product4 : forall A B u, lin4 (dmat4_mul A B) u = lin4 A (lin4 B u).
Proof. exact mul4_lin. Qed.
Print Assumptions C83_product4.

(** A 4x4 matrix set up from a rotation and a translation moves points. *)
Theorem C83_pose : forall A t u,
  lin4 (dmat4_set_translation (dmat4_set_rotation dmat4_eye A) t) (homogeneous u) = homogeneous (vadd (lin A u) t).
Proof.
  intros [] [] []. unfold lin4, homogeneous, dmat4_set_translation, dmat4_set_rotation, dmat4_eye, lin, vadd, vscale, col0, col1, col2.
  cbn. f_equal; ring.
Qed.
Print Assumptions C83_pose.

(** The inverse undoes the map on both sides when the determinant is not zero;
    otherwise it is the zero matrix.  The returned number is the determinant. *)
Theorem C83_inverse : forall A, let '(B, d) := dmat3_inv A in
  d = det3 A /\
  (det3 A <> 0 -> forall u, lin B (lin A u) = u /\ lin A (lin B u) = u) /\
  (det3 A = 0 -> forall u, lin B u = zero3).
Proof.
  intro A. destruct (dmat3_inv A) as [B d] eqn:E.
  assert (EB : fst (dmat3_inv A) = B) by (rewrite E; auto). assert (Ed : snd (dmat3_inv A) = d) by (rewrite E; auto).
  split; [rewrite <- Ed; apply inv_det|]. split.
  - intros D u. rewrite <- EB. now apply inv_lin.
  - intros D u. rewrite <- EB, (inv_zero A D). destruct u. unfold lin, vadd, vscale, col0, col1, col2, zero3. cbn. f_equal; ring.
Qed.
Print Assumptions C83_inverse.

Theorem C83_determinant : forall A B,
  dmat3_det A = det3 A /\ det3 (dmat3_mul A B) = det3 A * det3 B /\
  (det3 A = 0 <-> exists u, u <> zero3 /\ lin A u = zero3).
Proof.
  intros A B. split; [apply det_det3|]. split; [apply det_mul|apply det_zero_kernel].
Qed.
Print Assumptions C83_determinant.

Example C83_example : let A := M3 2 0 1 0 1 0 3 0 1 in
  det3 A = -1 /\ upper_triangular (M3 2 0 0 5 3 0 1 1 1) /\ lin (fst (dmat3_inv A)) (lin A (V3 4 5 6)) = V3 4 5 6.
Proof.
  cbv zeta. assert (D : det3 (M3 2 0 1 0 1 0 3 0 1) = -1) by (unfold det3, dot, cross, col0, col1, col2; cbn; ring).
  split; auto. split; [repeat split|]. apply inv_lin. rewrite D. lra.
Qed.

(** C84: the Euler angle constructors compose rotations around the axes, the
    axis-angle constructor turns around the given axis; all yield rotations. *)
Theorem C84_euler : forall al be ga,
  (forall u, lin (rotation_3d_RzRyRx al be ga) u = rot_z ga (rot_y be (rot_x al u))) /\
  (forall u, lin (rotation_3d_RxRyRz al be ga) u = rot_x al (rot_y be (rot_z ga u))) /\
  is_rotation (rotation_3d_RzRyRx al be ga) /\ is_rotation (rotation_3d_RxRyRz al be ga).
Proof. intros. split; [apply zyx_lin|]. split; [apply xyz_lin|]. split; [apply zyx_rotation|apply xyz_rotation]. Qed.
Print Assumptions C84_euler.

Theorem C84_axis_angle : forall axis th, axis <> zero3 ->
  (forall u, lin (rotation_3d_axis_angle axis th) u = rot_about axis th u) /\
  is_rotation (rotation_3d_axis_angle axis th) /\
  lin (rotation_3d_axis_angle axis th) axis = axis.
Proof. intros axis th H. split; [intro; now apply axis_lin|]. split; [now apply axis_rotation|now apply axis_fixed]. Qed.
Print Assumptions C84_axis_angle.

(** With a zero axis the result need not be a rotation. *)
Theorem C84_zero_axis_refuted : ~ is_rotation (rotation_3d_axis_angle zero3 (PI / 2)).
Proof.
  intros [H _]. specialize (H (V3 1 0 0) (V3 1 0 0)). revert H.
  unfold rotation_3d_axis_angle, dvec3_to_unit, dvec3_norm, dvec3_norm_sq. cbv zeta. cbn [fst v0 v1 v2 zero3].
  replace (0 * 0 + 0 * 0 + 0 * 0) with 0 by ring. rewrite sqrt_0, (proj2 (is_zero_spec 0) eq_refl).
  cbn [v0 v1 v2]. rewrite cos_PI2, sin_PI2. unfold dot, lin, vadd, vscale, col0, col1, col2, zero3.
  cbn [v0 v1 v2 m0 m1 m2 m3 m4 m5 m6 m7 m8]. intro H. ring_simplify in H. lra.
Qed.
Print Assumptions C84_zero_axis_refuted.

Example C84_example : lin (rotation_3d_axis_angle (V3 0 0 2) (PI / 2)) (V3 1 0 0) = V3 0 1 0.
Proof.
  rewrite axis_lin by (intro E; injection E; lra). unfold rot_about, unit_of. rewrite cos_PI2, sin_PI2.
  replace (dot (V3 0 0 2) (V3 0 0 2)) with (2 * 2) by (unfold dot; cbn; ring). rewrite sqrt_square by lra.
  unfold dot, cross, vadd, vscale. cbn [v0 v1 v2]. apply V3_eq; field.
Qed.

(** C85: the quaternion operations are Hamilton's; a unit quaternion q rotates v to
    q v q^-1; its matrix does the same, and products become compositions. *)
Theorem C85_algebra : forall p q,
  quaternion_prod p q = hamilton p q /\
  quaternion_dot q q = qnorm2 q /\
  qnorm2 (quaternion_prod p q) = qnorm2 p * qnorm2 q /\
  (qnorm2 q = 1 -> quaternion_prod q (quaternion_conj q) = Q4 1 0 0 0) /\
  (0 < qnorm2 q -> let '(u, n) := quaternion_to_unit q in qnorm2 u = 1 /\ 0 < n /\ q = quaternion_scale u n) /\
  quaternion_sum p q = quat_of (qscalar p + qscalar q) (vadd (qvector p) (qvector q)) /\
  (forall s, quaternion_scale q s = quat_of (s * qscalar q) (vscale s (qvector q))).
Proof.
  intros p q. rewrite prod_hamilton, norm_hamilton, dot_norm2. repeat (split; [reflexivity|]). split.
  - intro H. rewrite prod_hamilton, conj_inverse. now apply hamilton_inv.
  - split; [|split].
    + intro H. pose proof (to_unit_q q H) as (A & B & C). destruct (quaternion_to_unit q). cbn [fst snd] in *. auto.
    + destruct p, q. reflexivity.
    + intro s. destruct q. unfold quat_of, quaternion_scale, vscale, qscalar, qvector. cbn. apply Q4_eq; ring.
Qed.
Print Assumptions C85_algebra.

Theorem C85_rotate : forall q, qnorm2 q = 1 ->
  (forall v, quat_of 0 (quaternion_rotate q v) = hamilton (hamilton q (quat_of 0 v)) (inverse_unit q)) /\
  (forall v, lin (quaternion_to_R q) v = quaternion_rotate q v) /\
  is_rotation (quaternion_to_R q) /\
  (forall p, qnorm2 p = 1 -> forall v, lin (quaternion_to_R (quaternion_prod p q)) v = lin (quaternion_to_R p) (lin (quaternion_to_R q) v)).
Proof.
  intros q H. split; [intro; apply rotate_pure|]. split; [intro; now apply to_R_rotate|]. split; [now apply to_R_rotation|].
  intros p Hp v. now rewrite prod_hamilton, to_R_prod, mul_lin.
Qed.
Print Assumptions C85_rotate.

(** Going from a rotation matrix to a quaternion and back loses nothing. *)
Theorem C85_from_matrix : forall A, is_rotation A ->
  qnorm2 (quaternion_from_R A) = 1 /\ quaternion_to_R (quaternion_from_R A) = A.
Proof. exact from_R_ok. Qed.
Print Assumptions C85_from_matrix.

Theorem C85_to_matrix : forall q, qnorm2 q = 1 ->
  quaternion_from_R (quaternion_to_R q) = q \/ quaternion_from_R (quaternion_to_R q) = qneg q.
Proof. exact from_to_R. Qed.
Print Assumptions C85_to_matrix.

Theorem C85_axis_angle : forall axis th, axis <> zero3 ->
  qnorm2 (quaternion_from_axis_angle axis th) = 1 /\
  quaternion_to_R (quaternion_from_axis_angle axis th) = rotation_3d_axis_angle axis th.
Proof.
  intros axis th H. split; [now apply from_axis_unit|]. apply lin_ext. intro u. now rewrite from_axis_lin, axis_lin.
Qed.
Print Assumptions C85_axis_angle.

Example C85_example : let q := Q4 (1/2) (1/2) (1/2) (1/2) in
  qnorm2 q = 1 /\ quaternion_rotate q (V3 1 2 3) = V3 3 1 2 /\ is_rotation (quaternion_to_R q).
Proof.
  cbv zeta. assert (U : qnorm2 (Q4 (1/2) (1/2) (1/2) (1/2)) = 1) by (unfold qnorm2, qscalar, qvector, dot; cbn; field).
  split; auto. split; [unfold quaternion_rotate; cbn; apply V3_eq; field|now apply to_R_rotation].
Qed.
