From Verif Require Import GeoModel GeoSpec.
From Coq Require Import Lra Psatz.
Local Open Scope R_scope.

Lemma is_zero_spec : forall d, is_zero d = true <-> d = 0.
Proof. intro d. unfold is_zero. destruct (Req_EM_T d 0); split; intros; congruence. Qed.
Lemma is_zero_no : forall d, d <> 0 -> is_zero d = false.
Proof. intros d H. unfold is_zero. destruct (Req_EM_T d 0); congruence. Qed.
Lemma r_lt_spec : forall a b, r_lt a b = true <-> a < b.
Proof. intros. unfold r_lt. destruct (Rlt_dec a b); split; intros; auto; congruence. Qed.
Lemma r_lt_no : forall a b, r_lt a b = false <-> b <= a.
Proof. intros. unfold r_lt. destruct (Rlt_dec a b); split; intros; auto; try congruence; lra. Qed.
Lemma r_le_spec : forall a b, r_le a b = true <-> a <= b.
Proof. intros. unfold r_le. destruct (Rle_dec a b); split; intros; auto; congruence. Qed.

Ltac geo :=
  unfold lin, det3, dot, cross, vadd, vscale, col0, col1, col2, transpose, upper_triangular, zero3 in *;
  cbn [v0 v1 v2 m0 m1 m2 m3 m4 m5 m6 m7 m8 q0 q1 q2 q3 px py] in *.

Lemma V3_eq : forall a b c a' b' c', a = a' -> b = b' -> c = c' -> V3 a b c = V3 a' b' c'.
Proof. congruence. Qed.
Lemma M3_eq : forall a b c d e f g h i a' b' c' d' e' f' g' h' i',
  a = a' -> b = b' -> c = c' -> d = d' -> e = e' -> f = f' -> g = g' -> h = h' -> i = i' ->
  M3 a b c d e f g h i = M3 a' b' c' d' e' f' g' h' i'.
Proof. congruence. Qed.
Lemma lin_ext : forall A B, (forall u, lin A u = lin B u) -> A = B.
Proof.
  intros [? ? ? ? ? ? ? ? ?] [? ? ? ? ? ? ? ? ?] H.
  pose proof (H (V3 1 0 0)) as H0. pose proof (H (V3 0 1 0)) as H1. pose proof (H (V3 0 0 1)) as H2.
  geo. injection H0; injection H1; injection H2; intros; apply M3_eq; lra.
Qed.

(** * Matrices *)
Lemma mul_lin : forall A B u, lin (dmat3_mul A B) u = lin A (lin B u).
Proof. intros [] [] []. unfold dmat3_mul. geo. apply V3_eq; ring. Qed.
Lemma det_det3 : forall A, dmat3_det A = det3 A.
Proof. intros []. unfold dmat3_det. geo. ring. Qed.
Lemma inv_det : forall A, snd (dmat3_inv A) = det3 A.
Proof. intros []. unfold dmat3_inv. geo. cbv zeta. cbn [snd]. ring. Qed.
Lemma det_mul : forall A B, det3 (dmat3_mul A B) = det3 A * det3 B.
Proof. intros [] []. unfold dmat3_mul. geo. ring. Qed.
Lemma inv_lin : forall A u, det3 A <> 0 -> lin (fst (dmat3_inv A)) (lin A u) = u /\ lin A (lin (fst (dmat3_inv A)) u) = u.
Proof.
  intros A u D. pose proof (inv_det A) as E. unfold dmat3_inv in *. cbv zeta in *. cbn [fst snd] in *.
  rewrite E, is_zero_no by auto.
  assert (T : det3 A * (1 / det3 A) = 1) by (field; auto).
  set (t := 1 / det3 A) in *. clearbody t. clear E D. destruct A as [a b c d e f g h i], u as [x y z]. geo.
  split; apply V3_eq;
  match goal with
  | |- _ = ?k => transitivity (k * ((a * (e * i - f * h) + b * (f * g - d * i) + c * (d * h - e * g)) * t));
      [ring|rewrite T; ring]
  end.
Qed.
Lemma inv_zero : forall A, det3 A = 0 -> fst (dmat3_inv A) = M3 0 0 0 0 0 0 0 0 0.
Proof.
  intros A D. pose proof (inv_det A) as E. unfold dmat3_inv in *. cbv zeta in *. cbn [fst snd] in *.
  rewrite E. apply is_zero_spec in D. rewrite D. reflexivity.
Qed.
Lemma mul_ua_mul : forall U A, upper_triangular U -> dmat3_mul_ua U A = dmat3_mul U A.
Proof. intros [] [] (H1 & H2 & H3). geo. subst. unfold dmat3_mul_ua, dmat3_mul. geo. apply M3_eq; ring. Qed.
Lemma transform_lin : forall A u, dmat3_transform A u = lin A u.
Proof. intros [] []. unfold dmat3_transform. geo. apply V3_eq; ring. Qed.
Lemma eye_lin : forall u, lin dmat3_eye u = u.
Proof. intros []. unfold dmat3_eye. geo. apply V3_eq; ring. Qed.
Lemma mul4_lin : forall A B u, lin4 (dmat4_mul A B) u = lin4 A (lin4 B u).
Proof. intros [] [] []. unfold lin4, dmat4_mul. cbn. f_equal; ring. Qed.

(** * Rotations *)
Lemma orthonormal_rotation : forall A,
  dot (col0 A) (col0 A) = 1 -> dot (col1 A) (col1 A) = 1 -> dot (col2 A) (col2 A) = 1 ->
  dot (col0 A) (col1 A) = 0 -> dot (col0 A) (col2 A) = 0 -> dot (col1 A) (col2 A) = 0 ->
  cross (col0 A) (col1 A) = col2 A -> cross (col1 A) (col2 A) = col0 A -> cross (col2 A) (col0 A) = col1 A ->
  is_rotation A.
Proof.
  intros [a b c d e f g h i] H1 H2 H3 H4 H5 H6 H7 H8 H9. geo.
  injection H7 as E1 E2 E3. injection H8 as F1 F2 F3. injection H9 as G1 G2 G3.
  split; intros [x y z] [x' y' z']; geo.
  - transitivity (x*x'*(a*a+b*b+c*c) + y*y'*(d*d+e*e+f*f) + z*z'*(g*g+h*h+i*i)
      + (x*y'+y*x')*(a*d+b*e+c*f) + (x*z'+z*x')*(a*g+b*h+c*i) + (y*z'+z*y')*(d*g+e*h+f*i)); [ring|].
    rewrite H1, H2, H3, H4, H5, H6. ring.
  - apply V3_eq; [rewrite <- E1, <- F1, <- G1|rewrite <- E2, <- F2, <- G2|rewrite <- E3, <- F3, <- G3]; ring.
Qed.
(** The converse: what a rotation's columns satisfy. *)
Lemma rotation_cols : forall A, is_rotation A ->
  dot (col0 A) (col0 A) = 1 /\ dot (col1 A) (col1 A) = 1 /\ dot (col2 A) (col2 A) = 1 /\
  dot (col0 A) (col1 A) = 0 /\ dot (col0 A) (col2 A) = 0 /\ dot (col1 A) (col2 A) = 0 /\
  cross (col0 A) (col1 A) = col2 A /\ cross (col1 A) (col2 A) = col0 A /\ cross (col2 A) (col0 A) = col1 A.
Proof.
  intros A [Hd Hc].
  assert (e0 : lin A (V3 1 0 0) = col0 A) by (destruct A; geo; apply V3_eq; ring).
  assert (e1 : lin A (V3 0 1 0) = col1 A) by (destruct A; geo; apply V3_eq; ring).
  assert (e2 : lin A (V3 0 0 1) = col2 A) by (destruct A; geo; apply V3_eq; ring).
  rewrite <- e0, <- e1, <- e2, !Hd, <- !Hc.
  repeat (split; [geo; ring|]).
  repeat split; f_equal; geo; apply V3_eq; ring.
Qed.
Lemma rotation_rows : forall A, is_rotation A ->
  m0 A * m0 A + m3 A * m3 A + m6 A * m6 A = 1 /\
  m1 A * m1 A + m4 A * m4 A + m7 A * m7 A = 1 /\
  m2 A * m2 A + m5 A * m5 A + m8 A * m8 A = 1.
Proof.
  intros A H. destruct (rotation_cols A H) as (A1 & A2 & A3 & A4 & A5 & A6 & C1 & C2 & C3).
  destruct A as [a b c d e f g h i]. geo.
  injection C1 as E1 E2 E3. injection C2 as F1 F2 F3. injection C3 as G1 G2 G3.
  assert (D : a * (e * i - f * h) + b * (f * g - d * i) + c * (d * h - e * g) = 1) by (rewrite F1, F2, F3; auto).
  split; [|split].
  - transitivity (a * (e * i - f * h) + d * (h * c - i * b) + g * (b * f - c * e)); [rewrite F1, G1, E1; auto|].
    rewrite <- D. ring.
  - transitivity (b * (f * g - d * i) + e * (i * a - g * c) + h * (c * d - a * f)); [rewrite F2, G2, E2; auto|].
    rewrite <- D. ring.
  - transitivity (c * (d * h - e * g) + f * (g * b - h * a) + i * (a * e - b * d)); [rewrite F3, G3, E3; auto|].
    rewrite <- D. ring.
Qed.
Lemma rotation_rows_orth : forall A, is_rotation A ->
  m0 A * m1 A + m3 A * m4 A + m6 A * m7 A = 0 /\
  m0 A * m2 A + m3 A * m5 A + m6 A * m8 A = 0 /\
  m1 A * m2 A + m4 A * m5 A + m7 A * m8 A = 0.
Proof.
  intros A H. destruct (rotation_cols A H) as (A1 & A2 & A3 & A4 & A5 & A6 & C1 & C2 & C3).
  destruct A as [a b c d e f g h i]. geo.
  injection C1 as E1 E2 E3. injection C2 as F1 F2 F3. injection C3 as G1 G2 G3.
  split; [|split].
  - rewrite <- F1, <- G1, <- E1. ring.
  - rewrite <- F1, <- G1, <- E1. ring.
  - rewrite <- F2, <- G2, <- E2. ring.
Qed.
Lemma rotation_comp : forall A f g,
  (forall u, lin A u = f (g u)) ->
  (forall u v, dot (f u) (f v) = dot u v) -> (forall u v, f (cross u v) = cross (f u) (f v)) ->
  (forall u v, dot (g u) (g v) = dot u v) -> (forall u v, g (cross u v) = cross (g u) (g v)) ->
  is_rotation A.
Proof. intros A f g H Fd Fc Gd Gc. split; intros u v; rewrite !H; [now rewrite Fd, Gd|now rewrite Gc, Fc]. Qed.

Lemma cs2 : forall a, cos a * cos a + sin a * sin a = 1.
Proof. intro a. pose proof (sin2_cos2 a) as H. unfold Rsqr in H. lra. Qed.
Ltac use_cs2 a := let H := fresh in pose proof (cs2 a) as H; revert H; generalize (cos a), (sin a); intros ? ? H.

Lemma rot_x_dot : forall a u v, dot (rot_x a u) (rot_x a v) = dot u v.
Proof. intros a [x y z] [x' y' z']. unfold rot_x. geo. pose proof (cs2 a) as H. set (c := cos a) in *. set (s := sin a) in *.
  transitivity (x * x' + (c * c + s * s) * (y * y') + (c * c + s * s) * (z * z')); [ring|rewrite H; ring]. Qed.
Lemma rot_y_dot : forall a u v, dot (rot_y a u) (rot_y a v) = dot u v.
Proof. intros a [x y z] [x' y' z']. unfold rot_y. geo. pose proof (cs2 a) as H. set (c := cos a) in *. set (s := sin a) in *.
  transitivity (y * y' + (c * c + s * s) * (x * x') + (c * c + s * s) * (z * z')); [ring|rewrite H; ring]. Qed.
Lemma rot_z_dot : forall a u v, dot (rot_z a u) (rot_z a v) = dot u v.
Proof. intros a [x y z] [x' y' z']. unfold rot_z. geo. pose proof (cs2 a) as H. set (c := cos a) in *. set (s := sin a) in *.
  transitivity (z * z' + (c * c + s * s) * (x * x') + (c * c + s * s) * (y * y')); [ring|rewrite H; ring]. Qed.
Lemma rot_x_cross : forall a u v, rot_x a (cross u v) = cross (rot_x a u) (rot_x a v).
Proof. intros a [x y z] [x' y' z']. unfold rot_x. geo. pose proof (cs2 a) as H. set (c := cos a) in *. set (s := sin a) in *.
  apply V3_eq; try ring. transitivity ((c * c + s * s) * (y * z' - z * y')); [rewrite H; ring|ring]. Qed.
Lemma rot_y_cross : forall a u v, rot_y a (cross u v) = cross (rot_y a u) (rot_y a v).
Proof. intros a [x y z] [x' y' z']. unfold rot_y. geo. pose proof (cs2 a) as H. set (c := cos a) in *. set (s := sin a) in *.
  apply V3_eq; try ring. transitivity ((c * c + s * s) * (z * x' - x * z')); [rewrite H; ring|ring]. Qed.
Lemma rot_z_cross : forall a u v, rot_z a (cross u v) = cross (rot_z a u) (rot_z a v).
Proof. intros a [x y z] [x' y' z']. unfold rot_z. geo. pose proof (cs2 a) as H. set (c := cos a) in *. set (s := sin a) in *.
  apply V3_eq; try ring. transitivity ((c * c + s * s) * (x * y' - y * x')); [rewrite H; ring|ring]. Qed.

Lemma zyx_lin : forall al be ga u, lin (rotation_3d_RzRyRx al be ga) u = rot_z ga (rot_y be (rot_x al u)).
Proof. intros al be ga [x y z]. unfold rotation_3d_RzRyRx, rot_x, rot_y, rot_z. cbv zeta. geo. apply V3_eq; ring. Qed.
Lemma xyz_lin : forall al be ga u, lin (rotation_3d_RxRyRz al be ga) u = rot_x al (rot_y be (rot_z ga u)).
Proof. intros al be ga [x y z]. unfold rotation_3d_RxRyRz, rot_x, rot_y, rot_z. cbv zeta. geo. apply V3_eq; ring. Qed.
Lemma zyx_rotation : forall al be ga, is_rotation (rotation_3d_RzRyRx al be ga).
Proof.
  intros. split; intros; rewrite !zyx_lin; [now rewrite rot_z_dot, rot_y_dot, rot_x_dot|].
  now rewrite rot_x_cross, rot_y_cross, rot_z_cross.
Qed.
Lemma xyz_rotation : forall al be ga, is_rotation (rotation_3d_RxRyRz al be ga).
Proof.
  intros. split; intros; rewrite !xyz_lin; [now rewrite rot_x_dot, rot_y_dot, rot_z_dot|].
  now rewrite rot_z_cross, rot_y_cross, rot_x_cross.
Qed.

Lemma dot_nonneg : forall u, 0 <= dot u u.
Proof. intros [x y z]. geo. nra. Qed.
Lemma dot_zero : forall u, dot u u = 0 -> u = zero3.
Proof. intros [x y z] H. geo. assert (x = 0 /\ y = 0 /\ z = 0) as (-> & -> & ->) by (repeat split; nra). reflexivity. Qed.
Lemma norm_pos : forall u, u <> zero3 -> 0 < sqrt (dot u u).
Proof.
  intros u H. apply sqrt_lt_R0. destruct (Rle_lt_or_eq_dec _ _ (dot_nonneg u)) as [|E]; auto.
  exfalso. apply H, dot_zero. auto.
Qed.
Lemma to_unit_spec : forall u, u <> zero3 ->
  fst (dvec3_to_unit u) = unit_of u /\ snd (dvec3_to_unit u) = sqrt (dot u u).
Proof.
  intros u H. pose proof (norm_pos u H) as P. unfold dvec3_to_unit, dvec3_norm, dvec3_norm_sq, unit_of.
  change (v0 u * v0 u + v1 u * v1 u + v2 u * v2 u) with (dot u u). cbv zeta. cbn [fst snd].
  rewrite is_zero_no by lra. split; auto. destruct u as [x y z]. unfold vscale at 1. cbn [v0 v1 v2]. apply V3_eq; field; lra.
Qed.
Lemma unit_of_unit : forall u, u <> zero3 -> dot (unit_of u) (unit_of u) = 1.
Proof.
  intros u H. pose proof (norm_pos u H) as P. unfold unit_of. set (n := sqrt (dot u u)) in *.
  assert (N : n * n = dot u u) by (apply sqrt_sqrt, dot_nonneg).
  transitivity (dot u u * (1 / n) * (1 / n)); [destruct u; geo; ring|]. rewrite <- N. field. lra.
Qed.
Lemma unit_of_back : forall u, u <> zero3 -> u = vscale (sqrt (dot u u)) (unit_of u).
Proof.
  intros u H. pose proof (norm_pos u H) as P. unfold unit_of. set (n := sqrt (dot u u)) in *. clearbody n.
  destruct u as [x y z]. geo. apply V3_eq; field; lra.
Qed.
Lemma axis_lin : forall ax th u, ax <> zero3 -> lin (rotation_3d_axis_angle ax th) u = rot_about ax th u.
Proof.
  intros ax th u H. unfold rotation_3d_axis_angle, rot_about. cbv zeta. rewrite (proj1 (to_unit_spec ax H)).
  set (k := unit_of ax). clearbody k. destruct k, u. geo. apply V3_eq; ring.
Qed.
Lemma rot_about_dot : forall ax th u v, ax <> zero3 -> dot (rot_about ax th u) (rot_about ax th v) = dot u v.
Proof.
  intros ax th u v H. unfold rot_about. cbv zeta. pose proof (unit_of_unit ax H) as U. set (k := unit_of ax) in *. clearbody k.
  pose proof (cs2 th) as C. set (c := cos th) in *. set (s := sin th) in *. clearbody c s.
  destruct k as [a b d], u as [x y z], v as [x' y' z']. geo.
  assert (S : s * s = 1 - c * c) by lra. assert (D : d * d = 1 - a * a - b * b) by lra.
  ring [S D].
Qed.
Lemma rot_about_cross : forall ax th u v, ax <> zero3 -> rot_about ax th (cross u v) = cross (rot_about ax th u) (rot_about ax th v).
Proof.
  intros ax th u v H. unfold rot_about. cbv zeta. pose proof (unit_of_unit ax H) as U. set (k := unit_of ax) in *. clearbody k.
  pose proof (cs2 th) as C. set (c := cos th) in *. set (s := sin th) in *. clearbody c s.
  destruct k as [a b d], u as [x y z], v as [x' y' z']. geo.
  assert (S : s * s = 1 - c * c) by lra. assert (D : d * d = 1 - a * a - b * b) by lra.
  apply V3_eq; ring [S D].
Qed.
Lemma axis_rotation : forall ax th, ax <> zero3 -> is_rotation (rotation_3d_axis_angle ax th).
Proof. intros ax th H. split; intros; rewrite !axis_lin by auto; [now apply rot_about_dot|now apply rot_about_cross]. Qed.
Lemma axis_fixed : forall ax th, ax <> zero3 -> lin (rotation_3d_axis_angle ax th) ax = ax.
Proof.
  intros ax th H. rewrite axis_lin by auto. unfold rot_about. cbv zeta. pose proof (unit_of_unit ax H) as U.
  pose proof (unit_of_back ax H) as B. set (n := sqrt (dot ax ax)) in *. set (k := unit_of ax) in *. clearbody k n.
  rewrite B. clear B H. destruct k as [a b d]. geo. assert (D : d * d = 1 - a * a - b * b) by lra. apply V3_eq; ring [D].
Qed.

(** * Quaternions *)
Lemma Q4_eq : forall a b c d a' b' c' d', a = a' -> b = b' -> c = c' -> d = d' -> Q4 a b c d = Q4 a' b' c' d'.
Proof. congruence. Qed.
Ltac qcbn := cbn [q0 q1 q2 q3 v0 v1 v2].
Ltac qgeo := unfold hamilton, inverse_unit, qnorm2, qneg, quat_of, qscalar, qvector in *; geo.

Lemma prod_hamilton : forall p q, quaternion_prod p q = hamilton p q.
Proof. intros [] []. unfold quaternion_prod. qgeo. apply Q4_eq; ring. Qed.
Lemma hamilton_eq : forall a b c d a' b' c' d', hamilton (Q4 a b c d) (Q4 a' b' c' d') =
  Q4 (a * a' - b * b' - c * c' - d * d') (a * b' + b * a' + c * d' - d * c')
     (a * c' - b * d' + c * a' + d * b') (a * d' + b * c' - c * b' + d * a').
Proof. intros. now rewrite <- prod_hamilton. Qed.
Lemma rotate_eq : forall a b c d x y z, quaternion_rotate (Q4 a b c d) (V3 x y z) =
  V3 ((a * a + b * b - c * c - d * d) * x + 2 * (b * c - a * d) * y + 2 * (b * d + a * c) * z)
     (2 * (b * c + a * d) * x + (a * a - b * b + (c * c - d * d)) * y + 2 * (c * d - a * b) * z)
     (2 * (b * d - a * c) * x + 2 * (c * d + a * b) * y + (a * a - b * b - (c * c - d * d)) * z).
Proof. reflexivity. Qed.
Lemma conj_inverse : forall q, quaternion_conj q = inverse_unit q.
Proof. intros []. unfold quaternion_conj. qgeo. apply Q4_eq; ring. Qed.
Lemma dot_norm2 : forall q, quaternion_dot q q = qnorm2 q.
Proof. intros []. unfold quaternion_dot. qgeo. ring. Qed.
Lemma norm_hamilton : forall p q, qnorm2 (hamilton p q) = qnorm2 p * qnorm2 q.
Proof. intros [] []. rewrite hamilton_eq. qgeo. ring. Qed.
Lemma hamilton_assoc : forall p q r, hamilton p (hamilton q r) = hamilton (hamilton p q) r.
Proof. intros [] [] []. rewrite !hamilton_eq. apply Q4_eq; ring. Qed.
Lemma hamilton_inv : forall q, qnorm2 q = 1 -> hamilton q (inverse_unit q) = quat_of 1 zero3.
Proof. intros [a b c d] H. qgeo. apply Q4_eq; try ring. rewrite <- H. ring. Qed.
Lemma rotate_hamilton : forall q v, quaternion_rotate q v = qvector (hamilton (hamilton q (quat_of 0 v)) (inverse_unit q)).
Proof. intros [] []. rewrite rotate_eq. unfold inverse_unit, quat_of, qscalar, qvector, vscale. qcbn. rewrite !hamilton_eq. qcbn. apply V3_eq; ring. Qed.
Lemma to_R_rotate : forall q v, qnorm2 q = 1 -> lin (quaternion_to_R q) v = quaternion_rotate q v.
Proof.
  intros [a b c d] [x y z] H. unfold quaternion_to_R, quaternion_rotate. cbv zeta. qgeo.
  apply V3_eq; rewrite <- H; ring.
Qed.
Lemma rotate_prod : forall p q v, quaternion_rotate (hamilton p q) v = quaternion_rotate p (quaternion_rotate q v).
Proof. intros [] [] []. rewrite hamilton_eq, !rotate_eq. apply V3_eq; ring. Qed.
Lemma rotate_dot : forall q u v, dot (quaternion_rotate q u) (quaternion_rotate q v) = qnorm2 q * qnorm2 q * dot u v.
Proof. intros [] [] []. rewrite !rotate_eq. qgeo. ring. Qed.
Lemma rotate_cross : forall q u v, vscale (qnorm2 q) (quaternion_rotate q (cross u v)) = cross (quaternion_rotate q u) (quaternion_rotate q v).
Proof. intros [] [] []. unfold cross at 1. qcbn. rewrite !rotate_eq. qgeo. apply V3_eq; ring. Qed.
Lemma to_R_rotation : forall q, qnorm2 q = 1 -> is_rotation (quaternion_to_R q).
Proof.
  intros q H. split; intros u v; rewrite !to_R_rotate by auto.
  - rewrite rotate_dot, H. ring.
  - rewrite <- rotate_cross, H. destruct (quaternion_rotate q (cross u v)). geo. apply V3_eq; ring.
Qed.
Lemma to_R_prod : forall p q, qnorm2 p = 1 -> qnorm2 q = 1 ->
  quaternion_to_R (hamilton p q) = dmat3_mul (quaternion_to_R p) (quaternion_to_R q).
Proof.
  intros p q Hp Hq. apply lin_ext. intro u.
  rewrite mul_lin, !to_R_rotate; auto; [apply rotate_prod|]. rewrite norm_hamilton, Hp, Hq. ring.
Qed.
Lemma to_unit_q : forall q, 0 < qnorm2 q ->
  qnorm2 (fst (quaternion_to_unit q)) = 1 /\ q = quaternion_scale (fst (quaternion_to_unit q)) (snd (quaternion_to_unit q)) /\
  0 < snd (quaternion_to_unit q).
Proof.
  intros q H. unfold quaternion_to_unit. cbv zeta. cbn [fst snd]. rewrite dot_norm2.
  pose proof (sqrt_lt_R0 _ H) as P. assert (N : sqrt (qnorm2 q) * sqrt (qnorm2 q) = qnorm2 q) by (apply sqrt_sqrt; lra).
  split; [|split; auto].
  - transitivity (qnorm2 q * (1 / sqrt (qnorm2 q)) * (1 / sqrt (qnorm2 q))).
    { unfold quaternion_scale. set (s := 1 / sqrt (qnorm2 q)). clearbody s. destruct q as [a b c d]. qgeo. ring. }
    rewrite <- N at 1. field. lra.
  - destruct q as [a b c d]. set (n := sqrt _) in *. clearbody n. unfold quaternion_scale. qcbn. apply Q4_eq; field; lra.
Qed.
(** Scaling a quaternion does not change the rotation it stands for, once normalised. *)
Lemma from_axis_unit : forall ax th, ax <> zero3 -> qnorm2 (quaternion_from_axis_angle ax th) = 1.
Proof.
  intros ax th H. unfold quaternion_from_axis_angle. destruct (is_zero th); [qgeo; ring|]. cbv zeta.
  rewrite (proj1 (to_unit_spec ax H)). pose proof (unit_of_unit ax H) as U. set (k := unit_of ax) in *. clearbody k.
  pose proof (cs2 (th * (1/2))) as C. set (c := cos _) in *. set (s := sin _) in *. clearbody c s.
  destruct k as [a b d]. qgeo. transitivity (c * c + s * s * (a * a + b * b + d * d)); [ring|rewrite U; lra].
Qed.
Lemma from_axis_lin : forall ax th u, ax <> zero3 -> lin (quaternion_to_R (quaternion_from_axis_angle ax th)) u = rot_about ax th u.
Proof.
  intros ax th u H. rewrite to_R_rotate by now apply from_axis_unit.
  unfold quaternion_from_axis_angle, rot_about. cbv zeta.
  destruct (is_zero th) eqn:Z.
  - apply is_zero_spec in Z. subst th. rewrite cos_0, sin_0. set (k := unit_of ax). clearbody k.
    destruct k, u. rewrite rotate_eq. qgeo. apply V3_eq; ring.
  - rewrite (proj1 (to_unit_spec ax H)). pose proof (unit_of_unit ax H) as U. set (k := unit_of ax) in *. clearbody k.
    set (hf := th * (1/2)). replace th with (2 * hf) by (unfold hf; field). rewrite cos_2a, sin_2a.
    pose proof (cs2 hf) as C. set (c := cos hf) in *. set (s := sin hf) in *. clearbody c s.
    destruct k as [a b d], u as [x y z]. rewrite rotate_eq. qgeo.
    assert (S : s * s = 1 - c * c) by lra. assert (D : d * d = 1 - a * a - b * b) by lra.
    apply V3_eq; ring [S D].
Qed.

(** The products of the components of a quaternion that stands for the rotation A, times 4. *)
Lemma rotation_minors : forall a b c d e f g h i, is_rotation (M3 a b c d e f g h i) ->
  let t0 := 1 + a + e + i in let t1 := 1 + a - e - i in let t2 := 1 - a + e - i in let t3 := 1 - a - e + i in
  (f - h) * (f - h) = t0 * t1 /\ (g - c) * (g - c) = t0 * t2 /\ (b - d) * (b - d) = t0 * t3 /\
  (b + d) * (b + d) = t1 * t2 /\ (c + g) * (c + g) = t1 * t3 /\ (f + h) * (f + h) = t2 * t3 /\
  (f - h) * (g - c) = t0 * (b + d) /\ (f - h) * (b - d) = t0 * (c + g) /\ (g - c) * (b - d) = t0 * (f + h) /\
  (f - h) * (b + d) = t1 * (g - c) /\ (f - h) * (c + g) = t1 * (b - d) /\ (b + d) * (c + g) = t1 * (f + h) /\
  (g - c) * (b + d) = t2 * (f - h) /\ (g - c) * (f + h) = t2 * (b - d) /\ (b + d) * (f + h) = t2 * (c + g) /\
  (b - d) * (c + g) = t3 * (f - h) /\ (b - d) * (f + h) = t3 * (g - c) /\ (c + g) * (f + h) = t3 * (b + d).
Proof.
  intros a b c d e f g h i H. cbv zeta.
  destruct (rotation_rows _ H) as (R1 & R2 & R3). destruct (rotation_cols _ H) as (A1 & A2 & A3 & A4 & A5 & A6 & C1 & C2 & C3).
  destruct (rotation_rows_orth _ H) as (S1 & S2 & S3).
  clear H. geo. injection C1 as E1 E2 E3. injection C2 as F1 F2 F3. injection C3 as G1 G2 G3.
  repeat split; lra.
Qed.
(** A quaternion whose products of components are those of the rotation. *)
Lemma products_to_R : forall a b c d e f g h i w x y z,
  4 * (w * w) = 1 + a + e + i -> 4 * (x * x) = 1 + a - e - i -> 4 * (y * y) = 1 - a + e - i -> 4 * (z * z) = 1 - a - e + i ->
  4 * (w * x) = f - h -> 4 * (w * y) = g - c -> 4 * (w * z) = b - d ->
  4 * (x * y) = b + d -> 4 * (x * z) = c + g -> 4 * (y * z) = f + h ->
  qnorm2 (Q4 w x y z) = 1 /\ quaternion_to_R (Q4 w x y z) = M3 a b c d e f g h i.
Proof.
  intros. split; [qgeo; lra|]. unfold quaternion_to_R. cbv zeta. qcbn. apply M3_eq; lra.
Qed.
Lemma half_root : forall t, 0 < t -> let s := (1/2) / sqrt t in 4 * (s * s) * t = 1.
Proof.
  intros t H s. pose proof (sqrt_lt_R0 _ H) as P. assert (N : sqrt t * sqrt t = t) by (apply sqrt_sqrt; lra).
  unfold s. rewrite <- N at 3. field. lra.
Qed.
Lemma pivot : forall t s n p q, 4 * (s * s) * t = 1 -> p * q = t * n -> 4 * ((p * s) * (q * s)) = n.
Proof. intros t s n p q H E. transitivity (4 * (s * s) * (p * q)); [ring|]. rewrite E. transitivity (4 * (s * s) * t * n); [ring|rewrite H; ring]. Qed.
Lemma pivot0 : forall t s p, 4 * (s * s) * t = 1 -> 4 * ((s * t) * (p * s)) = p.
Proof. intros t s p H. transitivity (4 * (s * s) * t * p); [ring|rewrite H; ring]. Qed.
Lemma pivot1 : forall t s, 4 * (s * s) * t = 1 -> 4 * ((s * t) * (s * t)) = t.
Proof. intros t s H. transitivity (4 * (s * s) * t * t); [ring|rewrite H; ring]. Qed.
Ltac piv t := first
  [ apply (pivot t); [assumption|lra] | rewrite (pivot1 t) by assumption; unfold t; lra | rewrite pivot0 by assumption; lra
  | match goal with |- 4 * (?x * ?y) = _ => rewrite (Rmult_comm x y) end; rewrite pivot0 by assumption; lra ].
Lemma from_R_ok : forall A, is_rotation A ->
  qnorm2 (quaternion_from_R A) = 1 /\ quaternion_to_R (quaternion_from_R A) = A.
Proof.
  intros [a b c d e f g h i] H. destruct (rotation_minors _ _ _ _ _ _ _ _ _ H)
    as (N1 & N2 & N3 & N4 & N5 & N6 & O1 & O2 & O3 & O4 & O5 & O6 & O7 & O8 & O9 & O10 & O11 & O12).
  unfold quaternion_from_R. cbn [m0 m1 m2 m3 m4 m5 m6 m7 m8]. cbv zeta.
  destruct (r_lt 0 (a + e + i)) eqn:B0.
  { apply r_lt_spec in B0. replace (a + e + i + 1) with (1 + a + e + i) by ring.
    set (t := 1 + a + e + i) in *. assert (P : 0 < t) by (unfold t; lra). pose proof (half_root t P) as S. cbv zeta in S.
    set (s := 1 / 2 / sqrt t) in *. clearbody s.
    apply products_to_R; piv t. }
  apply r_lt_no in B0.
  destruct (r_lt e a && r_lt i a) eqn:B1.
  { apply andb_true_iff in B1. destruct B1 as [B1 B2]. apply r_lt_spec in B1, B2.
    replace (a - e - i + 1) with (1 + a - e - i) by ring.
    set (t := 1 + a - e - i) in *. assert (P : 0 < t) by (unfold t; lra). pose proof (half_root t P) as S. cbv zeta in S.
    set (s := 1 / 2 / sqrt t) in *. clearbody s.
    apply products_to_R; piv t. }
  assert (B1' : a <= e \/ a <= i).
  { apply andb_false_iff in B1. destruct B1 as [B1|B1]; apply r_lt_no in B1; auto. }
  destruct (r_lt i e) eqn:B2.
  { apply r_lt_spec in B2. replace (- a + e - i + 1) with (1 - a + e - i) by ring.
    set (t := 1 - a + e - i) in *. assert (P : 0 < t) by (unfold t; lra). pose proof (half_root t P) as S. cbv zeta in S.
    set (s := 1 / 2 / sqrt t) in *. clearbody s.
    apply products_to_R; piv t. }
  { apply r_lt_no in B2. replace (- a - e + i + 1) with (1 - a - e + i) by ring.
    set (t := 1 - a - e + i) in *. assert (P : 0 < t) by (unfold t; lra). pose proof (half_root t P) as S. cbv zeta in S.
    set (s := 1 / 2 / sqrt t) in *. clearbody s.
    apply products_to_R; piv t. }
Qed.
(** Two unit quaternions with the same matrix are equal up to sign. *)
Lemma to_R_inj : forall p q, qnorm2 p = 1 -> qnorm2 q = 1 -> quaternion_to_R p = quaternion_to_R q -> p = q \/ p = qneg q.
Proof.
  intros [a b c d] [a' b' c' d'] Hp Hq E. unfold quaternion_to_R in E. cbv zeta in E. qgeo.
  injection E as E0 E1 E2 E3 E4 E5 E6 E7 E8.
  assert (K0 : b * c = b' * c') by lra. assert (K1 : a * d = a' * d') by lra. assert (K2 : b * d = b' * d') by lra.
  assert (K3 : a * c = a' * c') by lra. assert (K4 : c * d = c' * d') by lra. assert (K5 : a * b = a' * b') by lra.
  assert (L1 : b * b = b' * b') by lra. assert (L2 : c * c = c' * c') by lra. assert (L3 : d * d = d' * d') by lra.
  assert (L0 : a * a = a' * a') by lra.
  set (x := a * a' + b * b' + c * c' + d * d').
  assert (X : x * x = 1).
  { transitivity ((a' * a' + (b' * b' + c' * c' + d' * d')) * (a' * a' + (b' * b' + c' * c' + d' * d'))); [|rewrite Hq; ring].
    transitivity ((a * a) * (a' * a') + (b * b) * (b' * b') + (c * c) * (c' * c') + (d * d) * (d' * d')
      + 2 * (a * b) * (a' * b') + 2 * (a * c) * (a' * c') + 2 * (a * d) * (a' * d')
      + 2 * (b * c) * (b' * c') + 2 * (b * d) * (b' * d') + 2 * (c * d) * (c' * d')); [unfold x; ring|].
    rewrite L0, L1, L2, L3, K0, K1, K2, K3, K4, K5. ring. }
  assert (X' : x = 1 \/ x = -1) by (assert (F : (x - 1) * (x + 1) = 0) by lra; apply Rmult_integral in F; destruct F; [left|right]; lra).
  assert (Z : forall p q r s, p * p + q * q + r * r + s * s = 0 -> p = 0 /\ q = 0 /\ r = 0 /\ s = 0)
    by (intros; repeat split; nra).
  unfold x in X'. clear X E0 E1 E2 E3 E4 E5 E6 E7 E8 K0 K1 K2 K3 K4 K5 x.
  destruct X' as [X|X]; [left|right].
  - destruct (Z (a - a') (b - b') (c - c') (d - d')) as (? & ? & ? & ?); [lra|]. apply Q4_eq; lra.
  - destruct (Z (a + a') (b + b') (c + c') (d + d')) as (? & ? & ? & ?); [lra|]. apply Q4_eq; lra.
Qed.
Lemma from_to_R : forall q, qnorm2 q = 1 -> quaternion_from_R (quaternion_to_R q) = q \/ quaternion_from_R (quaternion_to_R q) = qneg q.
Proof.
  intros q H. destruct (from_R_ok _ (to_R_rotation q H)) as [N E]. apply to_R_inj; auto.
Qed.
Lemma rotate_pure : forall q v, quat_of 0 (quaternion_rotate q v) = hamilton (hamilton q (quat_of 0 v)) (inverse_unit q).
Proof.
  intros [a b c d] [x y z]. rewrite rotate_eq. unfold inverse_unit, quat_of, qscalar, qvector, vscale. qcbn.
  rewrite !hamilton_eq. apply Q4_eq; ring.
Qed.
(** A singular matrix has a non-zero vector orthogonal to all its columns. *)
Lemma det_zero_kernel_t : forall A, det3 A = 0 <-> exists u, u <> zero3 /\ lin (transpose A) u = zero3.
Proof.
  intro A. split.
  - intro D. destruct A as [a b c d e f g h i].
    set (x := cross (V3 a b c) (V3 d e f)). set (y := cross (V3 d e f) (V3 g h i)). set (z := cross (V3 g h i) (V3 a b c)).
    assert (Cand : forall w, (w = x \/ w = y \/ w = z) -> lin (transpose (M3 a b c d e f g h i)) w = zero3).
    { geo. intros w Hw. destruct Hw as [->|[->| ->]]; unfold x, y, z; geo; apply V3_eq; lra. }
    destruct (Req_EM_T (dot x x) 0) as [X|X]; [|exists x; split; [intro E; apply X; rewrite E; geo; ring|auto]].
    destruct (Req_EM_T (dot y y) 0) as [Y|Y]; [|exists y; split; [intro E; apply Y; rewrite E; geo; ring|auto]].
    destruct (Req_EM_T (dot z z) 0) as [Z|Z]; [|exists z; split; [intro E; apply Z; rewrite E; geo; ring|auto]].
    apply dot_zero in X, Y, Z. unfold x, y, z in X, Y, Z. clear Cand x y z. geo.
    injection X as X1 X2 X3. injection Y as Y1 Y2 Y3. injection Z as Z1 Z2 Z3.
    (* all columns are parallel: take a vector orthogonal to a non-zero one, if any *)
    assert (K : forall p q r, ~ (p = 0 /\ q = 0 /\ r = 0) -> exists u, u <> zero3 /\ dot (V3 p q r) u = 0 /\
       (forall p' q' r', cross (V3 p q r) (V3 p' q' r') = zero3 -> dot (V3 p' q' r') u = 0)).
    { intros p q r N. destruct (Req_EM_T p 0) as [P|P].
      - subst p. exists (V3 1 0 0). split; [intro E; injection E; lra|]. split; [geo; ring|].
        intros p' q' r' C. geo. injection C as C1 C2 C3. 
        destruct (Req_EM_T q 0) as [Q|Q]; [subst q; destruct (Req_EM_T r 0) as [R|R]; [tauto|]; nra|nra].
      - exists (V3 (- q) p 0). split; [intro E; injection E; lra|]. split; [geo; ring|].
        intros p' q' r' C. geo. injection C as C1 C2 C3. lra. }
    destruct (Req_EM_T (a * a + b * b + c * c) 0) as [N|N].
    + assert (a = 0 /\ b = 0 /\ c = 0) as (-> & -> & ->) by (repeat split; nra).
      destruct (Req_EM_T (d * d + e * e + f * f) 0) as [N'|N'].
      * assert (d = 0 /\ e = 0 /\ f = 0) as (-> & -> & ->) by (repeat split; nra).
        destruct (Req_EM_T (g * g + h * h + i * i) 0) as [N2|N2].
        -- assert (g = 0 /\ h = 0 /\ i = 0) as (-> & -> & ->) by (repeat split; nra).
           exists (V3 1 0 0). split; [intro E; injection E; lra|]. geo. apply V3_eq; ring.
        -- destruct (K g h i) as (u & U1 & U2 & U3); [intros (-> & -> & ->); apply N2; ring|].
           exists u. split; auto. destruct u. geo. apply V3_eq; lra.
      * destruct (K d e f) as (u & U1 & U2 & U3); [intros (-> & -> & ->); apply N'; ring|].
        exists u. split; auto. pose proof (U3 g h i) as U4. destruct u as [x y z]. geo.
        assert (U5 : g * x + h * y + i * z = 0) by (apply U4; apply V3_eq; lra). apply V3_eq; lra.
    + destruct (K a b c) as (u & U1 & U2 & U3); [intros (-> & -> & ->); apply N; ring|].
      exists u. split; auto. pose proof (U3 d e f) as U4. pose proof (U3 g h i) as U5. destruct u as [x y z]. geo.
      assert (U6 : d * x + e * y + f * z = 0) by (apply U4; apply V3_eq; lra).
      assert (U7 : g * x + h * y + i * z = 0) by (apply U5; apply V3_eq; lra). apply V3_eq; lra.
  - intros (u & N & E). destruct (Req_EM_T (det3 A) 0) as [|D]; auto. exfalso. apply N.
    assert (DT : det3 (transpose A) <> 0) by (replace (det3 (transpose A)) with (det3 A) by (destruct A; geo; ring); auto).
    rewrite <- (proj1 (inv_lin (transpose A) u DT)), E. destruct (fst (dmat3_inv (transpose A))). geo. apply V3_eq; ring.
Qed.
Lemma det_zero_kernel : forall A, det3 A = 0 <-> exists u, u <> zero3 /\ lin A u = zero3.
Proof.
  intro A. replace (det3 A) with (det3 (transpose A)) by (destruct A; geo; ring).
  replace (lin A) with (lin (transpose (transpose A))) by (destruct A; reflexivity). apply det_zero_kernel_t.
Qed.
