(** Textbook notions the geometry theorems are stated with: linear maps, dot and
    cross products, rotations of space, quaternions. *)
From Verif Require Import GeoModel.
Local Open Scope R_scope.

Definition dot (u v : vec3) : R := v0 u * v0 v + v1 u * v1 v + v2 u * v2 v.
Definition cross (u v : vec3) : vec3 :=
  V3 (v1 u * v2 v - v2 u * v1 v) (v2 u * v0 v - v0 u * v2 v) (v0 u * v1 v - v1 u * v0 v).
Definition vadd (u v : vec3) : vec3 := V3 (v0 u + v0 v) (v1 u + v1 v) (v2 u + v2 v).
Definition vscale (s : R) (u : vec3) : vec3 := V3 (s * v0 u) (s * v1 u) (s * v2 u).
Definition zero3 : vec3 := V3 0 0 0.

(** The columns of a matrix, which is stored column after column. *)
Definition col0 (A : mat3) : vec3 := V3 (m0 A) (m1 A) (m2 A).
Definition col1 (A : mat3) : vec3 := V3 (m3 A) (m4 A) (m5 A).
Definition col2 (A : mat3) : vec3 := V3 (m6 A) (m7 A) (m8 A).
(** The vector A u: the columns of A weighted by the coordinates of u. *)
Definition lin (A : mat3) (u : vec3) : vec3 :=
  vadd (vadd (vscale (v0 u) (col0 A)) (vscale (v1 u) (col1 A))) (vscale (v2 u) (col2 A)).
(** The determinant: the volume spanned by the columns. *)
Definition det3 (A : mat3) : R := dot (col0 A) (cross (col1 A) (col2 A)).
Definition transpose (A : mat3) : mat3 :=
  M3 (m0 A) (m3 A) (m6 A) (m1 A) (m4 A) (m7 A) (m2 A) (m5 A) (m8 A).
Definition upper_triangular (A : mat3) : Prop := m1 A = 0 /\ m2 A = 0 /\ m5 A = 0.

(** 4x4 matrices applied to (x, y, z, w). *)
Record vec4 := V4 { w0 : R; w1 : R; w2 : R; w3 : R }.
Definition lin4 (A : mat4) (u : vec4) : vec4 :=
  V4 (a0 A * w0 u + a4 A * w1 u + a8 A * w2 u + a12 A * w3 u)
     (a1 A * w0 u + a5 A * w1 u + a9 A * w2 u + a13 A * w3 u)
     (a2 A * w0 u + a6 A * w1 u + a10 A * w2 u + a14 A * w3 u)
     (a3 A * w0 u + a7 A * w1 u + a11 A * w2 u + a15 A * w3 u).
Definition homogeneous (u : vec3) : vec4 := V4 (v0 u) (v1 u) (v2 u) 1.

(** A rotation of space keeps lengths and angles and does not mirror: it commutes
    with the dot and the cross product. *)
Definition is_rotation (A : mat3) : Prop :=
  (forall u v, dot (lin A u) (lin A v) = dot u v) /\
  (forall u v, lin A (cross u v) = cross (lin A u) (lin A v)).

(** Rotations around the coordinate axes. *)
Definition rot_x (a : R) (u : vec3) : vec3 :=
  V3 (v0 u) (cos a * v1 u - sin a * v2 u) (sin a * v1 u + cos a * v2 u).
Definition rot_y (a : R) (u : vec3) : vec3 :=
  V3 (cos a * v0 u + sin a * v2 u) (v1 u) (- sin a * v0 u + cos a * v2 u).
Definition rot_z (a : R) (u : vec3) : vec3 :=
  V3 (cos a * v0 u - sin a * v1 u) (sin a * v0 u + cos a * v1 u) (v2 u).
(** Rotation by an angle around an axis of any positive length (Rodrigues). *)
Definition unit_of (u : vec3) : vec3 := vscale (1 / sqrt (dot u u)) u.
Definition rot_about (axis : vec3) (a : R) (u : vec3) : vec3 :=
  let k := unit_of axis in
  vadd (vadd (vscale (cos a) u) (vscale (sin a) (cross k u))) (vscale (dot k u * (1 - cos a)) k).

(** Hamilton's product of the quaternions (a, u) and (b, v), written with vectors. *)
Definition qscalar (q : quat) : R := q0 q.
Definition qvector (q : quat) : vec3 := V3 (q1 q) (q2 q) (q3 q).
Definition quat_of (s : R) (v : vec3) : quat := Q4 s (v0 v) (v1 v) (v2 v).
Definition hamilton (p q : quat) : quat :=
  quat_of (qscalar p * qscalar q - dot (qvector p) (qvector q))
          (vadd (vadd (vscale (qscalar p) (qvector q)) (vscale (qscalar q) (qvector p)))
                (cross (qvector p) (qvector q))).
Definition inverse_unit (q : quat) : quat := quat_of (qscalar q) (vscale (-1) (qvector q)).
Definition qnorm2 (q : quat) : R := qscalar q * qscalar q + dot (qvector q) (qvector q).
Definition qneg (q : quat) : quat := quat_of (- qscalar q) (vscale (-1) (qvector q)).
