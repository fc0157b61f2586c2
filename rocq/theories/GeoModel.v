(** Model of the 3-D and projective geometry code, with real numbers.

    Simplification made everywhere in the Geo files: double and float values are
    exact real numbers, so rounding, overflow, infinities and NaN are left out;
    sqrt, sin and cos are the real functions; the _s (float) and _d (double)
    copies of a function are one definition.  Division by zero has no meaning
    here; theorems about a quotient assume its divisor is not zero.  Arrays of
    fixed length are records whose field number is the array index.  Output
    arrays are assumed not to overlap input arrays. *)
From Coq Require Export Reals List ZArith Bool.
Export ListNotations.
Local Open Scope R_scope.

(** A 3x3 matrix as double[9], column after column: row i, column j is element 3*j+i. *)
Record mat3 := M3 { m0 : R; m1 : R; m2 : R; m3 : R; m4 : R; m5 : R; m6 : R; m7 : R; m8 : R }.
Record vec3 := V3 { v0 : R; v1 : R; v2 : R }.
Record vec2 := V2 { px : R; py : R }.
(** A quaternion as double[4], scalar part first. *)
Record quat := Q4 { q0 : R; q1 : R; q2 : R; q3 : R }.
(** A 4x4 matrix as double[16], column after column. *)
Record mat4 := M4 { a0 : R; a1 : R; a2 : R; a3 : R; a4 : R; a5 : R; a6 : R; a7 : R;
                    a8 : R; a9 : R; a10 : R; a11 : R; a12 : R; a13 : R; a14 : R; a15 : R }.
(** A 3x4 projection matrix as double[12], column after column. *)
Record mat34 := P34 { p0 : R; p1 : R; p2 : R; p3 : R; p4 : R; p5 : R; p6 : R; p7 : R;
                      p8 : R; p9 : R; p10 : R; p11 : R }.

(** d == 0.0 *)
Definition is_zero (d : R) : bool := if Req_EM_T d 0 then true else false.
(** a < b *)
Definition r_lt (a b : R) : bool := if Rlt_dec a b then true else false.
(** a <= b *)
Definition r_le (a b : R) : bool := if Rle_dec a b then true else false.

(** ** include/virg/nexus/nx_vec234.h *)

(** nx_dvec3_cross, 92-97. *)
Definition dvec3_cross (a b : vec3) : vec3 :=
  V3 (v1 a * v2 b - v2 a * v1 b) (v2 a * v0 b - v0 a * v2 b) (v0 a * v1 b - v1 a * v0 b).
(** nx_dvec3_dot, 99-102; nx_svec3_dot, 71-74. *)
Definition dvec3_dot (a b : vec3) : R := v0 a * v0 b + v1 a * v1 b + v2 a * v2 b.
(** nx_dvec3_norm_sq, 104-107. *)
Definition dvec3_norm_sq (v : vec3) : R := v0 v * v0 v + v1 v * v1 v + v2 v * v2 v.
(** nx_dvec3_norm, 109-112. *)
Definition dvec3_norm (v : vec3) : R := sqrt (dvec3_norm_sq v).
(** nx_dvec3_to_unit, 114-125: the new vector and the returned norm. *)
Definition dvec3_to_unit (v : vec3) : vec3 * R :=
  let n := dvec3_norm v in
  (if is_zero n then v else V3 (v0 v / n) (v1 v / n) (v2 v / n), n).

(** ** include/virg/nexus/nx_mat234.h *)

(** nx_dmat3_inv, 197-225; nx_smat3_inv, 100-128; nx_sdmat3_inv, 130-146: inverse and determinant. *)
Definition dmat3_inv (M : mat3) : mat3 * R :=
  let t4 := m0 M * m4 M in
  let t6 := m0 M * m7 M in
  let t8 := m3 M * m1 M in
  let t10 := m6 M * m1 M in
  let t12 := m3 M * m2 M in
  let t14 := m6 M * m2 M in
  let det := t4 * m8 M - t6 * m5 M - t8 * m8 M + t10 * m5 M + t12 * m7 M - t14 * m4 M in
  (if is_zero det then M3 0 0 0 0 0 0 0 0 0 else
   let t17 := 1 / det in
   M3 ((m4 M * m8 M - m7 M * m5 M) * t17)
      (- (m1 M * m8 M - m7 M * m2 M) * t17)
      ((m1 M * m5 M - m4 M * m2 M) * t17)
      (- (m3 M * m8 M - m6 M * m5 M) * t17)
      ((m0 M * m8 M - t14) * t17)
      (- (m0 M * m5 M - t12) * t17)
      ((m3 M * m7 M - m6 M * m4 M) * t17)
      (- (t6 - t10) * t17)
      ((t4 - t8) * t17), det).
(** nx_dmat3_mul, 227-240; nx_smat3_mul, 148-161. *)
Definition dmat3_mul (A B : mat3) : mat3 :=
  M3 (m0 A * m0 B + m3 A * m1 B + m6 A * m2 B)
     (m1 A * m0 B + m4 A * m1 B + m7 A * m2 B)
     (m2 A * m0 B + m5 A * m1 B + m8 A * m2 B)
     (m0 A * m3 B + m3 A * m4 B + m6 A * m5 B)
     (m1 A * m3 B + m4 A * m4 B + m7 A * m5 B)
     (m2 A * m3 B + m5 A * m4 B + m8 A * m5 B)
     (m0 A * m6 B + m3 A * m7 B + m6 A * m8 B)
     (m1 A * m6 B + m4 A * m7 B + m7 A * m8 B)
     (m2 A * m6 B + m5 A * m7 B + m8 A * m8 B).
(** nx_dmat3_mul_ua, 242-255. *)
Definition dmat3_mul_ua (U A : mat3) : mat3 :=
  M3 (m0 U * m0 A + m3 U * m1 A + m6 U * m2 A)
     (m4 U * m1 A + m7 U * m2 A)
     (m8 U * m2 A)
     (m0 U * m3 A + m3 U * m4 A + m6 U * m5 A)
     (m4 U * m4 A + m7 U * m5 A)
     (m8 U * m5 A)
     (m0 U * m6 A + m3 U * m7 A + m6 U * m8 A)
     (m4 U * m7 A + m7 U * m8 A)
     (m8 U * m8 A).
(** nx_dmat3_eye, 262-268. *)
Definition dmat3_eye : mat3 := M3 1 0 0 0 1 0 0 0 1.
(** nx_dmat3_det, 270-275. *)
Definition dmat3_det (A : mat3) : R :=
  m0 A * (m4 A * m8 A - m5 A * m7 A)
  - m3 A * (m1 A * m8 A - m2 A * m7 A)
  + m6 A * (m1 A * m5 A - m2 A * m4 A).
(** nx_dmat3_xptFx, 277-287. *)
Definition dmat3_xptFx (F : mat3) (x xp : vec2) : R :=
  0 + px xp * (px x * m0 F + py x * m3 F + m6 F)
    + py xp * (px x * m1 F + py x * m4 F + m7 F)
    + 1 * (px x * m2 F + py x * m5 F + m8 F).
(** nx_dmat3_transform, 326-334. *)
Definition dmat3_transform (A : mat3) (v : vec3) : vec3 :=
  V3 (m0 A * v0 v + m3 A * v1 v + m6 A * v2 v)
     (m1 A * v0 v + m4 A * v1 v + m7 A * v2 v)
     (m2 A * v0 v + m5 A * v1 v + m8 A * v2 v).
(** nx_dmat4_mul, 346-367; nx_smat4_mul, 163-184. *)
Definition dmat4_mul (A B : mat4) : mat4 :=
  M4 (a0 A * a0 B + a4 A * a1 B + a8 A * a2 B + a12 A * a3 B)
     (a1 A * a0 B + a5 A * a1 B + a9 A * a2 B + a13 A * a3 B)
     (a2 A * a0 B + a6 A * a1 B + a10 A * a2 B + a14 A * a3 B)
     (a3 A * a0 B + a7 A * a1 B + a11 A * a2 B + a15 A * a3 B)
     (a0 A * a4 B + a4 A * a5 B + a8 A * a6 B + a12 A * a7 B)
     (a1 A * a4 B + a5 A * a5 B + a9 A * a6 B + a13 A * a7 B)
     (a2 A * a4 B + a6 A * a5 B + a10 A * a6 B + a14 A * a7 B)
     (a3 A * a4 B + a7 A * a5 B + a11 A * a6 B + a15 A * a7 B)
     (a0 A * a8 B + a4 A * a9 B + a8 A * a10 B + a12 A * a11 B)
     (a1 A * a8 B + a5 A * a9 B + a9 A * a10 B + a13 A * a11 B)
     (a2 A * a8 B + a6 A * a9 B + a10 A * a10 B + a14 A * a11 B)
     (a3 A * a8 B + a7 A * a9 B + a11 A * a10 B + a15 A * a11 B)
     (a0 A * a12 B + a4 A * a13 B + a8 A * a14 B + a12 A * a15 B)
     (a1 A * a12 B + a5 A * a13 B + a9 A * a14 B + a13 A * a15 B)
     (a2 A * a12 B + a6 A * a13 B + a10 A * a14 B + a14 A * a15 B)
     (a3 A * a12 B + a7 A * a13 B + a11 A * a14 B + a15 A * a15 B).
(** nx_dmat4_eye, 369-376. *)
Definition dmat4_eye : mat4 := M4 1 0 0 0 0 1 0 0 0 0 1 0 0 0 0 1.
(** nx_dmat4_set_rotation, 395-400. *)
Definition dmat4_set_rotation (M : mat4) (R : mat3) : mat4 :=
  M4 (m0 R) (m1 R) (m2 R) (a3 M) (m3 R) (m4 R) (m5 R) (a7 M)
     (m6 R) (m7 R) (m8 R) (a11 M) (a12 M) (a13 M) (a14 M) (a15 M).
(** nx_dmat4_set_translation, 402-407. *)
Definition dmat4_set_translation (M : mat4) (t : vec3) : mat4 :=
  M4 (a0 M) (a1 M) (a2 M) (a3 M) (a4 M) (a5 M) (a6 M) (a7 M)
     (a8 M) (a9 M) (a10 M) (a11 M) (v0 t) (v1 t) (v2 t) (a15 M).

(** ** src/nx_rotation_3d.c *)

(** nx_rotation_3d_RzRyRx, 33-55. *)
Definition rotation_3d_RzRyRx (alpha beta gamma : R) : mat3 :=
  let ca := cos alpha in let sa := sin alpha in
  let cb := cos beta in let sb := sin beta in
  let cg := cos gamma in let sg := sin gamma in
  let sbsa := sb * sa in let sbca := sb * ca in
  M3 (cg * cb) (sg * cb) (- sb)
     (- sg * ca + cg * sbsa) (cg * ca + sg * sbsa) (cb * sa)
     (sg * sa + cg * sbca) (- cg * sa + sg * sbca) (cb * ca).
(** nx_rotation_3d_RxRyRz, 57-79. *)
Definition rotation_3d_RxRyRz (alpha beta gamma : R) : mat3 :=
  let ca := cos alpha in let sa := sin alpha in
  let cb := cos beta in let sb := sin beta in
  let cg := cos gamma in let sg := sin gamma in
  let sbsa := sb * sa in let sbca := sb * ca in
  M3 (cg * cb) (cg * sbsa + sg * ca) (- cg * sbca + sg * sa)
     (- sg * cb) (- sg * sbsa + cg * ca) (sg * sbca + cg * sa)
     sb (- cb * sa) (cb * ca).
(** nx_rotation_3d_axis_angle, 81-99. *)
Definition rotation_3d_axis_angle (axis : vec3) (theta : R) : mat3 :=
  let v := fst (dvec3_to_unit axis) in
  let c := cos theta in let s := sin theta in
  M3 (c + v0 v * v0 v * (1 - c))
     (v1 v * v0 v * (1 - c) + v2 v * s)
     (v2 v * v0 v * (1 - c) - v1 v * s)
     (v1 v * v0 v * (1 - c) - v2 v * s)
     (c + v1 v * v1 v * (1 - c))
     (v2 v * v1 v * (1 - c) + v0 v * s)
     (v0 v * v2 v * (1 - c) + v1 v * s)
     (v1 v * v2 v * (1 - c) - v0 v * s)
     (c + v2 v * v2 v * (1 - c)).

(** ** src/nx_quaternion.c and include/virg/nexus/nx_quaternion.h *)

(** nx_quaternion_scale, nx_quaternion.h:55-63. *)
Definition quaternion_scale (q : quat) (s : R) : quat := Q4 (q0 q * s) (q1 q * s) (q2 q * s) (q3 q * s).
(** nx_quaternion_add, 65-74; nx_quaternion_sum, 76-86. *)
Definition quaternion_sum (r s : quat) : quat := Q4 (q0 r + q0 s) (q1 r + q1 s) (q2 r + q2 s) (q3 r + q3 s).
(** nx_quaternion_mul, 88-102; nx_quaternion_prod, 104-114 (r times s). *)
Definition quaternion_prod (r s : quat) : quat :=
  Q4 (q0 r * q0 s - q1 r * q1 s - q2 r * q2 s - q3 r * q3 s)
     (q0 r * q1 s + q1 r * q0 s + q2 r * q3 s - q3 r * q2 s)
     (q0 r * q2 s - q1 r * q3 s + q2 r * q0 s + q3 r * q1 s)
     (q0 r * q3 s + q1 r * q2 s - q2 r * q1 s + q3 r * q0 s).
(** nx_quaternion_conj, 116-123. *)
Definition quaternion_conj (q : quat) : quat := Q4 (q0 q) (- q1 q) (- q2 q) (- q3 q).
(** nx_quaternion_dot, 125-131. *)
Definition quaternion_dot (q r : quat) : R := q0 r * q0 q + q1 r * q1 q + q2 r * q2 q + q3 r * q3 q.
(** nx_quaternion_to_unit, 133-140. *)
Definition quaternion_to_unit (q : quat) : quat * R :=
  let nrm := sqrt (quaternion_dot q q) in (quaternion_scale q (1 / nrm), nrm).
(** nx_quaternion_from_axis_angle, 154-179. *)
Definition quaternion_from_axis_angle (axis : vec3) (angle : R) : quat :=
  if is_zero angle then Q4 1 0 0 0 else
  let ca2 := cos (angle * (1/2)) in
  let sa2 := sin (angle * (1/2)) in
  let n := fst (dvec3_to_unit axis) in
  Q4 ca2 (v0 n * sa2) (v1 n * sa2) (v2 n * sa2).
(** nx_quaternion_from_R, nx_quaternion.c:28-68. *)
Definition quaternion_from_R (A : mat3) : quat :=
  let d_sum := m0 A + m4 A + m8 A in
  if r_lt 0 d_sum then
    let t := d_sum + 1 in
    let s := (1/2) / sqrt t in
    Q4 (s * t) ((m5 A - m7 A) * s) ((m6 A - m2 A) * s) ((m1 A - m3 A) * s)
  else if r_lt (m4 A) (m0 A) && r_lt (m8 A) (m0 A) then
    let t := m0 A - m4 A - m8 A + 1 in
    let s := (1/2) / sqrt t in
    Q4 ((m5 A - m7 A) * s) (s * t) ((m1 A + m3 A) * s) ((m6 A + m2 A) * s)
  else if r_lt (m8 A) (m4 A) then
    let t := - m0 A + m4 A - m8 A + 1 in
    let s := (1/2) / sqrt t in
    Q4 ((m6 A - m2 A) * s) ((m1 A + m3 A) * s) (s * t) ((m5 A + m7 A) * s)
  else
    let t := - m0 A - m4 A + m8 A + 1 in
    let s := (1/2) / sqrt t in
    Q4 ((m1 A - m3 A) * s) ((m6 A + m2 A) * s) ((m5 A + m7 A) * s) (s * t).
(** nx_quaternion_to_R, 70-95. *)
Definition quaternion_to_R (q : quat) : mat3 :=
  let q1_2 := q1 q * q1 q in let q2_2 := q2 q * q2 q in let q3_2 := q3 q * q3 q in
  let q1_q2 := q1 q * q2 q in let q0_q3 := q0 q * q3 q in let q1_q3 := q1 q * q3 q in
  let q0_q2 := q0 q * q2 q in let q0_q1 := q0 q * q1 q in let q2_q3 := q2 q * q3 q in
  M3 (1 - 2 * (q2_2 + q3_2)) (2 * (q1_q2 + q0_q3)) (2 * (q1_q3 - q0_q2))
     (2 * (q1_q2 - q0_q3)) (1 - 2 * (q1_2 + q3_2)) (2 * (q2_q3 + q0_q1))
     (2 * (q1_q3 + q0_q2)) (2 * (q2_q3 - q0_q1)) (1 - 2 * (q1_2 + q2_2)).
(** nx_quaternion_rotate, 97-141. *)
Definition quaternion_rotate (q : quat) (v : vec3) : vec3 :=
  let q0_2 := q0 q * q0 q in let q1_2 := q1 q * q1 q in
  let q2_2 := q2 q * q2 q in let q3_2 := q3 q * q3 q in
  let q12 := q1 q * q2 q in let q01 := q0 q * q1 q in let q02 := q0 q * q2 q in
  let q03 := q0 q * q3 q in let q13 := q1 q * q3 q in let q23 := q2 q * q3 q in
  let q0_2_q1_2 := q0_2 - q1_2 in
  let q2_2_q3_2 := q2_2 - q3_2 in
  let t0 := (q0_2 + q1_2 - q2_2 - q3_2) * v0 v in
  let t1 := 2 * (q12 + q03) * v0 v in
  let t2 := 2 * (q13 - q02) * v0 v in
  let t3 := 2 * (q12 - q03) * v1 v in
  let t4 := (q0_2_q1_2 + q2_2_q3_2) * v1 v in
  let t5 := 2 * (q23 + q01) * v1 v in
  let t6 := 2 * (q13 + q02) * v2 v in
  let t7 := 2 * (q23 - q01) * v2 v in
  let t8 := (q0_2_q1_2 - q2_2_q3_2) * v2 v in
  V3 (t0 + t3 + t6) (t1 + t4 + t7) (t2 + t5 + t8).
