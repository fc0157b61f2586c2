(** Projection of homogeneous points: nx_pinhole_project_h, src/nx_pinhole.c:81-93.

    Simplifications.  Real numbers.  Both arrays are in one memory, so that they may
    overlap: [X] and [x] are the places of Xh and xh in it.  The matrix is apart. *)
From Coq Require Import Reals.
From Verif Require Import Base GeoModel Gray.
Local Open Scope Z_scope.

(** The right hand sides of 89-91: a coefficient for each of the four numbers at [X]. *)
Definition row4 (c0 c1 c2 c3 : R) (mem : list R) (X : Z) : res R :=
  let* v0 := zget mem X in let* v1 := zget mem (X + 1) in let* v2 := zget mem (X + 2) in let* v3 := zget mem (X + 3) in
  Ok (c0 * v0 + c1 * v1 + c2 * v2 + c3 * v3)%R.
(** One turn of the loop, 88-92. *)
Definition project_h_step (P : mat34) (X x : Z) (i : Z) (mem : list R) : res (list R) :=
  let Xi := X + 4 * i in
  let xi := x + 3 * i in
  let* v := row4 (p0 P) (p3 P) (p6 P) (p9 P) mem Xi in let* mem := zset mem xi v in
  let* v := row4 (p1 P) (p4 P) (p7 P) (p10 P) mem Xi in let* mem := zset mem (xi + 1) v in
  let* v := row4 (p2 P) (p5 P) (p8 P) (p11 P) mem Xi in zset mem (xi + 2) v.
Definition pinhole_project_h (P : mat34) (n X x : Z) (mem : list R) : res (list R) :=
  if n >? 0 then for_each (project_h_step P X x) (zrange 0 n) mem else Fatal.
