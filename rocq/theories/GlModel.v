(** Projection matrices for OpenGL, over the reals: src/GL/nx_gl_projection.c.  The
    conversion of the result to GLfloat is not modelled. *)
From Verif Require Import Base.
From Verif Require Export GeoModel.
Local Open Scope R_scope.

(** nx_gl_projection_sym_perspective_from_camera, src/GL/nx_gl_projection.c:33-46. *)
Definition sym_perspective (fx fy near far vp_w vp_h : R) : mat4 :=
  M4 (2 * fx / vp_w) 0 0 0
     0 (2 * fy / vp_h) 0 0
     0 0 (- (far + near) / (far - near)) (-1)
     0 0 (-2 * near * far / (far - near)) 0.
(** nx_gl_projection_to_mvp, 48-74; None is a NULL argument. *)
Definition to_mvp (M V : option mat4) (P : mat4) : mat4 :=
  let PV := match V with Some V => dmat4_mul P V | None => P end in
  match M with Some M => dmat4_mul PV M | None => PV end.
