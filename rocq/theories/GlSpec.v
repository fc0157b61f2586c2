(** What OpenGL does with the projected points. *)
From Verif Require Import Base GeoModel GeoSpec.
Local Open Scope R_scope.

(** The perspective division and the viewport transform of a window of w x h pixels. *)
Definition window (w h : R) (c : vec4) : vec2 :=
  V2 ((w0 c / w3 c + 1) * (w / 2)) ((w1 c / w3 c + 1) * (h / 2)).
(** The normalized depth; the visible range is from -1 to 1. *)
Definition depth (c : vec4) : R := w2 c / w3 c.
(** The rotation of a camera that looks along the other direction of the z axis. *)
Definition flip (A : mat3) : mat3 := M3 (m0 A) (m1 A) (- m2 A) (m3 A) (m4 A) (- m5 A) (m6 A) (m7 A) (- m8 A).
