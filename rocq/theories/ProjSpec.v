(** Notions the theorems on matches, homographies, cameras and epipolar geometry
    are stated with. *)
From Verif Require Import Base ProjModel GeoSpec.
Local Open Scope R_scope.

(** Plane points in homogeneous coordinates; a matrix maps p to q projectively. *)
Definition h3 (p : vec2) : vec3 := V3 (px p) (py p) 1.
Definition maps_to (H : mat3) (p q : vec2) : Prop := exists w, w <> 0 /\ lin H (h3 p) = vscale w (h3 q).
Definition distance (p q : vec2) : R := sqrt ((px p - px q) * (px p - px q) + (py p - py q) * (py p - py q)).
(** Twice the signed area of the triangle p q r; zero when the points are on one line. *)
Definition area (p q r : vec2) : R := (px q - px p) * (py r - py p) - (py q - py p) * (px r - px p).

(** Sums and means over a list. *)
Definition total {A} (f : A -> R) (l : list A) : R := fold_right (fun c s => f c + s) 0 l.
Definition mean {A} (f : A -> R) (l : list A) : R := total f l / INR (length l).
(** The points selected by f are not all the same. *)
Definition spread (f : pmatch -> vec2) (l : list pmatch) : Prop := exists a b, In a l /\ In b l /\ f a <> f b.
(** Coordinates relative to a centre and a scale, and back. *)
Definition to_norm (c : vec2) (d : R) (p : vec2) : vec2 := V2 ((px p - px c) / d) ((py p - py c) / d).
Definition from_norm (c : vec2) (d : R) (p : vec2) : vec2 := V2 (d * px p + px c) (d * py p + py c).

(** Two lists of matches differ in the inlier flags only. *)
Definition same_match (a b : pmatch) : Prop := set_inlier true a = set_inlier true b.

(** The image of a space point under a 3x4 matrix. *)
Definition apply34 (P : mat34) (X : vec3) : vec3 :=
  V3 (p0 P * v0 X + p3 P * v1 X + p6 P * v2 X + p9 P)
     (p1 P * v0 X + p4 P * v1 X + p7 P * v2 X + p10 P)
     (p2 P * v0 X + p5 P * v1 X + p8 P * v2 X + p11 P).
Definition projects_to (P : mat34) (X : vec3) (x : vec2) : Prop := exists w, w <> 0 /\ apply34 P X = vscale w (h3 x).
(** Sum of products of two rows of numbers. *)
Definition row_dot (a b : list R) : R := fold_right Rplus 0 (map (fun '(x, y) => x * y) (combine a b)).

(** Plane maps the 2-D transforms are composed of. *)
Definition shift (dx dy : R) (p : vec2) : vec2 := V2 (px p + dx) (py p + dy).
Definition turn (a : R) (p : vec2) : vec2 := V2 (cos a * px p - sin a * py p) (sin a * px p + cos a * py p).
Definition stretch (sx sy : R) (p : vec2) : vec2 := V2 (sx * px p) (sy * py p).

(** The three numbers of an orthonormal matrix U D V with D = diag(s0, s1, s2). *)
Definition diag (a b c : R) : mat3 := M3 a 0 0 0 b 0 0 0 c.
Definition orthogonal (A : mat3) : Prop := forall u v, dot (lin A u) (lin A v) = dot u v.
(** No three of the four points are on a line. *)
Definition general_position (a b c d : vec2) : Prop := area a b c <> 0 /\ area b c d <> 0 /\ area c a d <> 0 /\ area a b d <> 0.
(** A match seen by two cameras, the second turned by A and moved by t: the rays
    through the two points meet al in front of the first and be in front of the second. *)
Definition depths (A : mat3) (t : vec3) (c : pmatch) (al be : R) : Prop :=
  vadd (vscale al (lin A (h3 (mx c)))) t = vscale be (h3 (mxp c)).
(** Size and difference of matrices. *)
Definition frob2 (A : mat3) : R := dot (col0 A) (col0 A) + dot (col1 A) (col1 A) + dot (col2 A) (col2 A).
Definition minus (A B : mat3) : mat3 :=
  M3 (m0 A - m0 B) (m1 A - m1 B) (m2 A - m2 B) (m3 A - m3 B) (m4 A - m4 B) (m5 A - m5 B) (m6 A - m6 B) (m7 A - m7 B) (m8 A - m8 B).
(** What a camera sees of a homogeneous space point, which may be infinitely far
    away: v is on the ray of the plane point x. *)
Definition apply34h (P : mat34) (v : vec4) : vec3 :=
  V3 (p0 P * w0 v + p3 P * w1 v + p6 P * w2 v + p9 P * w3 v)
     (p1 P * w0 v + p4 P * w1 v + p7 P * w2 v + p10 P * w3 v)
     (p2 P * w0 v + p5 P * w1 v + p8 P * w2 v + p11 P * w3 v).
Definition on_ray (P : mat34) (x : vec2) (v : vec4) : Prop := exists w, apply34h P v = vscale w (h3 x).
Definition vscale4 (s : R) (v : vec4) : vec4 := V4 (s * w0 v) (s * w1 v) (s * w2 v) (s * w3 v).
(** The two rays of a match meet in X and nowhere else. *)
Definition meet_only_in (P Q : mat34) (c : pmatch) (X : vec3) : Prop :=
  on_ray P (mx c) (homogeneous X) /\ on_ray Q (mxp c) (homogeneous X) /\
  forall v, on_ray P (mx c) v -> on_ray Q (mxp c) v -> exists s, v = vscale4 s (homogeneous X).
(** Positions, from i on, of the inliers. *)
Fixpoint inlier_positions (i : Z) (l : list pmatch) : list Z :=
  match l with
  | [] => []
  | c :: l' => if inlier c then i :: inlier_positions (i + 1) l' else inlier_positions (i + 1) l'
  end.
