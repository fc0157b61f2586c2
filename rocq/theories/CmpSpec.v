(** What the composition of panoramas is about. *)
From Verif Require Import Base Gray ProjModel GeoSpec ProjSpec.
Local Open Scope R_scope.

(** [z] is [x] without its fraction. *)
Definition whole (x : R) (z : Z) : Prop := exists f, x = IZR z + f /\ -1 < f < 1 /\ 0 <= IZR z * f.
(** Points of the rectangle of an image, and its corners. *)
Definition in_rect (g : gray) (p : vec2) : Prop := 0 <= px p <= IZR (g_w g) /\ 0 <= py p <= IZR (g_h g).
Definition corner (g : gray) (p : vec2) : Prop := (px p = 0 \/ px p = IZR (g_w g)) /\ (py p = 0 \/ py p = IZR (g_h g)).
(** The rectangle does not reach the line that goes to infinity: the third homogeneous
    coordinate of its corners is positive. *)
Definition in_front (h : mat3) (g : gray) : Prop := forall c, corner g c -> 0 < v2 (lin h (h3 c)).
(** Some corner of some image has the whole coordinate [z]. *)
Definition reached (l : list (mat3 * gray)) (f : vec2 -> R) (z : Z) : Prop :=
  exists h g c q, In (h, g) l /\ corner g c /\ maps_to h c q /\ whole (f q) z.
(** The pixel (a, b) of an image is what [h] makes of the pixel (x, y) of the panorama. *)
Definition covers (h : mat3) (g : gray) (x y a b : Z) : Prop :=
  exists p, maps_to h (V2 (IZR x) (IZR y)) p /\ whole (px p) a /\ whole (py p) b /\
    (0 <= a < g_w g)%Z /\ (0 <= b < g_h g)%Z.
(** Coordinates that are ints once their fraction is dropped. *)
Definition fits (x : R) : Prop := IZR INT_MIN - 1 < x < IZR INT_MAX + 1.
