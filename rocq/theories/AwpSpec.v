(** What the affine warp is meant to be: about the centres of image and result,
    a rotation by the tilt angle, a compression of x by the tilt, a rotation by
    the planar angle and a scaling. *)
From Coq Require Import Reals.
From Verif Require Import Base.
Local Open Scope R_scope.

Definition rotate (a : R) (p : R * R) : R * R := (cos a * fst p - sin a * snd p, sin a * fst p + cos a * snd p).
Definition compress (tilt : R) (p : R * R) : R * R := (fst p / tilt, snd p).
Definition grow (s : R) (p : R * R) : R * R := (s * fst p, s * snd p).
Definition centre (wh : Z * Z) : R * R := (IZR (fst wh) / 2, IZR (snd wh) / 2).
Definition minus (p q : R * R) : R * R := (fst p - fst q, snd p - snd q).
Definition plus (p q : R * R) : R * R := (fst p + fst q, snd p + snd q).
Definition affine_warp (img result : Z * Z) (scale planar_angle tilt tilt_angle : R) (p : R * R) : R * R :=
  plus (centre result) (grow scale (rotate planar_angle (compress tilt (rotate tilt_angle (minus p (centre img)))))).
(** In the closed rectangle covered by the image. *)
Definition on_image (wh : Z * Z) (p : R * R) : Prop := 0 <= fst p <= IZR (fst wh) /\ 0 <= snd p <= IZR (snd wh).
(** More than half a pixel away from the border of the buffer. *)
Definition well_inside (wh : Z * Z) (p : R * R) : Prop := 1 / 2 < fst p < IZR (fst wh) - 1 / 2 /\ 1 / 2 < snd p < IZR (snd wh) - 1 / 2.
