(** What resampling by bilinear interpolation means.  Positions are integers, in
    units of U = 2^149 per pixel (every finite float is such a position). *)
From Verif Require Import Base BaseLemmas Flt FltErr Gray Img.
Local Open Scope Z_scope.

(** The weighted mean of four values, times U^2; u and v in 0 .. U. *)
Definition bilinear (a b c d u v : Z) : Z := (U - u) * (U - v) * a + u * (U - v) * b + (U - u) * v * c + u * v * d.
(** [b] is q / U^2 rounded down, except for 1/256. *)
Definition near (b q : Z) : Prop := 256 * (b * U ^ 2) <= 256 * q + U ^ 2 /\ 256 * q < 256 * ((b + 1) * U ^ 2) + U ^ 2.
(** The interpolated value at a position, given how indices beyond the last are replaced. *)
Definition value_at (fx fy : Z -> Z) (src : image Z) (X Y : Z) : Z :=
  let x := X / U in let y := Y / U in
  bilinear (pix 0 src (fx x) (fy y)) (pix 0 src (fx (x + 1)) (fy y)) (pix 0 src (fx x) (fy (y + 1))) (pix 0 src (fx (x + 1)) (fy (y + 1))) (X mod U) (Y mod U).
Definition plain (i : Z) : Z := i.
Definition last_again (n i : Z) : Z := Z.min i (n - 1).
Definition reflected (n i : Z) : Z := if i <? n then i else 2 * (n - 1) - i.
Definition clamp_pos (n X : Z) : Z := Z.max 0 (Z.min X ((n - 1) * U)).
(** Positions in the interpolated part of the source; positions away from it (the
    pixels of the code, see the findings, start at -1). *)
Definition inside (src : image Z) (X Y : Z) : Prop := 0 <= X < (i_w src - 1) * U /\ 0 <= Y < (i_h src - 1) * U.
Definition away (n X : Z) : Prop := X <= - U \/ (n - 1) * U <= X.
(** Black, white and noise: interpolated inside, filled away from there. *)
Definition sampled (fill : Z -> Prop) (src : image Z) (X Y b : Z) : Prop :=
  (inside src X Y -> near b (value_at plain plain src X Y)) /\ (away (i_w src) X \/ away (i_h src) Y -> fill b).
(** The border is repeated. *)
Definition sampled_repeat (src : image Z) (X Y b : Z) : Prop :=
  (0 <= X \/ X <= - U) -> (0 <= Y \/ Y <= - U) ->
  near b (value_at (last_again (i_w src)) (last_again (i_h src)) src (clamp_pos (i_w src) X) (clamp_pos (i_h src) Y)).
(** The image is reflected at its border. *)
Definition sampled_mirror (src : image Z) (X Y b : Z) : Prop :=
  0 <= X -> 0 <= Y -> near b (value_at (reflected (i_w src)) (reflected (i_h src)) src X Y).
(** Nothing but pixels is changed. *)
Definition only_pixels {A} (g g' : image A) : Prop := same_shape g' g /\
  forall i, (forall x y, in_img g x y -> i <> Z.to_nat (y * i_stride g + x)) -> nth_error (i_data g') i = nth_error (i_data g) i.

(** Where an affine map takes a pixel; the coefficients are in units of U. *)
Section Place.
Variables a0 a1 a3 a4 a6 a7 : Z.
Definition exact_x (x y : Z) : Z := x * a0 + y * a3 + a6.
Definition exact_y (x y : Z) : Z := x * a1 + y * a4 + a7.
(** Both coordinates of all pixels of [dest], and the products with y, stay below
    [c] pixels, and the rows are not too long for that. *)
Definition small_map (dest : image Z) (c : Z) : Prop :=
  1 <= c <= 2 ^ 20 /\ (i_w dest + 2) * (65 * (c + 1)) <= 2 ^ 30 /\ i_h dest <= 2 ^ 24 /\
  forall x y, in_img dest x y -> Z.abs (y * a3) <= c * U /\ Z.abs (y * a4) <= c * U /\ Z.abs (exact_x x y) <= c * U /\ Z.abs (exact_y x y) <= c * U.
(** [X], [Y] is the exact position up to the rounding errors of the sums. *)
Definition placed (c x y X Y : Z) : Prop :=
  Z.abs (X - exact_x x y) <= (x + 2) * (65 * (c + 1)) * W /\ Z.abs (Y - exact_y x y) <= (x + 2) * (65 * (c + 1)) * W.
End Place.
(** Rotation by 45 degrees about the centres, in units of U/2; [r] is the float
    nearest to 1/sqrt 2 and [s] is 1 (clockwise) or -1. *)
Definition rotated_x (r s sw dw dh x y : Z) : Z := sw * U + r * ((2 * x - dw) + s * (2 * y - dh)).
Definition rotated_y (r s sh dw dh x y : Z) : Z := sh * U + r * ((2 * y - dh) - s * (2 * x - dw)).
