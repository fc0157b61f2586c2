(** What is said about local radon images and their scores. *)
From Verif Require Import Base Flt FltErr Img ImgSpec WarpSpec.
Local Open Scope Z_scope.

(** [g] is [src] turned by 45 degrees about the centres, clockwise iff [cw]: every
    pixel is interpolated at (X, Y), which is the turned position of the pixel up to
    rounding errors, and zero outside of [src]; see C116. *)
Definition turned (cw : bool) (src g : image Z) : Prop :=
  forall x y, in_img g x y -> exists X Y,
    Z.abs (2 * X - rotated_x (11863283 * 2 ^ 125) (if cw then 1 else -1) (i_w src) (i_w g) (i_h g) x y) <= (2000000 + x * 1000000) * W /\
    Z.abs (2 * Y - rotated_y (11863283 * 2 ^ 125) (if cw then 1 else -1) (i_h src) (i_w g) (i_h g) x y) <= (2000000 + x * 1000000) * W /\
    sampled (fun b => b = 0) src X Y (pix 0 g x y).
(** Means along rows and along columns. *)
Definition row_means (r : Z) (src g : image Z) : Prop :=
  forall x y, in_img g x y -> pix 0 g x y = window_mean (i_w src) r (fun i => pix 0 src i y) x.
Definition col_means (r : Z) (src g : image Z) : Prop :=
  forall x y, in_img g x y -> pix 0 g x y = window_mean (i_h src) r (fun j => pix 0 src x j) y.
(** Means along a diagonal: those along the rows of the turned image, turned back.
    The turned images are squares of side [n]. *)
Definition diagonal_means (n r : Z) (cw : bool) (src g : image Z) : Prop :=
  exists t m, fresh t n n /\ fresh m n n /\ turned cw src t /\ row_means r t m /\ turned (negb cw) m g.
(** The side of the square: the extent (w + h + 2) / sqrt 2 of the turned image,
    rounded down. *)
Definition diagonal_side (w h n : Z) : Prop := 0 <= n /\ 2 * (n * n) <= (w + h + 2) * (w + h + 2) < 2 * ((n + 1) * (n + 1)).
Definition byte_image (g : image Z) (w h : Z) : Prop := fresh g w h /\ forall x y, in_img g x y -> 0 <= pix 0 g x y <= 255.
(** [v / U] is the square of (hi - lo) / 255 up to a millionth, between 0 and 1. *)
Definition squared_spread (lo hi v : Z) : Prop :=
  0 <= v <= U /\ (lo = hi -> v = 0) /\ 1000000 * Z.abs (65025 * v - (hi - lo) * (hi - lo) * U) <= 65025 * U.
