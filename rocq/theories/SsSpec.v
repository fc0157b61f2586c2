(** Scales of images. *)
From Coq Require Import Reals.
From Verif Require Import Base SsModel.
Local Open Scope R_scope.

(** The blur of an image in its pixels: the camera gives half a pixel; variances of
    Gaussians add. *)
Fixpoint blur (s : sym) : R :=
  match s with
  | Input => 1 / 2
  | Up s => 2 * blur s
  | Smooth g s => sqrt (blur s * blur s + g * g)
  | Down s => blur s / 2
  end.
(** The size of a pixel of an image, in pixels of the input. *)
Fixpoint pixel_size (s : sym) : R :=
  match s with Input => 1 | Up s => pixel_size s / 2 | Smooth _ s => pixel_size s | Down s => 2 * pixel_size s end.
(** An image of octave [o] with blur [b] in its pixels. *)
Definition at_scale (o : Z) (b : R) (g : limg) : Prop := pixel_size (l_im g) = powerRZ 2 o /\ blur (l_im g) = b.
(** The first scale: sigma0, unless the image is more blurred already. *)
Definition base_scale (double : bool) (sigma0 : R) : R := Rmax sigma0 (if double then 1 else 1 / 2).
(** The sizes of octave [k] counted from the first. *)
Definition first_size (double : bool) (w : Z) : Z := if double then (2 * w)%Z else w.
