(** What the image properties say, in terms of pixel values. *)
From Verif Require Import Base Img Flt FilterModel FilterSpec.
Local Open Scope Z_scope.

(** All samples are bytes. *)
Definition byte_img (g : image Z) : Prop := Forall (fun v => 0 <= v <= 255) (i_data g).
(** [g'] has size [w] x [h] and rows without gaps. *)
Definition fresh {A} (g' : image A) (w h : Z) : Prop := i_w g' = w /\ i_h g' = h /\ i_stride g' = w /\ image_ok g'.
(** The four neighbours of position (X/2, Y/2) of a doubled image: which of them
    count depends on the parities and on whether there is a next column or row. *)
Definition upsampled {A} (avg2 : A -> A -> A) (avg4 : A -> A -> A -> A -> A) (s : Z -> Z -> A) (w h X Y : Z) : A :=
  let x := X / 2 in let y := Y / 2 in
  let right_ := Z.odd X && (x + 1 <? w) in
  let below := Z.odd Y && (y + 1 <? h) in
  match right_, below with
  | false, false => s x y
  | true, false => avg2 (s x y) (s (x + 1) y)
  | false, true => avg2 (s x y) (s x (y + 1))
  | true, true => avg4 (s x y) (s (x + 1) y) (s x (y + 1)) (s (x + 1) (y + 1))
  end.
(** The five-tap weights 1 6 11 6 1 around position [c] of a signal mirrored at
    its ends; the sum of the weights is 25. *)
Definition five_tap (n : Z) (s : Z -> Z) (c : Z) : Z :=
  let e := extended 0 BMirror n s in e (c - 2) + 6 * e (c - 1) + 11 * e c + 6 * e (c + 1) + e (c + 2).
(** The sample at a position clamped to 0 .. n-1. *)
Definition clamped (n i : Z) : Z := Z.max 0 (Z.min (n - 1) i).
(** The sum over the window of radius [r] around [c], clamped. *)
Definition window_sum (n r : Z) (s : Z -> Z) (c : Z) : Z := zsum (fun j => s (clamped n j)) (c - r) (Z.to_nat (2 * r + 1)).
Definition clamp_byte (v : Z) : Z := Z.max 0 (Z.min 255 v).
(** The mean of the window of radius [r] around [c], clamped and rounded down. *)
Definition window_mean (n r : Z) (s : Z -> Z) (c : Z) : Z := window_sum n r s c / (2 * r + 1).
(** First along the rows, then along the columns of the result. *)
Definition box_mean (w h rx ry : Z) (s : Z -> Z -> Z) (x y : Z) : Z :=
  window_mean h ry (fun y' => window_mean w rx (fun x' => s x' y') x) y.
(** kernel[0] * s(c) + kernel[1] * (s(c-1) + s(c+1)) + ..., positions clamped, in
    single precision in this order. *)
Definition smoothed (kernel : list flt) (n : Z) (s : Z -> flt) (c : Z) : flt :=
  conv_sum fadd fmul (at_ F0 kernel) (fun j => s (clamped n j)) c (length kernel - 1).
(** One-sided differences at the ends, central ones in between. *)
Definition derivative {A} (edge inner : A -> A -> flt) (n : Z) (s : Z -> A) (i : Z) : flt :=
  if i =? 0 then edge (s 0) (s 1) else if i =? n - 1 then edge (s (n - 2)) (s (n - 1)) else inner (s (i - 1)) (s (i + 1)).
