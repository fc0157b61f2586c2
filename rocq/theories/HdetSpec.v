(** What the properties of the Harris detector class say. *)
From Verif Require Import Base Gray Img Flt ImgSpec HarrisModel HarrisSpec.
Local Open Scope Z_scope.

(** Image gradients of a byte image, in units of the full intensity range. *)
Definition grad_x (img : image Z) (x y : Z) : flt :=
  derivative (fun a b => fdiv (fmul (of_int 2) (of_int (b - a))) (of_int 255)) (fun a b => fdiv (of_int (b - a)) (of_int 255)) (i_w img) (fun i => pix 0 img i y) x.
Definition grad_y (img : image Z) (x y : Z) : flt :=
  derivative (fun a b => fdiv (fmul (of_int 2) (of_int (b - a))) (of_int 255)) (fun a b => fdiv (of_int (b - a)) (of_int 255)) (i_h img) (fun i => pix 0 img x i) y.
(** The window: nothing, or a separable symmetric kernel, rows first. *)
Definition windowed (win : option (list flt)) (w h : Z) (f : Z -> Z -> flt) (x y : Z) : flt :=
  match win with
  | None => f x y
  | Some k => smoothed k h (fun j => smoothed k w (fun i => f i j) x) y
  end.
(** [s] holds the Harris response det M - k (tr M)^2 of [img], where M is the
    windowed second moment matrix of the gradients. *)
Definition harris_response (win : option (list flt)) (k : flt) (img : image Z) (s : image flt) : Prop :=
  image_ok s /\ i_w s = i_w img /\ i_h s = i_h img /\
  forall x y, in_img s x y ->
    let m g := windowed win (i_w img) (i_h img) g x y in
    let xx := m (fun x y => fmul (grad_x img x y) (grad_x img x y)) in
    let yy := m (fun x y => fmul (grad_y img x y) (grad_y img x y)) in
    let xy := m (fun x y => fmul (grad_x img x y) (grad_y img x y)) in
    let tr := fadd xx yy in
    pix F0 s x y = fsub (fsub (fmul xx yy) (fmul xy xy)) (fmul (fmul k tr) tr).
(** Images and kernels the detector can work on. *)
Definition usable (win : option (list flt)) (img : image Z) : Prop :=
  image_ok img /\ i_stride img = i_w img /\ 2 <= i_w img /\ 2 <= i_h img /\
  match win with None => True | Some k => (2 <= length k)%nat /\ Z.max (i_w img) (i_h img) + 2 * (Z.of_nat (length k) - 1) <= INT_MAX end.

(** Position of a corner: its level, row and column. *)
Definition place : Type := Z * Z * Z.
(** Coarse levels first, raster order within a level. *)
Definition earlier (a b : place) : Prop :=
  let '(l, y, x) := a in let '(l', y', x') := b in l' < l \/ (l = l' /\ (y < y' \/ (y = y' /\ x < x'))).
Definition place_of (h : hkey) : place := (h_level h, h_y h, h_x h).
(** a <= b for numbers. *)
Definition f_le (a b : flt) : Prop :=
  match a, b with
  | FF x, FF y => x <= y
  | FF _, FInf s => s = false
  | FInf s, FF _ => s = true
  | FInf s, FInf t => s = true \/ t = false
  | _, _ => False
  end.
(** The value of a non-negative finite float: a 24 bit number times a power of two. *)
Definition threshold_ok (t : flt) : Prop := exists a e, 0 <= a < 2 ^ 24 /\ 0 <= e <= 253 /\ t = FF (a * 2 ^ e).
(** By how many percent the threshold is scaled for [n] keys when [max] are wanted. *)
Definition percent (n max : Z) : Z :=
  if 17 * max <? 10 * n then 400 else if 14 * max <? 10 * n then 190 else if 11 * max <? 10 * n then 120 else if max <? n then 102
  else if 2 * n <? max then 25 else if 10 * n <? 9 * max then 60 else if 20 * n <? 19 * max then 90 else if 100 * n <? 99 * max then 97 else 100.
(** The float nearest to p percent. *)
Definition percent_float (p : Z) : flt := mkf (p * U) 100.
