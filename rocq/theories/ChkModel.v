(** src/nx_checkerboard_detector.c: local radon images and their score image. *)
From Verif Require Import Base Flt FilterModel Img ImgModel KernModel WarpModel.
Local Open Scope Z_scope.

(** 48: (img->width + img->height + 2) / sqrt(2.0), converted to int.  The model
    takes the exact quotient: it is irrational, and for sums below 2^16 further from
    an integer than the error of the division in double precision. *)
Definition temp_dim (w h : Z) : res Z :=
  let* s := chk_int (w + h) in
  let* s := chk_int (s + 2) in
  Ok (Z.sqrt (s * s / 2)).
(** 59-61 and 63-65: turn, filter the rows in place, turn back.  [temp] and the
    filter buffer are used again by the next call. *)
Definition slanted (temp img : image Z) (r : Z) (buf : list flt) (dest : image Z) (cw : bool) : res (image Z * image Z * list flt) :=
  let* temp := rotate45_uc temp img cw in
  let* (temp, buf) := row_filter of_int to_uc (box_filter (i_w temp) r) r None temp buf in
  let* dest := rotate45_uc dest temp (negb cw) in
  Ok (dest, temp, buf).
(** nx_checkers_local_radon_images, 37-69.  [junk i] is the content of the i-th new
    image, [bufj] that of the new filter buffer.  The second nx_image_resize of the
    first two images (in nx_image_filter_box_x and _y) changes nothing. *)
Definition local_radon (junk : nat -> nat -> Z) (bufj : nat -> flt) (img : image Z) (r : Z) : res (image Z * image Z * image Z * image Z) :=
  let* l0 := img_new (junk 0%nat) (i_w img) (i_h img) in
  let* l1 := img_new (junk 1%nat) (i_w img) (i_h img) in
  let* l2 := img_new (junk 2%nat) (i_w img) (i_h img) in
  let* l3 := img_new (junk 3%nat) (i_w img) (i_h img) in
  let* td := temp_dim (i_w img) (i_h img) in
  let* l := buffer_len (Z.max td (Z.max (i_w img) (i_h img))) r in
  let buf := map bufj (seq 0 (Z.to_nat l)) in
  let* (l0, buf) := row_filter of_int to_uc (box_filter (i_w img) r) r (Some img) l0 buf in
  let* (l1, buf) := col_filter of_int to_uc (box_filter (i_h img) r) r (Some img) l1 buf in
  let* temp := img_new (junk 4%nat) td td in
  let* (l2, temp, buf) := slanted temp img r buf l2 true in
  let* (l3, _, _) := slanted temp img r buf l3 false in
  Ok (l0, l1, l2, l3).

(** min4_array_uc and max4_array_uc, 71-82. *)
Definition min4 (a b c d : Z) : Z := Z.min (Z.min a b) (Z.min c d).
Definition max4 (a b c d : Z) : Z := Z.max (Z.max a b) (Z.max c d).
(** 98-99: k/255.0 in double precision, stored in a float.  The model rounds once:
    the binary digits of k/255 repeat with period 8 and no quotient is within the
    error of the double division of the middle between two floats. *)
Definition unit_level (k : Z) : flt := fdiv (of_int k) (of_int 255).
(** 98-101. *)
Definition spread_score (a b c d : Z) : flt :=
  let lr_min := unit_level (min4 a b c d) in
  let lr_max := unit_level (max4 a b c d) in
  let d := fsub lr_max lr_min in
  fmul d d.
(** nx_checkers_score_image, 84-105; [kernel] is the smoothing kernel that
    nx_image_smooth computes for sigma 1.3 (nx_kernel_sym_gaussian, see C117). *)
Definition score_image (junk : nat -> flt) (bufj : nat -> flt) (kernel : list flt) (lr : image Z * image Z * image Z * image Z) : res (image flt) :=
  let '(l0, l1, l2, l3) := lr in
  let* s := img_new junk (i_w l0) (i_h l0) in
  let* s := scan 0 (i_w l0) 0 (i_h l0) (fun x y s =>
    let* v := (let* a := iget l0 x y in let* b := iget l1 x y in let* c := iget l2 x y in let* d := iget l3 x y in
               Ok (spread_score a b c d)) in
    iput s x y v) s in
  smooth_self (fun f => f) (fun f => Ok f) bufj s kernel kernel.
