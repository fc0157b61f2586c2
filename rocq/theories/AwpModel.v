(** Model of the geometry of src/nx_affine_warp_processor.c: the sizes of the
    three buffers and the forward and inverse transforms.

    double arithmetic is that of the real numbers, and cos, sin are exact; int
    conversions that do not fit are undefined.  The pixels are in AwbModel. *)
From Coq Require Import Reals Lra.
From Verif Require Import Base.
Local Open Scope R_scope.

(** double t[6] *)
Record aff := Aff { e0 : R; e1 : R; e2 : R; e3 : R; e4 : R; e5 : R }.

(** transform_set_identity, 198-202. *)
Definition identity_t : aff := Aff 1 0 0 1 0 0.
(** transform_apply, 204-211. *)
Definition t_apply (t : aff) (p : R * R) : R * R :=
  (fst p * e0 t + snd p * e2 t + e4 t, fst p * e1 t + snd p * e3 t + e5 t).
(** transform_combine, 213-228. *)
Definition t_combine (t0 t1 : aff) : aff :=
  Aff (e0 t0 * e0 t1 + e2 t0 * e1 t1) (e1 t0 * e0 t1 + e3 t0 * e1 t1)
      (e0 t0 * e2 t1 + e2 t0 * e3 t1) (e1 t0 * e2 t1 + e3 t0 * e3 t1)
      (e0 t0 * e4 t1 + e2 t0 * e5 t1 + e4 t0) (e1 t0 * e4 t1 + e3 t0 * e5 t1 + e5 t0).

(** The parts of struct NXAffineWarpProcessor, 60-75, that are modelled here. *)
Record awp := Awp { forward_t : aff; inverse_t : aff; skew_wh : Z * Z; sub_wh : Z * Z; result_wh : Z * Z }.

(** nx_affine_warp_processor_reset_transforms, 230-234. *)
Definition reset_transforms (wp : awp) : awp := Awp identity_t identity_t (skew_wh wp) (sub_wh wp) (result_wh wp).
(** nx_affine_warp_processor_update_forward_transform, 243-258. *)
Definition forward_stage (center_in center_out : R * R) (scale_x scale_y angle : R) : aff :=
  let c := cos angle in let s := sin angle in
  let cx := scale_x * c in let sx := scale_x * s in
  let cy := scale_y * c in let sy := scale_y * s in
  let dx := fst center_out - fst center_in * cx + snd center_in * sx in
  let dy := snd center_out - fst center_in * sy - snd center_in * cy in
  Aff cx sy (- sx) cy dx dy.
(** nx_affine_warp_processor_update_inverse_transform, 260-275.  A division by
    zero gives an infinity or NaN in the code and 0 here. *)
Definition inverse_stage (center_in center_out : R * R) (scale_x scale_y angle : R) : aff :=
  let c := cos angle in let s := sin angle in
  let cx := c / scale_x in let sx := s / scale_x in
  let cy := c / scale_y in let sy := s / scale_y in
  let dx := fst center_in - fst center_out * cx - snd center_out * sx in
  let dy := snd center_in + fst center_out * sy - snd center_out * cy in
  Aff cx (- sy) sx cy dx dy.
(** nx_affine_warp_processor_update_transforms, 236-241. *)
Definition update_transforms (wp : awp) (center_in center_out : R * R) (scale_x scale_y angle : R) : awp :=
  Awp (t_combine (forward_stage center_in center_out scale_x scale_y angle) (forward_t wp))
      (t_combine (inverse_t wp) (inverse_stage center_in center_out scale_x scale_y angle))
      (skew_wh wp) (sub_wh wp) (result_wh wp).

(** MIN, MAX, 52-53; min4, max4, 277-289. *)
Definition MINr (a b : R) : R := if Rlt_dec a b then a else b.
Definition MAXr (a b : R) : R := if Rgt_dec a b then a else b.
Definition min4 (a b c d : R) : R := MINr (MINr a b) (MINr c d).
Definition max4 (a b c d : R) : R := MAXr (MAXr a b) (MAXr c d).
(** (int)r: truncation towards zero. *)
Definition to_int_r (r : R) : res Z :=
  let z := if Rle_dec 0 r then Int_part r else (- Int_part (- r))%Z in
  if in_int z then Ok z else UB.

(** nx_affine_warp_processor_transformed_buffer_size, 291-326. *)
Definition transformed_buffer_size (w h : Z) (scale_x scale_y angle : R) (current_t : aff) : res (Z * Z) :=
  let tl := (0, 0) in
  let tr := (IZR w, 0) in
  let bl := (0, IZR h) in
  let br := (IZR w, IZR h) in
  let c := cos angle in let s := sin angle in
  let required_t := Aff (scale_x * c) (scale_y * s) (- scale_x * s) (scale_y * c) 0 0 in
  let go p := t_apply required_t (t_apply current_t p) in
  let tl := go tl in let tr := go tr in let bl := go bl in let br := go br in
  let x_min := min4 (fst tl) (fst tr) (fst bl) (fst br) in
  let x_max := max4 (fst tl) (fst tr) (fst bl) (fst br) in
  let y_min := min4 (snd tl) (snd tr) (snd bl) (snd br) in
  let y_max := max4 (snd tl) (snd tr) (snd bl) (snd br) in
  let* rw := to_int_r (x_max - x_min + 2 * 1) in
  let* rh := to_int_r (y_max - y_min + 2 * 1) in
  Ok (rw, rh).

(** nx_affine_warp_processor_resize_buffer, 359-379: the new size of the out
    buffer and the transforms; [img] is the size of the image, [inb] that of the
    in buffer.  The pixels of the out buffer are set to zero. *)
Definition resize_buffer (wp : awp) (img inb : Z * Z) (scale_x scale_y angle : R) : res (awp * (Z * Z)) :=
  let* (wo, ho) := transformed_buffer_size (fst img) (snd img) scale_x scale_y angle (forward_t wp) in
  let center_in := (IZR (fst inb) / 2, IZR (snd inb) / 2) in
  let center_out := (IZR wo / 2, IZR ho / 2) in
  Ok (update_transforms wp center_in center_out scale_x scale_y angle, (wo, ho)).
(** nx_affine_warp_processor_resize_buffers, 328-357. *)
Definition resize_buffers (wp : awp) (img : Z * Z) (scale planar_angle tilt tilt_angle : R) : res awp :=
  let wp := reset_transforms wp in
  let* (wp, skew) := resize_buffer wp img img 1 1 tilt_angle in
  let* (wp, sub) := resize_buffer wp img skew (1 / tilt) 1 0 in
  let* (wp, result) := resize_buffer wp img sub scale scale planar_angle in
  Ok (Awp (forward_t wp) (inverse_t wp) skew sub result).
