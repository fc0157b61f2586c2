(** Model of the pixels of src/nx_affine_warp_processor.c: resampling, blurring and
    the background.  Single precision without contraction; cos, sin, the standard
    deviations 0.8 * sqrt(t * t - 1) and the convolutions are parameters.  The
    variant for USE_SSE, 475-530, is not modelled. *)
From Verif Require Import Base BaseLemmas Flt Gray Img WarpModel.
Local Open Scope Z_scope.

(** The loops of both functions, 540-578 and 590-667, over the pixels of a buffer:
    [px] gives the new value of a pixel, or None if it is left alone (continue). *)
Section Rows.
Variable px : flt -> flt -> nat -> res (option Z * nat).
Variables dx dy : flt.
Fixpoint row_opt (k : nat) (x y : Z) (xp yp : flt) (dest : image Z) (n : nat) : res (image Z * nat) :=
  match k with
  | O => Ok (dest, n)
  | S k =>
    let* (b, n) := px xp yp n in
    let* dest := (match b with None => Ok dest | Some b => iput dest x y b end) in
    row_opt k (x + 1) y (fadd xp dx) (fadd yp dy) dest n
  end.
Variables x0 y0 : Z -> flt.
Definition rows_opt (dest : image Z) : res (image Z * nat) :=
  for_each (fun y s => row_opt (Z.to_nat (i_w dest)) 0 y (x0 y) (y0 y) (fst s) (snd s)) (zrange 0 (i_h dest)) (dest, O).
End Rows.

(** warp_buffer_affine_bilinear, 532-578. *)
Definition core_pixel (src : image Z) (xp yp : flt) (n : nat) : res (option Z * nat) :=
  let* xpi := to_int xp in
  let* ypi := to_int yp in
  if (xpi <? 0) || (i_w src - 1 <=? xpi) || (ypi <? 0) || (i_h src - 1 <=? ypi) then Ok (None, n)
  else
    let u := fsub xp (of_int xpi) in
    let v := fsub yp (of_int ypi) in
    let* b := interpolate src xpi (xpi + 1) u (fsub F1 u) ypi (ypi + 1) v (fsub F1 v) in
    Ok (Some b, n).
Definition warp_core (dest src : image Z) (t : affine) : res (image Z) :=
  let* (g, _) := rows_opt (core_pixel src) (t0 t) (t1 t)
    (fun y => fadd (fmul (of_int y) (t3 t)) (t6 t)) (fun y => fadd (fmul (of_int y) (t4 t)) (t7 t)) dest in
  Ok g.

(** enum NXAWPBgMode, include/virg/nexus/nx_affine_warp_processor.h; other values
    act as NX_AWP_BG_FIXED. *)
Inductive awp_bg := BgFixed (color : Z) | BgNoise | BgRepeat.
(** 616-617 and 624-625: one coordinate belongs to the background. *)
Definition bg_axis (n i0 i1 : Z) : bool := (i0 <=? 0) || (n - 1 <=? i1).
(** 631-649: NX_AWP_BG_REPEAT, one coordinate. *)
Definition bg_repeat (n i0 i1 : Z) : Z * Z * bool :=
  if i0 <=? 0 then (0, 0, true) else if n - 1 <=? i1 then (n - 1, n - 1, true) else (i0, i1, false).
(** The body of the loop of fill_warp_buffer_bg, 597-666; [smp] as in WarpModel. *)
Definition bg_pixel (smp : nat -> flt) (bg : awp_bg) (src : image Z) (xp yp : flt) (n : nat) : res (option Z * nat) :=
  let* (x0, x1, u, up) := split_pos xp in
  let* (y0, y1, v, vp) := split_pos yp in
  match bg with
  | BgFixed c => Ok (if bg_axis (i_w src) x0 x1 || bg_axis (i_h src) y0 y1 then Some c else None, n)
  | BgNoise =>
    if bg_axis (i_w src) x0 x1 || bg_axis (i_h src) y0 y1
    then let* b := to_int (fmul (of_int 255) (smp n)) in if (0 <=? b) && (b <=? 255) then Ok (Some b, S n) else UB
    else Ok (None, n)
  | BgRepeat =>
    let '(x0, x1, bx) := bg_repeat (i_w src) x0 x1 in
    let '(y0, y1, by') := bg_repeat (i_h src) y0 y1 in
    if bx || by' then let* b := interpolate src x0 x1 u up y0 y1 v vp in Ok (Some b, n) else Ok (None, n)
  end.
(** fill_warp_buffer_bg, 581-669; its parameters t2, t3, t4, t5 are t3, t4, t6, t7
    of [affine]. *)
Definition fill_warp_buffer_bg (smp : nat -> flt) (dest src : image Z) (t : affine) (bg : awp_bg) : res (image Z * nat) :=
  rows_opt (bg_pixel smp bg src) (t0 t) (t1 t)
    (fun y => fadd (fmul (of_int y) (t3 t)) (t6 t)) (fun y => fadd (fmul (of_int y) (t4 t)) (t7 t)) dest.

Section Warp.
Variables fcos fsin : flt -> flt.        (* (float)cos(a), (float)sin(a) *)
Variable sigma_of : flt -> flt.          (* (float)(0.8 * sqrt(t * t - 1)) *)
Variables xpass ypass : flt -> image Z -> res (image Z). (* convolution of all rows, of all columns *)
Variable smp : nat -> flt.
(** fill_inverse_transform, 449-471. *)
Definition fill_inverse_transform (cx_in cy_in cx_out cy_out scale_x scale_y angle : flt) : affine :=
  let c := fcos angle in let s := fsin angle in
  let cx := fdiv c scale_x in let sx := fdiv s scale_x in
  let cy := fdiv c scale_y in let sy := fdiv s scale_y in
  Affine cx (fneg sy) sx cy
    (fsub (fsub cx_in (fmul cx_out cx)) (fmul cy_out sx)) (fsub (fadd cy_in (fmul cx_out sy)) (fmul cy_out cy)).
(** w/2.0f *)
Definition halved (n : Z) : flt := fmul (of_int n) half.
(** warp_processor_blur, 671-724: nx_kernel_sym_gaussian, src/nx_filter.c:71-87,
    asserts that sigma > 0. *)
Definition blur (g : image Z) (sigma_x sigma_y : flt) : res (image Z) :=
  if f_gt sigma_x F0 then
    let* g := xpass sigma_x g in
    if f_gt sigma_y F0 then ypass sigma_y g else Fatal
  else Fatal.
(** nx_affine_warp_processor_warp, 136-154, after the buffers have been resized:
    compute_skew_rotation_buffer, 389-406; compute_subsample_buffer, 408-427;
    compute_result_buffer, 429-447; the background.  [inv] is inverse_t as floats. *)
Definition warp (img skew sub result : image Z) (scale planar_angle tilt tilt_angle post_sigma : flt) (inv : affine) (bg : awp_bg) : res (image Z) :=
  let* skew := warp_core skew img (fill_inverse_transform (halved (i_w img)) (halved (i_h img)) (halved (i_w skew)) (halved (i_h skew)) F1 F1 tilt_angle) in
  let* skew := blur skew (sigma_of tilt) F0 in
  let* sub := warp_core sub skew (fill_inverse_transform (halved (i_w skew)) (halved (i_h skew)) (halved (i_w sub)) (halved (i_h sub)) (fdiv F1 tilt) F1 F0) in
  let* sub := (if f_gt scale F1 then blur sub (sigma_of scale) (sigma_of scale) else Ok sub) in
  let* result := warp_core result sub (fill_inverse_transform (halved (i_w sub)) (halved (i_h sub)) (halved (i_w result)) (halved (i_h result)) scale scale planar_angle) in
  let* result := blur result post_sigma post_sigma in
  let* (result, _) := fill_warp_buffer_bg smp result img inv bg in
  Ok result.
End Warp.
