(** Model of src/nx_image_warp.c.  Floating point expressions are evaluated in
    single precision without contraction. *)
From Verif Require Import Base BaseLemmas Flt Gray Img.
Local Open Scope Z_scope.

(** enum NXImageWarpBackgroundMode, include/virg/nexus/nx_image_warp.h:34-40; other
    values act as NX_IMAGE_WARP_BLACK. *)
Inductive bgmode := Black | White | Noise | Repeat | Mirror.

(** 42-46, 65-68: float u = xp-xpi, up = 1.0f - u; the indices xpi and xpi + 1. *)
Definition split_pos (p : flt) : res (Z * Z * flt * flt) :=
  let* i := to_int p in
  let u := fsub p (of_int i) in
  let* i1 := chk_int (i + 1) in
  Ok (i, i1, u, fsub F1 u).
(** 93-107: NX_IMAGE_WARP_REPEAT, one coordinate; [n] is src_w or src_h. *)
Definition repeat_axis (n i0 i1 : Z) : Z * Z :=
  if i0 <? 0 then (0, 0) else if n - 1 <=? i0 then (n - 1, n - 1) else (i0, i1).
(** 108-125: NX_IMAGE_WARP_MIRROR, one coordinate. *)
Definition mirror_low (n2 i : Z) : res Z := (* -i - W2 * (-i / W2) *)
  let* m := chk_int (- i) in
  if n2 =? 0 then UB else
  let* t := chk_int (n2 * (m ÷ n2)) in chk_int (m - t).
Definition mirror_high (n2 i : Z) : res Z := (* W2 - i - W2 * (i / W2) *)
  if n2 =? 0 then UB else
  let* d := chk_int (n2 - i) in
  let* t := chk_int (n2 * (i ÷ n2)) in chk_int (d - t).
Definition mirror_axis (n i0 i1 : Z) : res (Z * Z) :=
  let n2 := n * 2 - 2 in
  if i0 <? 0 then
    let* a := mirror_low n2 i0 in
    let* b := (if i1 <? 0 then mirror_low n2 i1 else Ok i1) in Ok (a, b)
  else if n - 1 <=? i0 then
    let* a := (if n <=? i0 then mirror_high n2 i0 else Ok i0) in
    let* b := (if n <=? i1 then mirror_high n2 i1 else Ok i1) in Ok (a, b)
  else Ok (i0, i1).
(** 80-81: outside of the part of the source that is interpolated. *)
Definition outside (n i0 : Z) : bool := (i0 <? 0) || (n - 1 <=? i0).
(** 127-130: vp*(up*p0[idx[0]] + u*p0[idx[1]]) + v*(up*p1[idx[0]] + u*p1[idx[1]]). *)
Definition mix (u up v vp p00 p01 p10 p11 : flt) : flt :=
  fadd (fmul vp (fadd (fmul up p00) (fmul u p01))) (fmul v (fadd (fmul up p10) (fmul u p11))).
Definition clamp_byte (i : Z) : Z := if i <? 0 then 0 else if 255 <? i then 255 else i.
(** 127-137. *)
Definition interpolate (src : image Z) (x0 x1 : Z) (u up : flt) (y0 y1 : Z) (v vp : flt) : res Z :=
  let* a := iget src x0 y0 in let* b := iget src x1 y0 in
  let* c := iget src x0 y1 in let* d := iget src x1 y1 in
  let* i := to_int (mix u up v vp (of_int a) (of_int b) (of_int c) (of_int d)) in
  Ok (clamp_byte i).
(** 61-139: the new value of a pixel; [smp] are the outputs of NX_UNIFORM_SAMPLE_S,
    of which the first [n] have been used. *)
Definition pixel (smp : nat -> flt) (bg : bgmode) (src : image Z) (xp yp : flt) (n : nat) : res (Z * nat) :=
  let* (x0, x1, u, up) := split_pos xp in
  let* (y0, y1, v, vp) := split_pos yp in
  let out := outside (i_w src) x0 || outside (i_h src) y0 in
  match bg with
  | Black | White => if out then Ok (match bg with White => 255 | _ => 0 end, n) else let* b := interpolate src x0 x1 u up y0 y1 v vp in Ok (b, n)
  | Noise =>
    if out then let* b := to_int (fmul (of_int 255) (smp n)) in if (0 <=? b) && (b <=? 255) then Ok (b, S n) else UB
    else let* b := interpolate src x0 x1 u up y0 y1 v vp in Ok (b, n)
  | Repeat =>
    let (x0, x1) := repeat_axis (i_w src) x0 x1 in
    let (y0, y1) := repeat_axis (i_h src) y0 y1 in
    let* b := interpolate src x0 x1 u up y0 y1 v vp in Ok (b, n)
  | Mirror =>
    let* (x0, x1) := mirror_axis (i_w src) x0 x1 in
    let* (y0, y1) := mirror_axis (i_h src) y0 y1 in
    let* b := interpolate src x0 x1 u up y0 y1 v vp in Ok (b, n)
  end.
(** 58, 140: the loop over a row: for (x = 0; x < dest_w; ++x, xp += t[0],
    yp += t[1]); [k] columns are left. *)
Section Rows.
Context {A : Type}.
Variable px : flt -> flt -> nat -> res (A * nat).
Variables dx dy : flt.
Fixpoint row_loop (k : nat) (x y : Z) (xp yp : flt) (dest : image A) (n : nat) : res (image A * nat) :=
  match k with
  | O => Ok (dest, n)
  | S k =>
    let* (b, n) := px xp yp n in
    let* dest := iput dest x y b in
    row_loop k (x + 1) y (fadd xp dx) (fadd yp dy) dest n
  end.
(** 53-141: all rows; [x0 y], [y0 y] are xp and yp at the start of row y. *)
Variables x0 y0 : Z -> flt.
Definition rows (dest : image A) : res (image A * nat) :=
  for_each (fun y s => row_loop (Z.to_nat (i_w dest)) 0 y (x0 y) (y0 y) (fst s) (snd s)) (zrange 0 (i_h dest)) (dest, O).
End Rows.
(** nx_image_warp_affine_bilinear, 36-142.  The raw pointers with their sizes and
    strides are images; [t] is t_dest2src. *)
Record affine := Affine { t0 : flt; t1 : flt; t3 : flt; t4 : flt; t6 : flt; t7 : flt }.
Definition warp_affine_bilinear (smp : nat -> flt) (dest src : image Z) (t : affine) (bg : bgmode) : res (image Z * nat) :=
  let* _ := chk_int (i_w src * 2) in let* _ := chk_int (i_h src * 2) in   (* W2, H2 *)
  rows (pixel smp bg src) (t0 t) (t1 t)
    (fun y => fadd (fmul (of_int y) (t3 t)) (t6 t)) (fun y => fadd (fmul (of_int y) (t4 t)) (t7 t)) dest.

(** nx_image_rotate45_uc, 144-190.  SQRT2_INV is the float nearest to 1/sqrt(2). *)
Definition SQRT2_INV : flt := FF (11863283 * 2 ^ 125).
Definition half : flt := FF (2 ^ 148).
Definition CW (cw : bool) : flt := if cw then F1 else fneg F1.
(** 154-155: TX, TY. *)
Definition rot_tx (cw : bool) (sw dw dh : Z) : flt := fmul (fsub (of_int sw) (fmul SQRT2_INV (fadd (of_int dw) (fmul (CW cw) (of_int dh))))) half.
Definition rot_ty (cw : bool) (sh dw dh : Z) : flt := fmul (fadd (of_int sh) (fmul SQRT2_INV (fsub (fmul (CW cw) (of_int dw)) (of_int dh)))) half.
Section Rotate.
Context {A : Type}.
Variable px : flt -> flt -> nat -> res (A * nat).
Definition rotate45 (dest : image A) (sw sh : Z) (cw : bool) : res (image A) :=
  let tx := rot_tx cw sw (i_w dest) (i_h dest) in
  let ty := rot_ty cw sh (i_w dest) (i_h dest) in
  let* (g, _) := rows px SQRT2_INV (fneg (fmul (CW cw) SQRT2_INV))
    (fun y => fadd (fmul (fmul (CW cw) (of_int y)) SQRT2_INV) tx) (fun y => fadd (fmul (of_int y) SQRT2_INV) ty) dest in
  Ok g.
End Rotate.
(** The body of the loop, 165-188, is that of the warp with a black background. *)
Definition rotate45_uc (dest src : image Z) (cw : bool) : res (image Z) := rotate45 (pixel (fun _ => F0) Black src) dest (i_w src) (i_h src) cw.
(** nx_image_rotate45_f32, 192-235: the interpolated value becomes an int. *)
Definition pixel_f32 (src : image flt) (xp yp : flt) (n : nat) : res (flt * nat) :=
  let* (x0, x1, u, up) := split_pos xp in
  let* (y0, y1, v, vp) := split_pos yp in
  if outside (i_w src) x0 || outside (i_h src) y0 then Ok (F0, n) else
  let* a := iget src x0 y0 in let* b := iget src x1 y0 in
  let* c := iget src x0 y1 in let* d := iget src x1 y1 in
  let* i := to_int (mix u up v vp a b c d) in
  Ok (of_int i, n).
Definition rotate45_f32 (dest src : image flt) (cw : bool) : res (image flt) := rotate45 (pixel_f32 src) dest (i_w src) (i_h src) cw.
