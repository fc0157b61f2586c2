(** Model of the pixel operations of src/nx_image.c on one-channel images.
    Bytes are the integers 0..255; floats are those of Flt.v.  The source and
    the destination are different images unless said otherwise. *)
From Verif Require Import Base BaseLemmas Gray Img Flt FilterModel.
Local Open Scope Z_scope.

Notation uc_img := (image Z).
Notation f32_img := (image flt).
(** Conversion of a float to uchar: the truncated value must fit. *)
Definition to_uc (f : flt) : res Z := let* v := to_int f in if (0 <=? v) && (v <=? 255) then Ok v else UB.

(** * Resampling *)

(** nx_image_downsample_uc, nx_image_downsample_f32, nx_image.c:677-700. *)
Definition downsample {A} (junk : nat -> A) (src : image A) : res (image A) :=
  let* dest := img_new junk (Z.quot (i_w src) 2) (Z.quot (i_h src) 2) in
  scan 0 (i_w dest) 0 (i_h dest) (fun x y dest => let* v := iget src (2 * x) (2 * y) in iput dest x y v) dest.

(** nx_image_upsample_uc, 716-759, nx_image_upsample_f32, 761-804.  [avg2] and
    [avg4] are the averages of two and four samples. *)
Section Upsample.
Context {A : Type}.
Variables (avg2 : A -> A -> A) (avg4 : A -> A -> A -> A -> A).
Definition upsample (junk : nat -> A) (src : image A) : res (image A) :=
  let w := i_w src in
  let h := i_h src in
  let* dw := chk_int (2 * w) in
  let* dh := chk_int (2 * h) in
  let* dest := img_new junk dw dh in
  let* dest := for_each (fun y dest =>
    let* dest := for_each (fun x dest =>
      let* a := iget src x y in
      let* b := iget src (x + 1) y in
      let* c := iget src x (y + 1) in
      let* d := iget src (x + 1) (y + 1) in
      let* dest := iput dest (2 * x) (2 * y) a in
      let* dest := iput dest (2 * x + 1) (2 * y) (avg2 a b) in
      let* dest := iput dest (2 * x) (2 * y + 1) (avg2 a c) in
      iput dest (2 * x + 1) (2 * y + 1) (avg4 a b c d)) (zrange 0 (w - 1)) dest in
    let* a := iget src (w - 1) y in
    let* c := iget src (w - 1) (y + 1) in
    let* dest := iput dest (2 * w - 2) (2 * y) a in
    let* dest := iput dest (2 * w - 1) (2 * y) a in
    let* dest := iput dest (2 * w - 2) (2 * y + 1) (avg2 a c) in
    iput dest (2 * w - 1) (2 * y + 1) (avg2 a c)) (zrange 0 (h - 1)) dest in
  let y := h - 1 in
  let* dest := for_each (fun x dest =>
    let* a := iget src x y in
    let* b := iget src (x + 1) y in
    let* dest := iput dest (2 * x) (2 * y) a in
    let* dest := iput dest (2 * x + 1) (2 * y) (avg2 a b) in
    let* dest := iput dest (2 * x) (2 * y + 1) a in
    iput dest (2 * x + 1) (2 * y + 1) (avg2 a b)) (zrange 0 (w - 1)) dest in
  let* a := iget src (w - 1) y in
  let* dest := iput dest (2 * w - 2) (2 * y) a in
  let* dest := iput dest (2 * w - 1) (2 * y) a in
  let* dest := iput dest (2 * w - 2) (2 * y + 1) a in
  iput dest (2 * w - 1) (2 * y + 1) a.
End Upsample.
Definition upsample_uc := upsample (fun a b => Z.quot (a + b) 2) (fun a b c d => Z.quot (a + b + c + d) 4).
Definition F_HALF : flt := FF (2 ^ 148).
Definition F_QUARTER : flt := FF (2 ^ 147).
Definition upsample_f32 := upsample (fun a b => fmul (fadd a b) F_HALF) (fun a b c d => fmul (fadd (fadd (fadd a b) c) d) F_QUARTER).

(** nx_image_downsample_aa_x_uc / _f32, 819-855, for one row of length [w]
    given by [get]: the value written at dest position [x]. *)
Section AA.
Context {A : Type}.
(** The three expressions: the first pixel from samples 0, 1, 2; a middle one;
    the last one for even widths. *)
Variables (first : A -> A -> A -> res A) (mid : A -> A -> A -> A -> A -> res A) (last : A -> A -> A -> A -> res A) (last_odd : A -> A -> A -> A -> A -> res A).
Definition aa_x (junk : nat -> A) (src : image A) : res (image A) :=
  let* dest := img_new junk (Z.quot (i_w src) 2) (i_h src) in
  let dw := i_w dest in
  for_each (fun y dest =>
    let* s2 := iget src 2 y in
    let* s1 := iget src 1 y in
    let* s0 := iget src 0 y in
    let* v := first s0 s1 s2 in
    let* dest := iput dest 0 y v in
    let* dest := for_each (fun x dest =>
      let* a := iget src (2 * x - 2) y in
      let* e := iget src (2 * x + 2) y in
      let* b := iget src (2 * x - 1) y in
      let* d := iget src (2 * x + 1) y in
      let* c := iget src (2 * x) y in
      let* v := mid a b c d e in
      iput dest x y v) (zrange 1 (dw - 1)) dest in
    let t := 2 * dw in
    if t =? i_w src then
      let* a := iget src (t - 4) y in
      let* b := iget src (t - 3) y in
      let* d := iget src (t - 1) y in
      let* c := iget src (t - 2) y in
      let* v := last a b c d in
      iput dest (dw - 1) y v
    else
      let* a := iget src (t - 4) y in
      let* e := iget src t y in
      let* b := iget src (t - 3) y in
      let* d := iget src (t - 1) y in
      let* c := iget src (t - 2) y in
      let* v := last_odd a b c d e in
      iput dest (dw - 1) y v) (zrange 0 (i_h dest)) dest.
(** nx_image_downsample_aa_y_uc / _f32, 873-914. *)
Definition aa_y (junk : nat -> A) (src : image A) : res (image A) :=
  let* dest := img_new junk (i_w src) (Z.quot (i_h src) 2) in
  let dh := i_h dest in
  for_each (fun x dest =>
    let* s2 := iget src x 2 in
    let* s1 := iget src x 1 in
    let* s0 := iget src x 0 in
    let* v := first s0 s1 s2 in
    let* dest := iput dest x 0 v in
    let* dest := for_each (fun y dest =>
      let* a := iget src x (2 * y - 2) in
      let* e := iget src x (2 * y + 2) in
      let* b := iget src x (2 * y - 1) in
      let* d := iget src x (2 * y + 1) in
      let* c := iget src x (2 * y) in
      let* v := mid a b c d e in
      iput dest x y v) (zrange 1 (dh - 1)) dest in
    let t := 2 * dh in
    if t =? i_h src then
      let* a := iget src x (t - 4) in
      let* b := iget src x (t - 3) in
      let* d := iget src x (t - 1) in
      let* c := iget src x (t - 2) in
      let* v := last a b c d in
      iput dest x (dh - 1) v
    else
      let* a := iget src x (t - 4) in
      let* e := iget src x t in
      let* b := iget src x (t - 3) in
      let* d := iget src x (t - 1) in
      let* c := iget src x (t - 2) in
      let* v := last_odd a b c d e in
      iput dest x (dh - 1) v) (zrange 0 (i_w dest)) dest.
End AA.
(** norm_f = 1.0f / 25. *)
Definition NORM : flt := fdiv F1 (of_int (1 + 6 + 11 + 6 + 1)).
Definition aa_uc (sum : Z) : res Z := to_uc (fmul (of_int sum) NORM).
Definition uc_first s0 s1 s2 := aa_uc (2 * s2 + 12 * s1 + 11 * s0).
Definition uc_mid a b c d e := aa_uc (a + e + 6 * (b + d) + 11 * c).
Definition uc_last a b c d := aa_uc (a + 6 * (b + d) + 12 * c).
Definition aa_x_uc := aa_x uc_first uc_mid uc_last uc_mid.
Definition aa_y_uc := aa_y uc_first uc_mid uc_last uc_mid.
Definition ci (z : Z) (f : flt) : flt := fmul (of_int z) f.
Definition f_first s0 s1 s2 : res flt := Ok (fmul (fadd (fadd (ci 2 s2) (ci 12 s1)) (ci 11 s0)) NORM).
Definition f_mid a b c d e : res flt := Ok (fmul (fadd (fadd (fadd a e) (ci 6 (fadd b d))) (ci 11 c)) NORM).
Definition f_last a b c d : res flt := Ok (fmul (fadd (fadd a (ci 6 (fadd b d))) (ci 12 c)) NORM).
Definition aa_x_f32 := aa_x f_first f_mid f_last f_mid.
Definition aa_y_f32 := aa_y f_first f_mid f_last f_mid.

(** * Derivatives *)

(** nx_image_deriv_x_uc, _f32, 1187-1211.  [edge a b] is 2.0f*(b-a)/S and
    [inner a b] is (b-a)/S. *)
Section Deriv.
Context {A : Type}.
Variables (edge inner : A -> A -> flt).
Definition deriv_x (junk : nat -> flt) (src : image A) : res f32_img :=
  let w := i_w src in
  let* dest := img_new junk w (i_h src) in
  for_each (fun y dest =>
    let* b := iget src 1 y in
    let* a := iget src 0 y in
    let* dest := iput dest 0 y (edge a b) in
    let* dest := for_each (fun x dest =>
      let* b := iget src (x + 1) y in
      let* a := iget src (x - 1) y in
      iput dest x y (inner a b)) (zrange 1 (i_w dest - 1)) dest in
    let* b := iget src (w - 1) y in
    let* a := iget src (w - 2) y in
    iput dest (i_w dest - 1) y (edge a b)) (zrange 0 (i_h src)) dest.
(** nx_image_deriv_y_uc, _f32, 1226-1258.  The last row of the source is found
    with the row stride of the destination. *)
Definition deriv_y (src : image A) : res f32_img :=
  let w := i_w src in
  let h := i_h src in
  let* dest := img_new (fun _ => F0) w h in
  let ds := i_stride dest in
  let* dest := for_each (fun x dest =>
    let* b := iget src x 1 in
    let* a := iget src x 0 in
    iput dest x 0 (edge a b)) (zrange 0 w) dest in
  let* dest := scan 0 w 1 (h - 1) (fun x y dest =>
    let* b := iget src x (y + 1) in
    let* a := iget src x (y - 1) in
    iput dest x y (inner a b)) dest in
  for_each (fun x dest =>
    let* r1 := chk_int ((h - 1) * ds) in
    let* r2 := chk_int ((h - 2) * ds) in
    let* b := zget (i_data src) (x + r1) in
    let* a := zget (i_data src) (x + r2) in
    iput dest x (h - 1) (edge a b)) (zrange 0 w) dest.
End Deriv.
Definition F255 : flt := of_int 255.
(** In the byte versions the difference is an int. *)
Definition edge_uc (a b : Z) : flt := fdiv (fmul (of_int 2) (of_int (b - a))) F255.
Definition inner_uc (a b : Z) : flt := fdiv (of_int (b - a)) F255.
Definition edge_f32 (a b : flt) : flt := fdiv (fmul (of_int 2) (fsub b a)) F1.
Definition inner_f32 (a b : flt) : flt := fdiv (fsub b a) F1.
Definition deriv_x_uc := deriv_x edge_uc inner_uc.
Definition deriv_y_uc := deriv_y edge_uc inner_uc.
Definition deriv_x_f32 := deriv_x edge_f32 inner_f32.
Definition deriv_y_f32 := deriv_y edge_f32 inner_f32.

(** * Values *)

(** nx_image_convert_uc_to_f32, 380-397. *)
Definition convert_uc_f32 (junk : nat -> flt) (src : uc_img) : res f32_img :=
  let* dest := img_new junk (i_w src) (i_h src) in
  scan 0 (i_w dest) 0 (i_h dest) (fun x y dest => let* v := (let* u := iget src x y in Ok (fdiv (of_int u) F255)) in iput dest x y v) dest.
(** nx_image_convert_f32_to_uc, 399-417. *)
Definition convert_f32_uc (junk : nat -> Z) (src : f32_img) : res uc_img :=
  let* dest := img_new junk (i_w src) (i_h src) in
  scan 0 (i_w dest) 0 (i_h dest) (fun x y dest =>
    let* v := (let* f := iget src x y in
               let* value := to_int (fmul f F255) in
               Ok (Z.min 0 (Z.max 255 value) mod 256)) in
    iput dest x y v) dest.
(** nx_image_axpy_uc, 255-275, nx_image_axpy_f32, 277-291; an image with several
    channels is one with as many columns as it has channels in a row. *)
Definition axpy_uc (img : uc_img) (a y0 : flt) : res uc_img :=
  scan 0 (i_w img) 0 (i_h img) (fun x y img =>
    let* v := (let* u := iget img x y in
               let* p := to_int (fadd (fmul a (of_int u)) y0) in
               Ok (if p <? 0 then 0 else if 255 <? p then 255 else p)) in
    iput img x y v) img.
Definition axpy_f32 (img : f32_img) (a y0 : flt) : res f32_img :=
  scan 0 (i_w img) 0 (i_h img) (fun x y img => let* v := (let* u := iget img x y in Ok (fadd (fmul a u) y0)) in iput img x y v) img.
(** nx_image_subtract, 583-617. *)
Definition subtract {A} (diff : A -> A -> flt) (junk : nat -> flt) (img0 img1 : image A) : res f32_img :=
  let w := Z.min (i_w img0) (i_w img1) in
  let h := Z.min (i_h img0) (i_h img1) in
  let* d := img_new junk w h in
  scan 0 w 0 h (fun x y d => let* v := (let* a := iget img0 x y in let* b := iget img1 x y in Ok (diff a b)) in iput d x y v) d.
Definition subtract_uc := subtract (fun a b => of_int (a - b)).
Definition subtract_f32 := subtract fsub.
(** nx_image_normalize_to_zero_one, 204-253.  [ops] makes the arithmetic a
    parameter. *)
Section Normalize.
Context {A : Type}.
Variables (lt : A -> A -> bool) (eqb : A -> A -> bool) (add sub mul div : A -> A -> A) (opp absv : A -> A).
Variables (zero one two half vmax0 : A).
Definition min_max (img : image A) : res (A * A) :=
  scan 0 (i_w img) 0 (i_h img) (fun x y '(vmin, vmax) =>
    let* v := iget img x y in
    Ok (if lt v vmin then (v, vmax) else if lt vmax v then (vmin, v) else (vmin, vmax))) (vmax0, opp vmax0).
Definition clamp01 (v : A) : A := if lt v zero then zero else if lt one v then one else v.
Definition normalize (img : image A) (symmetric : bool) : res (image A) :=
  let* (vmin, vmax) := min_max img in
  let (a, y0) := (if eqb vmax vmin then (zero, zero)
                  else if symmetric then
                    let tmin := absv vmin in
                    let tmax := absv vmax in
                    let t := if lt tmax tmin then tmin else tmax in
                    (div one (mul two t), half)
                  else (div one (sub vmax vmin), div (opp vmin) (sub vmax vmin))) in
  let* img := scan 0 (i_w img) 0 (i_h img) (fun x y img => let* v := (let* u := iget img x y in Ok (add (mul a u) y0)) in iput img x y v) img in
  scan 0 (i_w img) 0 (i_h img) (fun x y img => let* v := (let* u := iget img x y in Ok (clamp01 u)) in iput img x y v) img.
End Normalize.
Definition normalize_f32 := normalize f_lt f_eq fadd fsub fmul fdiv fneg fabs F0 F1 (of_int 2) F_HALF FMAX.

(** * Row and column filters *)

(** nx_image_filter_box_x, 1055-1103, and the first half of nx_image_smooth,
    978-1009: every row goes through the buffer.  [src = None] means that dest and
    src are the same image.  [conv] reads a sample as float, [store] converts
    back; [filter] is the filter run on the buffer. *)
Section Filters.
Context {A : Type}.
Variables (conv : A -> flt) (store : flt -> res A).
Definition row_filter (filter : list flt -> res (list flt)) (nb : Z) (src : option (image A)) (dest : image A) (buf : list flt) : res (image A * list flt) :=
  let s0 := match src with Some s => s | None => dest end in
  for_each (fun y '(dest, buf) =>
    let s := match src with Some s => s | None => dest end in
    let* r := chk_int (y * i_stride s) in
    let* buf := copy_to_buffer F0 conv (i_w s) buf (i_data s) r 1 nb BRepeat in
    let* buf := filter buf in
    let* dest := for_each (fun x dest =>
      let* v := (let* f := zget buf x in store f) in
      iput dest x y v) (zrange 0 (i_w dest)) dest in
    Ok (dest, buf)) (zrange 0 (i_h s0)) (dest, buf).
(** nx_image_filter_box_y, 1105-1158, and the second half of nx_image_smooth,
    1011-1046. *)
Definition col_filter (filter : list flt -> res (list flt)) (nb : Z) (src : option (image A)) (dest : image A) (buf : list flt) : res (image A * list flt) :=
  for_each (fun x '(dest, buf) =>
    let s := match src with Some s => s | None => dest end in
    let* buf := copy_to_buffer F0 conv (i_h s) buf (i_data s) x (i_stride s) nb BRepeat in
    let* buf := filter buf in
    let* dest := for_each (fun y dest =>
      let* v := (let* f := zget buf y in store f) in
      iput dest x y v) (zrange 0 (i_h dest)) dest in
    Ok (dest, buf)) (zrange 0 (i_w dest)) (dest, buf).
Definition box_filter (n r : Z) (buf : list flt) : res (list flt) := convolve_box fadd fsub (fun a z => fdiv a (of_int z)) n buf r.
(** nx_image_filter_box_x and nx_image_filter_box_y into a new image with a
    given buffer. *)
Definition filter_box_x (junk : nat -> A) (src : image A) (r : Z) (buf : list flt) : res (image A) :=
  let* dest := img_new junk (i_w src) (i_h src) in
  let* (dest, _) := row_filter (box_filter (i_w src) r) r (Some src) dest buf in Ok dest.
Definition filter_box_y (junk : nat -> A) (src : image A) (r : Z) (buf : list flt) : res (image A) :=
  let* dest := img_new junk (i_w src) (i_h src) in
  let* (dest, _) := col_filter (box_filter (i_h dest) r) r (Some src) dest buf in Ok dest.
(** nx_image_filter_box, 1160-1185; [bufj] is the content of the new buffer. *)
Definition filter_box (junk : nat -> A) (bufj : nat -> flt) (src : image A) (rx ry : Z) : res (image A) :=
  let* dest := img_new junk (i_w src) (i_h src) in
  let* l := buffer_len (Z.max (i_w src) (i_h src)) (Z.max rx ry) in
  let buf := map bufj (seq 0 (Z.to_nat l)) in
  let* (dest, buf) := row_filter (box_filter (i_w src) rx) rx (Some src) dest buf in
  let* (dest, _) := col_filter (box_filter (i_h dest) ry) ry None dest buf in Ok dest.
(** nx_image_smooth, 946-1053, with an own buffer; [kx], [ky] are the symmetric
    kernels, of n/2+1 elements for kernel size n. *)
Definition smooth (junk : nat -> A) (bufj : nat -> flt) (src : image A) (kx ky : list flt) : res (image A) :=
  let nkx := Z.of_nat (length kx) in
  let nky := Z.of_nat (length ky) in
  let* dest := img_new junk (i_w src) (i_h src) in
  let* l := buffer_len (Z.max (i_w src) (i_h src)) (Z.max (nkx - 1) (nky - 1)) in
  let buf := map bufj (seq 0 (Z.to_nat l)) in
  let* (dest, buf) := row_filter (fun b => convolve_sym fadd fmul (i_w src) b nkx kx) (nkx - 1) (Some src) dest buf in
  let* (dest, _) := col_filter (fun b => convolve_sym fadd fmul (i_h dest) b nky ky) (nky - 1) None dest buf in Ok dest.
End Filters.
Definition filter_box_x_uc := filter_box_x of_int to_uc.
Definition filter_box_y_uc := filter_box_y of_int to_uc.
Definition filter_box_uc := filter_box of_int to_uc.
Definition filter_box_f32 := filter_box (fun f => f) (fun f => Ok f).
Definition smooth_uc := smooth of_int to_uc.
Definition smooth_f32 := smooth (fun f => f) (fun f => Ok f).

(** * Scaling *)
(** Conversion of a float to short: the truncated value must fit. *)
Definition to_short (f : flt) : res Z := let* v := to_int f in if (-32768 <=? v) && (v <=? 32767) then Ok v else UB.
(** nx_image_scale_uc, 535-581. *)
Definition scale_uc (junk : nat -> Z) (src : uc_img) (scale_f : flt) : res uc_img :=
  let* dw := to_int (fmul (of_int (i_w src)) scale_f) in
  let* dh := to_int (fmul (of_int (i_h src)) scale_f) in
  let* dest := img_new junk dw dh in
  let inv_scale := fdiv F1 scale_f in
  let s := i_stride src in
  for_each (fun y dest =>
    let yp := fmul (of_int y) inv_scale in
    let* ypi := to_int yp in
    let dy := fsub yp (of_int ypi) in
    let* row := chk_int (ypi * s) in
    for_each (fun x dest =>
      let* v := (
        let xp := fmul (of_int x) inv_scale in
        let* xpi := to_int xp in
        let dx := fsub xp (of_int xpi) in
        let sample := row + xpi in
        let* Ix0 := zget (i_data src) sample in
        let* Ix1 := zget (i_data src) (sample + 1) in
        let* Iy0 := zget (i_data src) (sample + s) in
        let* Iy1 := zget (i_data src) (sample + s + 1) in
        let ex := fsub F1 dx in
        let ey := fsub F1 dy in
        let top := fmul (fadd (fmul (of_int Ix0) ex) (fmul (of_int Ix1) dx)) ey in
        let bottom := fmul (fadd (fmul (of_int Iy0) ex) (fmul (of_int Iy1) dx)) dy in
        let* interp := to_short (fadd top bottom) in
        Ok (if interp <? 0 then 0 else if 255 <? interp then 255 else interp)) in
      iput dest x y v) (zrange 0 dw) dest) (zrange 0 dh) dest.
(** nx_image_scale_f32, 618-659. *)
Definition scale_f32 (junk : nat -> flt) (src : f32_img) (scale_f : flt) : res f32_img :=
  let* dw := to_int (fmul (of_int (i_w src)) scale_f) in
  let* dh := to_int (fmul (of_int (i_h src)) scale_f) in
  let* dest := img_new junk dw dh in
  let inv_scale := fdiv F1 scale_f in
  let s := i_stride src in
  for_each (fun y dest =>
    let yp := fmul (of_int y) inv_scale in
    let* ypi := to_int yp in
    let dy := fsub yp (of_int ypi) in
    let* row := chk_int (ypi * s) in
    for_each (fun x dest =>
      let* v := (
        let xp := fmul (of_int x) inv_scale in
        let* xpi := to_int xp in
        let dx := fsub xp (of_int xpi) in
        let sample := row + xpi in
        let* Ix0 := zget (i_data src) sample in
        let* Ix1 := zget (i_data src) (sample + 1) in
        let* Iy0 := zget (i_data src) (sample + s) in
        let* Iy1 := zget (i_data src) (sample + s + 1) in
        let ex := fsub F1 dx in
        let ey := fsub F1 dy in
        let top := fmul (fadd (fmul Ix0 ex) (fmul Ix1 dx)) ey in
        let bottom := fmul (fadd (fmul Iy0 ex) (fmul Iy1 dx)) dy in
        Ok (fadd top bottom)) in
      iput dest x y v) (zrange 0 dw) dest) (zrange 0 dh) dest.
