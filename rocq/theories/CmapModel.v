(** Model of the colour maps: src/nx_colorspace.c:102-164 and
    nx_image_apply_colormap, src/nx_image.c:437-486. *)
From Verif Require Import Base BaseLemmas Flt Gray Img PnmModel CmapData.
Local Open Scope Z_scope.

(** enum NXColorMap, include/virg/nexus/nx_colorspace.h:70-76. *)
Inductive cmap := CGray | Viridis | Plasma | Magma | Cubehelix.
(** The float of a decimal constant: [d] is the power of ten that divides it.  The
    constants without suffix are doubles that become floats; for the constants of
    the tables this double rounding does not differ from rounding once. *)
Definition dec (d p : Z) : flt := mkf (p * U) d.
(** One channel of interpolate_color_map_data, 117-119. *)
Definition blend (alpha a b : flt) : flt := fadd (fmul (fsub F1 alpha) a) (fmul alpha b).
(** interpolate_color_map_data, 102-120; the table has [d] units per 1. *)
Definition interpolate_color (d : Z) (tbl : list (Z * Z * Z)) (value : flt) : res (flt * flt * flt) :=
  let n := Z.of_nat (length tbl) in
  let pos := fmul (of_int (n - 1)) value in
  let* k := to_int pos in
  let alpha := fsub pos (of_int k) in
  if k =? n - 1 then
    let* (r, g, b) := zget tbl k in Ok (dec d r, dec d g, dec d b)
  else
    let* (r0, g0, b0) := zget tbl k in
    let* (r1, g1, b1) := zget tbl (k + 1) in
    Ok (blend alpha (dec d r0) (dec d r1), blend alpha (dec d g0) (dec d g1), blend alpha (dec d b0) (dec d b1)).
(** uchar c = f * 255: undefined when the integral part does not fit. *)
Definition to_uchar (f : flt) : res Z :=
  let* i := to_int (fmul f (of_int 255)) in
  if (0 <=? i) && (i <=? 255) then Ok i else UB.
(** nx_color_map_apply, 122-164. *)
Definition color_map_apply (value : flt) (m : cmap) : res (Z * Z * Z) :=
  let* (r, g, b) :=
    match m with
    | Viridis => interpolate_color (10 ^ 6) viridis_data value
    | Plasma => interpolate_color (10 ^ 6) plasma_data value
    | Magma => interpolate_color (10 ^ 6) magma_data value
    | Cubehelix => interpolate_color (10 ^ 18) cubehelix_data value
    | CGray => Ok (value, value, value)
    end in
  let* r := to_uchar r in let* g := to_uchar g in let* b := to_uchar b in
  Ok (r, g, b).
(** nx_image_apply_colormap, src/nx_image.c:437-486, for a gray image of its own:
    [val] gives the value of a sample; 456-468 with x/255.0f for bytes, 469-481 with x
    itself for floats. *)
Definition apply_colormap {A} (val : A -> flt) (junk : nat -> N) (gray : image A) (m : cmap) : res uimg :=
  let* c := u_new junk (i_w gray) (i_h gray) RGBA in
  let* g := scan 0 (i_w gray) 0 (i_h gray) (fun x y color =>
    let* v := iget gray x y in
    let* (r, g, b) := color_map_apply (val v) m in
    let* color := iput color (4 * x) y (Z.to_N r) in
    let* color := iput color (4 * x + 1) y (Z.to_N g) in
    let* color := iput color (4 * x + 2) y (Z.to_N b) in
    iput color (4 * x + 3) y 255%N) (u_px c) in
  Ok (mkU RGBA (i_w gray) g).
Definition apply_colormap_uc : (nat -> N) -> image Z -> cmap -> res uimg := apply_colormap (fun b => fdiv (of_int b) (of_int 255)).
Definition apply_colormap_f32 : (nat -> N) -> image flt -> cmap -> res uimg := apply_colormap (fun v => v).
