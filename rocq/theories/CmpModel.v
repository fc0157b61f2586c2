(** Panoramas are composed: tools/nx_panorama_builder.c:429-507.

    Simplifications.  Floats and doubles are reals.  The loops over images and corners, and
    over images, are loops over lists.  Conversion to int of a value out of range, or of the
    infinity or NaN of a zero divisor, is undefined. *)
From Verif Require Import Base Gray ProjModel.
Local Open Scope R_scope.

(** (int)x. *)
Definition trunc (x : R) : Z := if Rle_dec 0 x then (up x - 1)%Z else (- (up (- x) - 1))%Z.
Definition to_int (x : R) : res Z := chk_int (trunc x).
(** nx_homography_transfer_fwd followed by conversions to int. *)
Definition place (h : mat3) (x : vec2) : res (Z * Z) :=
  match transfer_fwd h x with
  | None => UB
  | Some p => let* a := to_int (px p) in let* b := to_int (py p) in Ok (a, b)
  end.
(** The four corners of an image of some size, 446-447. *)
Definition corners (w h : R) : list vec2 := [V2 0 0; V2 w 0; V2 w h; V2 0 h].
(** dims: min_x, min_y, max_x, max_y. *)
Record dims := mkDims { min_x : Z; min_y : Z; max_x : Z; max_y : Z }.
(** The body of the inner loop, 449-455. *)
Definition box_step (hc : mat3 * vec2) (d : dims) : res dims :=
  let* (a, b) := place (fst hc) (snd hc) in
  Ok (mkDims (Z.min (min_x d) a) (Z.min (min_y d) b) (Z.max (max_x d) a) (Z.max (max_y d) b)).
(** 438. *)
Definition no_dims : dims := mkDims INT_MAX INT_MAX INT_MIN INT_MIN.
(** H_to_ref of an image and a corner, in the order of the loops. *)
Definition pairs (l : list (mat3 * gray)) : list (mat3 * vec2) :=
  flat_map (fun '(h, g) => map (fun c => (h, c)) (corners (IZR (g_w g)) (IZR (g_h g)))) l.
(** The loops of 440-456; an element is H_to_ref of an image and the image. *)
Definition box (l : list (mat3 * gray)) : res dims := for_each box_step (pairs l) no_dims.
(** 459-460, and the assertions of nx_image_resize, src/nx_image.c:123-124. *)
Definition size (d : dims) : res (Z * Z) :=
  let* w := chk_int (max_x d - min_x d) in
  let* h := chk_int (max_y d - min_y d) in
  if ((w <? 0) || (h <? 0))%Z then Fatal else Ok (w, h).
(** 466-474. *)
Definition shift (d : dims) (h : mat3) : mat3 :=
  M3 (m0 h - IZR (min_x d) * m2 h) (m1 h - IZR (min_y d) * m2 h) (m2 h)
     (m3 h - IZR (min_x d) * m5 h) (m4 h - IZR (min_y d) * m5 h) (m5 h)
     (m6 h - IZR (min_x d) * m8 h) (m7 h - IZR (min_y d) * m8 h) (m8 h).
(** nx_panorama_builder_create_reference, 429-481: the size of the panorama, and H_to_ref
    and H_from_ref of the images. *)
Definition create_reference (l : list (mat3 * gray)) : res (Z * Z * list (mat3 * mat3)) :=
  let* d := box l in
  let* wh := size d in
  Ok (wh, map (fun '(h, _) => (shift d h, fst (dmat3_inv (shift d h)))) l).
(** nx_panorama_builder_composite_value, 483-507; an element is H_from_ref of an image and
    the image. *)
Definition composite_value (l : list (mat3 * gray)) (x y : Z) : res N :=
  for_each (fun '(h, g) v =>
    let* (a, b) := place h (V2 (IZR x) (IZR y)) in
    if ((0 <=? a) && (a <? g_w g) && (0 <=? b) && (b <? g_h g))%Z then
      let* o := chk_int (b * g_stride g) in
      let* o := chk_int (o + a) in
      zget (g_data g) o
    else Ok v) l 0%N.
(** The loops of nx_panorama_builder_composite, 518-525; [pan] is the resized panorama. *)
Definition fill (l : list (mat3 * gray)) (pan : gray) : res gray :=
  let* d := for_each (fun y d =>
      let* o := chk_int (y * g_stride pan) in
      for_each (fun x d => let* v := composite_value l x y in zset d (o + x)%Z v) (zrange 0 (g_w pan)) d)
    (zrange 0 (g_h pan)) (repeat 0%N (length (g_data pan))) in
  Ok {| g_w := g_w pan; g_h := g_h pan; g_stride := g_stride pan; g_data := d |}.
