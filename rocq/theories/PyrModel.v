(** Model of src/nx_image_pyr.c and src/nx_image_pyr_builder.c. *)
From Verif Require Import Base BaseLemmas Flt Gray Img FilterModel ImgModel KernModel.
Local Open Scope Z_scope.

(** * Filling the levels *)
(** The three update functions use images only through smoothing, resampling and
    copying, and sigmas only through the operations below, so both are parameters:
    with floats and images it is the code, with reals and blurs it tells how much
    every level is blurred.  The work image of the builder is overwritten before
    each use, so it is not part of the state.  [sig i] is levels[i].sigma. *)
Section Update.
Variables I T : Type.
Variable smooth_self : T -> I -> res I.   (* nx_image_smooth(img, img, s, s, 4, NULL) *)
Variable smooth_to : T -> I -> res I.     (* nx_image_smooth into another image *)
Variable down : I -> res I.               (* nx_image_downsample *)
Variable aa : I -> res I.                 (* nx_image_downsample_aa_x, _aa_y *)
Variable shrink : Z -> I -> res I.        (* nx_image_scale(.., 1.0f / levels[i].scale) *)
Variable copy : I -> I.                   (* nx_image_copy *)
Variable sigma_g : T -> T -> T.           (* compute_sigma_g, 321-327 *)
Variable positive : T -> bool.            (* > 0.0f *)
Variable mul : T -> T -> T.
Variables one half init : T.
Variable sig : Z -> T.

(** The smoothing of level 0, 220-225, 247-255, 291-300: the new image and sigma_current. *)
Definition first_level (l0 : I) : res (I * T) :=
  let g := sigma_g init (sig 0) in
  if positive g then let* l := smooth_self g l0 in Ok (l, sig 0) else Ok (l0, init).
(** _nx_image_pyr_builder_update_fast, 218-234. *)
Definition update_fast (levels : list I) : res (list I) :=
  let* l0 := zget levels 0 in
  let* (l, _) := first_level l0 in
  let* levels := zset levels 0 l in
  for_each (fun i levels =>
    let* p := zget levels (i - 1) in
    let* l := aa p in
    zset levels i l) (zrange 1 (Z.of_nat (length levels))) levels.
(** _nx_image_pyr_builder_update_fine, 236-287: the state is the levels, sigma_current
    and sigma_multiplier. *)
Definition fine_octave (n_oct n_steps : Z) (i : Z) (s : list I * T * T) : res (list I * T * T) :=
  let '(levels, cur, mult) := s in
  let b := i * n_steps in
  let* (levels, cur) :=
    (if i =? 0 then
       let* l0 := zget levels b in
       let* (l, c) := first_level l0 in
       let* levels := zset levels b l in Ok (levels, c)
     else Ok (levels, cur)) in
  let* (levels, cur) :=
    for_each (fun j '(levels, cur) =>
      let desired := mul (sig (b + j)) mult in
      let* p := zget levels (b + j - 1) in
      let* l := smooth_to (sigma_g cur desired) p in
      let* levels := zset levels (b + j) l in
      Ok (levels, desired)) (zrange 1 n_steps) (levels, cur) in
  if i =? n_oct - 1 then Ok (levels, cur, mult)
  else
    let desired := mul (sig (b + n_steps)) mult in
    let* p := zget levels (b + n_steps - 1) in
    let* w := smooth_to (sigma_g cur desired) p in
    let* l := down w in
    let* levels := zset levels (b + n_steps) l in
    Ok (levels, mul desired half, mul mult half).
Definition update_fine (n_oct n_steps : Z) (levels : list I) : res (list I) :=
  let* s := for_each (fine_octave n_oct n_steps) (zrange 0 n_oct) (levels, init, one) in
  Ok (fst (fst s)).
(** _nx_image_pyr_builder_update_scaled, 289-319: the state is the levels, the work
    image and sigma_current. *)
Definition update_scaled (levels : list I) : res (list I) :=
  let* l0 := zget levels 0 in
  let* (l, c) := first_level l0 in
  let* levels := zset levels 0 l in
  let* s := for_each (fun i '(levels, work, cur) =>
    let desired := sig i in
    let* work := smooth_self (sigma_g cur desired) work in
    let* l := shrink i work in
    let* levels := zset levels i l in
    Ok (levels, work, desired)) (zrange 1 (Z.of_nat (length levels))) (levels, copy l, c) in
  Ok (fst (fst s)).
End Update.

(** * The builders *)
(** enum NXImagePyrBuilderType and struct NXImagePyrInfo. *)
Inductive btype := BNone | Fast | Fine | Scaled.
Record builder := mkB { b_type : btype; b_levels : Z; b_octaves : Z; b_steps : Z }.
(** struct NXImagePyrLevel. *)
Record level := mkLev { l_img : image Z; l_sigma : flt; l_scale : flt }.
(** nx_image_pyr_builder_set_fast, 94-109, _set_fine, 111-127, _set_scaled, 129-145:
    [None] when an assertion fails.  sigma0 and scale_factor are in [sigma_at],
    [scale_at] below. *)
Definition set_fast (n : Z) : res builder := if 0 <? n then Ok (mkB Fast n n 1) else Fatal.
Definition set_fine (o s : Z) : res builder := if (0 <? o) && (0 <? s) then let* n := chk_int (o * s) in Ok (mkB Fine n o s) else Fatal.
Definition set_scaled (n : Z) : res builder := if 0 <? n then Ok (mkB Scaled n (-1) 1) else Fatal.
(** 99-100, 117-118, 134-135: NX_IMAGE_PYR_BUILDER_INITIAL_SIGMA is 0.5f. *)
Definition INITIAL : flt := FF (2 ^ 148).
Definition clamp_sigma0 (s : flt) : flt := if f_lt s INITIAL then INITIAL else s.

Section Build.
(** Contents of fresh memory; the kernel (n/2+1 values) of a Gaussian of a given
    sigma, which nx_image_smooth makes with truncation factor 4 (it fails unless
    sigma > 0); sqrt rounded to float; sigma0 * pow(2, i / n_octave_steps) and
    pow(scale_factor, i / n_octave_steps) rounded to float. *)
Variable junk : nat -> Z.
Variable bufj : nat -> flt.
Variable kernel : flt -> res (list flt).
Variable sqrt_f : flt -> flt.
Variables sigma_at scale_at : Z -> flt.

(** compute_sigma_g, 321-327. *)
Definition sigma_gf (current desired : flt) : flt := sqrt_f (fsub (fmul desired desired) (fmul current current)).
(** nx_image_smooth into another image, and with dest == src. *)
Definition smooth_other (s : flt) (src : image Z) : res (image Z) := let* k := kernel s in smooth_uc junk bufj src k k.
Definition smooth_same (s : flt) (img : image Z) : res (image Z) := let* k := kernel s in smooth_self_uc bufj img k k.
Definition aa_down (src : image Z) : res (image Z) := let* w := aa_x_uc junk src in aa_y_uc junk w.
(** nx_image_resize to bytes with row_stride 0, src/nx_image.c:119-153, keeping the
    bytes of the block: the stride becomes the width.  (The early return needs a
    stride of 0, so a width of 0.)  Bytes beyond the old block are arbitrary. *)
Definition resize0 (img : image Z) (w h : Z) : res (image Z) :=
  if (w <? 0) || (h <? 0) then Fatal
  else let* n := chk_int (w * h) in
    let n := Z.to_nat n in
    Ok (mkImg w h w (firstn n (i_data img) ++ map junk (seq (length (i_data img)) (n - length (i_data img))))).
Definition empty_img : image Z := mkImg 0 0 0 [].
(** nx_image_pyr_alloc_levels, src/nx_image_pyr.c:54-70.  A new level has no sigma
    and scale yet. *)
Definition alloc_levels (pyr : list level) (n : Z) : res (list level) :=
  if n <? 1 then Fatal
  else if Z.of_nat (length pyr) =? n then Ok pyr
  else Ok (repeat (mkLev empty_img FNaN FNaN) (Z.to_nat n)).
(** nx_image_pyr_create_level, 85-97. *)
Definition create_level (pyr : list level) (i w h : Z) (scale sigma : flt) : res (list level) :=
  if Z.of_nat (length pyr) <=? i then Fatal
  else let* l := zget pyr i in
    let* img := resize0 (l_img l) w h in
    zset pyr i (mkLev img sigma scale).
(** nx_image_pyr_copy_to_level0, 99-108.  The bytes of [img] are copied with its
    stride, whatever its data type. *)
Definition copy_to_level0 (pyr : list level) (img : image Z) (sigma0 : flt) : res (list level) :=
  let* pyr := create_level pyr 0 (i_w img) (i_h img) F1 sigma0 in
  let* l := zget pyr 0 in
  zset pyr 0 (mkLev img (l_sigma l) (l_scale l)).
(** nx_image_pyr_builder_init_levels, nx_image_pyr_builder.c:189-216. *)
Definition init_levels (b : builder) (pyr : list level) (w0 h0 : Z) : res (list level) :=
  match b_type b with
  | BNone => Fatal
  | _ =>
    if (w0 <=? 0) || (h0 <=? 0) then Fatal else
    let* pyr := alloc_levels pyr (b_levels b) in
    for_each (fun i pyr =>
      let* w := to_int (fdiv (of_int w0) (scale_at i)) in
      let* h := to_int (fdiv (of_int h0) (scale_at i)) in
      create_level pyr i w h (scale_at i) (sigma_at i)) (zrange 0 (Z.of_nat (length pyr))) pyr
  end.
(** nx_image_pyr_builder_update, 164-187: the images are updated, sigmas and scales
    stay as init_levels left them. *)
Definition put_images (pyr : list level) (imgs : list (image Z)) : list level :=
  map (fun p => mkLev (snd p) (l_sigma (fst p)) (l_scale (fst p))) (combine pyr imgs).
Definition update (b : builder) (pyr : list level) : res (list level) :=
  if negb (Z.of_nat (length pyr) =? b_levels b) then Fatal else
  let* l0 := zget pyr 0 in
  let* pyr := init_levels b pyr (i_w (l_img l0)) (i_h (l_img l0)) in
  let imgs := map l_img pyr in
  let gt0 := fun s => f_lt F0 s in
  let shrink := fun i img => scale_uc junk img (fdiv F1 (scale_at i)) in
  let* imgs :=
    match b_type b with
    | BNone => Fatal
    | Fast => update_fast _ _ smooth_same aa_down sigma_gf gt0 INITIAL sigma_at imgs
    | Fine => update_fine _ _ smooth_same smooth_other (downsample junk) sigma_gf gt0 fmul F1 (FF (2 ^ 148)) INITIAL sigma_at (b_octaves b) (b_steps b) imgs
    | Scaled => update_scaled _ _ smooth_same shrink (fun i => i) sigma_gf gt0 INITIAL sigma_at imgs
    end in
  Ok (put_images pyr imgs).
(** nx_image_pyr_builder_build, 150-162, for a gray image. *)
Definition build (b : builder) (pyr : list level) (img : image Z) : res (list level) :=
  match b_type b with
  | BNone => Fatal
  | _ =>
    let* pyr := alloc_levels pyr (b_levels b) in
    let* pyr := copy_to_level0 pyr img (sigma_at 0) in
    update b pyr
  end.
End Build.
