(** Theorems about the pixel operations of images: C52, C53, C57, C58, C70-C77.
    [image_ok g]: width <= stride and the memory holds height * stride samples.
    [fresh g w h]: a w x h image whose rows have no gaps. *)
From Coq Require Import QArith.
From Verif Require Import Base BaseLemmas Gray Img Flt FilterModel FilterSpec ImgModel ImgSpec ImgProofs ImgNorm ImgBox ImgScale ImgEdge.
Local Open Scope Z_scope.

(** ** C52 *)
Theorem C52_downsample : forall A (d : A) junk (src : image A), image_ok src ->
  exists g, downsample junk src = Ok g /\ fresh g (i_w src / 2) (i_h src / 2) /\
    forall x y, in_img g x y -> pix d g x y = pix d src (2 * x) (2 * y).
Proof. intros. now apply downsample_ok. Qed.
Print Assumptions C52_downsample.
(** A 5 x 3 image with stride 6. *)
Definition ex53 : image Z := mkImg 5 3 6 [1; 2; 3; 4; 5; 99;  6; 7; 8; 9; 10; 99;  11; 12; 13; 14; 15; 99].
Lemma ex53_ok : image_ok ex53 /\ byte_img ex53.
Proof. split; [split; [cbn; lia|cbn; lia|reflexivity|vm_compute; discriminate]|]. repeat constructor; lia. Qed.
Example C52_example : image_ok ex53 /\ downsample (fun _ => 77) ex53 = Ok (mkImg 2 1 2 [1; 3]).
Proof. split; [apply ex53_ok|vm_compute; reflexivity]. Qed.

(** ** C53 *)
(** Bytes: position (X, Y) of the doubled image is the rounded down mean of the
    source samples at the neighbouring half positions that exist. *)
Theorem C53_upsample_bytes : forall junk src, image_ok src -> byte_img src -> 0 < i_w src -> 0 < i_h src -> 4 * (i_w src * i_h src) <= INT_MAX ->
  exists g, upsample_uc junk src = Ok g /\ fresh g (2 * i_w src) (2 * i_h src) /\
    forall X Y, in_img g X Y ->
      let x0 := X / 2 in let y0 := Y / 2 in
      let x1 := if Z.odd X then clamped (i_w src) (x0 + 1) else x0 in
      let y1 := if Z.odd Y then clamped (i_h src) (y0 + 1) else y0 in
      pix 0 g X Y = (pix 0 src x0 y0 + pix 0 src x1 y0 + pix 0 src x0 y1 + pix 0 src x1 y1) / 4.
Proof.
  intros junk src G B W H M. destruct (upsample_ok 0 (fun a b => Z.quot (a + b) 2) (fun a b c d => Z.quot (a + b + c + d) 4) junk src G W H M) as (g & E & F & V).
  exists g. split; [exact E|]. split; [exact F|]. intros X Y I. pose proof (V X Y I) as P. rewrite P. cbv zeta. rewrite (fresh_in _ _ _ _ _ F) in I.
  unfold upsampled. cbv zeta. set (x0 := X / 2). set (y0 := Y / 2). assert (X0 : 0 <= x0 < i_w src) by (unfold x0; Z.div_mod_to_equations; lia). assert (Y0 : 0 <= y0 < i_h src) by (unfold y0; Z.div_mod_to_equations; lia).
  assert (C : forall n i, 0 <= i < n -> (i + 1 <? n) = true /\ clamped n (i + 1) = i + 1 /\ i + 1 < n \/ (i + 1 <? n) = false /\ clamped n (i + 1) = i).
  { intros n i J. unfold clamped. destruct (Z.ltb_spec (i + 1) n); [left; repeat split; lia|right; split; [reflexivity|lia]]. }
  assert (BP : forall x y, 0 <= x < i_w src -> 0 <= y < i_h src -> 0 <= pix 0 src x y <= 255) by (intros x y Hx Hy; apply pix_byte; auto; split; auto).
  pose proof (C _ _ X0) as CX. pose proof (C _ _ Y0) as CY. pose proof (BP x0 y0 X0 Y0) as B00.
  destruct (Z.odd X), (Z.odd Y); cbn [andb].
  - destruct CX as [(-> & -> & ?)|[-> ->]], CY as [(-> & -> & ?)|[-> ->]]; cbn [andb]; try pose proof (BP (x0 + 1) y0 ltac:(lia) ltac:(lia)); try pose proof (BP x0 (y0 + 1) ltac:(lia) ltac:(lia)); try pose proof (BP (x0 + 1) (y0 + 1) ltac:(lia) ltac:(lia));
      rewrite ?Z.quot_div_nonneg by lia; Z.div_mod_to_equations; lia.
  - destruct CX as [(-> & -> & ?)|[-> ->]]; cbn [andb]; try pose proof (BP (x0 + 1) y0 ltac:(lia) ltac:(lia)); rewrite ?Z.quot_div_nonneg by lia; Z.div_mod_to_equations; lia.
  - destruct CY as [(-> & -> & ?)|[-> ->]]; cbn [andb]; try pose proof (BP x0 (y0 + 1) ltac:(lia) ltac:(lia)); rewrite ?Z.quot_div_nonneg by lia; Z.div_mod_to_equations; lia.
  - Z.div_mod_to_equations; lia.
Qed.
Print Assumptions C53_upsample_bytes.
(** Floats: the same neighbours, averaged in single precision. *)
Theorem C53_upsample_floats : forall junk src, image_ok src -> 0 < i_w src -> 0 < i_h src -> 4 * (i_w src * i_h src) <= INT_MAX ->
  exists g, upsample_f32 junk src = Ok g /\ fresh g (2 * i_w src) (2 * i_h src) /\
    forall X Y, in_img g X Y -> pix F0 g X Y =
      upsampled (fun a b => fmul (fadd a b) F_HALF) (fun a b c d => fmul (fadd (fadd (fadd a b) c) d) F_QUARTER) (pix F0 src) (i_w src) (i_h src) X Y.
Proof. intros. now apply upsample_ok. Qed.
Print Assumptions C53_upsample_floats.
(** Finding: an image without columns or without rows makes it read outside. *)
Theorem C53_empty_refuted : forall junk src g, image_ok src -> i_w src = 0 \/ i_h src = 0 -> upsample_uc junk src <> Ok g.
Proof. intros. now apply upsample_empty. Qed.
Print Assumptions C53_empty_refuted.
Example C53_example : image_ok ex53 /\ byte_img ex53 /\ 4 * (i_w ex53 * i_h ex53) <= INT_MAX /\
  upsample_uc (fun _ => 77) (mkImg 2 2 3 [0; 4; 99; 9; 20; 99]) = Ok (mkImg 4 4 4 [0; 2; 4; 4;  4; 8; 12; 12;  9; 14; 20; 20;  9; 14; 20; 20]).
Proof. split; [apply ex53_ok|]. split; [apply ex53_ok|]. split; [vm_compute; discriminate|]. vm_compute. reflexivity. Qed.

(** ** C57 *)
(** In exact arithmetic, if the maximum also occurs somewhere else than in the
    first pixel: the minimum becomes 0, the maximum 1, everything else is
    linear in between. *)
Theorem C57_exact_partial : forall bound (img : image Q) mx my,
  let p := pix 0%Q img in
  image_ok img -> in_img img mx my -> (mx, my) <> (0, 0) ->
  (forall x y, in_img img x y -> (p x y <= p mx my)%Q) ->
  (forall x y, in_img img x y -> (- bound <= p x y <= bound)%Q) ->
  (exists x y, in_img img x y /\ (p x y < p mx my)%Q) ->
  exists img' vmin, normalize_exact bound img false = Ok img' /\ same_shape img' img /\ image_ok img' /\
    (forall x y, in_img img x y -> (vmin <= p x y)%Q) /\ (exists x y, in_img img x y /\ (p x y == vmin)%Q) /\ (vmin < p mx my)%Q /\
    (forall x y, in_img img x y -> (pix 0%Q img' x y == (p x y - vmin) / (p mx my - vmin))%Q).
Proof. intros. now apply normalize_ok. Qed.
Print Assumptions C57_exact_partial.
(** The symmetric variant maps 0 to 1/2 and scales by the largest magnitude. *)
Theorem C57_symmetric_partial : forall bound (img : image Q) mx my,
  let p := pix 0%Q img in
  image_ok img -> in_img img mx my -> (mx, my) <> (0, 0) ->
  (forall x y, in_img img x y -> (p x y <= p mx my)%Q) ->
  (forall x y, in_img img x y -> (- bound <= p x y <= bound)%Q) ->
  (exists x y, in_img img x y /\ (p x y < p mx my)%Q) ->
  exists img' t, normalize_exact bound img true = Ok img' /\ same_shape img' img /\ image_ok img' /\
    (forall x y, in_img img x y -> (Qabs.Qabs (p x y) <= t)%Q) /\ (exists x y, in_img img x y /\ (Qabs.Qabs (p x y) == t)%Q) /\ (0 < t)%Q /\
    (forall x y, in_img img x y -> (pix 0%Q img' x y == p x y / (2 * t) + (1 # 2))%Q).
Proof. intros. now apply normalize_symmetric_ok with (mx := mx) (my := my). Qed.
Print Assumptions C57_symmetric_partial.
(** In single precision, whatever the image: every pixel ends in [0,1] or is
    NaN. *)
Theorem C57_float_range_partial : forall img symmetric, image_ok img ->
  exists img', normalize_f32 img symmetric = Ok img' /\ same_shape img' img /\ image_ok img' /\
    forall x y, in_img img x y -> pix F0 img' x y = FNaN \/ f_lt (pix F0 img' x y) F0 = false /\ f_lt F1 (pix F0 img' x y) = false.
Proof.
  intros img symmetric G. destruct (normalize_float img symmetric G) as (img' & E & S & O & V). exists img'. split; [exact E|]. split; [exact S|]. split; [exact O|].
  intros x y I. destruct (V x y I) as [->|(n & -> & N)]; [now left|right]. unfold F0, F1, f_lt. split; apply Z.ltb_ge; lia.
Qed.
Print Assumptions C57_float_range_partial.
(** Finding: if the first pixel is the only maximum, the maximum found is
    smaller than it, for every such image. *)
Theorem C57_first_pixel_refuted : forall bound (img : image Q),
  let p := pix 0%Q img in
  image_ok img -> in_img img 0 0 -> (- bound < p 0%Z 0%Z < bound)%Q ->
  (forall x y, in_img img x y -> (x, y) <> (0, 0) -> (p x y < p 0%Z 0%Z)%Q) ->
  exists vmin vmax, min_max qlt Qopp bound img = Ok (vmin, vmax) /\ (vmax < p 0%Z 0%Z)%Q.
Proof.
  intros bound img p G I [B0 B1] M. destruct (min_max_first qlt Qopp bound 0%Q) with (img := img) as (vmin & vmax & E & L); auto.
  - intro a. apply qlt_f. apply Qle_refl.
  - intros a b c H1 H2. apply qlt_f in H1, H2. apply qlt_f. eapply Qle_trans; eauto.
  - intros a b H. apply qlt_t in H. apply qlt_f. now apply Qlt_le_weak.
  - now apply qlt_t.
  - now apply qlt_t.
  - intros x y J N. apply qlt_t. now apply M.
  - exists vmin, vmax. split; [exact E|]. now apply qlt_t.
Qed.
Print Assumptions C57_first_pixel_refuted.
(** In single precision: the image 2 1 becomes 0 0, and a range whose reciprocal
    overflows gives NaN. *)
Theorem C57_floats_refuted :
  normalize_f32 (mkImg 2 1 2 [of_int 2; of_int 1]) false = Ok (mkImg 2 1 2 [F0; F0]) /\
  normalize_f32 (mkImg 2 1 2 [F0; FF 1]) false = Ok (mkImg 2 1 2 [FNaN; F1]).
Proof. split; vm_compute; reflexivity. Qed.
Print Assumptions C57_floats_refuted.
Example C57_example :
  let img := mkImg 3 1 3 [(1 # 2)%Q; 3%Q; 1%Q] in
  image_ok img /\ in_img img 1 0 /\ normalize_f32 (mkImg 3 1 3 [of_int 1; of_int 3; of_int 2]) false = Ok (mkImg 3 1 3 [F0; F1; F_HALF]) /\
  normalize_f32 (mkImg 3 1 3 [of_int (-4); of_int 4; of_int 0]) true = Ok (mkImg 3 1 3 [F0; F1; F_HALF]).
Proof. split; [split; [cbn; lia|cbn; lia|reflexivity|vm_compute; discriminate]|]. split; [split; cbn; lia|]. split; vm_compute; reflexivity. Qed.

(** ** C58 *)
(** Finding: the two limits are exchanged, so every pixel becomes 0. *)
Theorem C58_refuted : forall junk src p, image_ok src ->
  (forall x y, in_img src x y -> to_int (fmul (pix F0 src x y) F255) = Ok (p x y)) ->
  exists g, convert_f32_uc junk src = Ok g /\ fresh g (i_w src) (i_h src) /\ forall x y, in_img g x y -> pix 0 g x y = 0.
Proof. intros. now apply convert_f32_uc_ok with (p := p). Qed.
Print Assumptions C58_refuted.
(** What remains of the property: the size is right, and pixels not above 0 are
    converted to the clamped value. *)
Theorem C58_partial : forall junk src p, image_ok src ->
  (forall x y, in_img src x y -> to_int (fmul (pix F0 src x y) F255) = Ok (p x y)) ->
  exists g, convert_f32_uc junk src = Ok g /\ fresh g (i_w src) (i_h src) /\
    forall x y, in_img g x y -> p x y <= 0 -> pix 0 g x y = clamp_byte (p x y).
Proof.
  intros junk src p G P. destruct (convert_f32_uc_ok junk src p G P) as (g & E & F & V). exists g. split; [exact E|]. split; [exact F|].
  intros x y I N. rewrite V by exact I. unfold clamp_byte. lia.
Qed.
Print Assumptions C58_partial.
Example C58_example : convert_f32_uc (fun _ => 77) (mkImg 2 1 2 [F1; F_HALF]) = Ok (mkImg 2 1 2 [0; 0]) /\ to_int (fmul F_HALF F255) = Ok 127.
Proof. split; vm_compute; reflexivity. Qed.

(** ** C70 *)
(** Bytes to floats: the correctly rounded u/255; all in [0,1], strictly
    increasing, and multiplying by 255 and truncating gives the byte back. *)
Theorem C70_bytes_to_floats : forall junk src, image_ok src -> byte_img src ->
  exists g, convert_uc_f32 junk src = Ok g /\ fresh g (i_w src) (i_h src) /\
    forall x y, in_img g x y -> pix F0 g x y = fdiv (of_int (pix 0 src x y)) (of_int 255) /\
      f_lt (pix F0 g x y) F0 = false /\ f_lt F1 (pix F0 g x y) = false /\ to_int (fmul (pix F0 g x y) (of_int 255)) = Ok (pix 0 src x y) /\
      forall x' y', in_img g x' y' -> pix 0 src x y < pix 0 src x' y' -> f_lt (pix F0 g x y) (pix F0 g x' y') = true.
Proof.
  intros junk src G B. destruct (convert_uc_f32_ok junk src G) as (g & E & F & V). exists g. split; [exact E|]. split; [exact F|]. intros x y I. pose proof (V x y I) as P.
  assert (BP : forall x y, in_img g x y -> 0 <= pix 0 src x y <= 255) by (intros a b J; rewrite (fresh_in _ _ _ _ _ F) in J; apply pix_byte; auto).
  rewrite P. split; [reflexivity|]. fold (byte_frac (pix 0 src x y)). pose proof (BP x y I) as BX. destruct (byte_frac_ok _ BX) as ((n & N & R) & _ & T). rewrite N at 1 2.
  split; [unfold F0, f_lt; apply Z.ltb_ge; lia|]. split; [unfold F1, f_lt; apply Z.ltb_ge; lia|]. split; [exact T|].
  intros x' y' J L. rewrite V by exact J. pose proof (BP x' y' J). now apply byte_frac_lt.
Qed.
Print Assumptions C70_bytes_to_floats.
Example C70_example : image_ok ex53 /\ byte_img ex53 /\ convert_uc_f32 (fun _ => FNaN) (mkImg 2 1 3 [255; 51; 9]) = Ok (mkImg 2 1 2 [F1; fdiv F1 (of_int 5)]).
Proof. split; [apply ex53_ok|]. split; [apply ex53_ok|]. vm_compute. reflexivity. Qed.

(** ** C71 *)
(** a * v + y on bytes, truncated and clamped, whenever the results fit an int. *)
Theorem C71_axpy_bytes : forall img a y0 p, image_ok img -> byte_img img ->
  (forall u, 0 <= u <= 255 -> to_int (fadd (fmul a (of_int u)) y0) = Ok (p u)) ->
  exists g, axpy_uc img a y0 = Ok g /\ same_shape g img /\ image_ok g /\ byte_img g /\
    forall x y, in_img img x y -> pix 0 g x y = clamp_byte (p (pix 0 img x y)).
Proof. intros. now apply axpy_uc_ok. Qed.
Print Assumptions C71_axpy_bytes.
(** With integer coefficients the arithmetic is exact. *)
Theorem C71_axpy_bytes_integers : forall img a y0, image_ok img -> byte_img img -> 255 * Z.abs a + Z.abs y0 <= 2 ^ 24 ->
  exists g, axpy_uc img (of_int a) (of_int y0) = Ok g /\ same_shape g img /\ image_ok g /\ byte_img g /\
    forall x y, in_img img x y -> pix 0 g x y = clamp_byte (a * pix 0 img x y + y0).
Proof.
  intros img a y0 G B L. apply axpy_uc_ok with (p := fun u => a * u + y0); auto. intros u H. change (2 ^ 24) with 16777216 in L. apply axpy_int; unfold small24; change (2 ^ 24) with 16777216; lia.
Qed.
Print Assumptions C71_axpy_bytes_integers.
Theorem C71_axpy_floats : forall img a y0, image_ok img ->
  exists g, axpy_f32 img a y0 = Ok g /\ same_shape g img /\ image_ok g /\
    forall x y, in_img img x y -> pix F0 g x y = fadd (fmul a (pix F0 img x y)) y0.
Proof. intros. now apply axpy_f32_ok. Qed.
Print Assumptions C71_axpy_floats.
Example C71_example : image_ok ex53 /\ byte_img ex53 /\
  axpy_uc (mkImg 2 2 3 [1; 2; 3; 100; 250; 5]) (of_int 2) (of_int (-3)) = Ok (mkImg 2 2 3 [0; 1; 3; 197; 255; 5]).
Proof. split; [apply ex53_ok|]. split; [apply ex53_ok|]. vm_compute. reflexivity. Qed.

(** ** C72 *)
(** The difference of two images has the common size and the exact differences
    of the bytes. *)
Theorem C72_subtract_bytes : forall junk img0 img1, image_ok img0 -> image_ok img1 ->
  exists g, subtract_uc junk img0 img1 = Ok g /\ fresh g (Z.min (i_w img0) (i_w img1)) (Z.min (i_h img0) (i_h img1)) /\
    forall x y, in_img g x y -> pix F0 g x y = of_int (pix 0 img0 x y - pix 0 img1 x y).
Proof. intros. now apply (subtract_ok 0 (fun a b => of_int (a - b))). Qed.
Print Assumptions C72_subtract_bytes.
Theorem C72_subtract_floats : forall junk img0 img1, image_ok img0 -> image_ok img1 ->
  exists g, subtract_f32 junk img0 img1 = Ok g /\ fresh g (Z.min (i_w img0) (i_w img1)) (Z.min (i_h img0) (i_h img1)) /\
    forall x y, in_img g x y -> pix F0 g x y = fsub (pix F0 img0 x y) (pix F0 img1 x y).
Proof. intros. now apply subtract_ok. Qed.
Print Assumptions C72_subtract_floats.
Example C72_example : image_ok ex53 /\
  subtract_uc (fun _ => FNaN) ex53 (mkImg 2 2 2 [10; 2; 5; 6]) = Ok (mkImg 2 2 2 (map of_int [-9; 0; 1; 1])).
Proof. split; [apply ex53_ok|]. vm_compute. reflexivity. Qed.

(** ** C73 *)
(** Antialiased halving of bytes along the rows: the rounded down mean with
    weights 1 6 11 6 1 around every second sample, the row being mirrored at its
    ends.  The single precision computation never changes the result. *)
Theorem C73_antialias_columns : forall junk src, image_ok src -> byte_img src -> 4 <= i_w src ->
  exists g, aa_x_uc junk src = Ok g /\ fresh g (i_w src / 2) (i_h src) /\
    forall x y, in_img g x y -> pix 0 g x y = five_tap (i_w src) (fun i => pix 0 src i y) (2 * x) / 25.
Proof.
  intros junk src G B W. destruct (aa_x_ok 0 uc_first uc_mid uc_last uc_mid junk src (fun p => five_tap (i_w src) (fun i => pix 0 src i (snd p)) (2 * fst p) / 25) G W) as (g & E & F & V).
  - intros y Y. cbn [fst snd]. apply aa_line_uc; [exact W|]. intros i I. apply pix_byte; auto. split; auto.
  - exists g. auto.
Qed.
Print Assumptions C73_antialias_columns.
Theorem C73_antialias_rows : forall junk src, image_ok src -> byte_img src -> 4 <= i_h src ->
  exists g, aa_y_uc junk src = Ok g /\ fresh g (i_w src) (i_h src / 2) /\
    forall x y, in_img g x y -> pix 0 g x y = five_tap (i_h src) (fun i => pix 0 src x i) (2 * y) / 25.
Proof.
  intros junk src G B H. destruct (aa_y_ok 0 uc_first uc_mid uc_last uc_mid junk src (fun p => five_tap (i_h src) (fun i => pix 0 src (fst p) i) (2 * snd p) / 25) G H) as (g & E & F & V).
  - intros x X. cbn [fst snd]. apply aa_line_uc; [exact H|]. intros i I. apply pix_byte; auto. split; auto.
  - exists g. auto.
Qed.
Print Assumptions C73_antialias_rows.
(** Finding: with fewer than four columns (rows) it reads or writes outside. *)
Theorem C73_narrow_refuted : forall junk src g, image_ok src ->
  (i_w src < 4 -> 1 <= i_h src -> aa_x_uc junk src <> Ok g) /\ (i_h src < 4 -> 1 <= i_w src -> aa_y_uc junk src <> Ok g).
Proof. intros junk src g G. split; intros; [now apply aa_x_narrow|now apply aa_y_short]. Qed.
Print Assumptions C73_narrow_refuted.
Example C73_example : image_ok ex53 /\ byte_img ex53 /\ 4 <= i_w ex53 /\
  aa_x_uc (fun _ => 77) ex53 = Ok (mkImg 2 3 2 [1; 3;  6; 8;  11; 13]) /\ aa_y_uc (fun _ => 77) (mkImg 1 6 1 [0; 255; 0; 255; 100; 7]) = Ok (mkImg 1 3 1 [122; 126; 110]).
Proof. split; [apply ex53_ok|]. split; [apply ex53_ok|]. split; [cbn; lia|]. split; vm_compute; reflexivity. Qed.

(** ** C74 *)
(** Derivatives: central differences inside, doubled one-sided ones at the
    borders, so that all have the same scale; bytes are divided by 255. *)
Theorem C74_derivative_x_bytes : forall junk (src : image Z), image_ok src -> 2 <= i_w src ->
  exists g, deriv_x_uc junk src = Ok g /\ fresh g (i_w src) (i_h src) /\
    forall x y, in_img g x y -> pix F0 g x y =
      derivative (fun a b => fdiv (fmul (of_int 2) (of_int (b - a))) (of_int 255)) (fun a b => fdiv (of_int (b - a)) (of_int 255)) (i_w src) (fun i => pix 0 src i y) x.
Proof. intros. now apply (deriv_x_ok 0 edge_uc inner_uc). Qed.
Print Assumptions C74_derivative_x_bytes.
Theorem C74_derivative_x_floats : forall junk (src : image flt), image_ok src -> 2 <= i_w src ->
  exists g, deriv_x_f32 junk src = Ok g /\ fresh g (i_w src) (i_h src) /\
    forall x y, in_img g x y -> pix F0 g x y =
      derivative (fun a b => fdiv (fmul (of_int 2) (fsub b a)) F1) (fun a b => fdiv (fsub b a) F1) (i_w src) (fun i => pix F0 src i y) x.
Proof. intros. now apply (deriv_x_ok F0 edge_f32 inner_f32). Qed.
Print Assumptions C74_derivative_x_floats.
(** Along the columns, for images whose rows have no gaps. *)
Theorem C74_derivative_y_bytes : forall (src : image Z), image_ok src -> 2 <= i_h src -> i_stride src = i_w src ->
  exists g, deriv_y_uc src = Ok g /\ fresh g (i_w src) (i_h src) /\
    forall x y, in_img g x y -> pix F0 g x y =
      derivative (fun a b => fdiv (fmul (of_int 2) (of_int (b - a))) (of_int 255)) (fun a b => fdiv (of_int (b - a)) (of_int 255)) (i_h src) (fun i => pix 0 src x i) y.
Proof.
  intros src G H S. destruct (deriv_y_ok 0 edge_uc inner_uc src G H) as (g & E & F & V). exists g. split; [exact E|]. split; [exact F|]. intros x y I. rewrite V by exact I.
  destruct (Z.eqb_spec y (i_h src - 1)) as [->|]; [|reflexivity]. now apply last_row_derivative.
Qed.
Print Assumptions C74_derivative_y_bytes.
Theorem C74_derivative_y_floats : forall (src : image flt), image_ok src -> 2 <= i_h src -> i_stride src = i_w src ->
  exists g, deriv_y_f32 src = Ok g /\ fresh g (i_w src) (i_h src) /\
    forall x y, in_img g x y -> pix F0 g x y =
      derivative (fun a b => fdiv (fmul (of_int 2) (fsub b a)) F1) (fun a b => fdiv (fsub b a) F1) (i_h src) (fun i => pix F0 src x i) y.
Proof.
  intros src G H S. destruct (deriv_y_ok F0 edge_f32 inner_f32 src G H) as (g & E & F & V). exists g. split; [exact E|]. split; [exact F|]. intros x y I. rewrite V by exact I.
  destruct (Z.eqb_spec y (i_h src - 1)) as [->|]; [|reflexivity]. now apply last_row_derivative.
Qed.
Print Assumptions C74_derivative_y_floats.
(** With gaps, all rows but the last are still right. *)
Theorem C74_derivative_y_gaps : forall (src : image Z), image_ok src -> 2 <= i_h src ->
  exists g, deriv_y_uc src = Ok g /\ fresh g (i_w src) (i_h src) /\
    forall x y, in_img g x y -> y < i_h src - 1 -> pix F0 g x y =
      derivative (fun a b => fdiv (fmul (of_int 2) (of_int (b - a))) (of_int 255)) (fun a b => fdiv (of_int (b - a)) (of_int 255)) (i_h src) (fun i => pix 0 src x i) y.
Proof.
  intros src G H. destruct (deriv_y_ok 0 edge_uc inner_uc src G H) as (g & E & F & V). exists g. split; [exact E|]. split; [exact F|]. intros x y I L. rewrite V by exact I.
  destruct (Z.eqb_spec y (i_h src - 1)) as [->|]; [lia|reflexivity].
Qed.
Print Assumptions C74_derivative_y_gaps.
(** Finding: the last row of a source with gaps is looked up with the stride of
    the destination; and a single column or row is read outside. *)
Theorem C74_gaps_refuted : let src := mkImg 1 2 2 [0; 9; 5; 9] in image_ok src /\
  exists g, deriv_y_uc src = Ok g /\ pix F0 g 0 1 = fdiv (of_int 18) (of_int 255) /\ pix F0 g 0 0 = fdiv (of_int 10) (of_int 255).
Proof. split; [split; [cbn; lia|cbn; lia|reflexivity|vm_compute; discriminate]|]. eexists. split; [vm_compute; reflexivity|]. split; vm_compute; reflexivity. Qed.
Print Assumptions C74_gaps_refuted.
Theorem C74_single_line_refuted : forall junk (src : image Z) g, image_ok src ->
  (i_w src = 1 -> i_stride src = 1 -> 1 <= i_h src -> deriv_x_uc junk src <> Ok g) /\ (i_h src = 1 -> 1 <= i_w src -> deriv_y_uc src <> Ok g).
Proof. intros junk src g G. split; intros; [now apply deriv_x_one|now apply deriv_y_one]. Qed.
Print Assumptions C74_single_line_refuted.
Example C74_example :
  deriv_x_uc (fun _ => FNaN) (mkImg 4 1 5 [0; 51; 255; 204; 9]) = Ok (mkImg 4 1 4 (map (fun z => fdiv (of_int z) (of_int 255)) [102; 255; 153; -102])) /\
  deriv_y_uc (mkImg 1 4 1 [0; 51; 255; 204]) = Ok (mkImg 1 4 1 (map (fun z => fdiv (of_int z) (of_int 255)) [102; 255; 153; -102])).
Proof. split; vm_compute; reflexivity. Qed.

(** ** C75 *)
(** The box filter on byte images: rounded down means of windows clamped to the
    image, along the rows and then along the columns. *)
Theorem C75_box_filter_bytes : forall junk bufj src rx ry, image_ok src -> byte_img src -> 1 < i_w src -> 1 < i_h src ->
  1 <= rx <= 32767 -> 1 <= ry <= 32767 -> Z.max (i_w src) (i_h src) + 2 * Z.max rx ry <= INT_MAX ->
  exists g, filter_box_uc junk bufj src rx ry = Ok g /\ fresh g (i_w src) (i_h src) /\
    forall x y, in_img g x y -> pix 0 g x y = box_mean (i_w src) (i_h src) rx ry (pix 0 src) x y.
Proof. intros. now apply filter_box_ok. Qed.
Print Assumptions C75_box_filter_bytes.
Theorem C75_box_filter_rows : forall junk src r buf, image_ok src -> byte_img src -> 1 < i_w src -> 1 <= r <= 32767 -> i_w src + 2 * r <= Z.of_nat (length buf) ->
  exists g, filter_box_x_uc junk src r buf = Ok g /\ fresh g (i_w src) (i_h src) /\
    forall x y, in_img g x y -> pix 0 g x y = window_mean (i_w src) r (fun i => pix 0 src i y) x.
Proof. intros. now apply filter_box_x_ok. Qed.
Print Assumptions C75_box_filter_rows.
Theorem C75_box_filter_columns : forall junk src r buf, image_ok src -> byte_img src -> 1 < i_h src -> 1 <= r <= 32767 -> i_h src + 2 * r <= Z.of_nat (length buf) ->
  exists g, filter_box_y_uc junk src r buf = Ok g /\ fresh g (i_w src) (i_h src) /\
    forall x y, in_img g x y -> pix 0 g x y = window_mean (i_h src) r (fun i => pix 0 src x i) y.
Proof. intros. now apply filter_box_y_ok. Qed.
Print Assumptions C75_box_filter_columns.
Example C75_example : image_ok ex53 /\ byte_img ex53 /\
  filter_box_uc (fun _ => 77) (fun _ => FNaN) (mkImg 3 2 4 [0; 30; 200; 99; 10; 20; 90; 99]) 1 1 = Ok (mkImg 3 2 3 [11; 64; 117; 12; 52; 91]).
Proof. split; [apply ex53_ok|]. split; [apply ex53_ok|]. vm_compute. reflexivity. Qed.

(** ** C76 *)
(** Smoothing float images: convolution with the symmetric kernels along the
    rows and then along the columns, positions clamped to the image. *)
Theorem C76_smooth_floats : forall junk bufj (src : image flt) kx ky, image_ok src -> 1 < i_w src -> 1 < i_h src -> (2 <= length kx)%nat -> (2 <= length ky)%nat ->
  Z.max (i_w src) (i_h src) + 2 * Z.max (Z.of_nat (length kx) - 1) (Z.of_nat (length ky) - 1) <= INT_MAX ->
  exists g, smooth_f32 junk bufj src kx ky = Ok g /\ fresh g (i_w src) (i_h src) /\
    forall x y, in_img g x y -> pix F0 g x y = smoothed ky (i_h src) (fun j => smoothed kx (i_w src) (fun i => pix F0 src i j) x) y.
Proof.
  intros junk bufj src kx ky G W H KX KY M.
  destruct (smooth_ok F0 (fun f => f) (fun f => Ok f) (fun p => smoothed kx (i_w src) (fun i => pix F0 src i (snd p)) (fst p))
    (fun p => smoothed ky (i_h src) (fun j => smoothed kx (i_w src) (fun i => pix F0 src i j) (fst p)) (snd p)) junk bufj src kx ky G W H KX KY M) as (g & E & F & V); [reflexivity|reflexivity|].
  exists g. auto.
Qed.
Print Assumptions C76_smooth_floats.
(** Bytes: the same with truncation after each of the two passes, as long as the
    truncated values are bytes. *)
Theorem C76_smooth_bytes : forall v1 v2 junk bufj (src : image Z) kx ky, image_ok src -> 1 < i_w src -> 1 < i_h src -> (2 <= length kx)%nat -> (2 <= length ky)%nat ->
  Z.max (i_w src) (i_h src) + 2 * Z.max (Z.of_nat (length kx) - 1) (Z.of_nat (length ky) - 1) <= INT_MAX ->
  (forall x y, in_img src x y -> to_int (smoothed kx (i_w src) (fun i => of_int (pix 0 src i y)) x) = Ok (v1 x y) /\ 0 <= v1 x y <= 255) ->
  (forall x y, in_img src x y -> to_int (smoothed ky (i_h src) (fun j => of_int (v1 x j)) y) = Ok (v2 x y) /\ 0 <= v2 x y <= 255) ->
  exists g, smooth_uc junk bufj src kx ky = Ok g /\ fresh g (i_w src) (i_h src) /\ forall x y, in_img g x y -> pix 0 g x y = v2 x y.
Proof.
  intros v1 v2 junk bufj src kx ky G W H KX KY M V1 V2.
  destruct (smooth_ok 0 of_int to_uc (fun p => v1 (fst p) (snd p)) (fun p => v2 (fst p) (snd p)) junk bufj src kx ky G W H KX KY M) as (g & E & F & V).
  - intros x y I. destruct (V1 x y I) as [A B]. unfold to_uc. rewrite A. cbn [bind fst snd]. destruct (Z.leb_spec 0 (v1 x y)), (Z.leb_spec (v1 x y) 255); try lia. reflexivity.
  - intros x y I. destruct (V2 x y I) as [A B]. unfold to_uc. cbn [fst snd]. rewrite A. cbn [bind fst snd]. destruct (Z.leb_spec 0 (v2 x y)), (Z.leb_spec (v2 x y) 255); try lia. reflexivity.
  - exists g. auto.
Qed.
Print Assumptions C76_smooth_bytes.
Example C76_example : image_ok ex53 /\
  smooth_uc (fun _ => 77) (fun _ => FNaN) (mkImg 3 2 4 [0; 40; 200; 99; 8; 20; 88; 99]) [F_HALF; F_QUARTER] [F_HALF; F_QUARTER] = Ok (mkImg 3 2 3 [10; 61; 137; 10; 43; 93]).
Proof. split; [apply ex53_ok|]. vm_compute. reflexivity. Qed.

(** ** C77 *)
(** Scaling by one half gives the same pixels as halving. *)
Theorem C77_scale_half_partial : forall junk src, image_ok src -> byte_img src -> i_w src <= 2 ^ 24 -> i_h src <= 2 ^ 24 ->
  exists g, scale_uc junk src F_HALF = Ok g /\ fresh g (i_w src / 2) (i_h src / 2) /\
    forall x y, in_img g x y -> pix 0 g x y = pix 0 src (2 * x) (2 * y).
Proof. intros. now apply scale_half_ok. Qed.
Print Assumptions C77_scale_half_partial.
(** Finding: scaling by one or by two reads below the last row, for every
    non-empty image of a reasonable size. *)
Theorem C77_enlarging_refuted : forall junk src g, image_ok src -> 0 < i_w src < 2 ^ 23 -> 0 < i_h src < 2 ^ 23 ->
  scale_uc junk src F1 <> Ok g /\ scale_uc junk src (of_int 2) <> Ok g.
Proof.
  intros junk src g G W H. split; [apply scale_one; auto; change (2 ^ 24) with 16777216; change (2 ^ 23) with 8388608 in *; lia|].
  replace (of_int 2) with F2 by (vm_compute; reflexivity). now apply scale_two.
Qed.
Print Assumptions C77_enlarging_refuted.
Example C77_example : image_ok ex53 /\ byte_img ex53 /\ scale_uc (fun _ => 77) ex53 F_HALF = Ok (mkImg 2 1 2 [1; 3]).
Proof. split; [apply ex53_ok|]. split; [apply ex53_ok|]. vm_compute. reflexivity. Qed.
