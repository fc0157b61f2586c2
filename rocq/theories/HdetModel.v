(** Model of nx_harris_deriv_images (src/nx_harris_detector.c:35-73) and of the
    detector class in src/vg_harris_detector.cc. *)
From Verif Require Import Base BaseLemmas Gray Img Flt ImgModel KernModel HarrisModel.
Local Open Scope Z_scope.

(** nx_harris_deriv_images, 35-73.  [win] is the smoothing kernel when sigma_win is
    positive (its computation is KernModel's).  The three images share one work
    buffer; what it holds at the start of each smoothing is arbitrary here.  The
    output images are resized before use, so their old contents do not matter. *)
Definition harris_deriv_images (junk bufj : nat -> flt) (img : image Z) (win : option (list flt)) : res (image flt * image flt * image flt) :=
  let* d0 := deriv_x_uc junk img in
  let* d1 := deriv_y_uc img in
  let* d2 := img_new junk (i_w d0) (i_h d0) in
  let* (d0, d1, d2) := scan 0 (i_w img) 0 (i_h img) (fun x y '(d0, d1, d2) =>
      let* a := iget d0 x y in
      let* b := iget d1 x y in
      let* d2 := iput d2 x y (fmul a b) in
      let* d0 := iput d0 x y (fmul a a) in
      let* d1 := iput d1 x y (fmul b b) in
      Ok (d0, d1, d2)) (d0, d1, d2) in
  match win with
  | None => Ok (d0, d1, d2)
  | Some k =>
    let smooth d := smooth_self (fun f => f) (fun f => Ok f) bufj d k k in
    let* d0 := smooth d0 in
    let* d1 := smooth d1 in
    let* d2 := smooth d2 in
    Ok (d0, d1, d2)
  end.
(** VGHarrisDetector::update_score_image, vg_harris_detector.cc:70-77. *)
Definition update_score (junk bufj : nat -> flt) (win : option (list flt)) (k : flt) (img : image Z) : res (image flt) :=
  let* (d0, d1, d2) := harris_deriv_images junk bufj img win in
  score_image junk d0 d1 d2 k.

(** A float literal p/q. *)
Definition lit (p q : Z) : flt := mkf (p * U) q.
(** VGHarrisDetector::adapt_threshold, 46-68.  [n_keys > max_n_keys] compares ints,
    the other comparisons convert n_keys to float. *)
Definition adapt (t : flt) (n max : Z) : flt :=
  if f_gt (of_int n) (fmul (lit 17 10) (of_int max)) then fmul t (lit 4 1)
  else if f_gt (of_int n) (fmul (lit 14 10) (of_int max)) then fmul t (lit 19 10)
  else if f_gt (of_int n) (fmul (lit 11 10) (of_int max)) then fmul t (lit 12 10)
  else if max <? n then fmul t (lit 102 100)
  else if f_lt (of_int n) (fmul (lit 5 10) (of_int max)) then fmul t (lit 25 100)
  else if f_lt (of_int n) (fmul (lit 9 10) (of_int max)) then fmul t (lit 6 10)
  else if f_lt (of_int n) (fmul (lit 95 100) (of_int max)) then fmul t (lit 9 10)
  else if f_lt (of_int n) (fmul (lit 99 100) (of_int max)) then fmul t (lit 97 100)
  else t.
(** The constructor, 35-39. *)
Definition initial_threshold : flt := lit 5 1000000.

Section Detector.
(** update_score_image of an image. *)
Variable score : image Z -> res (image flt).

(** VGHarrisDetector::detect, 79-103: the keys and the new threshold.  The keys
    vector is represented by the part in use. *)
Definition hdetect (t : flt) (img : image Z) (max : Z) (ad : bool) : res (list hkey * flt) :=
  if negb (0 <? max) then Fatal
  else
    let* s := score img in
    let* sz := chk_int (2 * max) in
    let* keys := harris_detect sz s t in
    let n := Z.of_nat (length keys) in
    let t := if ad then adapt t n max else t in
    let n := if max <? n then max else n in
    Ok (firstn (Z.to_nat n) keys, t).

(** The loop of detect_pyr, 119-141, from level [n] - 1 down to 0; a level is an
    image with its scale and sigma. *)
Definition relabel (level : Z) (scale sigma : flt) (k : nat) (ik : nat * hkey) : hkey :=
  let '(i, h) := ik in
  {| h_x := h_x h; h_y := h_y h; h_xs := h_xs h; h_ys := h_ys h; h_level := level; h_scale := scale; h_sigma := sigma;
     h_score := h_score h; h_ori := h_ori h; h_id := Z.of_nat (k + i) |}.
Fixpoint pyr_loop (t : flt) (pyr : list (image Z * flt * flt)) (n : nat) (keys : list hkey) (buf : Z) : res (list hkey) :=
  match n with
  | O => Ok keys
  | S level =>
    if negb (0 <? buf) then Ok keys
    else
      let* (img, scale, sigma) := zget pyr (Z.of_nat level) in
      let* s := score img in
      let* ks := harris_detect buf s t in
      let ks' := map (relabel (Z.of_nat level) scale sigma (length keys)) (combine (seq 0 (length ks)) ks) in
      pyr_loop t pyr level (keys ++ ks') (buf - Z.of_nat (length ks))
  end.
(** VGHarrisDetector::detect_pyr, 105-157. *)
Definition hdetect_pyr (t : flt) (pyr : list (image Z * flt * flt)) (n_key_levels max : Z) (ad : bool) : res (list hkey * flt) :=
  if negb (0 <? n_key_levels) then Fatal
  else if negb (n_key_levels <=? Z.of_nat (length pyr)) then Fatal
  else if negb (0 <? max) then Fatal
  else
    let* sz := chk_int (2 * max) in
    let* keys := pyr_loop t pyr (Z.to_nat n_key_levels) [] sz in
    let n := Z.of_nat (length keys) in
    let t := if ad then adapt t n max else t in
    let n := if max <? n then max else n in
    Ok (firstn (Z.to_nat n) keys, t).
End Detector.
