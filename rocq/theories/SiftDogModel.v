(** Search for extrema, orientation histogram and descriptor cells of
    src/nx_sift_detector.c, and its default parameters. *)
From Verif Require Import Base Gray Flt MatModel ShaModel.

Local Open Scope Z_scope.

(** * Extrema of the difference images *)

(** A float image: nx_image.h.  All images of one octave have the same size. *)
Record dimg := DImg { d_w : Z; d_h : Z; d_stride : Z; d_data : list flt }.
(** row[x] where row = data + y * row_stride. *)
Definition dget (im : dimg) (y x : Z) : res flt :=
  let* o := chk_int (y * d_stride im) in zget (d_data im) (o + x).

(** A chain dval > a && dval > b && ..., reading from left to right and
    stopping at the first comparison that fails. *)
Fixpoint beats (cmp : flt -> flt -> bool) (v : flt) (cells : list (dimg * Z * Z)) : res bool :=
  match cells with
  | [] => Ok true
  | (im, y, x) :: cells' =>
    let* a := dget im y x in
    if cmp v a then beats cmp v cells' else Ok false
  end.
(** The neighbours in the order of nx_sift_detector.c:533-550. *)
Definition around (dogm dog dogp : dimg) (y x : Z) : list (dimg * Z * Z) :=
  [ (dog, y, x - 1); (dog, y, x + 1); (dog, y - 1, x - 1); (dog, y - 1, x); (dog, y - 1, x + 1); (dog, y + 1, x - 1); (dog, y + 1, x); (dog, y + 1, x + 1);
    (dogm, y, x - 1); (dogm, y, x); (dogm, y, x + 1); (dogm, y - 1, x - 1); (dogm, y - 1, x); (dogm, y - 1, x + 1); (dogm, y + 1, x - 1); (dogm, y + 1, x); (dogm, y + 1, x + 1);
    (dogp, y, x - 1); (dogp, y, x); (dogp, y, x + 1); (dogp, y - 1, x - 1); (dogp, y - 1, x); (dogp, y - 1, x + 1); (dogp, y + 1, x - 1); (dogp, y + 1, x); (dogp, y + 1, x + 1) ].

(** nx_sift_check_edge_threshold, 490-505: the nine values read; the
    arithmetic on them, partly in double, is the parameter [edge]. *)
Definition check_edge (edge : list flt -> bool) (dog : dimg) (y x : Z) : res bool :=
  let* a := dget dog (y - 1) (x - 1) in let* b := dget dog (y - 1) x in let* c := dget dog (y - 1) (x + 1) in
  let* d := dget dog y (x - 1) in let* e := dget dog y x in let* f := dget dog y (x + 1) in
  let* g := dget dog (y + 1) (x - 1) in let* h := dget dog (y + 1) x in let* i := dget dog (y + 1) (x + 1) in
  Ok (edge [a; b; c; d; e; f; g; h; i]).

(** The condition at 532-552; [above] is fabs(dval) > 0.8 * peak_thr. *)
Definition is_candidate (above : flt -> bool) (edge : list flt -> bool) (dogm dog dogp : dimg) (y x : Z) : res bool :=
  let* dval := dget dog y x in
  if above dval then
    let* hi := if f_gt dval F0 then beats f_gt dval (around dogm dog dogp y x) else Ok false in
    let* ext := if hi then Ok true else if f_lt dval F0 then beats f_lt dval (around dogm dog dogp y x) else Ok false in
    if ext then check_edge edge dog y x else Ok false
  else Ok false.

(** nx_sift_process_dog, 507-559: the places (x, y) handed to
    nx_sift_interp_peak_location.  The upper bound of x is width + B. *)
Definition nx_sift_process_dog (above : flt -> bool) (edge : list flt -> bool) (dogm dog dogp : dimg) (B : Z) : res (list (Z * Z)) :=
  for_each (fun y out =>
    for_each (fun x out =>
      let* c := is_candidate above edge dogm dog dogp y x in
      Ok (if c then out ++ [(x, y)] else out)) (zrange B (d_w dog + B)) out) (zrange B (d_h dog - B)) [].

(** * Orientation histogram *)
Definition BINS : Z := 36.
(** (a + b + c) / 3.0f. *)
Definition avg3 (a b c : flt) : flt := fdiv (fadd (fadd a b) c) (of_int 3).
(** One round of smoothing, 341-347: the histogram and the buffer. *)
Definition smooth_pass (hist buf : list flt) : res (list flt * list flt) :=
  let* buf := blit buf 1 (firstn 36 (skipn 1 hist)) in
  let* l := zget buf BINS in
  let* buf := zset buf 0 l in
  let* f := zget buf 1 in
  let* buf := zset buf (BINS + 1) f in
  let* buf := for_each (fun i buf =>
    let j := i + 1 in
    let* a := zget buf (j - 1) in
    let* b := zget buf j in
    let* c := zget buf (j + 1) in
    zset buf (j - 1) (avg3 a b c)) (upto BINS) buf in
  let* hist := blit hist 1 (firstn 36 buf) in
  Ok (hist, buf).
(** The end of nx_sift_compute_ori_hist, 337-360: smoothing, the cyclic border
    and the peak value; [buf] is the uninitialised buffer. *)
Definition ori_hist_finish (hist buf : list flt) : res (list flt * flt) :=
  let* r := for_each (fun _ s => smooth_pass (fst s) (snd s)) (upto 6) (hist, buf) in
  let '(hist, buf) := r in
  let* l := zget buf BINS in
  let* hist := zset hist 0 l in
  let* f := zget hist 1 in
  let* hist := zset hist (BINS + 1) f in
  let* p := zget hist 1 in
  let* peak := for_each (fun i peak => let* v := zget hist i in Ok (if f_gt v peak then v else peak)) (zrange 2 (BINS + 1)) p in
  Ok (hist, peak).
(** 0.8f. *)
Definition F08 : flt := mkf (8 * U) 10.
(** The bins for which nx_sift_compute_keys, 378-380, creates a keypoint. *)
Definition peak_bins (hist : list flt) (peak : flt) : res (list Z) :=
  for_each (fun b out =>
    let* h := zget hist b in
    let* l := zget hist (b - 1) in
    let* r := zget hist (b + 1) in
    Ok (if f_gt h l && f_gt h r && f_gt h (fmul peak F08) then out ++ [b] else out)) (zrange 1 (BINS + 1)) [].
Definition orientations (hist buf : list flt) : res (list Z) :=
  let* r := ori_hist_finish hist buf in
  peak_bins (fst r) (snd r).

(** * Descriptor cells *)

(** v > 0 ? (int)v : (int)(v - 1), nx_sift_detector.c:229-231. *)
Definition down (v : flt) : res Z := if f_gt v F0 then to_int v else to_int (fsub v F1).
(** desc[i] += w. *)
Definition bump (desc : list flt) (i : Z) (w : flt) : res (list flt) := let* v := zget desc i in zset desc i (fadd v w).
(** One of the four blocks of 241-245 etc.: row, column, weight. *)
Definition cell (desc : list flt) (r c hi0 hi1 : Z) (ww heps : flt) : res (list flt) :=
  let ww1 := fmul ww heps in
  let ww0 := fsub ww ww1 in
  let* desc := bump desc (r * 4 * 8 + (c * 8 + hi0)) ww0 in
  bump desc (r * 4 * 8 + (c * 8 + hi1)) ww1.
Definition inside (i : Z) : bool := (0 <=? i) && (i <? 4).
(** The two columns of one row, 238-253. *)
Definition cells_row (desc : list flt) (r pxi hi0 hi1 : Z) (w xeps heps : flt) : res (list flt) :=
  let* desc := if inside pxi then cell desc r pxi hi0 hi1 (fmul w (fsub F1 xeps)) heps else Ok desc in
  if inside (pxi + 1) then cell desc r (pxi + 1) hi0 hi1 (fmul w xeps) heps else Ok desc.
(** The update of the descriptor by one sample, nx_sift_compute_fdescriptor,
    226-272, from the patch coordinates px, py, the orientation h in bins and
    the weight of the sample. *)
Definition deposit (desc : list flt) (px py h weight : flt) : res (list flt) :=
  let* pxi := down px in
  let* pyi := down py in
  let* hi := down h in
  let hi0 := if hi >=? 8 then 0 else hi in
  let hi1 := if hi0 + 1 >=? 8 then 0 else hi0 + 1 in
  let xeps := fsub px (of_int pxi) in
  let yeps := fsub py (of_int pyi) in
  let heps := fsub h (of_int hi) in
  let* desc := if inside pyi then cells_row desc pyi pxi hi0 hi1 (fmul weight (fsub F1 yeps)) xeps heps else Ok desc in
  if inside (pyi + 1) then cells_row desc (pyi + 1) pxi hi0 hi1 (fmul weight yeps) xeps heps else Ok desc.
