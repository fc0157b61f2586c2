(** Model of the FAST-9 detector: src/fast/fast_9.c, src/fast/fast_nonmax.c and
    src/nx_fast_detector.c. *)
From Verif Require Import Base BaseLemmas Gray FastTree.
Local Open Scope Z_scope.

(** struct NXKeypoint, include/virg/nexus/nx_keypoint.h:36-51.  xs, ys and
    score only ever hold ints here, so they are kept as ints; scale, sigma and
    ori are float bit patterns. *)
Record kp := { k_x : Z; k_y : Z; k_xs : Z; k_ys : Z; k_level : Z; k_scale : N; k_sigma : N; k_score : Z; k_ori : N; k_id : Z }.
Definition F_ONE : N := 1065353216.   (* 1.0f *)

(** make_offsets, fast_9.c:2969-2987. *)
Definition make_offsets (row_stride : Z) : res (list Z) :=
  let* a := chk_int (row_stride * 3) in
  let* b := chk_int (row_stride * -3) in
  for_each (fun '(dx, dy) l => let* o := chk_int (dx + row_stride * dy) in Ok (l ++ [o]))
    [(0, 3); (1, 3); (2, 2); (3, 1); (3, 0); (3, -1); (2, -2); (1, -3); (0, -3); (-1, -3); (-2, -2); (-3, -1); (-3, 0); (-3, 1); (-2, 2); (-1, 3)] [].

(** The nested ifs; [rd k] reads p[pixel[k]]. *)
Fixpoint eval (t : dtree) (cb c_b : Z) (rd : nat -> res Z) : res bool :=
  match t with
  | TY => Ok true
  | TN => Ok false
  | TG k a e => let* v := rd k in if cb <? v then eval a cb c_b rd else eval e cb c_b rd
  | TL k a e => let* v := rd k in if v <? c_b then eval a cb c_b rd else eval e cb c_b rd
  end.
Definition rd_byte (data : list N) (i : Z) : res Z := let* v := zget data i in Ok (Z.of_N v).
(** The test at the pixel with index [p]: fast_9.c:45-49, 3010-3014. *)
Definition test_at (t : dtree) (data : list N) (pixel : list Z) (p b : Z) : res bool :=
  let* c := rd_byte data p in
  let* cb := chk_int (c + b) in
  let* c_b := chk_int (c - b) in
  eval t cb c_b (fun k => let* o := aget pixel k in rd_byte data (p + o)).

(** fast9_detect, fast_9.c:2998-5929: the corners in the order they are
    written.  The second component tells that the function has returned. *)
Definition fast9_detect (g : gray) (b rsize : Z) : res (list (Z * Z)) :=
  let* pixel := make_offsets (g_stride g) in
  let* (l, _) := for_each (fun y st => for_each (fun x '(l, done) =>
      if done : bool then Ok (l, done)
      else
        let* r := chk_int (y * g_stride g) in
        let* c := test_at detect_tree (g_data g) pixel (r + x) b in
        if negb c then Ok (l, false)
        else if Z.of_nat (length l) =? rsize then Ok (l, true)
        else Ok (l ++ [(x, y)], false))
    (zrange 3 (g_w g - 3)) st) (zrange 3 (g_h g - 3)) ([], false) in
  Ok l.
(** nx_fast_detect_keypoints, nx_fast_detector.c:41-69.  [keys] has room for
    [n_keys_max] keypoints. *)
Definition detect_keypoints (n_keys_max : Z) (g : gray) (threshold : Z) : res (list kp) :=
  if n_keys_max <? 0 then Fatal
  else if n_keys_max =? 0 then Ok []
  else
    let* l := fast9_detect g threshold n_keys_max in
    Ok (map (fun '(i, (x, y)) =>
      {| k_x := x; k_y := y; k_xs := x; k_ys := y; k_level := 0; k_scale := F_ONE; k_sigma := 0%N; k_score := 0;
         k_ori := 0%N; k_id := Z.of_nat i |}) (combine (seq 0 (length l)) l)).

(** fast9_corner_score, fast_9.c:38-2967: binary search. *)
Fixpoint score_loop (fuel : nat) (data : list N) (pixel : list Z) (p bmin bmax b : Z) : res Z :=
  match fuel with
  | O => NoFuel
  | S f =>
    let* c := test_at score_tree data pixel p b in
    let bmin := if c then b else bmin in
    let bmax := if c then bmax else b in
    if (bmin =? bmax - 1) || (bmin =? bmax) then Ok bmin
    else let* s := chk_int (bmin + bmax) in score_loop f data pixel p bmin bmax (Z.quot s 2)
  end.
Definition corner_score (fuel : nat) (data : list N) (pixel : list Z) (p bstart : Z) : res Z :=
  let* s := chk_int (255 + bstart) in
  score_loop fuel data pixel p bstart 255 (Z.quot s 2).
Definition k_with_score (k : kp) (s : Z) : kp :=
  {| k_x := k_x k; k_y := k_y k; k_xs := k_xs k; k_ys := k_ys k; k_level := k_level k; k_scale := k_scale k; k_sigma := k_sigma k;
     k_score := s; k_ori := k_ori k; k_id := k_id k |}.
(** fast9_score, fast_9.c:2989-2996; nx_fast_score_keypoints,
    nx_fast_detector.c:71-80. *)
Definition score_keypoints (fuel : nat) (keys : list kp) (g : gray) (threshold : Z) : res (list kp) :=
  let* pixel := make_offsets (g_stride g) in
  for_each (fun k l =>
    let* r := chk_int (k_y k * g_stride g) in
    let* s := corner_score fuel (g_data g) pixel (r + k_x k) threshold in
    Ok (l ++ [k_with_score k s])) keys [].

(** * fast_nonmax_suppression, fast_nonmax.c:36-143 *)

(** 56-73: where each row begins. *)
Definition row_starts (c : list kp) (last_row : Z) : res (list Z) :=
  if last_row + 1 <? 0 then UB else
  let* (rs, _) := for_each (fun i '(rs, prev) =>
      let* k := aget c i in
      if k_y k =? prev then Ok (rs, prev)
      else let* rs := zset rs (k_y k) (Z.of_nat i) in Ok (rs, k_y k))
    (seq 0 (length c)) (repeat (-1) (Z.to_nat (last_row + 1)), -1) in
  Ok rs.
(** 102. *)
Fixpoint adv_above (fuel : nat) (c : list kp) (x y pa : Z) : res Z :=
  match fuel with
  | O => NoFuel
  | S f => let* k := zget c pa in
           if (k_y k <? y) && (k_x k <? x - 1) then adv_above f c x y (pa + 1) else Ok pa
  end.
(** 106-111: true for goto cont. *)
Fixpoint scan_above (fuel : nat) (c : list kp) (x y score j : Z) : res bool :=
  match fuel with
  | O => NoFuel
  | S f => let* k := zget c j in
           if (k_y k <? y) && (k_x k <=? x + 1) then
             if ((k_x k =? x - 1) || (k_x k =? x) || (k_x k =? x + 1)) && (score <=? k_score k) then Ok true
             else scan_above f c x y score (j + 1)
           else Ok false
  end.
(** 123. *)
Fixpoint adv_below (fuel : nat) (c : list kp) (x y pb : Z) : res Z :=
  match fuel with
  | O => NoFuel
  | S f => if pb <? Z.of_nat (length c) then
             let* k := zget c pb in
             if (k_y k =? y + 1) && (k_x k <? x - 1) then adv_below f c x y (pb + 1) else Ok pb
           else Ok pb
  end.
(** 126-131. *)
Fixpoint scan_below (fuel : nat) (c : list kp) (x y score j : Z) : res bool :=
  match fuel with
  | O => NoFuel
  | S f => if j <? Z.of_nat (length c) then
             let* k := zget c j in
             if (k_y k =? y + 1) && (k_x k <=? x + 1) then
               if ((k_x k =? x - 1) || (k_x k =? x) || (k_x k =? x + 1)) && (score <=? k_score k) then Ok true
               else scan_below f c x y score (j + 1)
             else Ok false
           else Ok false
  end.
(** 82-85 and 87-90. *)
Definition beside (c : list kp) (pos : kp) (i dx : Z) : res bool :=
  let* k := zget c i in
  Ok ((k_x k =? k_x pos + dx) && (k_y k =? k_y pos) && (k_score pos <=? k_score k)).
(** 77-139: one corner.  The state is (point_above, point_below, kept, full). *)
Definition nonmax_step (c : list kp) (row_start : list Z) (last_row n_max : Z) (i : nat)
    (st : Z * Z * list kp * bool) : res (Z * Z * list kp * bool) :=
  let '(pa, pb, out, full) := st in
  if full then Ok st
  else
    let sz := Z.of_nat (length c) in
    let zi := Z.of_nat i in
    let* pos := aget c i in
    let x := k_x pos in
    let y := k_y pos in
    let* lft := (if 0 <? zi then beside c pos (zi - 1) (-1) else Ok false) in
    if lft then Ok st
    else
      let* rgt := (if zi <? sz - 1 then beside c pos (zi + 1) 1 else Ok false) in
      if rgt then Ok st
      else
        let* above_row := (if negb (y =? 0) then let* r := zget row_start (y - 1) in Ok (negb (r =? -1)) else Ok false) in
        let* (pa, hit) :=
          (if above_row then
             let* ka := zget c pa in
             let* pa := (if k_y ka <? y - 1 then zget row_start (y - 1) else Ok pa) in
             let* pa := adv_above (S (length c)) c x y pa in
             let* hit := scan_above (S (length c)) c x y (k_score pos) pa in
             Ok (pa, hit)
           else Ok (pa, false)) in
        if hit then Ok (pa, pb, out, false)
        else
          let* below_row := (if negb (y =? last_row) then let* r := zget row_start (y + 1) in Ok (negb (r =? -1)) else Ok false) in
          let* (pb, hit) :=
            (if below_row && (pb <? sz) then
               let* kb := zget c pb in
               let* pb := (if k_y kb <? y + 1 then zget row_start (y + 1) else Ok pb) in
               let* pb := adv_below (S (length c)) c x y pb in
               let* hit := scan_below (S (length c)) c x y (k_score pos) pb in
               Ok (pb, hit)
             else Ok (pb, false)) in
          if hit then Ok (pa, pb, out, false)
          else let out := out ++ [pos] in
               Ok (pa, pb, out, Z.of_nat (length out) =? n_max).
Definition nonmax (n_max : Z) (c : list kp) : res (list kp) :=
  if (Z.of_nat (length c) <? 1) || (n_max <=? 0) then Ok []
  else
    let* k := aget c (length c - 1) in
    let last_row := k_y k in
    let* rs := row_starts c last_row in
    let* (s, _) := for_each (nonmax_step c rs last_row n_max) (seq 0 (length c)) (0, 0, [], false) in
    Ok (snd s).

Definition k_with_id (k : kp) (i : Z) : kp :=
  {| k_x := k_x k; k_y := k_y k; k_xs := k_xs k; k_ys := k_ys k; k_level := k_level k; k_scale := k_scale k; k_sigma := k_sigma k;
     k_score := k_score k; k_ori := k_ori k; k_id := i |}.
(** nx_fast_suppress_keypoints, nx_fast_detector.c:137-149. *)
Definition suppress_keypoints (n_max : Z) (c : list kp) : res (list kp) :=
  let* l := nonmax n_max c in
  Ok (map (fun '(i, k) => k_with_id k (Z.of_nat i)) (combine (seq 0 (length l)) l)).

(** * Pyramids *)

(** struct NXImagePyrLevel, include/virg/nexus/nx_image_pyr.h. *)
Record plevel := { pl_img : gray; pl_scale : N; pl_sigma : N }.
Definition fill_level (i : Z) (lv : plevel) (first_id : Z) (j : nat) (k : kp) : kp :=
  {| k_x := k_x k; k_y := k_y k; k_xs := k_xs k; k_ys := k_ys k; k_level := i; k_scale := pl_scale lv; k_sigma := pl_sigma lv;
     k_score := k_score k; k_ori := k_ori k; k_id := first_id + Z.of_nat j |}.
(** One level: nx_fast_detector.c:105-132 and 311-342.  [ori] is the
    computation of orientations, lines 324-326.  The state is (kept, room left,
    finished). *)
Definition pyr_level (ori : gray -> list kp -> res (list kp)) (fuel : nat) (n_keys_max threshold : Z) (levels : list plevel) (i : nat)
    (st : list kp * Z * bool) : res (list kp * Z * bool) :=
  let '(out, room, fin) := st in
  if fin then Ok st
  else
    let* lv := aget levels i in
    let* keys := detect_keypoints n_keys_max (pl_img lv) threshold in
    let* keys := score_keypoints fuel keys (pl_img lv) threshold in
    let* lk := suppress_keypoints room keys in
    let* lk := ori (pl_img lv) lk in
    let lk := map (fun '(j, k) => fill_level (Z.of_nat i) lv (Z.of_nat (length out)) j k) (combine (seq 0 (length lk)) lk) in
    let room := room - Z.of_nat (length lk) in
    Ok (out ++ lk, room, room <=? 0).
(** 98-100 and 304-306. *)
Definition key_levels (n_key_levels n : Z) : Z := if (n_key_levels <=? 0) || (n <? n_key_levels) then n else n_key_levels.
(** nx_fast_detect_keypoints_pyr, nx_fast_detector.c:82-135. *)
Definition detect_keypoints_pyr (fuel : nat) (n_supp_max n_keys_max : Z) (levels : list plevel) (threshold n_key_levels : Z) : res (list kp) :=
  if (n_supp_max <? 0) || (n_keys_max <? 0) then Fatal
  else if (n_supp_max =? 0) || (n_keys_max =? 0) then Ok []
  else
    let* (s, _) := for_each (pyr_level (fun _ l => Ok l) fuel n_keys_max threshold levels)
      (rev (seq 0 (Z.to_nat (key_levels n_key_levels (Z.of_nat (length levels)))))) ([], n_supp_max, false) in
    Ok (fst s).

(** * Orientations *)

(** nx_fast_detector_ic_data_new, nx_fast_detector.c:157-189: the table as a
    list of pairs. *)
Definition ic_table (radius : Z) : res (list (Z * Z)) :=
  let* r2 := chk_int (radius * radius) in
  for_each (fun y t => for_each (fun x t =>
      let* r2xy := chk_int (x * x + y * y) in
      if r2xy <? r2 then Ok (t ++ [(x, y)]) else Ok t)
    (zrange (- radius) radius) t) (zrange (- radius) radius) [].
(** nx_keypoint_ori_ic, nx_fast_detector.c:223-235.  [atan2] stands for the
    library function followed by the conversion to float. *)
Definition ori_ic (atan2 : Z -> Z -> N) (data : list N) (center : Z) (offsets : list Z) (table : list (Z * Z)) : res N :=
  let* (m01, m10) := for_each (fun '(o, (tx, ty)) '(m01, m10) =>
      let* p := rd_byte data (center + o) in
      let* m10 := chk_int (m10 + tx * p) in
      let* m01 := chk_int (m01 + ty * p) in
      Ok (m01, m10)) (combine offsets table) (0, 0) in
  Ok (atan2 m01 m10).
Definition k_with_ori (k : kp) (o : N) : kp :=
  {| k_x := k_x k; k_y := k_y k; k_xs := k_xs k; k_ys := k_ys k; k_level := k_level k; k_scale := k_scale k; k_sigma := k_sigma k;
     k_score := k_score k; k_ori := o; k_id := k_id k |}.
(** nx_fast_detector_compute_keypoint_ori_ic, nx_fast_detector.c:237-265. *)
Definition compute_ori (atan2 : Z -> Z -> N) (radius : Z) (table : list (Z * Z)) (g : gray) (keys : list kp) : res (list kp) :=
  let xe := g_w g - radius in
  let ye := g_h g - radius in
  let* offsets := for_each (fun '(tx, ty) l => let* o := chk_int (tx + g_stride g * ty) in Ok (l ++ [o])) table [] in
  for_each (fun k l =>
    if (radius <=? k_x k) && (k_x k <? xe) && (radius <=? k_y k) && (k_y k <? ye) then
      let* r := chk_int (k_y k * g_stride g) in
      let* o := ori_ic atan2 (g_data g) (r + k_x k) offsets table in
      Ok (l ++ [k_with_ori k o])
    else Ok (l ++ [k])) keys [].

(** * The detector object *)

(** struct NXFastDetector, include/virg/nexus/nx_fast_detector.h:53-63: the
    threshold, the work multiplier (10 after nx_fast_detector_alloc) and, when
    orientations are on, the radius and table of ic_data. *)
Record detector := { d_threshold : Z; d_work : Z; d_ori : option (Z * list (Z * Z)) }.
(** nx_fast_detector_set_ori_param, nx_fast_detector.c:367-377. *)
Definition set_ori_param (d : detector) (on : bool) (radius : Z) : res detector :=
  if radius <=? 0 then Fatal
  else
    let* o := (if on then let* t := ic_table radius in Ok (Some (radius, t)) else Ok None) in
    Ok {| d_threshold := d_threshold d; d_work := d_work d; d_ori := o |}.
Definition ori_step (atan2 : Z -> Z -> N) (d : detector) (g : gray) (keys : list kp) : res (list kp) :=
  match d_ori d with Some (r, t) => compute_ori atan2 r t g keys | None => Ok keys end.
(** nx_fast_detector_detect, nx_fast_detector.c:267-293.  keys_work is given
    exactly work_size elements. *)
Definition detector_detect (atan2 : Z -> Z -> N) (fuel : nat) (d : detector) (max_n_keys : Z) (g : gray) : res (list kp) :=
  let* work := chk_int (max_n_keys * d_work d) in
  let* keys := detect_keypoints work g (d_threshold d) in
  let* keys := score_keypoints fuel keys g (d_threshold d) in
  let* keys := suppress_keypoints max_n_keys keys in
  ori_step atan2 d g keys.
(** nx_fast_detector_detect_pyr, nx_fast_detector.c:295-345. *)
Definition detector_detect_pyr (atan2 : Z -> Z -> N) (fuel : nat) (d : detector) (max_n_keys : Z) (levels : list plevel) (n_key_levels : Z) : res (list kp) :=
  let* work := chk_int (max_n_keys * d_work d) in
  let* (s, _) := for_each (pyr_level (ori_step atan2 d) fuel work (d_threshold d) levels)
    (rev (seq 0 (Z.to_nat (key_levels n_key_levels (Z.of_nat (length levels)))))) ([], max_n_keys, false) in
  Ok (fst s).

(** nx_fast_detector_adapt_threshold, nx_fast_detector.c:347-365. *)
Definition adapt_threshold (threshold n_keys max_n_keys : Z) : res Z :=
  let* a := chk_int (1014 * max_n_keys) in
  let* b := chk_int (921 * max_n_keys) in
  let* c := chk_int (716 * max_n_keys) in
  let lim_high := Z.shiftr a 10 in
  let lim_low := Z.shiftr b 10 in
  let lim_very_low := Z.shiftr c 10 in
  let* t :=
    (if lim_high <=? n_keys then let* t := chk_int (threshold + 3) in Ok (Z.min 250 t)
     else if n_keys <=? lim_very_low then let* t := chk_int (threshold - 3) in Ok (Z.max 5 t)
     else if n_keys <=? lim_low then let* t := chk_int (threshold - 1) in Ok (Z.max 5 t)
     else Ok threshold) in
  if (5 <=? t) && (t <=? 250) then Ok t else Fatal.
