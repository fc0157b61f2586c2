(** Model of the point match, homography, pinhole, epipolar and 2-D transform
    code over the reals (see GeoModel for what this leaves out). *)
From Verif Require Import Base.
From Verif Require Export GeoModel.
Local Open Scope R_scope.

(** struct NXPointMatch2D, include/virg/nexus/nx_point_match_2d.h:33-42; float
    coordinates are reals. *)
Record pmatch := PM { mx : vec2; mxp : vec2; cost : R; sigma : R; sigmap : R; mid : N; midp : N; inlier : bool }.
(** nx_point_match_2d_count_inliers, 67-76. *)
Definition count_inliers (l : list pmatch) : Z :=
  fold_left (fun n c => if inlier c then (n + 1)%Z else n) l 0%Z.
Definition set_inlier (b : bool) (c : pmatch) : pmatch := PM (mx c) (mxp c) (cost c) (sigma c) (sigmap c) (mid c) (midp c) b.

(** ** src/nx_point_match_2d_stats.c *)

(** struct NXPointMatch2DStats. *)
Record stats := St { sm : vec2; smp : vec2; sd : R; sdp : R }.
(** nx_point_match_2d_stats_normalize_matches, 55-97.  The three loops over the
    list; n_corr is the length of the list. *)
Definition sum_loop (l : list pmatch) : vec2 * vec2 :=                                    (* 61-67 *)
  fold_left (fun '(m, mp) c => (V2 (px m + px (mx c)) (py m + py (mx c)), V2 (px mp + px (mxp c)) (py mp + py (mxp c))))
            l (V2 0 0, V2 0 0).
Definition center (m mp : vec2) (c : pmatch) : pmatch :=                                  (* 76-79 *)
  PM (V2 (px (mx c) - px m) (py (mx c) - py m)) (V2 (px (mxp c) - px mp) (py (mxp c) - py mp))
     (cost c) (sigma c) (sigmap c) (mid c) (midp c) (inlier c).
Definition dist_loop (l : list pmatch) : R * R :=                                         (* 81-82 *)
  fold_left (fun '(d, dp) c => (d + sqrt (px (mx c) * px (mx c) + py (mx c) * py (mx c)),
                                dp + sqrt (px (mxp c) * px (mxp c) + py (mxp c) * py (mxp c)))) l (0, 0).
Definition shrink (d dp : R) (c : pmatch) : pmatch :=                                     (* 88-96 *)
  PM (V2 (px (mx c) / d) (py (mx c) / d)) (V2 (px (mxp c) / dp) (py (mxp c) / dp))
     (cost c) (sigma c / d) (sigmap c / dp) (mid c) (midp c) (inlier c).
Definition normalize_matches (l : list pmatch) : stats * list pmatch :=
  let n := INR (length l) in
  let '(s, sp) := sum_loop l in
  let m := V2 (px s / n) (py s / n) in
  let mp := V2 (px sp / n) (py sp / n) in
  let l1 := map (center m mp) l in
  let '(e, ep) := dist_loop l1 in
  let d := e / n in let dp := ep / n in
  (St m mp d dp, map (shrink d dp) l1).
(** nx_point_match_2d_stats_denormalize_matches, 99-112. *)
Definition denormalize_matches (st : stats) (l : list pmatch) : list pmatch :=
  map (fun c => PM (V2 (sd st * px (mx c) + px (sm st)) (sd st * py (mx c) + py (sm st)))
                   (V2 (sdp st * px (mxp c) + px (smp st)) (sdp st * py (mxp c) + py (smp st)))
                   (cost c) (sigma c * sd st) (sigmap c * sdp st) (mid c) (midp c) (inlier c)) l.
(** nx_point_match_2d_stats_denormalize_homography, 114-146. *)
Definition denormalize_homography (st : stats) (h : mat3) : mat3 :=
  let sx := 1 / sd st in
  let sxp := 1 / sdp st in
  let tx := - px (sm st) * sx in
  let ty := - py (sm st) * sx in
  let txp := - px (smp st) * sxp in
  let typ := - py (smp st) * sxp in
  let t0 := (m0 h - m2 h * txp) * sdp st in
  let t1 := (m1 h - m2 h * typ) * sdp st in
  let t2 := (m3 h - m5 h * txp) * sdp st in
  let t3 := (m4 h - m5 h * typ) * sdp st in
  M3 (sx * t0) (sx * t1) (sx * m2 h)
     (sx * t2) (sx * t3) (sx * m5 h)
     (tx * t0 + ty * t2 + m6 h * sdp st - m8 h * txp * sdp st)
     (tx * t1 + ty * t3 + m7 h * sdp st - m8 h * typ * sdp st)
     (m8 h + tx * m2 h + ty * m5 h).
(** nx_point_match_2d_stats_denormalize_fundamental, 148-179. *)
Definition denormalize_fundamental (st : stats) (f : mat3) : mat3 :=
  let sx := 1 / sd st in
  let sxp := 1 / sdp st in
  let tx := - px (sm st) * sx in
  let ty := - py (sm st) * sx in
  let txp := - px (smp st) * sxp in
  let typ := - py (smp st) * sxp in
  let f0 := m0 f * sx in let f1 := m1 f * sx in let f2 := m2 f * sx in
  let f3 := m3 f * sx in let f4 := m4 f * sx in let f5 := m5 f * sx in
  let f6 := m0 f * tx + m3 f * ty + m6 f in
  let f7 := m1 f * tx + m4 f * ty + m7 f in
  let f8 := m2 f * tx + m5 f * ty + m8 f in
  M3 (sxp * f0) (sxp * f1) (txp * f0 + typ * f1 + f2)
     (sxp * f3) (sxp * f4) (txp * f3 + typ * f4 + f5)
     (sxp * f6) (sxp * f7) (txp * f6 + typ * f7 + f8).

(** ** Homographies *)

(** nx_homography_transfer_fwd, include/virg/nexus/nx_homography.h:36-46; None
    when the divisor s is zero (the program then stores infinities or NaN). *)
Definition transfer_fwd (h : mat3) (x : vec2) : option vec2 :=
  let s := m2 h * px x + m5 h * py x + m8 h in
  if is_zero s then None else
  let s_inv := 1 / s in
  Some (V2 ((m0 h * px x + m3 h * py x + m6 h) * s_inv) ((m1 h * px x + m4 h * py x + m7 h) * s_inv)).
(** The body of the loops of nx_homography_mark_inliers, src/nx_homography.c:107-120,
    and nx_homography_mark_inliers_inv, 132-145: comparisons with infinities or NaN are false. *)
Definition close_to (p : option vec2) (q : vec2) (tol_sqr : R) : bool :=
  match p with
  | None => false
  | Some p => let dx := px p - px q in let dy := py p - py q in r_lt (dx * dx + dy * dy) tol_sqr
  end.
(** The marking loop shared by nx_homography_mark_inliers (100-123), its inverse
    (125-148) and nx_fundamental_mark_inliers (src/nx_epipolar.c:40-61). *)
Fixpoint mark_loop (good : pmatch -> bool) (l : list pmatch) (n : Z) : list pmatch * Z :=
  match l with
  | [] => ([], n)
  | c :: l' =>
      if good c then let '(r, k) := mark_loop good l' (n + 1) in (set_inlier true c :: r, k)
      else let '(r, k) := mark_loop good l' n in (set_inlier false c :: r, k)
  end.
Definition homography_mark_inliers (h : mat3) (l : list pmatch) (tol : R) : list pmatch * Z :=
  mark_loop (fun c => close_to (transfer_fwd h (mx c)) (mxp c) (tol * tol)) l 0.
Definition homography_mark_inliers_inv (h_inv : mat3) (l : list pmatch) (tol : R) : list pmatch * Z :=
  mark_loop (fun c => close_to (transfer_fwd h_inv (mxp c)) (mx c) (tol * tol)) l 0.
(** nx_homography_transfer_error_fwd, 600-619: None when not a number (no inlier,
    or an inlier whose transfer divides by zero). *)
Definition transfer_error_fwd (h : mat3) (l : list pmatch) : option R :=
  let '(e, n) := fold_left (fun '(e, n) c =>
      if inlier c then
        (match e, transfer_fwd h (mx c) with
         | Some e, Some p => let dx := px p - px (mxp c) in let dy := py p - py (mxp c) in Some (e + sqrt (dx * dx + dy * dy))
         | _, _ => None
         end, (n + 1)%Z)
      else (e, n)) l (Some 0, 0%Z) in
  if Z.eqb n 0 then None else match e with Some e => Some (e / IZR n) | None => None end.
(** nx_homography_transfer_error_bwd, 621-641. *)
Definition transfer_error_bwd (h : mat3) (l : list pmatch) : option R :=
  let h_inv := fst (dmat3_inv h) in
  let '(e, n) := fold_left (fun '(e, n) c =>
      if inlier c then
        (match e, transfer_fwd h_inv (mxp c) with
         | Some e, Some p => let dx := px p - px (mx c) in let dy := py p - py (mx c) in Some (e + sqrt (dx * dx + dy * dy))
         | _, _ => None
         end, (n + 1)%Z)
      else (e, n)) l (Some 0, 0%Z) in
  if Z.eqb n 0 then None else match e with Some e => Some (e / IZR n) | None => None end.
(** nx_homography_transfer_error_sym, 643-648. *)
Definition transfer_error_sym (h : mat3) (l : list pmatch) : option R :=
  match transfer_error_fwd h l, transfer_error_bwd h l with Some a, Some b => Some (1/2 * (a + b)) | _, _ => None end.
(** nx_homography_check, 48-98, with line_eqn_2d, 39-44; None when a divisor is zero. *)
Definition line_eqn_2d (p q : vec2) : R * R * R :=
  let l0 := py q - py p in let l1 := px p - px q in (l0, l1, - px p * l0 - py p * l1).
Definition homography_check (h : mat3) (max_abs_cos : R) : option bool :=
  let ts0 := m0 h + m3 h in let ts1 := m1 h + m4 h in let ts2 := m2 h + m5 h in
  let td0 := m0 h - m3 h in let td1 := m1 h - m4 h in let td2 := m2 h - m5 h in
  if is_zero (- ts2 + m8 h) || is_zero (td2 + m8 h) || is_zero (ts2 + m8 h) || is_zero (- td2 + m8 h) then None else
  let s_inv := 1 / (- ts2 + m8 h) in
  let A := V2 ((- ts0 + m6 h) * s_inv) ((- ts1 + m7 h) * s_inv) in
  let s_inv := 1 / (td2 + m8 h) in
  let B := V2 ((td0 + m6 h) * s_inv) ((td1 + m7 h) * s_inv) in
  let s_inv := 1 / (ts2 + m8 h) in
  let C := V2 ((ts0 + m6 h) * s_inv) ((ts1 + m7 h) * s_inv) in
  let s_inv := 1 / (- td2 + m8 h) in
  let D := V2 ((- td0 + m6 h) * s_inv) ((- td1 + m7 h) * s_inv) in
  let '(l0, l1, l2) := line_eqn_2d A C in
  if is_zero (l0 * l0 + l1 * l1) then None else
  let n_inv := 1 / (l0 * l0 + l1 * l1) in
  let l0 := l0 * n_inv in let l1 := l1 * n_inv in let l2 := l2 * n_inv in
  let B_val := l0 * px B + l1 * py B + l2 in
  let D_val := l0 * px D + l1 * py D + l2 in
  let cross_check := r_lt 0 B_val && r_lt D_val 0 in
  let AC0 := - l1 in let AC1 := l0 in
  let BD0 := px B - px D in let BD1 := py B - py D in
  if is_zero (BD0 * BD0 + BD1 * BD1) then None else
  let n_inv := 1 / (BD0 * BD0 + BD1 * BD1) in
  let BD0 := BD0 * n_inv in let BD1 := BD1 * n_inv in
  let cos_AC_BD := AC0 * BD0 + AC1 * BD1 in
  let angle_check := r_le (Rabs cos_AC_BD) max_abs_cos in
  Some (cross_check && angle_check).
(** nx_homography_constraints_from_corr, 185-196: the two rows of nine numbers. *)
Definition homography_constraints (c : pmatch) : list R * list R :=
  let m := mx c in let mp := mxp c in
  ([0; 0; 0; - px m; - py m; - 1; py mp * px m; py mp * py m; py mp],
   [px m; py m; 1; 0; 0; 0; - px mp * px m; - px mp * py m; - px mp]).
(** nx_homography_svd_solve, 204-212, and nx_fundamental_svd_solve,
    nx_epipolar.c:81-89: how a solution vector of nine numbers fills the matrix.
    The singular value decomposition itself (LAPACK) is not modelled. *)
Definition unpack_rows (u : list R) : mat3 :=
  let a i := nth i u 0 in M3 (a 0%nat) (a 3%nat) (a 6%nat) (a 1%nat) (a 4%nat) (a 7%nat) (a 2%nat) (a 5%nat) (a 8%nat).

(** double x[8]: the corners TL, TR, BR, BL of a quadrilateral. *)
Record quad := Quad { c0 : R; c1 : R; c2 : R; c3 : R; c4 : R; c5 : R; c6 : R; c7 : R }.
(** nx_homography_estimate_unit, src/nx_homography.c:362-598, and the identical
    formulas of nx_transform_2d_fill_perspective_s/_d, src/nx_transform_2d.c:
    matrix and returned determinant.  2.0f is written 2. *)
Definition estimate_unit (x : quad) : mat3 * R :=
  let '(Quad x0 x1 x2 x3 x4 x5 x6 x7) := x in
  let t1 := x0 * x3 in
  let t2 := x0 * x5 in
  let t3 := x4 * x3 in
  let t4 := x2 * x1 in
  let t5 := x4 * x1 in
  let t6 := x2 * x5 in
  let t8 := x2 * x7 in
  let t9 := x6 * x5 in
  let t10 := x6 * x3 in
  let t11 := x7 * x4 in
  let t12 := -t8 + t6 - t3 - t9 + t10 + t11 in
  let t15 := x0 * x6 in
  let t16 := x3*x3 in
  let t19 := 2 * t16 * t5 * t15 in
  let t20 := t16 * x4 in
  let t22 := x6 * t20 * t2 in
  let t24 := x0 * x2 in
  let t25 := x7*x7 in
  let t26 := x4 * t25 in
  let t28 := x1 * t26 * t24 in
  let t30 := x0*x0 in
  let t31 := x7 * t30 in
  let t32 := x3 * t9 in
  let t33 := t32 * t31 in
  let t35 := x5 * t8 in
  let t36 := x6 * x4 in
  let t37 := x1 * t36 in
  let t39 := 2 * t37 * t35 in
  let t41 := x7 * t10 in
  let t43 := 2 * t41 * x4 * t2 in
  let t44 := x4*x4 in
  let t45 := t44 * x7 in
  let t46 := x6 * t16 in
  let t48 := x7 * x0 in
  let t50 := x1 * t10 in
  let t51 := t50 * x4 * t48 in
  let t53 := x6 * x2 in
  let t54 := x5 * t53 in
  let t55 := x3 * t5 in
  let t56 := t55 * t54 in
  let t58 := x2*x2 in
  let t59 := x7 * t58 in
  let t60 := x5*x5 in
  let t61 := x6 * t60 in
  let t63 := t60 * t58 in
  let t64 := x6 * x1 in
  let t65 := t64 * t63 in
  let t67 := t60 * x0 in
  let t68 := x3 * t53 in
  let t69 := t68 * t67 in
  let t71 := x1*x1 in
  let t72 := t71 * x6 in
  let t74 := x6*x6 in
  let t75 := t74 * x5 in
  let t76 := x4 * t71 in
  let t78 := -t19 + 2 * t22 + 2 * t28 + 2 * t33 + t39 - t43 + t46 * t45 + 2 * t51 - 2 * t56 -
      t61 * t59 + 2 * t65 - 2 * t69 + t72 * t45 - t76 * t75 in
  let t79 := x2 * t71 in
  let t80 := t79 * t75 in
  let t82 := x5 * t24 in
  let t83 := x7 * t3 in
  let t84 := t83 * t82 in
  let t86 := x5 * t58 in
  let t87 := t72 * t86 in
  let t89 := x7 * t53 in
  let t92 := t72 * t59 in
  let t93 := t60 * x2 in
  let t94 := x1 * t74 in
  let t95 := t94 * t93 in
  let t97 := x3 * t74 in
  let t98 := t79 * t97 in
  let t99 := x1 * t86 in
  let t101 := 2 * t99 * t48 in
  let t103 := t44 * t25 in
  let t104 := x2 * x3 in
  let t107 := x5 * x4 in
  let t108 := t74 * t16 in
  let t110 := t71 * t44 in
  let t111 := t104 * t110 in
  let t112 := t25 * x0 in
  let t113 := x2 * x4 in
  let t117 := 2 * t80 + 2 * t84 - 2 * t87 + 2 * t89 * t67 + t92 - 2 * t95 - t98 + t101 + t86 *
      t26 - t104 * t103 + t97 * t93 - t108 * t107 - t111 - 2 * x5 * t113 * t112 in
  let t119 := x2 * t30 in
  let t120 := x3 * t25 in
  let t121 := t120 * t119 in
  let t122 := t86 * t76 in
  let t123 := x2 * t48 in
  let t126 := t60 * t30 in
  let t127 := t104 * t126 in
  let t128 := x1 * t9 in
  let t129 := t128 * t123 in
  let t131 := x6 * x7 in
  let t133 := x1 * t15 in
  let t134 := x3 * t6 in
  let t138 := t25 * t30 in
  let t139 := t3 * t138 in
  let t141 := x5 * t30 in
  let t142 := t20 * t141 in
  let t143 := t20 * t31 in
  let t147 := x6 * t30 in
  let t148 := x7 * t16 in
  let t149 := t148 * t147 in
  let t150 := x1 * t58 in
  let t151 := t150 * t67 in
  let t152 := t121 + t122 - 2 * t55 * t123 + t127 - 2 * t129 - t131 * t126 + 2 * t134 * t133 +
      t94 * t67 - 2 * t139 - t142 + 2 * t143 - 2 * t50 * t45 - t149 - t151 in
  let t154 := t1 * t103 in
  let t157 := x1 * t25 in
  let t158 := t157 * t58 * x0 in
  let t159 := x1 * t44 in
  let t161 := t16 * t44 in
  let t162 := t161 * t48 in
  let t164 := t44 * x0 in
  let t165 := t16 * x1 in
  let t166 := t165 * t164 in
  let t167 := t74 * x0 in
  let t168 := t165 * t167 in
  let t169 := t71 * t36 in
  let t170 := t169 * t8 in
  let t173 := x3 * t2 * t94 in
  let t176 := 2 * t134 * t31 in
  let t177 := x1 * t75 in
  let t180 := t71 * t53 in
  let t182 := 2 * t180 * t3 in
  let t183 := x1 * t104 in
  let t184 := t183 * t45 in
  let t186 := t99 * t11 in
  let t188 := t141 * t26 + 2 * t154 - t158 - t159 * t112 - 2 * t162 + t166 + t168 - 2 * t170 - 2
      * t173 - t176 + 2 * t177 * t3 + t182 + 2 * t184 - 2 * t186 in
  let det := t78 + t117 + t152 + t188 in
  let t191 := 1 / det in
  let t194 := x3 * t15 in
  let t195 := x0 * x4 in
  let t196 := x3 * t195 in
  let t198 := x1 * t53 in
  let t200 := x3 * t36 in
  let t202 := x3 * t30 in
  let t203 := -t194 - t196 + x1 * t195 + t198 + t82 - x1 * t24 - t54 + t200 - t37 + x5 * t15 -
      t141 + t202 in
  let t208 := t3 * t48 in
  let t209 := x7 * x1 in
  let t212 := x7 * x5 in
  let t213 := t212 * t24 in
  let t214 := x1 * x0 in
  let t216 := t64 * t6 in
  let t217 := t64 * t3 in
  let t218 := x1 * x5 in
  let t220 := x7 * t202 - x5 * t31 - t208 - t209 * t24 + t5 * t48 + t213 - t10 * t214 + t180 -
      t216 + t217 - t169 + t218 * t15 in
  let t223 := x3 * t45 in
  let t225 := t74 * t60 in
  let t232 := t25 * x2 in
  let t236 := -t223 + t103 - x2 * t61 + t225 - x6 * t67 + x1 * t97 + t208 + x3 * t159 - t177 -
      x3 * t75 - x7 * t159 + x2 * t67 - x4 * t232 + t25 * t24 - x4 * t112 + t216 in
  let t249 := x3 * x7 in
  let t256 := -2 * t213 - 2 * t217 - 2 * t36 * t212 + t3 * t9 - t3 * t2 + t11 * t6 + t9 * t5 -
      t6 * t5 + t8 * t5 + t64 * t11 + t131 * t2 - t249 * t15 + t131 * t3 - t64 * t8 + t9 * t1 +
      t131 * t6 + t11 * t2 in
  let t261 := t200 * t6 in
  let t264 := x4 * t138 in
  let t267 := 2 * t198 * t3 in
  let t268 := t25 * t119 in
  let t269 := x2 * t126 in
  let t270 := x6 * t126 in
  let t272 := x3 * x1 in
  let t274 := t74 * t93 in
  let t275 := t37 * t48 in
  let t277 := -t261 - t86 * t11 + t128 * t195 - t264 - t89 * t3 + t267 + t268 + t269 - t270 +
      t133 * t6 + t272 * t167 - t274 + t275 + t3 * t31 in
  let t279 := x3 * t113 * t2 in
  let t282 := 2 * t133 * t3 in
  let t283 := t25 * t58 in
  let t284 := x0 * t283 in
  let t286 := 2 * t212 * t119 in
  let t289 := x1 * t131 * t24 in
  let t294 := t11 * t141 in
  let t295 := x5 * t4 in
  let t298 := 2 * t2 * t59 in
  let t299 := t37 * t8 in
  let t300 := t74 * t67 in
  let t301 := t279 - t249 * t147 - t282 - t284 - t286 - t64 * t86 - t289 - t94 * t2 - t196 * t8
      + x7 * t1 * t53 + t294 - t295 * t195 + t298 - t299 + t300 in
  let t303 := x4 * t283 in
  let t304 := t58 * t67 in
  let t305 := t44 * t112 in
  let t306 := x7 * t4 in
  let t307 := t306 * t195 in
  let t308 := x6 * t63 in
  let t310 := t4 * t97 in
  let t311 := t131 * t86 in
  let t313 := x2 * t103 in
  let t314 := t3 * t141 in
  let t315 := t10 * t141 in
  let t316 := t272 * t164 in
  let t319 := t303 - t304 + t305 + t307 + t308 - t295 * t36 - t310 - t311 + t41 * t195 - t313 -
      t314 + t315 + t316 - x3 * t44 * t48 in
  let t320 := t209 * t164 in
  let t321 := t97 * t2 in
  let t323 := t200 * t2 in
  let t325 := t8 * t159 in
  let t327 := t59 * t5 in
  let t328 := t104 * t75 in
  let t330 := t64 * t59 in
  let t332 := t68 * t2 in
  let t333 := x6 * t11 in
  let t334 := t333 * t6 in
  let t336 := t333 * t2 in
  let t338 := -t320 - t321 - t104 * t159 + t323 + t86 * t5 + t325 + t104 * t45 - t327 + t328 +
      t131 * t141 + t330 + t94 * t6 - t332 + 2 * t334 - 2 * t336 in
  let t346 := x2 * t44 in
  let t349 := -t19 + t22 + t28 + t33 + t39 - t43 - t59 * t76 - x1 * t2 * x2 * t11 - t346 * t157
      + t51 - t56 + t65 - t69 - t54 * t76 in
  let t350 := x0 * t16 in
  let t356 := t80 + x6 * t350 * t11 + t84 - t87 + t194 * t35 + t92 - t95 - t350 * t75 + t83 *
      t141 - t98 + t101 - t111 + t121 + t122 + t127 in
  let t361 := -t129 - t139 - t142 + t143 - t149 + t26 * t150 - t151 + t154 - t158 - t162 + t166
      + t168 + t196 * t128 - t223 * t214 in
  let t368 := t30 * t16 in
  let t372 := t133 * t93 - t170 - t173 - t176 - t128 * t59 + t182 - t198 * t83 + t184 - t196 *
      t232 - t10 * t126 + t97 * t67 - t186 + t368 * t9 + t8 * t110 + t295 * t97 in
  let t394 := t16 * t75 - x1 * t63 - x5 * t283 + 2 * x1 * t107 * t8 + x5 * t368 + x1 * t283 -
      t71 * t45 + x7 * t126 + t71 * t97 - t71 * t75 - t30 * x5 * t25 + t60 * t59 + 2 * t55 * t6
      + t71 * t86 in
  let t419 := -2 * t11 * t46 - t71 * t59 - 2 * x3 * t107 * t8 + t16 * t45 + x3 * t110 - t16 *
      t159 - x7 * t368 - 2 * t5 * t232 + 2 * t64 * t20 + 2 * x1 * t11 * t10 - 2 * t183 * t11 +
      x1 * t225 + 2 * t32 * t11 + 2 * t76 * t8 in
  let t445 := x3 * t218 in
  let t448 := x3 * t209 in
  let t451 := 2 * t232 * t2 + 2 * x1 * t60 * t24 - 2 * t6 * t76 - 2 * t46 * t2 - 2 * t120 * t24
      - 2 * t60 * x7 * t24 - 2 * t64 * t67 + 2 * t148 * t15 + 2 * t10 * t67 - x3 * t103 + x1 *
      t103 - 2 * t306 * t2 - 2 * t445 * t24 + 2 * t448 * t24 in
  let t452 := x3 * t212 in
  let t477 := 2 * t452 * t24 - 2 * t452 * t15 - 2 * t448 * t15 - 2 * t72 * t3 - 2 * t37 * t212 -
      2 * t55 * t9 - x1 * t108 - x3 * t126 + 2 * t76 * t9 + 2 * t3 * t232 + 2 * t128 * t48 + 2 *
      t445 * t15 - x3 * t225 + x3 * t138 in
  let t494 := -x4 * t71 * t74 - t16 * t164 - 2 * t261 + 2 * t50 * t24 - x4 * t108 - t264 + t16 *
      t167 + x4 * t71 * t58 - 2 * x4 * t212 * t24 + t267 + t268 + t269 - t270 - t274 in
  let t512 := t71 * t44 * x6 + 2 * t275 + 2 * x7 * t15 * t6 + 2 * t279 - t282 - t284 - t71 *
      t346 - t286 - t71 * x6 * t58 - 2 * t289 - t16 * t147 + t71 * t74 * x2 + 2 * t294 + t16 *
      x4 * t30 in
  let t521 := t298 - 2 * t299 + t300 + t303 - t304 + t305 + 2 * t307 + t308 + x6 * t161 - 2 *
      t310 - 2 * t311 - t313 - 2 * t314 + 2 * t315 in
  let t525 := t316 - t320 - t321 + t97 * t5 + t323 + t325 - t327 + t328 + t330 - t332 + t334 -
      t336 - t10 * t159 - t183 * t195 in
  (M3
     (-t191 * (-x7 + x1) * t12 * (t1 - t2 - t3 - t4 + t5 + t6))
     (t191 * (-x3 + x1) * (t236 + t256))
     (t191 * (t394 + t419 + t451 + t477))
     (t191 * t203 * t12)
     (-t191 * (t277 + t301 + t319 + t338))
     (-t191 * (t494 + t512 + t521 + 2 * t525))
     (-t191 * t220 * t12)
     (t191 * (t349 + t356 + t361 + t372))
     (1)
  , det).
(** nx_homography_estimate_4pt, 150-183, for the four matches selected by
    corr_ids.  [Unwritten]: returns 0.0 leaving h alone.  [NonFinite]: the
    determinant of the source quadrilateral, which is not looked at, is zero, so
    h gets infinities or NaN. *)
Inductive estimate := Est (h : mat3) (det : R) | Unwritten | NonFinite.
Definition quad_of (a b c d : vec2) : quad := Quad (px a) (py a) (px b) (py b) (px c) (py c) (px d) (py d).
Definition estimate_4pt (a b c d : pmatch) : estimate :=
  let '(hu, det_u) := estimate_unit (quad_of (mx a) (mx b) (mx c) (mx d)) in
  let '(hup, det_up) := estimate_unit (quad_of (mxp a) (mxp b) (mxp c) (mxp d)) in
  if is_zero det_up then Unwritten else
  let det := dmat3_det hup in
  if is_zero det then Unwritten else
  if is_zero det_u then NonFinite else
  let hup_inv := fst (dmat3_inv hup) in
  Est (dmat3_mul hup_inv hu) det.

(** ** src/nx_transform_2d.c *)

(** nx_transform_2d_fill_similarity_s/_d, 41-84. *)
Definition fill_similarity (dx_post dy_post lambda theta dx_pre dy_pre : R) : mat3 :=
  let lc := lambda * cos theta in
  let ls := lambda * sin theta in
  M3 lc ls 0 (- ls) lc 0 (dx_post + dx_pre * lc - dy_pre * ls) (dx_pre * ls + dy_post + dy_pre * lc) 1.
(** nx_transform_2d_fill_affine_s/_d, 99-168. *)
Definition fill_affine (dx_post dy_post lambda psi theta phi dx_pre dy_pre : R) : mat3 :=
  let sphi := sin phi in let cphi := cos phi in
  let spsi := sin psi in let cpsi := cos psi in
  let ctheta_inv := 1 / cos theta in
  let lss := lambda * sphi * spsi in
  let lcc := lambda * cphi * cpsi in
  let lsc1 := lambda * spsi * cphi in
  let lsc2 := lambda * sphi * cpsi in
  let lssi := lss * ctheta_inv in
  let lcci := lcc * ctheta_inv in
  let lsc1i := lsc1 * ctheta_inv in
  let lsc2i := lsc2 * ctheta_inv in
  M3 (- lss + lcci) (lsc2 + lsc1i) 0
     (- lsc2i - lsc1) (- lssi + lcc) 0
     (dx_post + dx_pre * (- lss + lcci) + dy_pre * (- lsc2i - lsc1))
     (dx_pre * (lsc2 + lsc1i) + dy_post + dy_pre * (- lssi + lcc)) 1.

(** ** src/nx_pinhole.c *)

(** nx_pinhole_projection_from_krt, 36-53; None is a NULL argument. *)
Definition projection_from_krt (K A : option mat3) (t : option vec3) : mat34 :=
  let Kv := match K with Some K => K | None => M3 1 0 0 0 1 0 0 0 1 end in
  let Rv := match A with Some A => A | None => M3 1 0 0 0 1 0 0 0 1 end in
  let tv := match t with Some t => t | None => V3 0 0 0 end in
  let P := dmat3_mul_ua Kv Rv in
  P34 (m0 P) (m1 P) (m2 P) (m3 P) (m4 P) (m5 P) (m6 P) (m7 P) (m8 P)
      (m0 Kv * v0 tv + m3 Kv * v1 tv + m6 Kv * v2 tv)
      (m4 Kv * v1 tv + m7 Kv * v2 tv)
      (v2 tv).
(** The loop of nx_pinhole_project, 63-74: a zero s makes the point infinite or NaN,
    but then the assertion at the end fails, so the value does not matter. *)
Fixpoint project_loop (P : mat34) (Xs : list vec3) (min_abs_s : option R) : list vec2 * option R :=
  match Xs with
  | [] => ([], min_abs_s)
  | X :: Xs' =>
      let s := p2 P * v0 X + p5 P * v1 X + p8 P * v2 X + p11 P in
      let mn := match min_abs_s with None => Rabs s | Some m => if r_lt m (Rabs s) then m else Rabs s end in
      let inv_s := 1 / s in
      let x := V2 ((p0 P * v0 X + p3 P * v1 X + p6 P * v2 X + p9 P) * inv_s)
                  ((p1 P * v0 X + p4 P * v1 X + p7 P * v2 X + p10 P) * inv_s) in
      let '(r, k) := project_loop P Xs' (Some mn) in (x :: r, k)
  end.
(** nx_pinhole_project, 55-79.  DBL_MAX, the initial minimum, is None here. *)
Definition pinhole_project (P : mat34) (Xs : list vec3) : res (list vec2 * R) :=
  match Xs with
  | [] => Fatal
  | _ => match project_loop P Xs None with
         | (xs, Some m) => if r_lt 0 m then Ok (xs, m) else Fatal
         | (_, None) => Fatal
         end
  end.
(** nx_triangulation_constraints_from_corr, 95-125: sixteen numbers, four rows of four. *)
Definition triangulation_constraints (c : pmatch) (P Q : mat34) : list R :=
  let x := px (mx c) in let y := py (mx c) in let xp := px (mxp c) in let yp := py (mxp c) in
  [x * p2 P - p0 P; x * p5 P - p3 P; x * p8 P - p6 P; x * p11 P - p9 P;
   y * p2 P - p1 P; y * p5 P - p4 P; y * p8 P - p7 P; y * p11 P - p10 P;
   xp * p2 Q - p0 Q; xp * p5 Q - p3 Q; xp * p8 Q - p6 Q; xp * p11 Q - p9 Q;
   yp * p2 Q - p1 Q; yp * p5 Q - p4 Q; yp * p8 Q - p7 Q; yp * p11 Q - p10 Q].
(** nx_pinhole_triangulate, 127-168.  [svd] stands for nx_dsvd_us on the 4x4
    matrix: it returns the last column of U.  X and corr_ids are arrays of n_pt
    points and ints: a write past their end is UB.  A zero W stores infinities;
    then [junk] is stored here. *)
Section Triangulate.
Variable svd : list R -> R * R * R * R.
Variable junk : vec3.
Fixpoint triangulate_loop (i : Z) (l : list pmatch) (P Q : mat34) (pt_i : nat) (X : list vec3) (ids : list Z)
  : res (nat * list vec3 * list Z) :=
  match l with
  | [] => Ok (pt_i, X, ids)
  | c :: l' =>
      if inlier c then
        let '(u0, u1, u2, W) := svd (triangulation_constraints c P Q) in
        let p := if is_zero W then junk else V3 (u0 / W) (u1 / W) (u2 / W) in
        let* X' := aset X pt_i p in
        let* ids' := aset ids pt_i i in
        triangulate_loop (i + 1) l' P Q (S pt_i) X' ids'
      else triangulate_loop (i + 1) l' P Q pt_i X ids
  end.
Definition triangulate (n_pt : Z) (X : list vec3) (ids : list Z) (l : list pmatch) (P Q : mat34)
  : res (Z * list vec3 * list Z) :=
  let n := count_inliers l in
  let n := if (n_pt <? n)%Z then n_pt else n in
  let* r := triangulate_loop 0 l P Q 0 X ids in
  let '(pt_i, X', ids') := r in
  if (n =? Z.of_nat pt_i)%Z then Ok (n, X', ids') else Fatal.
End Triangulate.

(** ** src/nx_epipolar.c *)

(** nx_fundamental_epipolar_distance_fwd, include/virg/nexus/nx_epipolar.h:36-51;
    None when the line's direction is zero (division by zero). *)
Definition epipolar_distance_fwd (F : mat3) (c : pmatch) : option R :=
  let x := mx c in let xp := mxp c in
  let l0 := m0 F * px x + m3 F * py x + m6 F in
  let l1 := m1 F * px x + m4 F * py x + m7 F in
  let l2 := m2 F * px x + m5 F * py x + m8 F in
  let n := sqrt (l0 * l0 + l1 * l1) in
  if is_zero n then None else Some (Rabs ((l0 * px xp + l1 * py xp + l2) / n)).
(** nx_fundamental_mark_inliers, 40-61. *)
Definition fundamental_mark_inliers (F : mat3) (l : list pmatch) (tol : R) : list pmatch * Z :=
  mark_loop (fun c => match epipolar_distance_fwd F c with Some d => r_lt d tol | None => false end) l 0.
(** nx_fundamental_constraints_from_corr, 63-73. *)
Definition fundamental_constraints (c : pmatch) : list R :=
  let x := px (mx c) in let y := py (mx c) in let xp := px (mxp c) in let yp := py (mxp c) in
  [x * xp; xp * y; xp; yp * x; yp * y; yp; x; y; 1].
(** nx_fundamental_fix_rank, 94-115, given the decomposition U, S, Vt of F. *)
Definition fix_rank (U : mat3) (s0 s1 : R) (Vt : mat3) : mat3 :=
  dmat3_mul U (M3 (m0 Vt * s0) (m1 Vt * s1) 0 (m3 Vt * s0) (m4 Vt * s1) 0 (m6 Vt * s0) (m7 Vt * s1) 0).
(** nx_essential_from_fundamental, 301-325. *)
Definition essential_from_fundamental (F K Kp : mat3) : mat3 :=
  let f0 := m0 K * m0 F in
  let f1 := m0 K * m1 F in
  let f2 := m0 K * m2 F in
  let f3 := m3 K * m0 F + m4 K * m3 F in
  let f4 := m3 K * m1 F + m4 K * m4 F in
  let f5 := m3 K * m2 F + m4 K * m5 F in
  let f6 := m6 K * m0 F + m7 K * m3 F + m6 F in
  let f7 := m6 K * m1 F + m7 K * m4 F + m7 F in
  let f8 := m6 K * m2 F + m7 K * m5 F + m8 F in
  M3 (m0 Kp * f0) (m1 Kp * f0 + m4 Kp * f1) (m2 Kp * f0 + m5 Kp * f1 + f2)
     (m0 Kp * f3) (m1 Kp * f3 + m4 Kp * f4) (m2 Kp * f3 + m5 Kp * f4 + f5)
     (m0 Kp * f6) (m1 Kp * f6 + m4 Kp * f7) (m2 Kp * f6 + m5 Kp * f7 + f8).
(** nx_essential_from_Rt, 328-340. *)
Definition essential_from_Rt (A : mat3) (t : vec3) : mat3 :=
  M3 (- v2 t * m1 A + v1 t * m2 A) (v2 t * m0 A - v0 t * m2 A) (- v1 t * m0 A + v0 t * m1 A)
     (- v2 t * m4 A + v1 t * m5 A) (v2 t * m3 A - v0 t * m5 A) (- v1 t * m3 A + v0 t * m4 A)
     (- v2 t * m7 A + v1 t * m8 A) (v2 t * m6 A - v0 t * m8 A) (- v1 t * m6 A + v0 t * m7 A).
(** nx_essential_decompose_to_Rt, 342-390, given the decomposition U, S, Vt of E. *)
Definition negate (A : mat3) : mat3 :=
  M3 (- m0 A) (- m1 A) (- m2 A) (- m3 A) (- m4 A) (- m5 A) (- m6 A) (- m7 A) (- m8 A).
Definition decompose_to_Rt (U Vt : mat3) : list (mat3 * vec3) :=
  let U := if r_lt (dmat3_det U) 0 then negate U else U in
  let V := if r_lt (dmat3_det Vt) 0 then negate Vt else Vt in
  let R0 := M3 (m3 U * m0 V - m0 U * m1 V + m6 U * m2 V)
               (m4 U * m0 V - m1 U * m1 V + m7 U * m2 V)
               (m5 U * m0 V - m2 U * m1 V + m8 U * m2 V)
               (m3 U * m3 V - m0 U * m4 V + m6 U * m5 V)
               (m4 U * m3 V - m1 U * m4 V + m7 U * m5 V)
               (m5 U * m3 V - m2 U * m4 V + m8 U * m5 V)
               (m3 U * m6 V - m0 U * m7 V + m6 U * m8 V)
               (m4 U * m6 V - m1 U * m7 V + m7 U * m8 V)
               (m5 U * m6 V - m2 U * m7 V + m8 U * m8 V) in
  let R2 := M3 (- m3 U * m0 V + m0 U * m1 V + m6 U * m2 V)
               (- m4 U * m0 V + m1 U * m1 V + m7 U * m2 V)
               (- m5 U * m0 V + m2 U * m1 V + m8 U * m2 V)
               (- m3 U * m3 V + m0 U * m4 V + m6 U * m5 V)
               (- m4 U * m3 V + m1 U * m4 V + m7 U * m5 V)
               (- m5 U * m3 V + m2 U * m4 V + m8 U * m5 V)
               (- m3 U * m6 V + m0 U * m7 V + m6 U * m8 V)
               (- m4 U * m6 V + m1 U * m7 V + m7 U * m8 V)
               (- m5 U * m6 V + m2 U * m7 V + m8 U * m8 V) in
  let t := V3 (m6 U) (m7 U) (m8 U) in
  let t' := V3 (- m6 U) (- m7 U) (- m8 U) in
  [(R0, t); (R0, t'); (R2, t); (R2, t')].
(** nx_signum, include/virg/nexus/nx_math.h:53-56. *)
Definition signum (d : R) : Z := ((if r_lt 0 d then 1 else 0) - (if r_lt d 0 then 1 else 0))%Z.
(** nx_epipolar_get_z_sign_sum, 392-433.  The int sums are not checked for overflow. *)
Definition z_signs (b : vec3) (A : mat3) (c : pmatch) : Z * Z :=
  let u := V3 (px (mx c)) (py (mx c)) 1 in
  let temp := dvec3_cross b u in
  let m := fst (dvec3_to_unit (dvec3_cross temp b)) in
  let rtv := V3 (m0 A * px (mxp c) + m1 A * py (mxp c) + m2 A)
                (m3 A * px (mxp c) + m4 A * py (mxp c) + m5 A)
                (m6 A * px (mxp c) + m7 A * py (mxp c) + m8 A) in
  let w := dvec3_cross u rtv in
  let sp := signum (dmat3_det (M3 (v0 b) (v1 b) (v2 b) (v0 m) (v1 m) (v2 m) (v0 w) (v1 w) (v2 w))) in
  let s := (sp * signum (dvec3_dot m rtv))%Z in
  (s, sp).
Definition z_sign_sum (l : list pmatch) (A : mat3) (t : vec3) : Z :=
  let b := V3 (- m0 A * v0 t - m1 A * v1 t - m2 A * v2 t)
              (- m3 A * v0 t - m4 A * v1 t - m5 A * v2 t)
              (- m6 A * v0 t - m7 A * v1 t - m8 A * v2 t) in
  let '(s_sum, sp_sum) :=
    fold_left (fun '(s_sum, sp_sum) c => let '(s, sp) := z_signs b A c in (s_sum + s, sp_sum + sp)%Z) l (0%Z, 0%Z) in
  (s_sum + sp_sum)%Z.
(** nx_epipolar_pick_best_Rt, 435-468, for the four candidates. *)
Definition pick_best_Rt (cands : list (mat3 * vec3)) (l : list pmatch) : res (nat * Z) :=
  match l, cands with
  | _ :: _, [(R0, t0); (R1, t1); (R2, t2); (R3, t3)] =>
      let step '(idx, sum_idx) '(i, A, t) :=
        let sum := z_sign_sum l A t in if (sum_idx <? sum)%Z then (i, sum) else (idx, sum_idx) in
      Ok (fold_left step [(1%nat, R1, t1); (2%nat, R2, t2); (3%nat, R3, t3)] (0%nat, z_sign_sum l R0 t0))
  | _, _ => Fatal
  end.
