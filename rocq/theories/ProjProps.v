(** Theorems about point matches, homographies, 2-D transforms, cameras and
    epipolar geometry (C61, C86-C95), over the reals.  The notions used in the
    statements are in GeoSpec and ProjSpec. *)
From Verif Require Import Base ProjModel GeoSpec ProjSpec GeoProofs NormProofs HomoProofs MarkProofs EpiProofs PinProofs.
From Coq Require Import Lra Lia.
Local Open Scope R_scope.

(** C61: normalized points have mean zero and mean distance one from the origin,
    and undoing the normalization restores every match. *)
Theorem C61_normalized : forall l, spread mx l -> spread mxp l ->
  let '(st, l') := normalize_matches l in
  mean (fun c => px (mx c)) l' = 0 /\ mean (fun c => py (mx c)) l' = 0 /\ mean (fun c => distance (mx c) (V2 0 0)) l' = 1 /\
  mean (fun c => px (mxp c)) l' = 0 /\ mean (fun c => py (mxp c)) l' = 0 /\ mean (fun c => distance (mxp c) (V2 0 0)) l' = 1 /\
  map mx l' = map (fun c => to_norm (sm st) (sd st) (mx c)) l /\ map mxp l' = map (fun c => to_norm (smp st) (sdp st) (mxp c)) l /\
  0 < sd st /\ 0 < sdp st.
Proof.
  intros l H H'. pose proof (norm_means l H H') as M. pose proof (sd_pos l H). pose proof (sdp_pos l H'). pose proof (norm_list l) as L.
  destruct (normalize_matches l) as [st l']. cbn [fst snd] in *. destruct M as (A & B & C & D & E & F). repeat split; auto; subst l'; rewrite map_map; reflexivity.
Qed.
Print Assumptions C61_normalized.

Theorem C61_roundtrip : forall l, spread mx l -> spread mxp l ->
  let '(st, l') := normalize_matches l in denormalize_matches st l' = l.
Proof. intros l H H'. pose proof (roundtrip l H H'). now destruct (normalize_matches l). Qed.
Print Assumptions C61_roundtrip.

(** The corrected homography maps x to y exactly if the given one maps the
    normalized x to the normalized y. *)
Theorem C61_homography : forall st h x y, sd st <> 0 -> sdp st <> 0 ->
  maps_to (denormalize_homography st h) x y <-> maps_to h (to_norm (sm st) (sd st) x) (to_norm (smp st) (sdp st) y).
Proof.
  intros st h x y H H'. rewrite <- !transfer_maps, denorm_homography by auto.
  assert (I : forall y, to_norm (smp st) (sdp st) (from_norm (smp st) (sdp st) y) = y) by (intros []; unfold to_norm, from_norm; cbn; f_equal; field; auto).
  assert (J : forall y, from_norm (smp st) (sdp st) (to_norm (smp st) (sdp st) y) = y) by (intros []; unfold to_norm, from_norm; cbn; f_equal; field; auto).
  destruct (transfer_fwd h _) as [q|]; cbn [option_map]; (split; intro E; try discriminate); [injection E as <-; now rewrite I|injection E as ->; now rewrite J].
Qed.
Print Assumptions C61_homography.

(** The corrected fundamental matrix gives a pair of points the same residual. *)
Theorem C61_fundamental : forall st f x xp, sd st <> 0 -> sdp st <> 0 ->
  dot (h3 xp) (lin (denormalize_fundamental st f) (h3 x)) = dot (h3 (to_norm (smp st) (sdp st) xp)) (lin f (h3 (to_norm (sm st) (sd st) x))).
Proof. intros. rewrite <- !xptFx_eq. now apply denorm_fundamental. Qed.
Print Assumptions C61_fundamental.

Example C61_example : let l := [PM (V2 1 1) (V2 0 0) 0 1 1 0 0 true; PM (V2 3 1) (V2 0 4) 0 1 1 0 0 false] in
  spread mx l /\ spread mxp l /\ fst (normalize_matches l) = St (V2 2 1) (V2 0 2) 1 2.
Proof.
  cbv zeta. split; [|split].
  - exists (PM (V2 1 1) (V2 0 0) 0 1 1 0 0 true), (PM (V2 3 1) (V2 0 4) 0 1 1 0 0 false). cbn. repeat split; auto. intro E. injection E. lra.
  - exists (PM (V2 1 1) (V2 0 0) 0 1 1 0 0 true), (PM (V2 3 1) (V2 0 4) 0 1 1 0 0 false). cbn. repeat split; auto. intro E. injection E. lra.
  - unfold normalize_matches, sum_loop, dist_loop, center. cbn [fold_left map length fst snd mx mxp px py INR].
    replace ((0 + 1 + 3) / (1 + 1)) with 2 by field. replace ((0 + 1 + 1) / (1 + 1)) with 1 by field. replace ((0 + 0 + 0) / (1 + 1)) with 0 by field. replace ((0 + 0 + 4) / (1 + 1)) with 2 by field.
    replace ((1 - 2) * (1 - 2) + (1 - 1) * (1 - 1)) with (1 * 1) by ring. replace ((3 - 2) * (3 - 2) + (1 - 1) * (1 - 1)) with (1 * 1) by ring.
    replace ((0 - 0) * (0 - 0) + (0 - 2) * (0 - 2)) with (2 * 2) by ring. replace ((0 - 0) * (0 - 0) + (4 - 2) * (4 - 2)) with (2 * 2) by ring.
    rewrite !sqrt_square by lra. f_equal; field.
Qed.

(** C86: transfer is the projective map; marking flags exactly the matches whose
    point is mapped closer than the tolerance to its partner, changes nothing
    else and returns the number of flags. *)
Theorem C86_transfer : forall H x,
  (forall y, transfer_fwd H x = Some y <-> maps_to H x y) /\
  (det3 H <> 0 -> forall y, maps_to H x y -> maps_to (fst (dmat3_inv H)) y x).
Proof. intros H x. split; [intro y; apply transfer_maps|intros D y M; now apply maps_inverse]. Qed.
Print Assumptions C86_transfer.

Theorem C86_mark : forall H l tol, 0 < tol -> let '(l', n) := homography_mark_inliers H l tol in
  Forall2 (fun c c' => same_match c c' /\ (inlier c' = true <-> exists y, maps_to H (mx c) y /\ distance y (mxp c) < tol)) l l' /\
  n = Z.of_nat (length (filter inlier l')).
Proof.
  intros H l tol T. unfold homography_mark_inliers. destruct (mark_loop _ l 0) as [l' n] eqn:E.
  eapply mark_spec in E; [exact E|]. intro c. rewrite close_spec, Rabs_pos_eq by lra. reflexivity.
Qed.
Print Assumptions C86_mark.
Theorem C86_mark_inv : forall H l tol, 0 < tol -> det3 H <> 0 -> let '(l', n) := homography_mark_inliers_inv (fst (dmat3_inv H)) l tol in
  Forall2 (fun c c' => same_match c c' /\ (inlier c' = true <-> exists x, maps_to H x (mxp c) /\ distance x (mx c) < tol)) l l' /\
  n = Z.of_nat (length (filter inlier l')).
Proof.
  intros H l tol T D. unfold homography_mark_inliers_inv. destruct (mark_loop _ l 0) as [l' n] eqn:E.
  eapply mark_spec in E; [exact E|]. intro c. rewrite close_spec, Rabs_pos_eq by lra. split; intros (y & A & B); exists y; split; auto.
  - destruct A as (w & W & A). exists (/ w). split; [now apply Rinv_neq_0_compat|]. apply (f_equal (lin H)) in A. rewrite (proj2 (inv_lin H _ D)), lin_scale in A.
    rewrite A, vscale_vscale. replace (/ w * w) with 1 by (field; auto). now rewrite vscale_1.
  - now apply maps_inverse.
Qed.
Print Assumptions C86_mark_inv.

(** The transfer errors are the mean distances over the inliers. *)
Theorem C86_error : forall H l f g, det3 H <> 0 -> filter inlier l <> [] ->
  (forall c, In c l -> inlier c = true -> maps_to H (mx c) (f c) /\ maps_to H (g c) (mxp c)) ->
  let fwd := mean (fun c => distance (f c) (mxp c)) (filter inlier l) in
  let bwd := mean (fun c => distance (g c) (mx c)) (filter inlier l) in
  transfer_error_fwd H l = Some fwd /\ transfer_error_bwd H l = Some bwd /\ transfer_error_sym H l = Some ((fwd + bwd) / 2).
Proof.
  intros H l f g D N M fwd bwd.
  assert (F : transfer_error_fwd H l = Some fwd) by (rewrite (error_fwd H l f) by (intros; now apply M); unfold fwd; destruct (filter inlier l); easy).
  assert (B : transfer_error_bwd H l = Some bwd) by (rewrite (error_bwd H l g) by (auto; intros; now apply M); unfold bwd; destruct (filter inlier l); easy).
  split; auto. split; auto. unfold transfer_error_sym. rewrite F, B. f_equal. field.
Qed.
Print Assumptions C86_error.

Example C86_example : let H := M3 2 0 0 0 2 0 1 0 1 in let c := PM (V2 1 1) (V2 3 2) 0 1 1 0 0 false in
  maps_to H (V2 1 1) (V2 3 2) /\ det3 H = 4 /\ homography_mark_inliers H [c] 1 = ([set_inlier true c], 1%Z).
Proof.
  cbv zeta. assert (M : maps_to (M3 2 0 0 0 2 0 1 0 1) (V2 1 1) (V2 3 2)) by (exists 1; split; [lra|]; unfold h3; geoc; apply V3_eq; ring).
  split; auto. split; [geoc; ring|]. unfold homography_mark_inliers. cbn [mark_loop mx mxp].
  rewrite (proj2 (close_spec _ _ _ 1)); [reflexivity|]. exists (V2 3 2). split; auto. unfold distance. cbn. replace ((3-3)*(3-3)+(2-2)*(2-2)) with 0 by ring. rewrite sqrt_0, Rabs_R1. lra.
Qed.

(** C87: what the four point estimate returns maps the four points to their
    partners, and is the only such map.  The full property also says that an
    estimate is returned for all points in general position: this fails for
    quadrilaterals whose map to the unit square sends the origin to infinity. *)
Theorem C87_estimate_partial : forall a b c d,
  general_position (mx a) (mx b) (mx c) (mx d) -> general_position (mxp a) (mxp b) (mxp c) (mxp d) ->
  (exists H, m8 H <> 0 /\ maps_to H (mx a) (V2 0 0) /\ maps_to H (mx b) (V2 1 0) /\ maps_to H (mx c) (V2 1 1) /\ maps_to H (mx d) (V2 0 1)) ->
  (exists H, m8 H <> 0 /\ maps_to H (mxp a) (V2 0 0) /\ maps_to H (mxp b) (V2 1 0) /\ maps_to H (mxp c) (V2 1 1) /\ maps_to H (mxp d) (V2 0 1)) ->
  exists h det, estimate_4pt a b c d = Est h det /\ det <> 0.
Proof.
  intros a b c d G G' (H & M & A & B & C & D) (H' & M' & A' & B' & C' & D').
  apply est_4pt_ok; auto; [exact (unit_complete _ _ _ _ H G M A B C D)|exact (unit_complete _ _ _ _ H' G' M' A' B' C' D')].
Qed.
Print Assumptions C87_estimate_partial.
Theorem C87_maps : forall a b c d h det, estimate_4pt a b c d = Est h det -> general_position (mx a) (mx b) (mx c) (mx d) ->
  (forall p, In p [a; b; c; d] -> maps_to h (mx p) (mxp p)) /\ det3 h <> 0 /\
  (forall h', (forall p, In p [a; b; c; d] -> maps_to h' (mx p) (mxp p)) -> exists w, w <> 0 /\ forall u, lin h' u = vscale w (lin h u)).
Proof.
  intros a b c d h det E G. destruct (est_4pt a b c d h det E G) as (G' & A & B & C & D & DH).
  assert (M : forall p, In p [a; b; c; d] -> maps_to h (mx p) (mxp p)) by (cbn [In]; intros p [<-|[<-|[<-|[<-|[]]]]]; auto).
  split; auto. split; auto. intros h' M'. cbn [In] in M'.
  apply (unique_4pt (mx a) (mx b) (mx c) (mx d) h h' (fun p => match transfer_fwd h p with Some q => q | None => p end)); auto.
  assert (X : forall q, In q [a; b; c; d] -> match transfer_fwd h (mx q) with Some r => r | None => mx q end = mxp q).
  { intros q Q. apply M in Q. apply transfer_maps in Q. now rewrite Q. }
  intros p [->|[->|[->| ->]]]; rewrite X by (cbn; auto); (split; [apply M; cbn; auto|apply M'; auto 6]).
Qed.
Print Assumptions C87_maps.
(** Destination points of which three are on a line are always reported. *)
Theorem C87_degenerate : forall a b c d, ~ general_position (mxp a) (mxp b) (mxp c) (mxp d) -> estimate_4pt a b c d = Unwritten.
Proof.
  intros a b c d N. unfold estimate_4pt. pose proof (unit_det_eq (mxp a) (mxp b) (mxp c) (mxp d)) as EUP. pose proof (det_up (mxp a) (mxp b) (mxp c) (mxp d)) as DU.
  destruct (estimate_unit (quad_of (mx a) _ _ _)) as [hu du]. destruct (estimate_unit (quad_of (mxp a) _ _ _)) as [hup dup]. cbn [fst snd] in *. subst dup.
  destruct (is_zero (unit_det _ _ _ _)) eqn:Z; [reflexivity|]. destruct (is_zero (dmat3_det hup)) eqn:Z2; [reflexivity|]. elim N. apply DU.
  - intro K. apply is_zero_spec in K. congruence.
  - rewrite <- det_det3. intro K. apply is_zero_spec in K. congruence.
Qed.
Print Assumptions C87_degenerate.
(** Points in general position for which no estimate is made: the source square
    (0,0) (1,0) (1,1) (0,1) and the destination (1,1) (2,2) (3,-3) (1,-1). *)
Theorem C87_horizon_refuted : exists a b c d,
  general_position (mx a) (mx b) (mx c) (mx d) /\ general_position (mxp a) (mxp b) (mxp c) (mxp d) /\ estimate_4pt a b c d = Unwritten.
Proof.
  exists (PM (V2 0 0) (V2 1 1) 0 1 1 0 0 true), (PM (V2 1 0) (V2 2 2) 0 1 1 0 0 true), (PM (V2 1 1) (V2 3 (-3)) 0 1 1 0 0 true), (PM (V2 0 1) (V2 1 (-1)) 0 1 1 0 0 true).
  cbn [mx mxp]. split; [unfold general_position, area; cbn [px py]; repeat split; lra|]. split; [unfold general_position, area; cbn [px py]; repeat split; lra|].
  unfold estimate_4pt. cbn [mx mxp]. pose proof (unit_det_eq (V2 1 1) (V2 2 2) (V2 3 (-3)) (V2 1 (-1))) as E.
  destruct (estimate_unit (quad_of (V2 0 0) _ _ _)). destruct (estimate_unit (quad_of (V2 1 1) _ _ _)) as [hup dup]. cbn [snd] in E.
  assert (Z : dup = 0) by (rewrite E; unfold unit_det, nrow2, rows_comb, h3; geoc; ring). rewrite Z, (proj2 (is_zero_spec 0) eq_refl). reflexivity.
Qed.
Print Assumptions C87_horizon_refuted.
(** Three source points on a line are not reported: a singular matrix is returned as an estimate. *)
Theorem C87_collinear_refuted : exists a b c d h det, area (mx a) (mx b) (mx c) = 0 /\ estimate_4pt a b c d = Est h det /\ det <> 0 /\ det3 h = 0.
Proof.
  exists (PM (V2 0 1) (V2 0 0) 0 1 1 0 0 true), (PM (V2 1 1) (V2 1 0) 0 1 1 0 0 true), (PM (V2 3 1) (V2 1 1) 0 1 1 0 0 true), (PM (V2 0 0) (V2 0 1) 0 1 1 0 0 true).
  pose proof (unit_det_eq (V2 0 1) (V2 1 1) (V2 3 1) (V2 0 0)) as E. pose proof (unit_det_eq (V2 0 0) (V2 1 0) (V2 1 1) (V2 0 1)) as E'.
  pose proof (unit_mat_eq (V2 0 1) (V2 1 1) (V2 3 1) (V2 0 0)) as M.
  pose proof (det_up_nz (V2 0 0) (V2 1 0) (V2 1 1) (V2 0 1)) as N.
  unfold estimate_4pt. cbn [mx mxp]. destruct (estimate_unit (quad_of (V2 0 1) _ _ _)) as [hu du]. destruct (estimate_unit (quad_of (V2 0 0) _ _ _)) as [hup dup]. cbn [fst snd] in *.
  assert (U : unit_det (V2 0 1) (V2 1 1) (V2 3 1) (V2 0 0) = -6) by (unfold unit_det, nrow2, rows_comb, h3; geoc; ring).
  assert (U' : unit_det (V2 0 0) (V2 1 0) (V2 1 1) (V2 0 1) = 1) by (unfold unit_det, nrow2, rows_comb, h3; geoc; ring).
  assert (GP : general_position (V2 0 0) (V2 1 0) (V2 1 1) (V2 0 1)) by (unfold general_position, area; cbn [px py]; repeat split; lra).
  assert (HD : det3 hup <> 0) by (apply N; [lra|exact GP]). rewrite E, E'. rewrite !is_zero_no by (rewrite ?det_det3; lra).
  exists (dmat3_mul (fst (dmat3_inv hup)) hu), (dmat3_det hup). split; [unfold area; cbn; ring|]. split; [reflexivity|]. split; [now rewrite det_det3|].
  rewrite det_mul, M, nrow_det by lra. unfold area. cbn [px py]. ring.
Qed.
Print Assumptions C87_collinear_refuted.

Example C87_example : exists a b c d h det, estimate_4pt a b c d = Est h det /\ det <> 0 /\ general_position (mx a) (mx b) (mx c) (mx d) /\ mx a <> mxp a.
Proof.
  exists (PM (V2 1 1) (V2 0 0) 0 1 1 0 0 true), (PM (V2 3 1) (V2 1 0) 0 1 1 0 0 true), (PM (V2 3 3) (V2 1 1) 0 1 1 0 0 true), (PM (V2 1 3) (V2 0 1) 0 1 1 0 0 true).
  cbn [mx mxp].
  match goal with |- context [estimate_4pt ?a ?b ?c ?d] => destruct (C87_estimate_partial a b c d) as (h & det & E & D) end; cbn [mx mxp].
  - unfold general_position, area; cbn [px py]; repeat split; lra.
  - unfold general_position, area; cbn [px py]; repeat split; lra.
  - exists (M3 1 0 0 0 1 0 (-1) (-1) 2). cbn. split; [lra|]. repeat split; exists 2; (split; [lra|unfold h3; geoc; apply V3_eq; lra]).
  - exists (M3 1 0 0 0 1 0 0 0 1). cbn. split; [lra|]. repeat split; exists 1; (split; [lra|unfold h3; geoc; apply V3_eq; lra]).
  - exists h, det. split; auto. split; auto. split; [unfold general_position, area; cbn [px py]; repeat split; lra|]. intro K. injection K. lra.
Qed.

(** C88: the rows built for the linear solvers say what they should: for a
    homography, that the image of the point is a multiple of its partner; for a
    fundamental matrix, the epipolar equation; for triangulation, that the space
    point is on both rays. *)
Theorem C88_homography : forall c u, length u = 9%nat -> let '(r0, r1) := homography_constraints c in
  row_dot r0 u = 0 /\ row_dot r1 u = 0 <-> exists w, lin (unpack_rows u) (h3 (mx c)) = vscale w (h3 (mxp c)).
Proof. exact homography_rows_iff. Qed.
Print Assumptions C88_homography.
Theorem C88_fundamental : forall c u, length u = 9%nat ->
  row_dot (fundamental_constraints c) u = dot (h3 (mxp c)) (lin (unpack_rows u) (h3 (mx c))).
Proof. exact fundamental_row. Qed.
Print Assumptions C88_fundamental.
Theorem C88_triangulation : forall c P Q v, let T := triangulation_constraints c P Q in let r := [w0 v; w1 v; w2 v; w3 v] in
  length T = 16%nat /\
  (row_dot (firstn 4 T) r = 0 /\ row_dot (firstn 4 (skipn 4 T)) r = 0 /\ row_dot (firstn 4 (skipn 8 T)) r = 0 /\ row_dot (skipn 12 T) r = 0 <->
  on_ray P (mx c) v /\ on_ray Q (mxp c) v).
Proof. intros. split; [reflexivity|apply rows_on_ray]. Qed.
Print Assumptions C88_triangulation.
Example C88_example : let c := PM (V2 1 2) (V2 3 4) 0 1 1 0 0 true in
  let '(r0, r1) := homography_constraints c in row_dot r0 [1; 0; 2; 0; 1; 2; 0; 0; 1] = 0 /\ row_dot r1 [1; 0; 2; 0; 1; 2; 0; 0; 1] = 0.
Proof. cbv zeta. unfold homography_constraints, row_dot. cbn. split; ring. Qed.

(** C89: the sanity check of a homography looks at the image A B C D of the square
    with corners (+-1, +-1).  It demands that the corners keep their order around
    the diagonal A C.  The angle test compares the product of the diagonals with
    the product of their squared lengths: it is the test of the cosine only when
    the product of the lengths is one. *)
Theorem C89_check_partial : forall h max_abs_cos A B C D,
  maps_to h (V2 (-1) (-1)) A -> maps_to h (V2 1 (-1)) B -> maps_to h (V2 1 1) C -> maps_to h (V2 (-1) 1) D -> A <> C -> B <> D ->
  exists r, homography_check h max_abs_cos = Some r /\
    (r = true <-> 0 < area A B C /\ 0 < area A C D /\
      Rabs ((px C - px A) * (px B - px D) + (py C - py A) * (py B - py D)) <= max_abs_cos * ((distance A C * distance A C) * (distance B D * distance B D))).
Proof.
  intros h mac A B C D HA HB HC HD AC BD. destruct (check_spec h mac A B C D HA HB HC HD AC BD) as (r & E & S).
  exists r. split; auto. rewrite S.
  assert (Q : forall p q, distance p q * distance p q = (px p - px q) * (px p - px q) + (py p - py q) * (py p - py q)).
  { intros p q. unfold distance. apply sqrt_sqrt. pose proof (Rle_0_sqr (px p - px q)). pose proof (Rle_0_sqr (py p - py q)). unfold Rsqr in *. lra. }
  rewrite !Q. unfold dot. cbn [v0 v1 v2].
  replace ((px C - px A) * (px B - px D) + (py C - py A) * (py B - py D) + 0 * 0) with ((px C - px A) * (px B - px D) + (py C - py A) * (py B - py D)) by ring.
  replace (((px C - px A) * (px C - px A) + (py C - py A) * (py C - py A) + 0 * 0) * ((px B - px D) * (px B - px D) + (py B - py D) * (py B - py D) + 0 * 0)) with
    (((px A - px C) * (px A - px C) + (py A - py C) * (py A - py C)) * ((px B - px D) * (px B - px D) + (py B - py D) * (py B - py D))) by ring.
  reflexivity.
Qed.
Print Assumptions C89_check_partial.
(** A homography accepted although the cosine between the diagonals is above the limit. *)
Theorem C89_angle_refuted : exists h A B C D,
  maps_to h (V2 (-1) (-1)) A /\ maps_to h (V2 1 (-1)) B /\ maps_to h (V2 1 1) C /\ maps_to h (V2 (-1) 1) D /\
  homography_check h (1/2) = Some true /\
  (1/2) * (distance A C * distance B D) < Rabs ((px C - px A) * (px B - px D) + (py C - py A) * (py B - py D)).
Proof.
  set (h := M3 10 0 0 0 1 0 0 0 1).
  assert (HA : maps_to h (V2 (-1) (-1)) (V2 (-10) (-1))) by (exists 1; split; [lra|unfold h, h3; geoc; apply V3_eq; ring]).
  assert (HB : maps_to h (V2 1 (-1)) (V2 10 (-1))) by (exists 1; split; [lra|unfold h, h3; geoc; apply V3_eq; ring]).
  assert (HC : maps_to h (V2 1 1) (V2 10 1)) by (exists 1; split; [lra|unfold h, h3; geoc; apply V3_eq; ring]).
  assert (HD : maps_to h (V2 (-1) 1) (V2 (-10) 1)) by (exists 1; split; [lra|unfold h, h3; geoc; apply V3_eq; ring]).
  exists h, (V2 (-10) (-1)), (V2 10 (-1)), (V2 10 1), (V2 (-10) 1). split; auto. split; auto. split; auto. split; auto.
  assert (E1 : distance (V2 (-10) (-1)) (V2 10 1) = sqrt 404) by (unfold distance; cbn [px py]; f_equal; ring).
  assert (E2 : distance (V2 10 (-1)) (V2 (-10) 1) = sqrt 404) by (unfold distance; cbn [px py]; f_equal; ring).
  assert (SQ : sqrt 404 * sqrt 404 = 404) by (apply sqrt_sqrt; lra).
  assert (AB : Rabs ((px (V2 10 1) - px (V2 (-10) (-1))) * (px (V2 10 (-1)) - px (V2 (-10) 1)) + (py (V2 10 1) - py (V2 (-10) (-1))) * (py (V2 10 (-1)) - py (V2 (-10) 1))) = 396).
  { cbn [px py]. rewrite Rabs_pos_eq; lra. }
  split; [|rewrite E1, E2, SQ, AB; lra].
  destruct (C89_check_partial h (1/2) _ _ _ _ HA HB HC HD) as (r & E & S'); [intro K; injection K; lra|intro K; injection K; lra|].
  rewrite E. f_equal. apply S'. rewrite E1, E2, SQ, AB. unfold area. cbn [px py]. repeat split; lra.
Qed.
Print Assumptions C89_angle_refuted.

(** C90: the similarity and the affine matrix compose shift, rotation and scaling in
    the documented order. *)
Theorem C90_similarity : forall dx dy lambda theta dx' dy' p,
  maps_to (fill_similarity dx dy lambda theta dx' dy') p (shift dx dy (stretch lambda lambda (turn theta (shift dx' dy' p)))).
Proof. exact similarity_spec. Qed.
Print Assumptions C90_similarity.
Theorem C90_affine : forall dx dy lambda psi theta phi dx' dy' p, cos theta <> 0 ->
  maps_to (fill_affine dx dy lambda psi theta phi dx' dy') p
    (shift dx dy (stretch lambda lambda (turn psi (stretch (1 / cos theta) 1 (turn phi (shift dx' dy' p)))))).
Proof. exact affine_spec. Qed.
Print Assumptions C90_affine.
(** The perspective matrix maps the corners of a quadrilateral to those of the unit square. *)
Theorem C90_perspective : forall a b c d, general_position a b c d -> let '(H, det) := estimate_unit (quad_of a b c d) in
  det <> 0 -> maps_to H a (V2 0 0) /\ maps_to H b (V2 1 0) /\ maps_to H c (V2 1 1) /\ maps_to H d (V2 0 1).
Proof.
  intros a b c d G. pose proof (unit_maps a b c d G) as M. pose proof (unit_det_eq a b c d) as E. destruct (estimate_unit (quad_of a b c d)) as [H det]. cbn [fst snd] in *. subst det. exact M.
Qed.
Print Assumptions C90_perspective.
Example C90_example : maps_to (fill_similarity 1 2 3 (PI / 2) 4 5) (V2 0 0) (V2 (-14) 14) /\ cos 0 <> 0.
Proof.
  split; [|rewrite cos_0; lra]. pose proof (C90_similarity 1 2 3 (PI / 2) 4 5 (V2 0 0)) as Q. unfold shift, stretch, turn in Q. rewrite cos_PI2, sin_PI2 in Q. cbn [px py] in Q.
  replace (V2 (-14) 14) with (V2 (3 * (0 * (0 + 4) - 1 * (0 + 5)) + 1) (3 * (1 * (0 + 4) + 0 * (0 + 5)) + 2)) by (f_equal; ring). exact Q.
Qed.

(** C91: the camera matrix built from K, R, t maps X to K (R X + t), missing parts
    being identity or zero; projection stores the image of every point and returns
    the smallest absolute third coordinate; it stops the program if one is zero. *)
Theorem C91_camera : forall K A t X,
  let Kv := match K with Some K => K | None => M3 1 0 0 0 1 0 0 0 1 end in
  let Rv := match A with Some A => A | None => M3 1 0 0 0 1 0 0 0 1 end in
  let tv := match t with Some t => t | None => zero3 end in
  upper_triangular Kv -> m8 Kv = 1 -> apply34 (projection_from_krt K A t) X = lin Kv (vadd (lin Rv X) tv).
Proof. exact krt_spec. Qed.
Print Assumptions C91_camera.
Theorem C91_project : forall P Xs, Xs <> [] -> (forall X, In X Xs -> v2 (apply34 P X) <> 0) ->
  exists xs m, pinhole_project P Xs = Ok (xs, m) /\ Forall2 (projects_to P) Xs xs /\
    (forall X, In X Xs -> m <= Rabs (v2 (apply34 P X))) /\ (exists X, In X Xs /\ m = Rabs (v2 (apply34 P X))).
Proof. exact project_ok. Qed.
Print Assumptions C91_project.
Theorem C91_project_stops : forall P Xs, Xs = [] \/ (exists X, In X Xs /\ v2 (apply34 P X) = 0) -> pinhole_project P Xs = Fatal.
Proof. exact project_spec. Qed.
Print Assumptions C91_project_stops.
Example C91_example : let P := projection_from_krt (Some (M3 2 0 0 0 2 0 1 1 1)) None (Some (V3 0 0 1)) in
  v2 (apply34 P (V3 1 2 3)) = 4 /\ projects_to P (V3 1 2 3) (V2 (3/2) 2).
Proof.
  cbv zeta. unfold projects_to. rewrite C91_camera by (cbn; repeat split). split; [geoc; ring|]. exists 4. split; [lra|]. unfold h3. geoc. apply V3_eq; lra.
Qed.

(** C92: the epipolar distance is the distance of the second point to the nearest
    point of the line F x; marking flags the matches below the tolerance; the rank
    correction yields a singular matrix nearest to the given one. *)
Theorem C92_distance : forall F c, let L := lin F (h3 (mx c)) in
  (v0 L <> 0 \/ v1 L <> 0 -> exists d, epipolar_distance_fwd F c = Some d /\
     (exists q, dot (h3 q) L = 0 /\ distance (mxp c) q = d) /\ (forall q, dot (h3 q) L = 0 -> d <= distance (mxp c) q)) /\
  (v0 L = 0 -> v1 L = 0 -> epipolar_distance_fwd F c = None).
Proof.
  intros F c L. split; [|intros; now apply epipolar_none]. intro H. eexists. split; [now apply epipolar_some|]. fold L. destruct L as [a b d].
  destruct (point_line a b d (mxp c) H) as [P Q]. split; auto.
Qed.
Print Assumptions C92_distance.
Theorem C92_mark : forall F l tol, let '(l', n) := fundamental_mark_inliers F l tol in
  Forall2 (fun c c' => same_match c c' /\ (inlier c' = true <->
     (v0 (lin F (h3 (mx c))) <> 0 \/ v1 (lin F (h3 (mx c))) <> 0) /\ exists q, dot (h3 q) (lin F (h3 (mx c))) = 0 /\ distance (mxp c) q < tol)) l l' /\
  n = Z.of_nat (length (filter inlier l')).
Proof.
  intros F l tol. unfold fundamental_mark_inliers. destruct (mark_loop _ l 0) as [l' n] eqn:E. eapply mark_spec in E; [exact E|].
  intro c. destruct (C92_distance F c) as [S' N]. set (L := lin F (h3 (mx c))) in *.
  assert (dec : (v0 L <> 0 \/ v1 L <> 0) \/ (v0 L = 0 /\ v1 L = 0)) by (destruct (Req_dec (v0 L) 0), (Req_dec (v1 L) 0); auto).
  destruct dec as [D|[D0 D1]].
  - destruct (S' D) as (d & -> & (q & Q & Eq) & M). rewrite r_lt_spec. split.
    + intro T. split; auto. exists q. split; auto. lra.
    + intros (_ & q' & Q' & T). specialize (M q' Q'). lra.
  - rewrite (N D0 D1). split; [discriminate|]. intros ([A|A] & _); contradiction.
Qed.
Print Assumptions C92_mark.
Theorem C92_fix_rank : forall U s0 s1 s2 Vt F, orthogonal U -> orthogonal Vt -> 0 <= s2 <= s1 -> s1 <= s0 ->
  (forall u, lin F u = lin U (lin (diag s0 s1 s2) (lin Vt u))) ->
  det3 (fix_rank U s0 s1 Vt) = 0 /\ (forall B, det3 B = 0 -> frob2 (minus F (fix_rank U s0 s1 Vt)) <= frob2 (minus F B)) /\
  (s2 = 0 -> fix_rank U s0 s1 Vt = F).
Proof.
  intros U s0 s1 s2 Vt F HU HV A B E. split; [apply fix_rank_det|]. split; [intros; now apply (fix_rank_nearest U s0 s1 s2)|].
  intros ->. apply lin_ext. intro u. now rewrite fix_rank_lin, E.
Qed.
Print Assumptions C92_fix_rank.
Example C92_example : let c := PM (V2 0 0) (V2 3 4) 0 1 1 0 0 true in let F := M3 0 0 0 0 0 0 0 1 (-2) in
  epipolar_distance_fwd F c = Some 2 /\ orthogonal (diag 1 1 1) /\ (forall u, lin (diag 3 2 1) u = lin (diag 1 1 1) (lin (diag 3 2 1) (lin (diag 1 1 1) u))).
Proof.
  cbv zeta. split; [|split].
  - rewrite epipolar_some; [|right; unfold h3; geoc; cbn; lra]. f_equal. unfold h3. geoc. cbn [mx mxp px py].
    match goal with |- sqrt ?e = _ => replace e with (2 * 2) by field end. apply sqrt_square. lra.
  - intros [] []. unfold diag. geoc. ring.
  - intros []. unfold diag. geoc. apply V3_eq; ring.
Qed.

(** C93: the essential matrix of a pose is u -> t x R u.  For every essential matrix
    the four candidates are rotations with unit translations that have this matrix
    up to sign; if the matches were seen in front of both cameras of some pose,
    the choice by depth signs finds exactly that pose. *)
Theorem C93_from_Rt : forall A t u, lin (essential_from_Rt A t) u = cross t (lin A u).
Proof. exact essential_Rt. Qed.
Print Assumptions C93_from_Rt.
Theorem C93_candidates : forall U Vt s A t, orthogonal U -> orthogonal Vt -> In (A, t) (decompose_to_Rt U Vt) ->
  is_rotation A /\ dot t t = 1 /\ exists k, (k = 1 \/ k = -1) /\ forall u, vscale (k * s) (cross t (lin A u)) = lin U (lin (diag s s 0) (lin Vt u)).
Proof. intros. now apply decompose_sound. Qed.
Print Assumptions C93_candidates.
Theorem C93_choice : forall cands l, length cands = 4%nat -> l <> [] ->
  exists i s A t, pick_best_Rt cands l = Ok (i, s) /\ nth_error cands i = Some (A, t) /\ z_sign_sum l A t = s /\
    (forall j B u, nth_error cands j = Some (B, u) -> (z_sign_sum l B u <= s)%Z /\ ((j < i)%nat -> (z_sign_sum l B u < s)%Z)).
Proof. exact pick_spec. Qed.
Print Assumptions C93_choice.
Theorem C93_recover_pose : forall E k s A t U Vt l, is_rotation A -> dot t t = 1 -> k <> 0 -> s <> 0 ->
  (forall u, lin E u = vscale k (cross t (lin A u))) ->
  orthogonal U -> orthogonal Vt -> (forall u, lin E u = lin U (lin (diag s s 0) (lin Vt u))) ->
  l <> [] ->
  (forall c, In c l -> exists al be, 0 < al /\ 0 < be /\ depths A t c al be /\ cross t (lin A (h3 (mx c))) <> zero3) ->
  exists i, pick_best_Rt (decompose_to_Rt U Vt) l = Ok (i, 2 * Z.of_nat (length l))%Z /\ nth_error (decompose_to_Rt U Vt) i = Some (A, t).
Proof. intros. eapply recover_pose with (k := k) (s := s); eauto. intro u. now rewrite <- H3, <- H6. Qed.
Print Assumptions C93_recover_pose.
(** A camera moved one unit to the left sees the point (1, 1, 2) at (1, 1/2). *)
Example C93_example : let A := M3 1 0 0 0 1 0 0 0 1 in let t := V3 1 0 0 in let c := PM (V2 (1/2) (1/2)) (V2 1 (1/2)) 0 1 1 0 0 true in
  let U := M3 0 1 0 0 0 1 1 0 0 in let Vt := M3 0 0 1 0 1 0 (-1) 0 0 in
  is_rotation A /\ dot t t = 1 /\ orthogonal U /\ orthogonal Vt /\
  (forall u, vscale 1 (cross t (lin A u)) = lin U (lin (diag 1 1 0) (lin Vt u))) /\
  depths A t c 2 2 /\ cross t (lin A (h3 (mx c))) <> zero3.
Proof.
  cbv zeta. split; [split; intros [] []; geoc; [ring|apply V3_eq; ring]|]. split; [geoc; ring|]. split; [intros [] []; geoc; ring|]. split; [intros [] []; geoc; ring|].
  split; [intros []; unfold diag; geoc; apply V3_eq; ring|]. split.
  - unfold depths, h3. geoc. cbn [mx mxp px py]. apply V3_eq; lra.
  - unfold h3. geoc. cbn [mx px py]. intro K. injection K. lra.
Qed.

(** C94: the essential matrix of a fundamental matrix and two calibrations should be
    K'^T F K.  This is what is computed when K' is diagonal. *)
Theorem C94_from_fundamental_partial : forall F K Kp, upper_triangular K -> m8 K = 1 -> upper_triangular Kp -> m3 Kp = 0 -> m6 Kp = 0 -> m7 Kp = 0 -> m8 Kp = 1 ->
  forall u, lin (essential_from_fundamental F K Kp) u = lin (transpose Kp) (lin F (lin K u)).
Proof.
  intros F K Kp HK H8 (A & B & C) H3 H6 H7 H8' u. rewrite essential_lower; auto; [|repeat split; auto].
  destruct Kp as [a b c d e f g h i]. cbn [m1 m2 m3 m5 m6 m7] in *. subst. destruct (lin F (lin K u)). geoc. apply V3_eq; ring.
Qed.
Print Assumptions C94_from_fundamental_partial.
(** With a principal point in K' another matrix is computed. *)
Theorem C94_principal_point_refuted : exists F K Kp u, upper_triangular K /\ m8 K = 1 /\ upper_triangular Kp /\ m8 Kp = 1 /\
  lin (essential_from_fundamental F K Kp) u <> lin (transpose Kp) (lin F (lin K u)).
Proof.
  exists (M3 1 0 0 0 1 0 0 0 1), (M3 1 0 0 0 1 0 0 0 1), (M3 1 0 0 0 1 0 2 3 1), (V3 1 0 0). split; [repeat split|]. split; [reflexivity|]. split; [repeat split|]. split; [reflexivity|].
  unfold essential_from_fundamental. geoc. intro K. injection K. lra.
Qed.
Print Assumptions C94_principal_point_refuted.
Example C94_example : exists F K Kp, upper_triangular K /\ m8 K = 1 /\ upper_triangular Kp /\ m8 Kp = 1 /\ m0 Kp = 2 /\ m0 (essential_from_fundamental F K Kp) = 6.
Proof.
  exists (M3 1 0 0 0 1 0 0 0 1), (M3 3 0 0 0 3 0 1 1 1), (M3 2 0 0 0 2 0 0 0 1). repeat split. unfold essential_from_fundamental. cbn. ring.
Qed.

(** C95: given a decomposition routine that returns a non-zero vector orthogonal to
    all rows whenever there is one, every inlier whose rays meet in one point
    only is triangulated to that point; the ids are the positions of the inliers;
    the rest of the arrays is kept.  Missing: more inliers than n_pt. *)
Theorem C95_triangulate_partial : forall svd junk P Q pt n_pt X ids l,
  (forall c, In c l -> inlier c = true -> meet_only_in P Q c (pt c)) ->
  (forall T v, v <> V4 0 0 0 0 ->
     (forall i, (i < 4)%nat -> row_dot (firstn 4 (skipn (4 * i) T)) [w0 v; w1 v; w2 v; w3 v] = 0) ->
     exists a b d w, svd T = (a, b, d, w) /\ V4 a b d w <> V4 0 0 0 0 /\ forall i, (i < 4)%nat -> row_dot (firstn 4 (skipn (4 * i) T)) [a; b; d; w] = 0) ->
  (count_inliers l <= n_pt)%Z -> Z.of_nat (length X) = n_pt -> Z.of_nat (length ids) = n_pt ->
  triangulate svd junk n_pt X ids l P Q =
  Ok (count_inliers l, map pt (filter inlier l) ++ skipn (length (filter inlier l)) X, inlier_positions 0 l ++ skipn (length (filter inlier l)) ids) /\
  count_inliers l = Z.of_nat (length (filter inlier l)).
Proof.
  intros svd junk P Q pt n_pt X ids l HM HS LE LX LI. split; [|apply count_filter]. apply tri_spec; try assumption. intros c Hc Hi. specialize (HM c Hc Hi).
  assert (R4 : forall v, (forall i, (i < 4)%nat -> row_dot (firstn 4 (skipn (4 * i) (triangulation_constraints c P Q))) [w0 v; w1 v; w2 v; w3 v] = 0) <-> on_ray P (mx c) v /\ on_ray Q (mxp c) v).
  { intro v. rewrite <- rows_on_ray. split.
    - intro H. pose proof (H 0%nat ltac:(lia)). pose proof (H 1%nat ltac:(lia)). pose proof (H 2%nat ltac:(lia)). pose proof (H 3%nat ltac:(lia)). auto.
    - intros (A & B & C & D) i Hi'. destruct i as [|[|[|[|i]]]]; [exact A|exact B|exact C|exact D|lia]. }
  destruct (HS (triangulation_constraints c P Q) (homogeneous (pt c))) as (a & b & d & w & ES & NZ & Z).
  - unfold homogeneous. intro K. injection K. lra.
  - apply R4. destruct HM as (M1 & M2 & _). split; assumption.
  - apply (R4 (V4 a b d w)) in Z. destruct Z as [Z1 Z2]. destruct (solve_point c P Q (pt c) a b d w HM Z1 Z2 NZ) as [W E]. exists a, b, d, w. repeat split; assumption.
Qed.
Print Assumptions C95_triangulate_partial.
(** With more inliers than the capacity n_pt the arrays are written past their end. *)
Theorem C95_capacity_refuted : forall svd junk P Q c, inlier c = true -> triangulate svd junk 1 [zero3] [0%Z] [c; c] P Q = UB.
Proof.
  intros svd junk P Q c H. unfold triangulate. cbn [triangulate_loop]. rewrite H. destruct (svd (triangulation_constraints c P Q)) as [[[a b] d] w]. reflexivity.
Qed.
Print Assumptions C95_capacity_refuted.
(** Two cameras one unit apart, a point seen at (1/2, 1/2) and (1, 1/2). *)
Example C95_example : let P := projection_from_krt None None None in let Q := projection_from_krt None None (Some (V3 1 0 0)) in
  meet_only_in P Q (PM (V2 (1/2) (1/2)) (V2 1 (1/2)) 0 1 1 0 0 true) (V3 1 1 2).
Proof.
  cbv zeta. unfold meet_only_in, on_ray, apply34h, projection_from_krt, dmat3_mul_ua, homogeneous, h3, vscale. cbn. repeat split.
  - exists 2. apply V3_eq; lra.
  - exists 2. apply V3_eq; lra.
  - intros [x y z w] (k & E) (k' & E'). cbn in E, E'. injection E as A0 A1 A2. injection E' as B0 B1 B2. exists w. unfold vscale4. cbn. f_equal; lra.
Qed.
