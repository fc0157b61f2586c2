(** Projection matrices for OpenGL (C153). *)
From Coq Require Import Reals Lra.
From Verif Require Import Base GeoModel GeoSpec GeoProofs GeoProps ProjModel ProjSpec EpiProofs ProjProps GlModel GlSpec.
Local Open Scope R_scope.

(** ** C153 *)
(** Model, view and projection are applied in this order; missing ones do nothing. *)
Theorem C153_order : forall M V P u,
  let m u := match M with Some M => lin4 M u | None => u end in
  let v u := match V with Some V => lin4 V u | None => u end in
  lin4 (to_mvp M V P) u = lin4 P (v (m u)).
Proof. intros [M|] [V|] P u; cbv zeta; unfold to_mvp; rewrite ?C83_product4; reflexivity. Qed.
Print Assumptions C153_order.
(** A point in front of the viewer is seen where a pinhole camera with the focal
    lengths and the centre of the window as principal point sees it. *)
Theorem C153_pixels : forall fx fy near far w h X Y Z, Z < 0 -> w <> 0 -> h <> 0 ->
  window w h (lin4 (sym_perspective fx fy near far w h) (V4 X Y Z 1)) = V2 (fx * X / - Z + w / 2) (fy * Y / - Z + h / 2).
Proof. intros. unfold window, lin4, sym_perspective. cbn. f_equal; field; lra. Qed.
Print Assumptions C153_pixels.
(** The depth depends on the distance only, increases with it and is in the visible
    range exactly between the near and the far plane. *)
Lemma depth_eq fx fy near far w h X Y d : d <> 0 -> far <> near ->
  depth (lin4 (sym_perspective fx fy near far w h) (V4 X Y (- d) 1)) = (far + near) / (far - near) - 2 * near * far / (far - near) / d.
Proof. intros. unfold depth, lin4, sym_perspective. cbn. field. lra. Qed.
Theorem C153_depth_order : forall fx fy near far w h X Y X' Y' d d', 0 < near < far -> 0 < d -> 0 < d' ->
  let depth_at X Y d := depth (lin4 (sym_perspective fx fy near far w h) (V4 X Y (- d) 1)) in
  d < d' <-> depth_at X Y d < depth_at X' Y' d'.
Proof.
  intros fx fy near far w h X Y X' Y' d d' N D D'. cbv beta zeta. rewrite !depth_eq by lra.
  assert (K : 0 < 2 * near * far / (far - near)) by (apply Rdiv_lt_0_compat; [apply Rmult_lt_0_compat; lra|lra]). set (k := 2 * near * far / (far - near)) in *. clearbody k.
  assert (E : k / d - k / d' = k * (d' - d) * (/ d * / d')) by (field; lra).
  assert (I : 0 < / d * / d') by (apply Rmult_lt_0_compat; apply Rinv_0_lt_compat; lra). split; intro L.
  - assert (0 < k * (d' - d) * (/ d * / d')) by (apply Rmult_lt_0_compat; [apply Rmult_lt_0_compat; lra|exact I]). lra.
  - assert (0 < k * (d' - d) * (/ d * / d')) as P by lra. destruct (Rlt_le_dec d d') as [|G]; [assumption|]. exfalso.
    assert (k * (d' - d) * (/ d * / d') <= 0); [|lra]. assert (k * (d' - d) <= 0) by nra. nra.
Qed.
Print Assumptions C153_depth_order.
Theorem C153_depth_range : forall fx fy near far w h X Y d, 0 < near < far -> 0 < d ->
  let z := depth (lin4 (sym_perspective fx fy near far w h) (V4 X Y (- d) 1)) in
  (d = near -> z = -1) /\ (d = far -> z = 1) /\ (-1 <= z <= 1 <-> near <= d <= far).
Proof.
  intros fx fy near far w h X Y d N D. cbv zeta.
  pose proof (fun d => depth_eq fx fy near far w h X Y d) as E.
  assert (EN : depth (lin4 (sym_perspective fx fy near far w h) (V4 X Y (- near) 1)) = -1) by (rewrite E by lra; field; lra).
  assert (EF : depth (lin4 (sym_perspective fx fy near far w h) (V4 X Y (- far) 1)) = 1) by (rewrite E by lra; field; lra).
  pose proof (C153_depth_order fx fy near far w h X Y X Y d near N D ltac:(lra)) as O1. pose proof (C153_depth_order fx fy near far w h X Y X Y far d N ltac:(lra) D) as O2. cbv beta zeta in O1, O2. rewrite EN in O1. rewrite EF in O2.
  split; [intros ->; exact EN|]. split; [intros ->; exact EF|]. split; intros [A B]; split; apply Rnot_lt_le; intro L; first [apply O1 in L | apply O2 in L]; lra.
Qed.
Print Assumptions C153_depth_range.
(** With the view matrix of a camera pose, points are seen where the library's pinhole
    camera sees them; the camera of OpenGL looks along the negative z axis. *)
Theorem C153_camera : forall fx fy near far w h A t X, w <> 0 -> h <> 0 ->
  let view := dmat4_set_translation (dmat4_set_rotation dmat4_eye A) t in
  let K := M3 fx 0 0 0 fy 0 (w / 2) (h / 2) 1 in
  let C := projection_from_krt (Some K) (Some (flip A)) (Some (V3 (v0 t) (v1 t) (- v2 t))) in
  0 < v2 (apply34 C X) ->
  projects_to C X (window w h (lin4 (to_mvp None (Some view) (sym_perspective fx fy near far w h)) (homogeneous X))).
Proof.
  intros fx fy near far w h A t X W H view K C P. set (Y := vadd (lin A X) t).
  assert (E : apply34 C X = V3 (fx * v0 Y - w / 2 * v2 Y) (fy * v1 Y - h / 2 * v2 Y) (- v2 Y)).
  { unfold C. rewrite C91_camera by (cbn; repeat split). unfold K, Y, flip. destruct A, t, X. geoc. apply V3_eq; ring. }
  rewrite E in P. cbn [v2] in P. exists (- v2 Y). split; [lra|]. rewrite E. unfold to_mvp. rewrite C83_product4. unfold view. rewrite C83_pose. fold Y. unfold homogeneous.
  rewrite C153_pixels by lra. unfold h3. destruct Y as [y0 y1 y2]. geoc. cbn [v2] in P. apply V3_eq; field; lra.
Qed.
Print Assumptions C153_camera.
Example C153_example : let P := sym_perspective 500 500 1 100 640 480 in
  window 640 480 (lin4 P (V4 1 (-1) (-5) 1)) = V2 420 140 /\ -1 < depth (lin4 P (V4 1 (-1) (-5) 1)) < 1.
Proof.
  cbv zeta. split; [rewrite C153_pixels by lra; f_equal; field|]. replace (-5) with (- (5)) by ring. rewrite depth_eq by lra. lra.
Qed.
