(** Drawing on images (C152). *)
From Coq Require Import Reals Lra.
From Verif Require Import Base GcModel GcSpec GcProofs.
Local Open Scope R_scope.

(** ** C152 *)
(** A mark is one stroke of its shape around the point, in the colour asked for. *)
Theorem C152_marks : forall ty x y size c, draws (draw_mark (Some ty) x y size c) [(c, 3/2, mark_shape ty x y size)].
Proof. exact mark_draws. Qed.
Print Assumptions C152_marks.
(** An edge is one line, with a mark at both ends if asked for. *)
Theorem C152_edges : forall xs ys xe ye w c marks size,
  draws (draw_edge xs ys xe ye w c marks size)
    ((c, w, [Line (xs, ys) (xe, ye)]) ::
     match marks with None => [] | Some ty => [(c, 3/2, mark_shape ty xs ys size); (c, 3/2, mark_shape ty xe ye size)] end).
Proof. exact edge_draws. Qed.
Print Assumptions C152_edges.
(** A region is the outline of its rectangle. *)
Theorem C152_regions : forall x y w h lw c,
  draws (draw_roi x y w h lw c)
    [(c, lw, [Line (x, y) (x + w, y); Line (x + w, y) (x + w, y + h); Line (x + w, y + h) (x, y + h); Line (x, y + h) (x, y)])].
Proof. exact roi_draws. Qed.
Print Assumptions C152_regions.
(** Every keypoint is a circle at its place in the original image whose radius is its
    scale there, white or in the colour of its level. *)
Theorem C152_keypoints : forall rnd ks single,
  draws (draw_keypoints rnd 0 ks single)
    (map (fun ik => (if single then (1, 1, 1, 1) else level_colour (rnd (fst ik)) (k_level (snd ik)), 3/2,
                     [ArcSeg (k_x (snd ik), k_y (snd ik)) (k_sigma (snd ik) * k_scale (snd ik)) 0 (2 * PI)]))
         (combine (seq 0 (length ks)) ks)).
Proof. intros. apply keypoints_draw. Qed.
Print Assumptions C152_keypoints.
(** The levels 0 to 6 have different colours. *)
Theorem C152_levels : forall rnd rnd' l l', (0 <= l <= 6)%Z -> (0 <= l' <= 6)%Z -> level_color rnd l = level_color rnd' l' -> l = l'.
Proof.
  intros rnd rnd' l l' L L' E.
  assert (C : (l = 0 \/ l = 1 \/ l = 2 \/ l = 3 \/ l = 4 \/ l = 5 \/ l = 6)%Z) by lia.
  assert (C' : (l' = 0 \/ l' = 1 \/ l' = 2 \/ l' = 3 \/ l' = 4 \/ l' = 5 \/ l' = 6)%Z) by lia.
  pose proof R1_neq_R0. pose proof (not_eq_sym R1_neq_R0).
  repeat destruct C as [->|C]; try subst l; repeat destruct C' as [->|C']; try subst l'; try reflexivity; exfalso; unfold level_color, c_red, c_blue, c_green, c_yellow, c_purple, c_cyan, c_white in E; injection E; intros; congruence.
Qed.
Print Assumptions C152_levels.
(** All matches, or only the inliers, are drawn: the motion in both images and the two
    points. *)
Theorem C152_matches : forall lw only ms,
  draws (draw_matches lw only ms)
    (flat_map (fun m => let '((x, y), (xp, yp)) := (a_x m, a_xp m) in
       [((1, 0, 0, 1), 3, [Line (x, y) (xp, yp)]); ((0, 1, 0, 1), 3, [Line (x + lw, y) (xp + lw, yp)]);
        ((1, 0, 0, 1), 3/2, mark_shape MDiamond x y 10); ((0, 1, 0, 1), 3/2, mark_shape MDiamond (xp + lw) yp 10)])
      (filter (fun m => negb only || a_inlier m) ms)).
Proof. exact matches_draw. Qed.
Print Assumptions C152_matches.
(** The colour asked for is the one seen in the image or in the file. *)
Theorem C152_colours : forall image c v, exists v', cairos (gc_set_color image c) v = Some v' /\
  (if image then seen (source v') else source v') = c /\ path v' = path v /\ cur v' = cur v /\ drawn v' = drawn v.
Proof. intros image [[[r g] b] a] v. destruct image; eexists; (split; [reflexivity|]); auto. Qed.
Print Assumptions C152_colours.
(** A curve is the one asked for exactly if all its points but the start agree. *)
Theorem C152_curves_partial : forall v xs ys xe ye c1x c1y c2x c2y,
  adds_curve (gc_curve xs ys xe ye c1x c1y c2x c2y) v (xs, ys) (c1x, c1y) (c2x, c2y) (xe, ye) <->
  (c1x, c1y) = (xe, ye) /\ (c2x, c2y) = (xe, ye).
Proof.
  intros v xs ys xe ye c1x c1y c2x c2y. unfold adds_curve. split.
  - intros (v' & E & P & C). cbn in E. injection E as <-. cbn [path cur] in *. apply app_inv_head in P. injection P; intros; split; congruence.
  - intros [E1 E2]. injection E1 as -> ->. injection E2 as -> ->. eexists. split; [reflexivity|]. auto.
Qed.
Print Assumptions C152_curves_partial.
(** In general it is not: it ends at the second control point. *)
Theorem C152_curves_refuted : ~ (forall v xs ys xe ye c1x c1y c2x c2y,
  adds_curve (gc_curve xs ys xe ye c1x c1y c2x c2y) v (xs, ys) (c1x, c1y) (c2x, c2y) (xe, ye)).
Proof.
  intro C. specialize (C (mkCv (0, 0, 0, 1) 1 None [] []) 0 0 1 0 0 0 0 0). apply C152_curves_partial in C as [E _]. injection E. intros. pose proof R1_neq_R0. congruence.
Qed.
Print Assumptions C152_curves_refuted.
(** A relative curve is not relative: it does not depend on the current point. *)
Theorem C152_relative_refuted : ~ (forall v x y dxe dye c1dx c1dy c2dx c2dy, cur v = Some (x, y) ->
  exists v', cairos (gc_rel_curve_to dxe dye c1dx c1dy c2dx c2dy) v = Some v' /\ cur v' = Some (x + dxe, y + dye)).
Proof.
  intro C. destruct (C (mkCv (0, 0, 0, 1) 1 (Some (1, 0)) [] []) 1 0 0 0 0 0 0 0 eq_refl) as (v' & E & P). cbn in E. injection E as <-. cbn [cur] in P. injection P. intros. lra.
Qed.
Print Assumptions C152_relative_refuted.
Example C152_example : draws (draw_mark (Some MDiamond) 5 5 4 (1, 0, 0, 1))
  [((1, 0, 0, 1), 3/2, [Line (5, 3) (7, 5); Line (7, 5) (5, 7); Line (5, 7) (3, 5); Line (3, 5) (5, 3)])].
Proof.
  pose proof (C152_marks MDiamond 5 5 4 (1, 0, 0, 1)) as M. unfold mark_shape in M.
  replace (5 - 4 / 2) with 3 in M by lra. replace (5 + 4 / 2) with 7 in M by lra. exact M.
Qed.
