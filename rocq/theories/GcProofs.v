(** Proofs about drawing. *)
From Coq Require Import Reals Lra Lia.
From Verif Require Import Base GcModel GcSpec.
Local Open Scope R_scope.

Lemma cairos_app cs1 : forall cs2 v, cairos (cs1 ++ cs2) v = match cairos cs1 v with Some v' => cairos cs2 v' | None => None end.
Proof. induction cs1 as [|c cs1 IH]; intros cs2 v; cbn; [reflexivity|]. destruct (cairo c v); auto. Qed.

Notation look := (fun s : stroke => (seen (fst (fst s)), snd (fst s), snd s)).
Lemma draws_nil : draws [] [].
Proof. intros v. exists v. rewrite app_nil_r. split; [reflexivity|]. split; [reflexivity|]. intros H. contradiction. Qed.
Lemma draws_app a b x y : draws a x -> draws b y -> draws (a ++ b) (x ++ y).
Proof.
  intros Ha Hb v. destruct (Ha v) as (v1 & E1 & D1 & P1). destruct (Hb v1) as (v2 & E2 & D2 & P2).
  exists v2. rewrite cairos_app, E1. split; auto. split; [rewrite D2, D1, app_assoc; reflexivity|].
  destruct b as [|c b]; [|intros _; apply P2; discriminate]. cbn in E2. injection E2 as <-. rewrite app_nil_r. auto.
Qed.
(** Calls that start with colour, width and a new path do not depend on the canvas. *)
Ltac coords := repeat match goal with
  | |- _ :: _ = _ :: _ => apply f_equal2
  | |- (_, _) = (_, _) => apply f_equal2
  | |- Line _ _ = Line _ _ => apply f_equal2
  | |- @eq (list _) [] [] => reflexivity
  | |- @eq R _ _ => first [reflexivity | lra]
  | |- ArcSeg _ _ _ _ = _ => reflexivity
  end.
Ltac go := intros v; eexists; split; [reflexivity|]; cbn [drawn path source width cur app cairos]; split; [|auto]; rewrite ?map_app, <- ?app_assoc; f_equal; cbn [map fst snd seen source width cur path app].

Lemma mark_draws ty x y size c : draws (draw_mark (Some ty) x y size c) [(c, 3/2, mark_shape ty x y size)].
Proof.
  destruct c as [[[r g] b] a]. destruct ty; go; unfold mark_shape; cbn [app]; coords.
Qed.
Lemma no_mark_draws x y size c : draws (draw_mark None x y size c) [].
Proof. destruct c as [[[r g] b] a]. go. Qed.

(** A further stroke after a finished one draws nothing. *)
Lemma draws_stroke cs ss : cs <> [] -> draws cs ss -> draws (cs ++ [Stroke]) ss.
Proof.
  intros N D v. destruct (D v) as (v1 & E1 & D1 & P1). specialize (P1 N). destruct v1 as [so wi cu pa dr]. cbn [path drawn] in *. subst pa.
  eexists. rewrite cairos_app, E1. split; [reflexivity|]. cbn [drawn path]. rewrite app_nil_r. auto.
Qed.
Lemma line_draws xs ys xe ye w c :
  draws (gc_set_color true c ++ gc_set_line_width w ++ gc_new_path ++ gc_new_path ++ gc_line xs ys xe ye ++ gc_stroke) [(c, w, [Line (xs, ys) (xe, ye)])].
Proof. destruct c as [[[r g] b] a]. go. Qed.
Lemma edge_draws xs ys xe ye w c marks size :
  draws (draw_edge xs ys xe ye w c marks size)
    ((c, w, [Line (xs, ys) (xe, ye)]) ::
     match marks with None => [] | Some ty => [(c, 3/2, mark_shape ty xs ys size); (c, 3/2, mark_shape ty xe ye size)] end).
Proof.
  assert (E : draw_edge xs ys xe ye w c marks size =
    ((gc_set_color true c ++ gc_set_line_width w ++ gc_new_path ++ gc_new_path ++ gc_line xs ys xe ye ++ gc_stroke) ++
     draw_mark marks xs ys size c ++ draw_mark marks xe ye size c) ++ [Stroke]) by (unfold draw_edge; rewrite <- !app_assoc; reflexivity).
  rewrite E. apply draws_stroke; [destruct c as [[[r g] b] a]; discriminate|].
  destruct marks as [ty|].
  - apply (draws_app _ _ [_] [_; _]); [apply line_draws|]. apply (draws_app _ _ [_] [_]); apply mark_draws.
  - apply (draws_app _ _ [_] []); [apply line_draws|]. apply (draws_app _ _ [] []); apply no_mark_draws.
Qed.
Lemma roi_draws x y w h lw c :
  draws (draw_roi x y w h lw c)
    [(c, lw, [Line (x, y) (x + w, y); Line (x + w, y) (x + w, y + h); Line (x + w, y + h) (x, y + h); Line (x, y + h) (x, y)])].
Proof. destruct c as [[[r g] b] a]. go. Qed.

Lemma level_eq rnd l : level_color rnd l = level_colour rnd l.
Proof.
  unfold level_colour. destruct (Z.ltb_spec l 0) as [L|L]; [destruct l; try lia; reflexivity|].
  destruct (Z.ltb_spec l 7) as [L7|L7].
  - assert (C : (l = 0 \/ l = 1 \/ l = 2 \/ l = 3 \/ l = 4 \/ l = 5 \/ l = 6)%Z) by lia.
    repeat destruct C as [->|C]; try reflexivity. subst l. reflexivity.
  - rewrite nth_overflow by (cbn [length palette]; lia). destruct l as [|q|q]; try lia. repeat (destruct q; try lia; try reflexivity).
Qed.
Lemma keypoints_draw rnd ks single : forall i,
  draws (draw_keypoints rnd i ks single)
    (map (fun ik => (if single then (1, 1, 1, 1) else level_colour (rnd (fst ik)) (k_level (snd ik)), 3/2,
                     [ArcSeg (k_x (snd ik), k_y (snd ik)) (k_sigma (snd ik) * k_scale (snd ik)) 0 (2 * PI)]))
         (combine (seq i (length ks)) ks)).
Proof.
  induction ks as [|k ks IH]; intros i; cbn [draw_keypoints]; [exact draws_nil|].
  cbn [length seq combine map fst snd].
  change (?a :: ?b) with ([a] ++ b). apply draws_app; [|apply IH]. unfold draw_keypoint. rewrite level_eq.
  pose proof (mark_draws MPoint (k_x k) (k_y k) (k_sigma k * k_scale k * 2) (if single then c_white else level_color (rnd i) (k_level k))) as M.
  rewrite level_eq in M. unfold mark_shape in M. replace (k_sigma k * k_scale k * 2 / 2) with (k_sigma k * k_scale k) in M by field. exact M.
Qed.
Lemma matches_draw lw only ms :
  draws (draw_matches lw only ms)
    (flat_map (fun m => let '((x, y), (xp, yp)) := (a_x m, a_xp m) in
       [((1, 0, 0, 1), 3, [Line (x, y) (xp, yp)]); ((0, 1, 0, 1), 3, [Line (x + lw, y) (xp + lw, yp)]);
        ((1, 0, 0, 1), 3/2, mark_shape MDiamond x y 10); ((0, 1, 0, 1), 3/2, mark_shape MDiamond (xp + lw) yp 10)])
      (filter (fun m => negb only || a_inlier m) ms)).
Proof.
  induction ms as [|m ms IH]; cbn [draw_matches]; [exact draws_nil|].
  cbn [filter]. destruct (negb only || a_inlier m); [|exact IH]. cbn [flat_map]. apply draws_app; [|exact IH].
  destruct m as [[x y] [xp yp] i]. cbn [a_x a_xp fst snd].
  apply (draws_app _ _ [_] [_; _; _]); [exact (edge_draws x y xp yp 3 c_red None 0)|].
  apply (draws_app _ _ [_] [_; _]); [exact (edge_draws (x + lw) y (xp + lw) yp 3 c_green None 0)|].
  apply (draws_app _ _ [_] [_]); [exact (mark_draws MDiamond x y 10 c_red)|exact (mark_draws MDiamond (xp + lw) yp 10 c_green)].
Qed.
