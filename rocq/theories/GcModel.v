(** Drawing: src/nx_gc_cairo_imp.c, src/vg_image_annotator.cc.

    Simplifications.  Coordinates, sizes and colours are real numbers.  A function is the
    list of the calls it makes to the Cairo library; the assertions on the context are
    taken to hold.  Text and dashes are not modelled. *)
From Coq Require Import Reals.
From Verif Require Import Base.
Local Open Scope R_scope.

(** Calls of the Cairo library. *)
Inductive cop :=
| SetSource (r g b a : R) | SetWidth (w : R) | NewPath
| MoveTo (x y : R) | LineTo (x y : R) | RelMoveTo (dx dy : R) | RelLineTo (dx dy : R)
| CurveTo (x1 y1 x2 y2 x3 y3 : R) | Rectangle (x y w h : R) | Arc (x y r a0 a1 : R) | Stroke.

Notation color := (R * R * R * R)%type.
(** src/nx_gc_cairo_imp.c:200-211; [image]: the context draws on an image. *)
Definition gc_set_color (image : bool) (c : color) : list cop :=
  let '(red, green, blue, alpha) := c in
  if image then [SetSource blue green red alpha] else [SetSource red green blue alpha].
(** src/nx_gc_cairo_imp.c:213-220, 164-171, 173-180. *)
Definition gc_set_line_width (w : R) : list cop := [SetWidth w].
Definition gc_new_path : list cop := [NewPath].
Definition gc_stroke : list cop := [Stroke].
(** src/nx_gc_cairo_imp.c:232-266. *)
Definition gc_move_to (x y : R) : list cop := [MoveTo x y].
Definition gc_line_to (x y : R) : list cop := [LineTo x y].
Definition gc_rel_move_to (dx dy : R) : list cop := [RelMoveTo dx dy].
Definition gc_rel_line_to (dx dy : R) : list cop := [RelLineTo dx dy].
(** src/nx_gc_cairo_imp.c:268-285. *)
Definition gc_line (xs ys xe ye : R) : list cop := [MoveTo xs ys; LineTo xe ye].
Definition gc_rectangle (x y w h : R) : list cop := [Rectangle x y w h].
(** src/nx_gc_cairo_imp.c:287-304. *)
Definition gc_arc (x y radius a0 a1 : R) : list cop := [Arc x y radius a0 a1].
Definition gc_circle (x y radius : R) : list cop := [Arc x y radius 0 (2 * PI)].
(** src/nx_gc_cairo_imp.c:306-335. *)
Definition gc_curve_to (xe ye c1x c1y c2x c2y : R) : list cop := [CurveTo xe ye c1x c1y c2x c2y].
Definition gc_rel_curve_to (dxe dye c1dx c1dy c2dx c2dy : R) : list cop := [CurveTo dxe dye c1dx c1dy c2dx c2dy].
Definition gc_curve (xs ys xe ye c1x c1y c2x c2y : R) : list cop := [MoveTo xs ys; CurveTo xe ye c1x c1y c2x c2y].

(** include/virg/nexus/vg_image_annotator.hpp:41-42, without MARK_NONE. *)
Inductive mark := MPoint | MSquare | MDiamond | MPlus | MCross.
(** src/vg_image_annotator.cc:54-94: [None] is MARK_NONE. *)
Definition draw_mark (ty : option mark) (x y size : R) (c : color) : list cop :=
  gc_set_color true c ++ gc_set_line_width (3/2) ++ gc_new_path ++
  (let r := size / 2 in
   match ty with
   | Some MPoint => gc_circle x y r
   | Some MSquare => gc_rectangle (x - r) (y - r) size size
   | Some MDiamond => gc_move_to x (y - r) ++ gc_rel_line_to r r ++ gc_rel_line_to (-r) r ++ gc_rel_line_to (-r) (-r) ++ gc_rel_line_to r (-r)
   | Some MPlus => gc_move_to x (y - r) ++ gc_rel_line_to 0 size ++ gc_move_to (x - r) y ++ gc_rel_line_to size 0
   | Some MCross => gc_move_to (x - r) (y - r) ++ gc_rel_line_to size size ++ gc_move_to (x + r) (y - r) ++ gc_rel_line_to (- size) size
   | None => []
   end) ++ gc_stroke.
(** src/vg_image_annotator.cc:96-112. *)
Definition draw_edge (xs ys xe ye width : R) (c : color) (marks : option mark) (mark_size : R) : list cop :=
  gc_set_color true c ++ gc_set_line_width width ++ gc_new_path ++ gc_new_path ++ gc_line xs ys xe ye ++ gc_stroke ++
  draw_mark marks xs ys mark_size c ++ draw_mark marks xe ye mark_size c ++ gc_stroke.
(** src/vg_image_annotator.cc:114-125. *)
Definition draw_roi (x y width height line_width : R) (c : color) : list cop :=
  gc_set_color true c ++ gc_set_line_width line_width ++ gc_new_path ++ gc_rectangle x y width height ++ gc_stroke.

(** A keypoint: position in the original image (nx_keypoint_xs0, nx_keypoint_ys0),
    sigma, scale and level. *)
Record akey := mkK { k_x : R; k_y : R; k_sigma : R; k_scale : R; k_level : Z }.
(** src/vg_image_annotator.cc:127-135. *)
Definition draw_keypoint (k : akey) (c : color) : list cop :=
  draw_mark (Some MPoint) (k_x k) (k_y k) (k_sigma k * k_scale k * 2) c.
(** include/virg/nexus/vg_color.hpp:39-46. *)
Definition c_red : color := (1, 0, 0, 1).
Definition c_green : color := (0, 1, 0, 1).
Definition c_blue : color := (0, 0, 1, 1).
Definition c_white : color := (1, 1, 1, 1).
Definition c_yellow : color := (1, 1, 0, 1).
Definition c_purple : color := (1, 0, 1, 1).
Definition c_cyan : color := (0, 1, 1, 1).
(** src/vg_image_annotator.cc:137-150; [rnd] is VGColor::random(). *)
Definition level_color (rnd : color) (level : Z) : color :=
  match level with
  | 0%Z => c_red | 1%Z => c_blue | 2%Z => c_green | 3%Z => c_yellow | 4%Z => c_purple | 5%Z => c_cyan | 6%Z => c_white
  | _ => rnd
  end.
(** src/vg_image_annotator.cc:152-161; [rnd i] is the random colour drawn for key i. *)
Fixpoint draw_keypoints (rnd : nat -> color) (i : nat) (ks : list akey) (single : bool) : list cop :=
  match ks with
  | [] => []
  | k :: ks' => draw_keypoint k (if single then c_white else level_color (rnd i) (k_level k)) ++ draw_keypoints rnd (S i) ks' single
  end.

(** A match (struct NXPointMatch2D): the two points and the inlier flag. *)
Record amatch := mkA { a_x : R * R; a_xp : R * R; a_inlier : bool }.
(** src/vg_image_annotator.cc:198-212; [lw] is the width of the left image. *)
Fixpoint draw_matches (lw : R) (only_inliers : bool) (ms : list amatch) : list cop :=
  match ms with
  | [] => []
  | m :: ms' =>
    (if negb only_inliers || a_inlier m then
       draw_edge (fst (a_x m)) (snd (a_x m)) (fst (a_xp m)) (snd (a_xp m)) 3 c_red None 0 ++
       draw_edge (fst (a_x m) + lw) (snd (a_x m)) (fst (a_xp m) + lw) (snd (a_xp m)) 3 c_green None 0 ++
       draw_mark (Some MDiamond) (fst (a_x m)) (snd (a_x m)) 10 c_red ++
       draw_mark (Some MDiamond) (fst (a_xp m) + lw) (snd (a_xp m)) 10 c_green
     else []) ++ draw_matches lw only_inliers ms'
  end.
