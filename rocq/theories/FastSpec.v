(** What corner detection should compute, independent of FastModel.v except
    for the keypoint and image records. *)
From Coq Require Export Sorting.Sorted.
From Verif Require Import Base Gray FastModel.
Local Open Scope Z_scope.

(** The circle of 16 pixels around the origin, in order around it. *)
Definition circle : list (Z * Z) :=
  [(0, 3); (1, 3); (2, 2); (3, 1); (3, 0); (3, -1); (2, -2); (1, -3); (0, -3); (-1, -3); (-2, -2); (-3, -1); (-3, 0); (-3, 1); (-2, 2); (-1, 3)].
(** It is the set of points at distance about 3: those with 8 <= d^2 <= 10. *)
Example circle_points :
  forallb (fun x => forallb (fun y =>
    Bool.eqb (existsb (fun '(a, b) => (a =? x) && (b =? y)) circle) ((8 <=? x * x + y * y) && (x * x + y * y <=? 10)))
    (zrange (-4) 5)) (zrange (-4) 5) = true.
Proof. vm_compute. reflexivity. Qed.
(** Neighbours in the list (cyclically) touch. *)
Example circle_order :
  forallb (fun i => let '(a, b) := nth i circle (0, 0) in let '(c, d) := nth ((i + 1) mod 16) circle (0, 0) in
    (Z.abs (a - c) <=? 1) && (Z.abs (b - d) <=? 1)) (seq 0 16) = true.
Proof. vm_compute. reflexivity. Qed.
Definition ring (g : gray) (x y : Z) (i : nat) : Z :=
  let '(dx, dy) := nth (i mod 16) circle (0, 0) in px g (x + dx) (y + dy).
(** The segment test: nine contiguous circle pixels all brighter than the
    centre by more than [t], or all darker by more than [t]. *)
Definition seg_test (g : gray) (x y t : Z) : Prop :=
  exists s, (s < 16)%nat /\
    ((forall i, (i < 9)%nat -> px g x y + t < ring g x y (s + i)) \/
     (forall i, (i < 9)%nat -> ring g x y (s + i) < px g x y - t)).

(** At least three pixels from every border. *)
Definition inside (g : gray) (x y : Z) : Prop := 3 <= x < g_w g - 3 /\ 3 <= y < g_h g - 3.
(** Raster order. *)
Definition before (p q : Z * Z) : Prop := snd p < snd q \/ (snd p = snd q /\ fst p < fst q).
(** [l] lists the corners of [g] in raster order. *)
Record corners_of (g : gray) (t : Z) (l : list (Z * Z)) : Prop := {
  co_sorted : StronglySorted before l;
  co_iff : forall x y, In (x, y) l <-> inside g x y /\ seg_test g x y t }.

Definition pos (k : kp) : Z * Z := (k_x k, k_y k).
(** The largest threshold at which the pixel is a corner. *)
Definition best_threshold (g : gray) (x y s : Z) : Prop :=
  seg_test g x y s /\ forall t, 0 <= t -> seg_test g x y t -> t <= s.

(** * Local maxima *)

Definition touching (k k' : kp) : Prop :=
  Z.abs (k_x k - k_x k') <= 1 /\ Z.abs (k_y k - k_y k') <= 1 /\ pos k <> pos k'.
Definition local_max (cs : list kp) (k : kp) : Prop := forall k', In k' cs -> touching k k' -> k_score k' < k_score k.
Record maxima_of (cs ks : list kp) : Prop := {
  mo_sorted : StronglySorted before (map pos ks);
  mo_iff : forall k, In k ks <-> In k cs /\ local_max cs k }.

(** * Orientation *)

(** The offsets within distance [r]. *)
Definition disc (r : Z) : list (Z * Z) :=
  filter (fun '(dx, dy) => dx * dx + dy * dy <? r * r) (flat_map (fun dy => map (fun dx => (dx, dy)) (zrange (- r) (r + 1))) (zrange (- r) (r + 1))).
Definition zsum (l : list Z) : Z := fold_right Z.add 0 l.
(** Intensity-weighted moments of the disc around a pixel. *)
Definition moment_x (g : gray) (x y r : Z) : Z := zsum (map (fun '(dx, dy) => dx * px g (x + dx) (y + dy)) (disc r)).
Definition moment_y (g : gray) (x y r : Z) : Z := zsum (map (fun '(dx, dy) => dy * px g (x + dx) (y + dy)) (disc r)).
(** The orientation of a keypoint: the angle of the intensity centroid if the
    patch fits in the image, else 0. *)
Definition orientation (atan2 : Z -> Z -> N) (r : option Z) (g : gray) (x y : Z) : N :=
  match r with
  | None => 0%N
  | Some r => if (r <=? x) && (x <? g_w g - r) && (r <=? y) && (y <? g_h g - r)
              then atan2 (moment_y g x y r) (moment_x g x y r) else 0%N
  end.

(** * One image, many levels *)

(** The keypoints of one image: of the first [n] corners in raster order, those
    whose score beats the scores of their neighbours among them. *)
Record image_keys (ori : gray -> Z -> Z -> N) (g : gray) (t n : Z) (ks : list kp) : Prop := {
  ik_max : exists l cs, corners_of g t l /\ map pos cs = firstn (Z.to_nat n) l /\
           (forall k, In k cs -> best_threshold g (k_x k) (k_y k) (k_score k)) /\
           exists ms, maxima_of cs ms /\ map pos ms = map pos ks /\ map k_score ms = map k_score ks;
  ik_ori : forall k, In k ks -> k_ori k = ori g (k_x k) (k_y k);
  ik_sub : forall k, In k ks -> k_xs k = k_x k /\ k_ys k = k_y k }.
(** Everything in a keypoint but its id. *)
Definition what (k : kp) := (pos k, (k_xs k, k_ys k), (k_level k, k_scale k, k_sigma k), (k_score k, k_ori k)).
Definition at_level (i : nat) (lv : plevel) (k : kp) : kp :=
  {| k_x := k_x k; k_y := k_y k; k_xs := k_xs k; k_ys := k_ys k; k_level := Z.of_nat i; k_scale := pl_scale lv; k_sigma := pl_sigma lv;
     k_score := k_score k; k_ori := k_ori k; k_id := k_id k |}.
