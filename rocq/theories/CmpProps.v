(** C167: panoramas are composed. *)
From Verif Require Import Base BaseLemmas Gray ProjModel GeoSpec ProjSpec GeoProofs HomoProofs CmpModel CmpSpec CmpProofs.
From Coq Require Import Lra Lia.
Local Open Scope R_scope.

(** Missing from the full property: up to a pixel on each side of the images is cut off,
    and points at infinity.
    If a panorama of w by h pixels is laid out, then for some origin: the new map of every
    image is the old one followed by moving the origin; the map back is its inverse if there
    is one; every point of every image in front of the reference is less than a pixel away
    from the panorama; and the panorama is no larger than the corners of images need. *)
Theorem C167_frame_partial : forall l w h hs, l <> [] -> create_reference l = Ok (w, h, hs) ->
  exists ox oy : Z,
  Forall2 (fun hg hh =>
    (forall p q, maps_to (fst hg) p q <-> maps_to (fst hh) p (V2 (px q - IZR ox) (py q - IZR oy))) /\
    (det3 (fst hg) <> 0 -> forall p q, maps_to (fst hh) p q -> maps_to (snd hh) q p) /\
    (in_front (fst hg) (snd hg) -> forall p, in_rect (snd hg) p -> exists q, maps_to (fst hh) p q /\
       -1 < px q < IZR w + 1 /\ -1 < py q < IZR h + 1)) l hs /\
  reached l px ox /\ reached l px (ox + w) /\ reached l py oy /\ reached l py (oy + h).
Proof.
  intros l w h hs N E. unfold create_reference in E. destruct (box l) as [d| | |] eqn:B; try discriminate. cbn [bind] in E.
  unfold size, chk_int in E. destruct (Base.in_int (max_x d - min_x d)); [|discriminate]. cbn [bind] in E.
  destruct (Base.in_int (max_y d - min_y d)); [|discriminate]. cbn [bind] in E. destruct (_ || _)%bool; [discriminate|]. injection E as <- <- <-.
  exists (min_x d), (min_y d). split.
  - assert (F := B). unfold box in F. apply box_inv in F. destruct F as [F _].
    assert (P : forall h g, In (h, g) l -> forall c, corner g c -> placed d (h, c)).
    { intros h g I c C. apply (proj1 (Forall_forall _ _) F). apply pairs_in. eauto. }
    clear - P. induction l as [|[h g] l IH]; [constructor|]. constructor.
    + cbn [fst snd]. split; [intros; apply shift_maps|]. split.
      * intros D p q M. change (maps_to (fst (dmat3_inv (shift d h))) q p). apply maps_inverse; auto. now rewrite shift_det.
      * intros Fr p I. destruct (rect_inside d h g Fr (P h g (or_introl eq_refl)) p I) as (q & M & X & Y).
        exists (V2 (px q - IZR (min_x d)) (py q - IZR (min_y d))). split; [now apply shift_maps|]. cbn [px py]. rewrite !minus_IZR. lra.
    + apply IH. intros h' g' I. apply P. now right.
  - destruct (box_reached l d N B) as (X1 & Y1 & X2 & Y2). replace (min_x d + (max_x d - min_x d))%Z with (max_x d) by lia.
    replace (min_y d + (max_y d - min_y d))%Z with (max_y d) by lia. auto.
Qed.
Print Assumptions C167_frame_partial.

(** Every pixel of the panorama that goes to a position of int coordinates in every image
    has the value of the last image that covers it, or zero if there is none; and nothing
    outside the images is read. *)
Theorem C167_value_partial : forall l x y,
  (forall h g, In (h, g) l -> gray_ok g /\ exists p, maps_to h (V2 (IZR x) (IZR y)) p /\ fits (px p) /\ fits (py p)) ->
  exists v, composite_value l x y = Ok v /\
  ((v = 0%N /\ forall h g a b, In (h, g) l -> ~ covers h g x y a b) \/
   (exists l1 h g l2 a b, l = l1 ++ (h, g) :: l2 /\ covers h g x y a b /\ Z.of_N v = Gray.px g a b /\
      forall h' g' a' b', In (h', g') l2 -> ~ covers h' g' x y a' b')).
Proof.
  intros l x y. induction l as [|[h g] l IH] using rev_ind; intro P.
  - exists 0%N. split; [reflexivity|]. left. split; auto.
  - destruct IH as (v & E & C); [intros h' g' I; apply P, in_or_app; now left|].
    destruct (P h g) as (G & p & M & FX & FY); [apply in_or_app; right; now left|].
    unfold composite_value in *. rewrite for_each_app, E. cbn [bind for_each]. rewrite (place_fits _ _ _ M FX FY). cbn [bind].
    set (a := trunc (px p)) in *. set (b := trunc (py p)) in *.
    destruct ((0 <=? a) && (a <? g_w g) && (0 <=? b) && (b <? g_h g))%Z eqn:T.
    + assert (I : (0 <= a < g_w g)%Z /\ (0 <= b < g_h g)%Z) by lia. destruct G as [W H L X _].
      assert (R : (0 <= b * g_stride g /\ 0 <= b * g_stride g + a < g_h g * g_stride g)%Z) by nia.
      rewrite (chk_int_in (b * g_stride g)) by (unfold INT_MIN; lia). cbn [bind].
      rewrite (chk_int_in (b * g_stride g + a)) by (unfold INT_MIN; lia). cbn [bind]. rewrite (zget_lt _ _ 0%N) by lia. cbn [bind].
      eexists. split; [reflexivity|]. right. exists l, h, g, [], a, b. split; auto. split; [|split; [reflexivity|intros ? ? ? ? []]].
      exists p. split; auto. split; [apply trunc_whole|]. split; [apply trunc_whole|auto].
    + assert (NC : forall a' b', ~ covers h g x y a' b').
      { intros a' b' K. destruct (covers_trunc _ _ _ _ p _ _ M K) as (-> & -> & I). fold a b in I. lia. }
      cbn [bind]. exists v. split; [reflexivity|]. destruct C as [[-> C]|(l1 & h' & g' & l2 & a' & b' & -> & K & V & C)].
      * left. split; auto. intros h' g' a' b' I. apply in_app_or in I. destruct I as [I|[[= <- <-]|[]]]; auto.
      * right. exists l1, h', g', (l2 ++ [(h, g)]), a', b'. split; [now rewrite <- app_assoc|]. split; auto. split; auto.
        intros h'' g'' a'' b'' I. apply in_app_or in I. destruct I as [I|[[= <- <-]|[]]]; auto.
Qed.
Print Assumptions C167_value_partial.

(** The same for the whole panorama: all of its pixels are set so, and it keeps its size. *)
Theorem C167_composite_partial : forall l pan, gray_ok pan ->
  (forall x y h g, (0 <= x < g_w pan)%Z -> (0 <= y < g_h pan)%Z -> In (h, g) l ->
     gray_ok g /\ exists p, maps_to h (V2 (IZR x) (IZR y)) p /\ fits (px p) /\ fits (py p)) ->
  exists pan', fill l pan = Ok pan' /\ g_w pan' = g_w pan /\ g_h pan' = g_h pan /\ g_stride pan' = g_stride pan /\
  length (g_data pan') = length (g_data pan) /\
  forall x y, (0 <= x < g_w pan)%Z -> (0 <= y < g_h pan)%Z ->
  (Gray.px pan' x y = 0%Z /\ forall h g a b, In (h, g) l -> ~ covers h g x y a b) \/
  (exists l1 h g l2 a b, l = l1 ++ (h, g) :: l2 /\ covers h g x y a b /\ Gray.px pan' x y = Gray.px g a b /\
     forall h' g' a' b', In (h', g') l2 -> ~ covers h' g' x y a' b').
Proof.
  intros l pan G P. destruct (fill_ok l pan G) as (d & E & Ld & S).
  - intros x y X Y. destruct (C167_value_partial l x y) as (v & V & _); [intros; now apply P|eauto].
  - eexists. split; [exact E|]. cbn [g_w g_h g_stride g_data]. repeat (split; [reflexivity || assumption|]).
    intros x y X Y. destruct (C167_value_partial l x y) as (v & V & C); [intros; now apply P|]. rewrite (S x y X Y) in V. injection V as V.
    unfold Gray.px at 1 2. cbn [g_stride g_data]. rewrite V. destruct C as [[-> C]|C]; [left; auto|right; exact C].
Qed.
Print Assumptions C167_composite_partial.

(** Finding: coordinates lose their fraction towards zero, so an image of one pixel that is
    moved half a pixel to the left and up gets a panorama without pixels. *)
Definition half : mat3 := M3 1 0 0 0 1 0 (-1/2) (-1/2) 1.
Definition one : gray := {| g_w := 1; g_h := 1; g_stride := 1; g_data := [7%N] |}.
Lemma half_place x y : (x = 0 \/ x = 1) -> (y = 0 \/ y = 1) -> place half (V2 x y) = Ok (0%Z, 0%Z).
Proof.
  intros X Y. assert (M : maps_to half (V2 x y) (V2 (x - 1/2) (y - 1/2))).
  { exists 1. split; [lra|]. rewrite lin_h3. unfold half, vscale, h3. cbn [m0 m1 m2 m3 m4 m5 m6 m7 m8 px py v0 v1 v2]. apply V3_eq; lra. }
  rewrite (place_fits _ _ _ M); cbn [px py]; [|unfold fits, INT_MIN, INT_MAX; lra..].
  rewrite (whole_trunc (x - 1/2) 0), (whole_trunc (y - 1/2) 0); [reflexivity| |]; [exists (y - 1/2)|exists (x - 1/2)]; lra.
Qed.
Theorem C167_lost_refuted : exists l hs, create_reference l = Ok (0%Z, 0%Z, hs) /\
  exists h g, In (h, g) l /\ gray_ok g /\ (0 < g_w g)%Z /\ (0 < g_h g)%Z /\ in_front h g.
Proof.
  exists [(half, one)]. eexists. split.
  - unfold create_reference, box, pairs, corners, no_dims. cbn [flat_map map app one g_w g_h for_each]. unfold box_step. cbn [fst snd]. rewrite !half_place by auto. cbn. reflexivity.
  - exists half, one. split; [now left|]. split; [constructor; cbn; try lia; [unfold INT_MAX; lia|repeat constructor]|].
    split; [reflexivity|]. split; [reflexivity|]. intros [x y] _. cbn. lra.
Qed.
Print Assumptions C167_lost_refuted.

(** Finding: a pixel of the panorama on the line that goes to infinity in some image is
    converted to int from an infinity or NaN, which is undefined. *)
Theorem C167_horizon_refuted : forall h g l x y, v2 (lin h (h3 (V2 (IZR x) (IZR y)))) = 0 -> composite_value ((h, g) :: l) x y = UB.
Proof.
  intros h g l x y Z. unfold composite_value. cbn [for_each]. unfold place.
  destruct (transfer_fwd h (V2 (IZR x) (IZR y))) as [p|] eqn:T; [|reflexivity]. exfalso.
  apply transfer_maps in T. destruct T as (w & W & E). rewrite E in Z. unfold vscale, h3 in Z. cbn [v2] in Z. lra.
Qed.
Print Assumptions C167_horizon_refuted.
(** The map of the horizon: x goes to infinity at column 2. *)
Example C167_horizon_example : composite_value [(M3 1 0 1 0 1 0 0 0 (-2), one)] 2 5 = UB.
Proof. apply C167_horizon_refuted. cbn. lra. Qed.

(** Two images of one pixel at the origin: the later one is seen. *)
Definition two : gray := {| g_w := 1; g_h := 1; g_stride := 1; g_data := [9%N] |}.
Lemma eye_maps x y : maps_to dmat3_eye (V2 x y) (V2 x y).
Proof. exists 1. split; [lra|]. cbv - [Rmult Rplus IZR]. f_equal; ring. Qed.
Lemma zfits z : (INT_MIN <= z <= INT_MAX)%Z -> fits (IZR z).
Proof. intros [A B]. apply IZR_le in A, B. unfold fits. lra. Qed.
Lemma zwhole z : whole (IZR z) z.
Proof. exists 0. lra. Qed.
Lemma eye_place x y : (INT_MIN <= x <= INT_MAX)%Z -> (INT_MIN <= y <= INT_MAX)%Z -> place dmat3_eye (V2 (IZR x) (IZR y)) = Ok (x, y).
Proof.
  intros X Y. rewrite (place_fits _ _ _ (eye_maps _ _)); cbn [px py]; [|now apply zfits..].
  now rewrite !(whole_trunc _ _ (zwhole _)).
Qed.
Example C167_value_example : composite_value [(dmat3_eye, one); (dmat3_eye, two)] 0 0 = Ok 9%N /\ composite_value [(dmat3_eye, one); (dmat3_eye, two)] 1 0 = Ok 0%N.
Proof. unfold composite_value. cbn [for_each]. rewrite !eye_place by (unfold INT_MIN, INT_MAX; lia). split; reflexivity. Qed.
Example C167_frame_example : exists hs, create_reference [(dmat3_eye, one)] = Ok (1%Z, 1%Z, hs) /\ in_front dmat3_eye one.
Proof.
  eexists. split.
  - unfold create_reference, box, pairs, corners, no_dims. cbn [flat_map map app one g_w g_h for_each]. unfold box_step. cbn [fst snd]. rewrite !eye_place by (unfold INT_MIN, INT_MAX; lia). cbn. reflexivity.
  - intros [x y] _. cbn. lra.
Qed.
(** A panorama of two pixels over one image of one pixel. *)
Example C167_composite_example : fill [(dmat3_eye, two)] {| g_w := 2; g_h := 1; g_stride := 2; g_data := [5%N; 5%N] |} =
  Ok {| g_w := 2; g_h := 1; g_stride := 2; g_data := [9%N; 0%N] |}.
Proof.
  unfold fill. cbn [g_w g_h g_stride g_data]. change (zrange 0 1) with [0%Z]. change (zrange 0 2) with [0%Z; 1%Z]. cbn [for_each].
  unfold composite_value. cbn [for_each]. rewrite !eye_place by (unfold INT_MIN, INT_MAX; lia). reflexivity.
Qed.
