(** C43-C46 and C66: FAST-9 corners. *)
From Verif Require Import Base BaseLemmas Gray FastTree FastModel FastSpec FastTreeProofs FastProofs FastNonmax FastPyr.
Local Open Scope Z_scope.

(** A 7 x 7 image whose only interior pixel has the given circle. *)
Definition circ_img (c bg : N) (vs : list N) : gray :=
  {| g_w := 7; g_h := 7; g_stride := 7;
     g_data := map (fun '(x, y) => if (x =? 3) && (y =? 3) then c else
        match find (fun i => let '(dx, dy) := nth i circle (0, 0) in (x =? 3 + dx) && (y =? 3 + dy)) (seq 0 16) with
        | Some i => nth i vs 0%N | None => bg end) (raster 0 7 0 7) |}.

(** * C43 *)
Theorem C43_detects_exactly_the_segment_test_corners : forall g t n,
  gray_ok g -> 3 * g_stride g + 1 <= INT_MAX -> 0 <= t <= INT_MAX - 255 -> 0 <= n ->
  exists l keys, corners_of g t l /\ detect_keypoints n g t = Ok keys /\ map pos keys = firstn (Z.to_nat n) l /\
    map k_id keys = map Z.of_nat (seq 0 (length keys)) /\
    forall k, In k keys -> k_xs k = k_x k /\ k_ys k = k_y k /\ k_level k = 0 /\ k_scale k = F_ONE /\ k_sigma k = 0%N /\ k_score k = 0 /\ k_ori k = 0%N.
Proof.
  intros g t n G R T N. exists (corner_list g t), (keys_at (firstn (Z.to_nat n) (corner_list g t))).
  split; [apply corner_list_ok; lia|]. split; [now apply detect_keypoints_ok|]. split; [apply keys_at_pos|]. split.
  - rewrite keys_at_ids. do 2 f_equal. rewrite <- (map_length pos), keys_at_pos. reflexivity.
  - intros k K. apply keys_at_in in K as [_ [i ->]]. cbn. auto 10.
Qed.
Print Assumptions C43_detects_exactly_the_segment_test_corners.
(** The list of corners is determined by its specification. *)
Theorem C43_corners_unique : forall g t l l', corners_of g t l -> corners_of g t l' -> l = l'.
Proof.
  intros g t l l' [S I] [S' I'].
  assert (forall p, In p l <-> In p l') as E by (intros [x y]; rewrite I, I'; reflexivity). clear I I'.
  revert l' S' E. induction S as [|a l S IH F]; intros l' S' E.
  - destruct l' as [|b l']; [reflexivity|]. exfalso. apply (E b). now left.
  - destruct l' as [|b l']; [exfalso; apply (E a); now left|]. apply StronglySorted_inv in S' as [S' F']. rewrite Forall_forall in F, F'.
    assert (forall p, ~ before p p) as IR by (intros p [X|[_ X]]; lia).
    assert (a = b) as ->.
    { destruct (proj1 (E a) ltac:(now left)) as [->|A]; [reflexivity|]. destruct (proj2 (E b) ltac:(now left)) as [->|B]; [reflexivity|].
      specialize (F b B). specialize (F' a A). destruct F as [X|[X1 X2]], F' as [Y|[Y1 Y2]]; exfalso; lia. }
    f_equal. apply IH; [exact S'|]. intro p. split; intro P.
    + destruct (proj1 (E p) ltac:(now right)) as [->|]; [|assumption]. exfalso. eapply IR, F, P.
    + destruct (proj2 (E p) ltac:(now right)) as [->|]; [|assumption]. exfalso. eapply IR, F', P.
Qed.
Print Assumptions C43_corners_unique.
Example C43_example : gray_ok (circ_img 100 0 (repeat 200%N 9 ++ repeat 0%N 7)) /\
  map (fun t => fast9_detect (circ_img 100 0 (repeat 200%N 9 ++ repeat 0%N 7)) t 10) [5; 99; 100; 101] = [Ok [(3, 3)]; Ok [(3, 3)]; Ok []; Ok []] /\
  fast9_detect (circ_img 100 0 (repeat 200%N 8 ++ repeat 0%N 8)) 99 10 = Ok [] /\
  fast9_detect (circ_img 100 0 (repeat 20%N 5 ++ repeat 100%N 7 ++ repeat 20%N 4)) 79 10 = Ok [(3, 3)].
Proof.
  split; [|vm_compute; repeat split; reflexivity]. constructor; [vm_compute; split; discriminate|vm_compute; discriminate|reflexivity|vm_compute; discriminate|].
  unfold bytes_ok. apply Forall_forall. intros b B. apply (proj1 (forallb_forall (fun b => N.ltb b 256) _)) with (x := b) in B; [|vm_compute; reflexivity].
  unfold byte_ok. apply N.ltb_lt. exact B.
Qed.
(** With a negative threshold pixels can be both brighter and darker, and the
    tree tests for brighter first: here nine contiguous circle pixels are
    darker than centre + 10, yet no corner is reported. *)
Theorem C43_negative_threshold_refuted : exists g t, gray_ok g /\ t < 0 /\ seg_test g 3 3 t /\ inside g 3 3 /\ fast9_detect g t 10 = Ok [].
Proof.
  exists (circ_img 100 0 ([100]%N ++ repeat 80%N 8 ++ repeat 120%N 7)), (-10). split; [|split; [lia|split; [|split]]].
  - constructor; [vm_compute; split; discriminate|vm_compute; discriminate|reflexivity|vm_compute; discriminate|].
    unfold bytes_ok. apply Forall_forall. intros b B. apply (proj1 (forallb_forall (fun b => N.ltb b 256) _)) with (x := b) in B; [|vm_compute; reflexivity].
    unfold byte_ok. apply N.ltb_lt. exact B.
  - exists 0%nat. split; [lia|]. right. intros i I. do 9 (destruct i as [|i]; [vm_compute; reflexivity|]). lia.
  - vm_compute. intuition discriminate.
  - vm_compute. reflexivity.
Qed.
Print Assumptions C43_negative_threshold_refuted.

(** * C44 *)
Theorem C44_score_is_the_largest_threshold : forall fuel keys g t,
  gray_ok g -> 3 * g_stride g + 1 <= INT_MAX -> 0 <= t <= 255 -> (8 <= fuel)%nat ->
  (forall k, In k keys -> inside g (k_x k) (k_y k)) ->
  exists ss, score_keypoints fuel keys g t = Ok (map (fun '(k, s) => k_with_score k s) (combine keys ss)) /\
    Forall2 (fun k s => (seg_test g (k_x k) (k_y k) t -> best_threshold g (k_x k) (k_y k) s) /\
                        (~ seg_test g (k_x k) (k_y k) t -> s = t) /\ t <= s <= 255) keys ss.
Proof. intros. now apply score_keypoints_ok. Qed.
Print Assumptions C44_score_is_the_largest_threshold.
(** Detecting and then scoring gives every corner its best threshold. *)
Theorem C44_detected_corners_scored : forall fuel g t n,
  gray_ok g -> 3 * g_stride g + 1 <= INT_MAX -> 0 <= t <= 255 -> 0 <= n -> (8 <= fuel)%nat ->
  exists keys keys', detect_keypoints n g t = Ok keys /\ score_keypoints fuel keys g t = Ok keys' /\ map pos keys' = map pos keys /\
    forall k, In k keys' -> best_threshold g (k_x k) (k_y k) (k_score k).
Proof.
  intros fuel g t n G R T N F. assert (0 <= t <= INT_MAX - 255) as T' by (rewrite int_max; lia).
  set (ps := firstn (Z.to_nat n) (corner_list g t)).
  assert (forall p, In p ps -> inside g (fst p) (snd p) /\ seg_test g (fst p) (snd p) t) as PS.
  { intros [x y] I. apply (co_iff g t _ (corner_list_ok g t ltac:(lia))). unfold ps in I. rewrite <- (firstn_skipn (Z.to_nat n)). apply in_or_app. now left. }
  destruct (score_keypoints_ok fuel (keys_at ps) g t G R T F) as (ss & E & Q).
  { intros k K. apply keys_at_in in K as [K _]. apply (PS _ K). }
  exists (keys_at ps), (map (fun '(k, s) => k_with_score k s) (combine (keys_at ps) ss)).
  split; [now apply detect_keypoints_ok|]. split; [exact E|]. split.
  - clear -Q. induction Q as [|k s ks ss H Q IH]; cbn; [reflexivity|]. now rewrite IH.
  - intros k K. apply in_map_iff in K as ([k0 s] & <- & K).
    assert (In k0 (keys_at ps) /\ is_score g (k_x k0) (k_y k0) t s) as [K0 IS].
    { clear -Q K. induction Q as [|a b ks ss H Q IH]; cbn in K; [destruct K|]. destruct K as [[= -> ->]|K]; [split; [now left|exact H]|].
      destruct (IH K). split; [now right|assumption]. }
    apply keys_at_in in K0 as [K0 _]. cbn. apply IS. apply (PS _ K0).
Qed.
Print Assumptions C44_detected_corners_scored.
Example C44_example : score_keypoints 8 [key_at 0 (3, 3)] (circ_img 100 0 (repeat 200%N 9 ++ repeat 0%N 7)) 15
  = Ok [k_with_score (key_at 0 (3, 3)) 99].
Proof. vm_compute. reflexivity. Qed.
(** Scoring with a start threshold above 255 never returns, whatever the
    image: the search interval is empty and its ends never meet. *)
Theorem C44_high_threshold_refuted : forall g t k fuel,
  gray_ok g -> 3 * g_stride g + 1 <= INT_MAX -> inside g (k_x k) (k_y k) -> 256 <= t <= 1000000000 ->
  score_keypoints fuel [k] g t = NoFuel.
Proof.
  intros g t k fuel G R I T. unfold score_keypoints. rewrite make_offsets_ok; [|destruct G; lia|exact R]. cbn [bind for_each]. pose proof I as [X Y].
  destruct (px_index g (k_x k) (k_y k) G) as [_ J]; [lia|lia|]. rewrite chk_int_in by (rewrite int_min; lia). cbn [bind].
  unfold corner_score. rewrite chk_int_in by (rewrite int_min, int_max; lia). cbn [bind]. rewrite (Z.add_comm 255).
  rewrite score_loop_stuck by (auto; lia). reflexivity.
Qed.
Print Assumptions C44_high_threshold_refuted.

(** * C45 *)
Theorem C45_keeps_exactly_the_local_maxima : forall c n_max,
  StronglySorted before (map pos c) -> (forall k, In k c -> 0 <= k_y k) ->
  exists ks out, maxima_of c ks /\ suppress_keypoints n_max c = Ok out /\
    map (fun k => k_with_id k 0) out = map (fun k => k_with_id k 0) (firstn (Z.to_nat n_max) ks) /\
    map k_id out = map Z.of_nat (seq 0 (length out)).
Proof.
  intros c n_max S Y. exists (kept c), (renumber (firstn (Z.to_nat n_max) (kept c))). split; [now apply kept_ok|]. split; [now apply suppress_ok|].
  split; [apply renumber_nid|]. unfold renumber. rewrite (map_combine_ids (fun i k => k_with_id k (Z.of_nat i)) k_id 0) by reflexivity.
  rewrite map_length, combine_length, seq_length, Nat.min_id. now apply map_ext.
Qed.
Print Assumptions C45_keeps_exactly_the_local_maxima.
Example C45_example : let k x y s := k_with_score (key_at 0 (x, y)) s in
  let c := [k 3 3 20; k 4 3 25; k 9 3 7; k 10 4 7; k 4 5 30; k 5 6 29; k 9 6 12] in
  StronglySorted before (map pos c) /\ bind (suppress_keypoints 10 c) (fun l => Ok (map pos l)) = Ok [(4, 3); (4, 5); (9, 6)].
Proof.
  cbv zeta. split; [|vm_compute; reflexivity].
  cbn. repeat (constructor; [|repeat (apply Forall_cons || apply Forall_nil); unfold before; cbn; lia]). constructor.
Qed.

(** * C66 *)
Theorem C66_orientation_of_the_disc : forall atan2 d r g keys,
  gray_ok g -> 0 < r <= 128 -> r * (g_stride g + 1) <= INT_MAX ->
  exists d', set_ori_param d true r = Ok d' /\ d_threshold d' = d_threshold d /\
    exists keys', ori_step atan2 d' g keys = Ok keys' /\
      Forall2 (fun k k' => (fit r g (k_x k) (k_y k) -> k' = k_with_ori k (atan2 (moment_y g (k_x k) (k_y k) r) (moment_x g (k_x k) (k_y k) r))) /\
                           (~ fit r g (k_x k) (k_y k) -> k' = k)) keys keys'.
Proof.
  intros atan2 d r g keys G R O. unfold set_ori_param. destruct (Z.leb_spec r 0); [lia|]. rewrite ic_table_ok by lia. cbn [bind].
  eexists. split; [reflexivity|]. split; [reflexivity|]. unfold ori_step. cbn [d_ori]. rewrite compute_ori_ok by assumption.
  eexists. split; [reflexivity|]. induction keys as [|k keys IH]; cbn; constructor; [|exact IH].
  unfold with_orientation, fit. destruct (_ && _ && _ && _) eqn:E; split; intro H0; try reflexivity; exfalso; lia.
Qed.
Print Assumptions C66_orientation_of_the_disc.
Example C66_example : disc 2 = [(-1, -1); (0, -1); (1, -1); (-1, 0); (0, 0); (1, 0); (-1, 1); (0, 1); (1, 1)] /\
  ori_step (fun a b => Z.to_N (1000 * a + b)) {| d_threshold := 15; d_work := 10; d_ori := Some (3, disc 3) |}
    (circ_img 100 0 (repeat 200%N 9 ++ repeat 0%N 7)) [key_at 0 (3, 3); key_at 1 (4, 3)]
  = Ok [k_with_ori (key_at 0 (3, 3)) 800; key_at 1 (4, 3)].
Proof. vm_compute. split; reflexivity. Qed.

(** * C46 *)
Lemma no_ori g : ori_good (fun _ _ _ => 0%N) (fun _ l => Ok l) g.
Proof.
  intros keys H. f_equal. induction keys as [|k keys IH]; cbn; [reflexivity|]. f_equal; [|apply IH; intros; apply H; now right].
  destruct (H k ltac:(now left)) as [E _]. destruct k. cbn in *. now rewrite E.
Qed.
Lemma with_ori atan2 r g : gray_ok g -> 0 < r <= 128 -> ori_room r g ->
  ori_good (orientation atan2 (Some r)) (fun g l => compute_ori atan2 r (disc r) g l) g.
Proof.
  intros G R O keys H. rewrite compute_ori_ok by assumption. f_equal. apply map_ext_in. intros k K. destruct (H k K) as [E _].
  unfold with_orientation, orientation. destruct (_ && _ && _ && _); [reflexivity|]. destruct k. cbn in *. now rewrite E.
Qed.
Lemma flat_map_nil {A B} (f : A -> list B) l : (forall a, In a l -> f a = []) -> flat_map f l = [].
Proof. induction l as [|a l IH]; intro H; cbn; [reflexivity|]. rewrite H by now left. apply IH. intros; apply H; now right. Qed.
Lemma key_levels_le a n : 0 <= n -> 0 <= key_levels a n <= n.
Proof. unfold key_levels. intros. destruct (Z.leb_spec a 0); cbn; [lia|]. destruct (Z.ltb_spec n a); lia. Qed.
Lemma no_work O g t ks : image_keys O g t 0 ks -> ks = [].
Proof.
  intros [(l & cs & _ & P & _ & ms & M & Q & _) _ _]. cbn in P. destruct cs; [|discriminate]. destruct ms as [|m ms].
  - destruct ks; [reflexivity|discriminate].
  - exfalso. apply (mo_iff _ _ M m). now left.
Qed.

(** A pyramid whose images can be searched. *)
Definition pyr_ok (levels : list plevel) : Prop := forall lv, In lv levels -> gray_ok (pl_img lv) /\ 3 * g_stride (pl_img lv) + 1 <= INT_MAX.
(** The keypoints of the lowest [nl] levels, coarse to fine, each with the
    data of its level. *)
Definition all_keys (levels : list plevel) (nl : nat) (kss : list (list kp)) : list kp :=
  flat_map (fun i => map (at_level i (nth i levels lv0)) (nth i kss [])) (rev (seq 0 nl)).
(** How many levels are searched. *)
Definition searched (n_key_levels : Z) (levels : list plevel) : nat :=
  if (1 <=? n_key_levels) && (n_key_levels <=? Z.of_nat (length levels)) then Z.to_nat n_key_levels else length levels.
Lemma searched_eq a levels : Z.to_nat (key_levels a (Z.of_nat (length levels))) = searched a levels.
Proof.
  unfold key_levels, searched. destruct (Z.leb_spec a 0), (Z.leb_spec 1 a); try lia; cbn; [apply Nat2Z.id|].
  destruct (Z.ltb_spec (Z.of_nat (length levels)) a), (Z.leb_spec a (Z.of_nat (length levels))); try lia; apply Nat2Z.id.
Qed.

Theorem C46_pyramid_detection : forall fuel n_supp n_keys levels t n_key_levels,
  pyr_ok levels -> 0 <= t <= 255 -> 0 <= n_supp -> 0 <= n_keys -> (8 <= fuel)%nat ->
  exists kss out, length kss = length levels /\
    (forall i, (i < length levels)%nat -> image_keys (fun _ _ _ => 0%N) (pl_img (nth i levels lv0)) t n_keys (nth i kss [])) /\
    detect_keypoints_pyr fuel n_supp n_keys levels t n_key_levels = Ok out /\
    map what out = map what (firstn (Z.to_nat n_supp) (all_keys levels (searched n_key_levels levels) kss)) /\
    map k_id out = map Z.of_nat (seq 0 (length out)) /\ Z.of_nat (length out) <= n_supp.
Proof.
  intros fuel n_supp n_keys levels t nkl PO T S N F.
  destruct (pyr_levels_ok (fun _ _ _ => 0%N) (fun _ l => Ok l) fuel n_keys t levels) as (kss & KL & IK & RUN); auto.
  { intros lv I. destruct (PO lv I). split; [assumption|]. split; [assumption|apply no_ori]. }
  pose proof (key_levels_le nkl (Z.of_nat (length levels)) ltac:(lia)) as KB.
  destruct (RUN (rev (seq 0 (Z.to_nat (key_levels nkl (Z.of_nat (length levels)))))) n_supp) as (out & room & fin & E & W & ID); [|exact S|].
  { intros i I. apply in_rev, in_seq in I. lia. }
  assert (Z.of_nat (length out) <= n_supp) as LB.
  { apply (f_equal (@length _)) in W. rewrite !map_length, firstn_length in W. lia. }
  rewrite searched_eq in W. exists kss. unfold detect_keypoints_pyr.
  destruct (Z.ltb_spec n_supp 0); [lia|]. destruct (Z.ltb_spec n_keys 0); [lia|]. cbn [orb].
  destruct (Z.eqb_spec n_supp 0) as [->|]; cbn [orb].
  { exists []. split; [exact KL|]. split; [exact IK|]. split; [reflexivity|]. split; [reflexivity|]. split; [reflexivity|cbn; lia]. }
  destruct (Z.eqb_spec n_keys 0) as [->|]; cbn [orb].
  { exists []. split; [exact KL|]. split; [exact IK|]. split; [reflexivity|]. split; [|split; [reflexivity|cbn; lia]].
    assert (all_keys levels (searched nkl levels) kss = []) as ->; [|now rewrite firstn_nil].
    unfold all_keys. apply flat_map_nil. intros i I. apply in_rev, in_seq in I.
    assert (i < length levels)%nat as L by (rewrite <- searched_eq in I; lia). now rewrite (no_work _ _ _ _ (IK i L)). }
  rewrite E. cbn [bind fst]. exists out. auto 10.
Qed.
Print Assumptions C46_pyramid_detection.
(** The same through the detector object, with or without orientations. *)
Definition ori_radius (d : detector) : option Z := match d_ori d with Some (r, _) => Some r | None => None end.
(** The orientation settings nx_fast_detector_set_ori_param can leave. *)
Definition detector_ok (d : detector) (levels : list plevel) : Prop :=
  match d_ori d with
  | None => True
  | Some (r, tab) => ic_table r = Ok tab /\ 0 < r <= 128 /\ forall lv, In lv levels -> r * (g_stride (pl_img lv) + 1) <= INT_MAX
  end.
Theorem C46_detector_pyramid : forall atan2 fuel d max levels n_key_levels,
  pyr_ok levels -> detector_ok d levels -> 0 <= d_threshold d <= 255 -> 0 <= max -> 0 <= d_work d -> max * d_work d <= INT_MAX -> (8 <= fuel)%nat ->
  exists kss out, length kss = length levels /\
    (forall i, (i < length levels)%nat ->
       image_keys (orientation atan2 (ori_radius d)) (pl_img (nth i levels lv0)) (d_threshold d) (max * d_work d) (nth i kss [])) /\
    detector_detect_pyr atan2 fuel d max levels n_key_levels = Ok out /\
    map what out = map what (firstn (Z.to_nat max) (all_keys levels (searched n_key_levels levels) kss)) /\
    map k_id out = map Z.of_nat (seq 0 (length out)) /\ Z.of_nat (length out) <= max.
Proof.
  intros atan2 fuel d max levels nkl PO DO T M W0 WM F.
  destruct (pyr_levels_ok (orientation atan2 (ori_radius d)) (ori_step atan2 d) fuel (max * d_work d) (d_threshold d) levels) as (kss & KL & IK & RUN); auto; [|nia|].
  { intros lv I. destruct (PO lv I) as [G R]. split; [assumption|]. split; [assumption|]. unfold ori_step, ori_radius, detector_ok in *.
    destruct (d_ori d) as [[r tab]|].
    - destruct DO as (IC & RB & RM). rewrite ic_table_ok in IC by lia. injection IC as <-. intros keys H. apply with_ori; auto. apply RM, I.
    - exact (no_ori (pl_img lv)). }
  pose proof (key_levels_le nkl (Z.of_nat (length levels)) ltac:(lia)) as KB.
  destruct (RUN (rev (seq 0 (Z.to_nat (key_levels nkl (Z.of_nat (length levels)))))) max) as (out & room & fin & E & W & ID); [|exact M|].
  { intros i I. apply in_rev, in_seq in I. lia. }
  assert (Z.of_nat (length out) <= max) as LB.
  { apply (f_equal (@length _)) in W. rewrite !map_length, firstn_length in W. lia. }
  rewrite searched_eq in W. exists kss, out. unfold detector_detect_pyr. rewrite chk_int_in by (rewrite int_min; nia). cbn [bind]. rewrite E. cbn [bind fst]. auto 10.
Qed.
Print Assumptions C46_detector_pyramid.
Theorem C46_detector_image : forall atan2 fuel d max g,
  pyr_ok [{| pl_img := g; pl_scale := F_ONE; pl_sigma := 0 |}] -> detector_ok d [{| pl_img := g; pl_scale := F_ONE; pl_sigma := 0 |}] ->
  0 <= d_threshold d <= 255 -> 0 <= max -> 0 <= d_work d -> max * d_work d <= INT_MAX -> (8 <= fuel)%nat ->
  exists ks out, image_keys (orientation atan2 (ori_radius d)) g (d_threshold d) (max * d_work d) ks /\
    detector_detect atan2 fuel d max g = Ok out /\
    map (fun k => k_with_id k 0) out = map (fun k => k_with_id k 0) (firstn (Z.to_nat max) ks) /\ Z.of_nat (length out) <= max.
Proof.
  intros atan2 fuel d max g PO DO T M W0 WM F. destruct (PO _ ltac:(now left)) as [G R]. cbn [pl_img] in G, R.
  destruct (level_run_ok (orientation atan2 (ori_radius d)) (ori_step atan2 d) fuel (max * d_work d) (d_threshold d) g G R T ltac:(nia) F) as (ks & IK & RUN).
  { unfold ori_step, ori_radius, detector_ok in *. destruct (d_ori d) as [[r tab]|].
    - destruct DO as (IC & RB & RM). rewrite ic_table_ok in IC by lia. injection IC as <-. intros keys H. apply with_ori; auto. apply (RM _ ltac:(now left)).
    - exact (no_ori g). }
  destruct (RUN max) as (L & E & LN & LB). exists ks, L. split; [exact IK|]. unfold detector_detect. rewrite chk_int_in by (rewrite int_min; nia). cbn [bind].
  split; [exact E|]. split; [exact LN|]. lia.
Qed.
Print Assumptions C46_detector_image.
Example C46_example : let img := circ_img 100 0 (repeat 200%N 9 ++ repeat 0%N 7) in
  let lv s := {| pl_img := img; pl_scale := s; pl_sigma := s |} in
  bind (detect_keypoints_pyr 8 10 5 [lv 1%N; lv 2%N; lv 3%N] 20 2) (fun l => Ok (map (fun k => (k_id k, k_level k, k_scale k, pos k, k_score k)) l))
  = Ok [(0, 1, 2%N, (3, 3), 99); (1, 0, 1%N, (3, 3), 99)].
Proof. vm_compute. reflexivity. Qed.

(** Adapting the threshold after any number of frames keeps it in [5, 250]. *)
Theorem C46_adaptive_threshold_in_range : forall t frames,
  5 <= t <= 250 -> (forall n m, In (n, m) frames -> -2000000 <= m <= 2000000) ->
  exists t', for_each (fun '(n, m) t => adapt_threshold t n m) frames t = Ok t' /\ 5 <= t' <= 250.
Proof.
  intros t frames T H. revert t T. induction frames as [|[n m] frames IH]; intros t T; cbn [for_each]; [eauto|].
  pose proof (H n m ltac:(now left)) as M.
  assert (exists t', adapt_threshold t n m = Ok t' /\ 5 <= t' <= 250) as (t' & -> & T').
  { unfold adapt_threshold. rewrite !chk_int_in by (rewrite int_min, int_max; lia). cbn [bind].
    destruct (Z.shiftr (1014 * m) 10 <=? n); cbn [bind]; [|destruct (n <=? Z.shiftr (716 * m) 10); cbn [bind]; [|destruct (n <=? Z.shiftr (921 * m) 10); cbn [bind]]];
    match goal with |- exists t', (if (5 <=? ?a) && (?a <=? 250) then _ else _) = _ /\ _ =>
      exists a; destruct (Z.leb_spec 5 a), (Z.leb_spec a 250); cbn [andb]; try lia; auto end. }
  cbn [bind]. apply IH; [|exact T']. intros; eapply H. right. eassumption.
Qed.
Print Assumptions C46_adaptive_threshold_in_range.
(** In which direction it moves: up when the budget is (nearly) exhausted, down
    when little was found.  (For budgets below 4 the limits coincide and the
    threshold goes up even when nothing was found.) *)
Theorem C46_adaptive_threshold_direction : forall t n m,
  5 <= t <= 250 -> 4 <= m <= 2000000 ->
  exists t', adapt_threshold t n m = Ok t' /\
    (m <= n -> t' = Z.min 250 (t + 3)) /\ (1024 * n <= 716 * m -> t' = Z.max 5 (t - 3)) /\ (t' < t -> 1024 * n <= 921 * m) /\ (t < t' -> 1014 * m < 1024 * (n + 1)).
Proof.
  intros t n m T M. unfold adapt_threshold. rewrite !chk_int_in by (rewrite int_min, int_max; lia). cbn [bind].
  rewrite !Z.shiftr_div_pow2 by lia. change (2 ^ 10) with 1024.
  pose proof (Z.div_mod (1014 * m) 1024 ltac:(lia)). pose proof (Z.mod_pos_bound (1014 * m) 1024 ltac:(lia)).
  pose proof (Z.div_mod (716 * m) 1024 ltac:(lia)). pose proof (Z.mod_pos_bound (716 * m) 1024 ltac:(lia)).
  pose proof (Z.div_mod (921 * m) 1024 ltac:(lia)). pose proof (Z.mod_pos_bound (921 * m) 1024 ltac:(lia)).
  set (a := 1014 * m / 1024) in *. set (b := 716 * m / 1024) in *. set (c := 921 * m / 1024) in *. clearbody a b c.
  set (a' := (1014 * m) mod 1024) in *. set (b' := (716 * m) mod 1024) in *. set (c' := (921 * m) mod 1024) in *. clearbody a' b' c'.
  destruct (Z.leb_spec a n); cbn [bind]; [|destruct (Z.leb_spec n b); cbn [bind]; [|destruct (Z.leb_spec n c); cbn [bind]]];
  match goal with |- exists t', (if (5 <=? ?a) && (?a <=? 250) then _ else _) = _ /\ _ =>
      exists a; destruct (Z.leb_spec 5 a), (Z.leb_spec a 250); cbn [andb]; try lia end;
  (split; [reflexivity|]); repeat split; intros; lia.
Qed.
Print Assumptions C46_adaptive_threshold_direction.
Example C46_adapt_example : for_each (fun '(n, m) t => adapt_threshold t n m) [(1000, 1000); (500, 1000); (890, 1000); (950, 1000)] 15 = Ok 14.
Proof. vm_compute. reflexivity. Qed.
