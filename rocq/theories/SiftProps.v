(** Properties C101 to C108: matching of SIFT descriptors, the key store, the
    caches, and parts of the detector. *)
From Verif Require Import Base BaseLemmas Bytes Gray Flt MatModel KeyModel KeyProofs ShaModel ShaSpec ShaProofs SiftModel SiftSpec SiftProofs SiftCache
  SiftDogModel SiftDogSpec SiftDogProofs SiftHist SiftCell OptModel OptSpec SiftOpt.

Local Open Scope Z_scope.

(** C101: without a ratio threshold (not strictly between 0 and 1) every
    keypoint is matched with its nearest neighbour, the first one on ties; the
    rest of the result array stays as it was. *)
Theorem C101_nearest_partial : forall n keys desc np keyps descp corr thr,
  bytes_ok desc -> bytes_ok descp -> (n <= length keys)%nat -> (128 * n <= length desc)%nat -> (np <= length keyps)%nat -> (128 * np <= length descp)%nat ->
  Z.of_nat n < 2 ^ 24 -> Z.of_nat np < 2 ^ 24 -> (n <= length corr)%nat -> (0 < np)%nat ->
  f_gt thr F0 && f_lt thr F1 = false ->
  exists corr', nx_sift_match_brute_force (Z.of_nat n) keys desc (Z.of_nat np) keyps descp corr thr = Ok (Z.of_nat n, corr') /\
    length corr' = length corr /\ skipn n corr' = skipn n corr /\
    forall i, (i < n)%nat -> exists j k kp m, first_nearest (desc_dist desc descp i) np j /\ nth_error keys i = Some k /\ nth_error keyps j = Some kp /\
      nth_error corr' i = Some m /\ links k kp (desc_dist desc descp i j) m.
Proof. exact match_plain. Qed.
Print Assumptions C101_nearest_partial.

(** With nothing to match against, keyps[-1] is read. *)
Theorem C101_empty_refuted : forall n keys desc keyps descp corr thr, (0 < n <= length keys)%nat -> f_gt thr F0 && f_lt thr F1 = false ->
  nx_sift_match_brute_force (Z.of_nat n) keys desc 0 keyps descp corr thr = UB.
Proof. intros n keys desc keyps descp corr thr [H1 H2] T. now apply match_none_plain. Qed.
Print Assumptions C101_empty_refuted.

Definition ex_k (i : N) : key := Key 3 4 1077936128 1082130432 0 1065353216 1070386381 1120403456 0 i.
Definition ex_m : pmatch := PMatch F0 F0 F0 F0 F0 F0 F0 0 0 true.
Definition ex_desc (l : list N) : list N := concat (map (fun b => repeat b 128) l).
Example C101_example : exists corr', 
  nx_sift_match_brute_force 2 [ex_k 7; ex_k 8] (ex_desc [10; 20]%N) 3 [ex_k 1; ex_k 2; ex_k 3] (ex_desc [21; 9; 11]%N) [ex_m; ex_m; ex_m] F0 = Ok (2, corr') /\
  map (fun m => (p_id m, p_idp m, p_cost m)) corr' = [(7%N, 2%N, FF (128 * U)); (8%N, 1%N, FF (128 * U)); (0%N, 0%N, F0)] /\
  f_gt F0 F0 && f_lt F0 F1 = false.
Proof. eexists. split; [vm_compute; reflexivity|]. split; vm_compute; reflexivity. Qed.

(** C102: with a ratio threshold, the matches are those pairs, in order of the
    first set, whose distance passes the ratio test. *)
Theorem C102_ratio : forall n keys desc np keyps descp corr thr,
  bytes_ok desc -> bytes_ok descp -> (n <= length keys)%nat -> (128 * n <= length desc)%nat -> (np <= length keyps)%nat -> (128 * np <= length descp)%nat ->
  Z.of_nat n < 2 ^ 24 -> Z.of_nat np < 2 ^ 24 -> (n <= length corr)%nat -> (0 < np)%nat ->
  f_gt thr F0 && f_lt thr F1 = true ->
  exists prs corr', nx_sift_match_brute_force (Z.of_nat n) keys desc (Z.of_nat np) keyps descp corr thr = Ok (Z.of_nat (length prs), corr') /\
    StronglySorted lt (map fst prs) /\
    (forall i j, In (i, j) prs <-> (i < n)%nat /\ accepted desc descp np thr i j) /\
    length corr' = length corr /\ skipn (length prs) corr' = skipn (length prs) corr /\
    (forall q i j, nth_error prs q = Some (i, j) -> exists k kp m, nth_error keys i = Some k /\ nth_error keyps j = Some kp /\ nth_error corr' q = Some m /\ links k kp (desc_dist desc descp i j) m).
Proof. exact match_ratio. Qed.
Print Assumptions C102_ratio.
(** Nothing to match against: no matches. *)
Theorem C102_empty : forall n keys desc keyps descp corr thr, Z.of_nat n < 2 ^ 24 -> f_gt thr F0 && f_lt thr F1 = true ->
  nx_sift_match_brute_force (Z.of_nat n) keys desc 0 keyps descp corr thr = Ok (0, corr).
Proof. exact match_none_ratio. Qed.
Print Assumptions C102_empty.
Example C102_example : let thr := mkf (8 * U) 10 in exists corr',
  f_gt thr F0 && f_lt thr F1 = true /\
  nx_sift_match_brute_force 2 [ex_k 7; ex_k 8] (ex_desc [10; 20]%N) 3 [ex_k 1; ex_k 2; ex_k 3] (ex_desc [21; 9; 11]%N) [ex_m; ex_m; ex_m] thr = Ok (1, corr') /\
  map (fun m => (p_id m, p_idp m)) corr' = [(8, 1); (0, 0); (0, 0)]%N.
Proof. eexists. split; [vm_compute; reflexivity|]. split; vm_compute; reflexivity. Qed.

(** C103: a store that has room for two keypoints grows as needed; everything
    added is kept, in order, with its descriptor. *)
Theorem C103_store_partial : forall junkk junkd cap keys0 desc0 kds, (2 <= cap)%nat -> Z.of_nat cap < 2 ^ 24 -> length keys0 = cap -> length desc0 = (128 * cap)%nat ->
  Forall (fun kd => length (snd kd) = 128%nat) kds -> Z.of_nat (length kds) <= 10485760 ->
  exists s, for_each (add_key junkk junkd) kds (Store 0 (Z.of_nat cap) keys0 desc0) = Ok s /\
    st_n s = Z.of_nat (length kds) /\ st_n s <= st_cap s /\
    length (st_keys s) = Z.to_nat (st_cap s) /\ length (st_desc s) = (128 * Z.to_nat (st_cap s))%nat /\
    firstn (length kds) (st_keys s) = map fst kds /\ firstn (128 * length kds) (st_desc s) = concat (map snd kds).
Proof.
  intros junkk junkd cap keys0 desc0 kds C2 C24 LK LD F M. change (2 ^ 24) with 16777216 in C24.
  destruct (store_run junkk junkd kds [] (Store 0 (Z.of_nat cap) keys0 desc0)) as (s & E & (S1 & S2 & S3 & S4 & S5 & S6 & S7)); auto.
  - unfold store_ok. cbn [st_n st_cap st_keys st_desc length]. rewrite Nat2Z.id. repeat split; auto; lia.
  - cbn [app] in *. exists s. split; [exact E|]. split; [exact S1|]. split; [lia|]. auto.
Qed.
Print Assumptions C103_store_partial.
(** A caller that starts with no room (or room for one) is stopped when the
    store should grow: 1.6 times 0 or 1 is no more than before. *)
Theorem C103_small_refuted : forall junkk junkd,
  (forall kd keys0 desc0, add_key junkk junkd kd (Store 0 0 keys0 desc0) = Fatal) /\
  (forall kd keys0 desc0, add_key junkk junkd kd (Store 1 1 keys0 desc0) = Fatal).
Proof. intros. split; intros; reflexivity. Qed.
Print Assumptions C103_small_refuted.
Example C103_example : exists s, let kd i := (ex_k i, repeat i 128) in
  for_each (add_key (fun _ => ex_k 0) (fun _ => 0%N)) [kd 1%N; kd 2%N; kd 3%N; kd 4%N] (Store 0 2 [ex_k 9; ex_k 9] (repeat 0%N 256)) = Ok s /\
  st_n s = 4 /\ st_cap s = 4 /\ map k_id (st_keys s) = [1; 2; 3; 4]%N.
Proof. eexists. cbv zeta. split; [vm_compute; reflexivity|]. split; [reflexivity|]. split; reflexivity. Qed.

(** C104: any sequence of calls with one cache directory, empty at the start,
    gives what the calls without cache give, provided that inputs with the same
    hash have the same result. *)
Theorem C104_detect_partial : forall A (detect : simage -> list N -> A) v block0 W0 calls, length block0 = 64%nat -> length W0 = 64%nat ->
  Forall (fun q => msgs_ok (image_msgs (fst q) (snd q))) calls ->
  (forall im p im' p', In (im, p) calls -> In (im', p') calls ->
     sha256 (concat (image_msgs im p)) = sha256 (concat (image_msgs im' p')) -> detect im p = detect im' p') ->
  run_detect v block0 W0 detect calls [] = Ok (map (fun q => detect (fst q) (snd q)) calls).
Proof. intros A detect v block0 W0 calls HB HW M D. apply run_detect_ok; auto. discriminate. Qed.
Print Assumptions C104_detect_partial.
Theorem C104_match_partial : forall v block0 W0 calls (found : mcall -> list pmatch), length block0 = 64%nat -> length W0 = 64%nat ->
  Forall (fun q => msgs_ok (mc_msgs q) /\ mc_direct q = Ok (found q) /\ (length (found q) <= length (mc_corr q))%nat) calls ->
  (forall q q', In q calls -> In q' calls -> sha256 (concat (mc_msgs q)) = sha256 (concat (mc_msgs q')) -> found q = found q') ->
  run_match v block0 W0 calls [] = Ok (map found calls).
Proof. intros v block0 W0 calls found HB HW M D. apply run_match_ok; auto. discriminate. Qed.
Print Assumptions C104_match_partial.

(** The provision cannot be dropped, because sizes are not hashed: an image of
    another shape with the same bytes gets the keypoints of the first. *)
Theorem C104_shape_refuted : forall A (detect : simage -> list N -> A) v block0 W0, length block0 = 64%nat -> length W0 = 64%nat ->
  let im := SImage 3 2 false [[1; 2; 3]; [4; 5; 6]]%N in
  let im' := SImage 2 3 false [[1; 2]; [3; 4]; [5; 6]]%N in
  run_detect v block0 W0 detect [(im, [7%N]); (im', [7%N])] [] = Ok [detect im [7%N]; detect im [7%N]].
Proof.
  intros A detect v block0 W0 HB HW im im'. apply detect_confused; auto. split; [discriminate|]. split; [|reflexivity].
  unfold bytes_ok. repeat constructor.
Qed.
Print Assumptions C104_shape_refuted.
(** Of float images nothing is hashed: they all get the result of the first. *)
Theorem C104_float_refuted : forall A (detect : simage -> list N -> A) v block0 W0, length block0 = 64%nat -> length W0 = 64%nat ->
  forall w h rows w' h' rows' p, bytes_ok p -> (N.of_nat (length p) < 2 ^ 61)%N ->
  let im := SImage w h true rows in let im' := SImage w' h' true rows' in
  run_detect v block0 W0 detect [(im, p); (im', p)] [] = Ok [detect im p; detect im p].
Proof.
  intros A detect v block0 W0 HB HW w h rows w' h' rows' p Bp Lp im im'.
  assert (E : forall n, concat (repeat (@nil N) n ++ [p]) = p) by (intro n; induction n; cbn; [apply app_nil_r|auto]).
  apply detect_confused; auto.
  - split; [apply image_msgs_ne|]. unfold image_msgs, im. cbn [s_float s_h]. now rewrite E.
  - unfold image_msgs, im, im'. cbn [s_float s_h]. now rewrite !E.
Qed.
Print Assumptions C104_float_refuted.
(** Two keypoints against one, then one against two, all alike: the second call
    should find one match, and reports two; with room for one match it writes
    beyond the array. *)
Definition zero_key : list N * key := (repeat 0%N 4, Key 0 0 0 0 0 0 0 0 0 0).
Theorem C104_counts_refuted : forall v block0 W0, length block0 = 64%nat -> length W0 = 64%nat ->
  let k1 := [zero_key] in let k2 := [zero_key; zero_key] in let d1 := repeat 0%N 128 in let d2 := repeat 0%N 256 in
  (exists c2, nx_sift_match_brute_force 1 (map snd k1) d1 2 (map snd k2) d2 [ex_m; ex_m] F0 = Ok (1, c2)) /\
  (exists c r1 r2, match_with_cache (nx_sha256_multi (Some v) block0 W0) 2 k2 d2 1 k1 d1 [ex_m; ex_m] 0 [] = Ok (2, r1, c) /\
     match_with_cache (nx_sha256_multi (Some v) block0 W0) 1 k1 d1 2 k2 d2 [ex_m; ex_m] 0 c = Ok (2, r2, c)) /\
  (exists c r1, match_with_cache (nx_sha256_multi (Some v) block0 W0) 2 k2 d2 1 k1 d1 [ex_m; ex_m] 0 [] = Ok (2, r1, c) /\
     match_with_cache (nx_sha256_multi (Some v) block0 W0) 1 k1 d1 2 k2 d2 [ex_m] 0 c = UB).
Proof.
  intros v block0 W0 HB HW k1 k2 d1 d2.
  assert (M : msgs_ok (match_msgs 2 k2 d2 1 k1 d1 0)).
  { split; [discriminate|]. split; [|vm_compute; reflexivity]. assert (E : concat (match_msgs 2 k2 d2 1 k1 d1 0) = repeat 0%N 532) by (vm_compute; reflexivity).
    rewrite E. apply Forall_forall. intros x I. apply repeat_spec in I. subst. reflexivity. }
  assert (E : concat (match_msgs 1 k1 d1 2 k2 d2 0) = concat (match_msgs 2 k2 d2 1 k1 d1 0)) by (vm_compute; reflexivity).
  assert (R : exists c1, nx_sift_match_brute_force 2 (map snd k2) d2 1 (map snd k1) d1 [ex_m; ex_m] (flt_of_bits 0) = Ok (2, c1) /\ length c1 = 2%nat).
  { eexists. split; [vm_compute; reflexivity|reflexivity]. }
  destruct R as (c1 & R & L1). split; [eexists; vm_compute; reflexivity|]. split.
  - destruct (match_hit v block0 W0 HB HW 2 k2 d2 1 k1 d1 [ex_m; ex_m] 0 1 k1 d1 2 k2 d2 [ex_m; ex_m] 2 c1 M E R) as (c & H1 & H2); [lia|cbn; lia|]. exists c. eexists. eexists. split; [exact H1|exact H2].
  - destruct (match_overrun v block0 W0 HB HW 2 k2 d2 1 k1 d1 [ex_m; ex_m] 0 1 k1 d1 2 k2 d2 [ex_m] 2 c1 M E R) as (c & H1 & H2); [lia|cbn; lia|]. exists c. eexists. split; [exact H1|exact H2].
Qed.
Print Assumptions C104_counts_refuted.
Example C104_example :
  let im := SImage 3 2 false [[1; 2; 3]; [4; 5; 6]]%N in let calls := [(im, [7%N]); (im, [7%N])] in
  Forall (fun q => msgs_ok (image_msgs (fst q) (snd q))) calls /\
  (forall im p im' p', In (im, p) calls -> In (im', p') calls -> sha256 (concat (image_msgs im p)) = sha256 (concat (image_msgs im' p')) -> (s_w im, p) = (s_w im', p')).
Proof.
  cbv zeta. split.
  - repeat (constructor; [split; [discriminate|]; split; [repeat constructor|reflexivity]|]). constructor.
  - intros im p im' p' H H' _. cbn [In] in H, H'. destruct H as [[= <- <-]|[[= <- <-]|[]]]; destruct H' as [[= <- <-]|[[= <- <-]|[]]]; reflexivity.
Qed.

(** C105: inside the border the scan hands on exactly the strict extrema of
    space and scale that pass the thresholds.  Missing from the full claim:
    that it hands on nothing else (see the refutation). *)
Theorem C105_extrema_partial : forall above edge dogm dog dogp w h stride B,
  dimg_ok dogm w h stride -> dimg_ok dog w h stride -> dimg_ok dogp w h stride ->
  2 < w -> w <= stride -> 0 <= h -> stride * h <= 2147483647 -> 2 <= B ->
  exists out, nx_sift_process_dog above edge dogm dog dogp B = Ok out /\
    (forall x y, B <= x < w - B -> B <= y < h - B ->
       (In (x, y) out <-> above (pixel dog y x) = true /\ extremum dogm dog dogp y x /\ edge (patch dog y x) = true)) /\
    (forall x y, In (x, y) out -> B <= x < w + B /\ B <= y < h - B).
Proof.
  intros above edge dogm dog dogp w h stride B Im I0 Ip W0 WS H0 MX B2.
  destruct (scan_ok above edge dogm dog dogp w h stride B Im I0 Ip W0 WS H0 MX B2) as (out & E & Q). exists out. split; [exact E|]. split.
  - intros x y X Y. rewrite Q. unfold selected. split; [tauto|]. intros S. split; [lia|exact S].
  - intros x y I. apply Q in I. tauto.
Qed.
Print Assumptions C105_extrema_partial.
(** Columns run up to width + border instead of width - border: places outside
    of the image are handed on.  Here a 7 x 7 image with border 2 whose only
    non-zero pixel is in column 1 of row 3 yields column 8 of row 2. *)
Definition flat7 : dimg := DImg 7 7 7 (repeat F0 49).
Definition spot7 : dimg := DImg 7 7 7 (repeat F0 22 ++ F1 :: repeat F0 26).
Theorem C105_outside_refuted :
  nx_sift_process_dog (fun v => f_gt v F0) (fun _ => true) flat7 spot7 flat7 2 = Ok [(8, 2)].
Proof. vm_compute. reflexivity. Qed.
Print Assumptions C105_outside_refuted.
Definition mid7 : dimg := DImg 7 7 7 (repeat F0 24 ++ F1 :: repeat F0 24).
Example C105_example : dimg_ok flat7 7 7 7 /\ dimg_ok mid7 7 7 7 /\
  nx_sift_process_dog (fun v => f_gt v F0) (fun _ => true) flat7 mid7 flat7 2 = Ok [(3, 3)] /\ pixel mid7 3 3 = F1.
Proof. split; [repeat split|]. split; [repeat split|]. split; vm_compute; reflexivity. Qed.

(** C106: the orientations of a keypoint are the peaks of the histogram after
    six rounds of circular averaging, for all bins but the first.  For the first
    bin the left neighbour is taken from the round before (the missing part). *)
Theorem C106_orientations_partial : forall a h z buf, length h = 36%nat -> length buf = 38%nat ->
  exists m out, orientations (a :: h ++ [z]) buf = Ok out /\ largest (Nat.iter 6 circular_average h) m /\
    (forall i, (1 <= i < 36)%nat -> (In (Z.of_nat i + 1) out <-> circular_peak (Nat.iter 6 circular_average h) m i)) /\
    (forall b, In b out -> 1 <= b <= 36).
Proof.
  intros a h z buf L Lb. destruct (orientations_ok a h z buf L Lb) as (m & out & E & Lm & P & _ & R). exists m, out.
  change (Nat.iter 6 circular_average h) with (smooth_n 6 h). split; [exact E|]. split; [exact Lm|]. split; [exact P|exact R].
Qed.
Print Assumptions C106_orientations_partial.
(** A peak at the first bin that is missed. *)
Definition first_peak : list flt := FF (729 * U) :: repeat F0 34 ++ [FF (728 * U)].
Theorem C106_first_bin_refuted :
  (exists m, largest (Nat.iter 6 circular_average first_peak) m /\ circular_peak (Nat.iter 6 circular_average first_peak) m 0) /\
  orientations (F0 :: first_peak ++ [F0]) (repeat F0 38) = Ok [].
Proof.
  split.
  - destruct (orientations_ok F0 first_peak F0 (repeat F0 38) eq_refl eq_refl) as (m & out & _ & Lm & _). exists m. change (Nat.iter 6 circular_average first_peak) with (smooth_n 6 first_peak). split; [exact Lm|].
    assert (Pk : f_gt (bin (smooth_n 6 first_peak) 0) (bin (smooth_n 6 first_peak) (0 + 35)) && f_gt (bin (smooth_n 6 first_peak) 0) (bin (smooth_n 6 first_peak) (0 + 1)) && forallb (fun v => f_gt (bin (smooth_n 6 first_peak) 0) (fmul v F08)) (smooth_n 6 first_peak) = true) by (vm_compute; reflexivity).
    apply andb_true_iff in Pk as [Pk P3]. apply andb_true_iff in Pk as [P1 P2]. split; [exact P1|]. split; [exact P2|]. rewrite forallb_forall in P3. apply P3, Lm.
  - vm_compute. reflexivity.
Qed.
Print Assumptions C106_first_bin_refuted.
Example C106_example : orientations (F0 :: (repeat F0 17 ++ [FF (729 * U)] ++ repeat F0 18) ++ [F0]) (repeat F0 38) = Ok [18].
Proof. vm_compute. reflexivity. Qed.

(** C107: a sample with patch coordinates px, py and orientation h in (0, 8]
    changes only the up to eight descriptor cells next to it, each by its share;
    nothing outside of the 4 x 4 x 8 values is touched. *)
Theorem C107_cells_partial : forall desc px py h weight, length desc = 128%nat ->
  -15 * U < px < 16 * U -> -15 * U < py < 16 * U -> 0 < h <= 8 * U ->
  exists d pxi pyi hi, deposit desc (FF px) (FF py) (FF h) weight = Ok d /\ length d = 128%nat /\
    cell_of px pxi /\ cell_of py pyi /\ (0 <= hi <= 8 /\ hi * U <= h < (hi + 1) * U) /\
    forall r c b, 0 <= r < 4 -> 0 <= c < 4 -> 0 <= b < 8 ->
      let i := Z.to_nat (r * 32 + c * 8 + b) in
      nth i d FNaN = match share pxi pyi hi (fsub (FF px) (of_int pxi)) (fsub (FF py) (of_int pyi)) (fsub (FF h) (of_int hi)) weight r c b with
                     | Some a => fadd (nth i desc FNaN) a | None => nth i desc FNaN end.
Proof.
  intros desc px py h weight L X Y H. destruct (down_any px X) as (pxi & E1 & C1 & _). destruct (down_any py Y) as (pyi & E2 & C2 & _). destruct (down_pos h H) as (hi & E3 & R & C3).
  destruct (deposit_cells desc (FF px) (FF py) (FF h) weight pxi pyi hi L E1 E2 E3 R) as (d & E & [Ld A]). exists d, pxi, pyi, hi. split; [exact E|]. split; [exact Ld|]. split; [exact C1|]. split; [exact C2|]. split; [split; [exact R|exact C3]|].
  intros r c b Hr Hc Hb i. specialize (A r c b Hr Hc Hb). unfold idx in A. replace (r * 4 * 8 + (c * 8 + b)) with (r * 32 + c * 8 + b) in A by lia. exact A.
Qed.
Print Assumptions C107_cells_partial.
(** Orientation 0 (a gradient along the orientation of the keypoint): the value
    before the array is changed. *)
Theorem C107_zero_refuted : forall desc weight, length desc = 128%nat -> deposit desc (FF U) (FF U) F0 weight <> UB /\
  deposit desc (FF (2 ^ 148)) (FF (2 ^ 148)) F0 weight = UB.
Proof.
  intros desc weight L. assert (D1 : down (FF U) = Ok 1) by (vm_compute; reflexivity). assert (D2 : down (FF (2 ^ 148)) = Ok 0) by (vm_compute; reflexivity). assert (D0 : down F0 = Ok (-1)) by (vm_compute; reflexivity).
  split; unfold deposit.
  - rewrite D1, D0. cbn [bind]. change (-1 >=? 8) with false. cbv iota zeta. change (-1 + 1 >=? 8) with false. cbv iota. change (-1 + 1) with 0. change (inside 1) with true. change (inside (1 + 1)) with true. cbv iota.
    assert (B : forall d i w, length d = 128%nat -> 0 <= i < 128 -> exists d', bump d i w = Ok d' /\ length d' = 128%nat).
    { intros d i w Ld I. unfold bump. replace i with (Z.of_nat (Z.to_nat i)) by lia. rewrite (MatIo.zget_nat _ _ (nth (Z.to_nat i) d FNaN)) by (apply nth_error_nth'; lia). cbn [bind]. rewrite MatIo.zset_nat by lia. eexists. split; [reflexivity|]. now rewrite lset_length. }
    assert (C : forall d r c ww he, length d = 128%nat -> 1 <= r <= 2 -> 1 <= c <= 2 -> exists d', cell d r c (-1) 0 ww he = Ok d' /\ length d' = 128%nat).
    { intros d r c ww he Ld Hr Hc. unfold cell. destruct (B d (r * 4 * 8 + (c * 8 + -1)) (fsub ww (fmul ww he)) Ld ltac:(lia)) as (d1 & -> & L1). cbn [bind]. apply B; [exact L1|lia]. }
    assert (W : forall d r w xe he, length d = 128%nat -> 1 <= r <= 2 -> exists d', cells_row d r 1 (-1) 0 w xe he = Ok d' /\ length d' = 128%nat).
    { intros d r w xe he Ld Hr. unfold cells_row. change (inside 1) with true. change (inside (1 + 1)) with true. cbv iota. destruct (C d r 1 (fmul w (fsub F1 xe)) he Ld Hr ltac:(lia)) as (d1 & -> & L1). cbn [bind]. apply C; [exact L1|lia|lia]. }
    destruct (W desc 1 (fmul weight (fsub F1 (fsub (FF U) (of_int 1)))) (fsub (FF U) (of_int 1)) (fsub F0 (of_int (-1))) L ltac:(lia)) as (d1 & -> & L1). cbn [bind].
    destruct (W d1 (1 + 1) (fmul weight (fsub (FF U) (of_int 1))) (fsub (FF U) (of_int 1)) (fsub F0 (of_int (-1))) L1 ltac:(lia)) as (d2 & -> & _). discriminate.
  - rewrite D2, D0. cbn [bind]. change (inside 0) with true. cbv iota. unfold cells_row at 1. change (inside 0) with true. cbv iota. reflexivity.
Qed.
Print Assumptions C107_zero_refuted.
Example C107_example : exists d, deposit (repeat F0 128) (FF (3 * 2 ^ 148)) (FF (3 * 2 ^ 148)) (FF (15 * 2 ^ 148)) F1 = Ok d /\
  nth 47 d FNaN = FF (2 ^ 146) /\ nth 40 d FNaN = FF (2 ^ 146) /\ nth 41 d FNaN = F0 /\ nth 87 d FNaN = FF (2 ^ 146).
Proof. eexists. split; [vm_compute; reflexivity|]. repeat split; vm_compute; reflexivity. Qed.

(** C108: options added for the detector and not given on the command line
    yield the default parameters, except for the doubling of the image. *)
Theorem C108_defaults_partial : forall ovf atof ops o, Forall op_well_typed ops -> opt_run ovf atof (ops ++ [OAdd sift_format]) = Ok o ->
  let d := nx_sift_default_parameters in
  let expect := SParams 0 (sp_scales d) (sp_sigma0 d) (sp_trunc d) (sp_border d) (sp_peak d) (sp_edge d) (sp_magn d) in
  (adds_only ops -> nx_sift_parameters_from_options ovf o = Ok expect) /\
  (forall p args o', set_from_args ovf atof o (p :: args) = Ok o' ->
     (forall n, In n [N_double; N_scales; N_sigma0; N_trunc; N_border; N_peak; N_edge; N_magn] -> is_set ovf o' n = Ok false) ->
     nx_sift_parameters_from_options ovf o' = Ok expect).
Proof.
  intros ovf atof ops o W E d expect. split; [intros A; eapply sift_before_parse; eauto|]. intros p args o' S N. eapply sift_after_parse; eauto.
Qed.
Print Assumptions C108_defaults_partial.
Theorem C108_double_refuted : forall ovf atof ops o, Forall op_well_typed ops -> adds_only ops -> opt_run ovf atof (ops ++ [OAdd sift_format]) = Ok o ->
  nx_sift_parameters_from_options ovf o <> Ok nx_sift_default_parameters.
Proof. intros ovf atof ops o W A E. rewrite (sift_before_parse ovf atof ops o W A E). discriminate. Qed.
Print Assumptions C108_double_refuted.
Example C108_example : exists o, opt_run (fun z => z mod 1000) (fun _ => 0%N) ([] ++ [OAdd sift_format]) = Ok o.
Proof. eexists. vm_compute. reflexivity. Qed.
