(** C115, C116: affine warping and rotation of images. *)
From Coq Require Import Lia.
From Verif Require Import Base BaseLemmas Flt FltErr Gray Img WarpModel WarpSpec WarpProofs WarpPixel WarpRows WarpAll WarpRotate.
Local Open Scope Z_scope.

(** C115: a warp with black or white background.  All pixels of the destination
    are written and nothing else; each is the interpolated value at the mapped
    position (up to the rounding of the position and of the value) when that is
    inside, and the background colour when it is away from the source.  Partial:
    nothing but the range is said between -1 and 0, see below. *)
Theorem C115_fixed_partial : forall smp dest src a0 a1 a3 a4 a6 a7 bg fixed c,
  image_ok dest -> image_ok src -> byte_img src -> 1 <= i_w src < 2 ^ 30 -> 1 <= i_h src < 2 ^ 30 -> small_map a0 a1 a3 a4 a6 a7 dest c ->
  bg = Black /\ fixed = 0 \/ bg = White /\ fixed = 255 ->
  exists g n, warp_affine_bilinear smp dest src (Affine (FF a0) (FF a1) (FF a3) (FF a4) (FF a6) (FF a7)) bg = Ok (g, n) /\ only_pixels dest g /\
    forall x y, in_img dest x y -> exists X Y, placed a0 a1 a3 a4 a6 a7 c x y X Y /\ 0 <= pix 0 g x y <= 255 /\
      sampled (fun b => b = fixed) src X Y (pix 0 g x y).
Proof.
  intros smp dest src a0 a1 a3 a4 a6 a7 bg fixed c G GS B SW SH SM BG.
  destruct (warp_ok a0 a1 a3 a4 a6 a7 smp dest src bg c (fun X Y b => 0 <= b <= 255 /\ sampled (fun b => b = fixed) src X Y b)) as (g & n & E & O & _ & V); auto; try lia.
  - intros x y X Y n I PL PX PY. destruct (fixed_ok smp src GS B ltac:(lia) ltac:(lia) X Y PX PY bg fixed n BG) as (b & E & R). exists b, n. auto.
  - exists g, n. auto.
Qed.
Print Assumptions C115_fixed_partial.
(** The same with noise; the samples are those of C110. *)
Theorem C115_noise_partial : forall smp dest src a0 a1 a3 a4 a6 a7 c, (forall n, exists s, smp n = FF s /\ 0 <= s <= U) ->
  image_ok dest -> image_ok src -> byte_img src -> 1 <= i_w src < 2 ^ 30 -> 1 <= i_h src < 2 ^ 30 -> small_map a0 a1 a3 a4 a6 a7 dest c ->
  exists g n, warp_affine_bilinear smp dest src (Affine (FF a0) (FF a1) (FF a3) (FF a4) (FF a6) (FF a7)) Noise = Ok (g, n) /\ only_pixels dest g /\
    forall x y, in_img dest x y -> exists X Y, placed a0 a1 a3 a4 a6 a7 c x y X Y /\ 0 <= pix 0 g x y <= 255 /\
      sampled (fun _ => True) src X Y (pix 0 g x y).
Proof.
  intros smp dest src a0 a1 a3 a4 a6 a7 c SMP G GS B SW SH SM.
  destruct (warp_ok a0 a1 a3 a4 a6 a7 smp dest src Noise c (fun X Y b => 0 <= b <= 255 /\ sampled (fun _ => True) src X Y b)) as (g & n & E & O & _ & V); auto; try lia.
  - intros x y X Y n I PL PX PY. destruct (noise_ok smp src GS B X Y PX PY n (SMP n)) as (b & n' & E & R). exists b, n'. auto.
  - exists g, n. auto.
Qed.
Print Assumptions C115_noise_partial.
(** With repeated borders the position is clamped to the source. *)
Theorem C115_repeat_partial : forall smp dest src a0 a1 a3 a4 a6 a7 c,
  image_ok dest -> image_ok src -> byte_img src -> 1 <= i_w src < 2 ^ 30 -> 1 <= i_h src < 2 ^ 30 -> small_map a0 a1 a3 a4 a6 a7 dest c ->
  exists g n, warp_affine_bilinear smp dest src (Affine (FF a0) (FF a1) (FF a3) (FF a4) (FF a6) (FF a7)) Repeat = Ok (g, n) /\ only_pixels dest g /\
    forall x y, in_img dest x y -> exists X Y, placed a0 a1 a3 a4 a6 a7 c x y X Y /\ 0 <= pix 0 g x y <= 255 /\
      sampled_repeat src X Y (pix 0 g x y).
Proof.
  intros smp dest src a0 a1 a3 a4 a6 a7 c G GS B SW SH SM.
  destruct (warp_ok a0 a1 a3 a4 a6 a7 smp dest src Repeat c (fun X Y b => 0 <= b <= 255 /\ sampled_repeat src X Y b)) as (g & n & E & O & _ & V); auto; try lia.
  - intros x y X Y n I PL PX PY. destruct (repeat_ok smp src X Y n GS B ltac:(lia) ltac:(lia) PX PY) as (b & E & R). exists b, n. auto.
  - exists g, n. auto.
Qed.
Print Assumptions C115_repeat_partial.
(** Reflected borders: only for positions less than one image away, and only
    right where they are not negative. *)
Theorem C115_mirror_partial : forall smp dest src a0 a1 a3 a4 a6 a7 c,
  image_ok dest -> image_ok src -> byte_img src -> 2 <= i_w src < 2 ^ 30 -> 2 <= i_h src < 2 ^ 30 -> small_map a0 a1 a3 a4 a6 a7 dest c ->
  (forall x y X Y, in_img dest x y -> placed a0 a1 a3 a4 a6 a7 c x y X Y ->
     - i_w src * U < X < (2 * i_w src - 3) * U /\ - i_h src * U < Y < (2 * i_h src - 3) * U) ->
  exists g n, warp_affine_bilinear smp dest src (Affine (FF a0) (FF a1) (FF a3) (FF a4) (FF a6) (FF a7)) Mirror = Ok (g, n) /\ only_pixels dest g /\
    forall x y, in_img dest x y -> exists X Y, placed a0 a1 a3 a4 a6 a7 c x y X Y /\ 0 <= pix 0 g x y <= 255 /\
      sampled_mirror src X Y (pix 0 g x y).
Proof.
  intros smp dest src a0 a1 a3 a4 a6 a7 c G GS B SW SH SM NR.
  destruct (warp_ok a0 a1 a3 a4 a6 a7 smp dest src Mirror c (fun X Y b => 0 <= b <= 255 /\ sampled_mirror src X Y b)) as (g & n & E & O & _ & V); auto; try lia.
  - intros x y X Y n I PL PX PY. destruct (NR x y X Y I PL) as [NX NY]. destruct (mirror_ok smp src X Y n GS B ltac:(lia) ltac:(lia) PX PY NX NY) as (b & E & R). exists b, n. auto.
  - exists g, n. auto.
Qed.
Print Assumptions C115_mirror_partial.
(** A shift by whole pixels copies exactly. *)
Theorem C115_shift : forall smp dest src i j bg fixed, image_ok dest -> image_ok src -> byte_img src ->
  1 <= i_w src < 2 ^ 30 -> 1 <= i_h src < 2 ^ 30 -> i_w dest <= 2 ^ 20 -> i_h dest <= 2 ^ 20 -> Z.abs i <= 2 ^ 20 -> Z.abs j <= 2 ^ 20 ->
  bg = Black /\ fixed = 0 \/ bg = White /\ fixed = 255 ->
  exists g n, warp_affine_bilinear smp dest src (Affine (of_int 1) (of_int 0) (of_int 0) (of_int 1) (of_int i) (of_int j)) bg = Ok (g, n) /\ only_pixels dest g /\
    forall x y, in_img dest x y -> pix 0 g x y =
      if (0 <=? x + i) && (x + i <? i_w src - 1) && (0 <=? y + j) && (y + j <? i_h src - 1) then pix 0 src (x + i) (y + j) else fixed.
Proof.
  intros smp dest src i j bg fixed G GS B SW SH DW DH I20 J20 BG.
  destruct (translate_ok smp dest src bg i j (fun x y b => b = if (0 <=? x + i) && (x + i <? i_w src - 1) && (0 <=? y + j) && (y + j <? i_h src - 1) then pix 0 src (x + i) (y + j) else fixed)) as (g & n & E & O & _ & V); auto; try lia; [|exists g, n; auto].
  intros x y n [IX IY]. unfold pixel. rewrite !split_int by (unfold small24; lia). cbn [bind]. cbv zeta.
  set (x' := x + i). set (y' := y + j). unfold outside.
  destruct (Z.ltb_spec x' 0), (Z.leb_spec 0 x'), (Z.leb_spec (i_w src - 1) x'), (Z.ltb_spec x' (i_w src - 1)), (Z.ltb_spec y' 0), (Z.leb_spec 0 y'), (Z.leb_spec (i_h src - 1) y'), (Z.ltb_spec y' (i_h src - 1)); try (exfalso; lia); cbn [orb andb];
    try (exists fixed, n; destruct BG as [[-> ->]|[-> ->]]; split; reflexivity).
  rewrite interpolate_int by (auto; split; lia). exists (pix 0 src x' y'), n. destruct BG as [[-> ->]|[-> ->]]; split; reflexivity.
Qed.
Print Assumptions C115_shift.
Theorem C115_shift_repeat : forall smp dest src i j, image_ok dest -> image_ok src -> byte_img src ->
  1 <= i_w src < 2 ^ 30 -> 1 <= i_h src < 2 ^ 30 -> i_w dest <= 2 ^ 20 -> i_h dest <= 2 ^ 20 -> Z.abs i <= 2 ^ 20 -> Z.abs j <= 2 ^ 20 ->
  exists g n, warp_affine_bilinear smp dest src (Affine (of_int 1) (of_int 0) (of_int 0) (of_int 1) (of_int i) (of_int j)) Repeat = Ok (g, n) /\ only_pixels dest g /\
    forall x y, in_img dest x y -> pix 0 g x y = pix 0 src (Z.max 0 (Z.min (x + i) (i_w src - 1))) (Z.max 0 (Z.min (y + j) (i_h src - 1))).
Proof.
  intros smp dest src i j G GS B SW SH DW DH I20 J20.
  destruct (translate_ok smp dest src Repeat i j (fun x y b => b = pix 0 src (Z.max 0 (Z.min (x + i) (i_w src - 1))) (Z.max 0 (Z.min (y + j) (i_h src - 1))))) as (g & n & E & O & _ & V); auto; try lia; [|exists g, n; auto].
  intros x y n [IX IY]. unfold pixel. rewrite !split_int by (unfold small24; lia). cbn [bind]. cbv zeta.
  set (x' := x + i). set (y' := y + j).
  assert (RA : forall k z, 1 <= k -> exists a b, repeat_axis k z (z + 1) = (a, b) /\ a = Z.max 0 (Z.min z (k - 1)) /\ 0 <= a < k /\ 0 <= b < k).
  { intros k z K. unfold repeat_axis. destruct (Z.ltb_spec z 0); [exists 0, 0; split; [reflexivity|lia]|]. destruct (Z.leb_spec (k - 1) z); [exists (k - 1), (k - 1); split; [reflexivity|lia]|exists z, (z + 1); split; [reflexivity|lia]]. }
  destruct (RA (i_w src) x') as (a & b & -> & EA & AR & BR); [lia|]. destruct (RA (i_h src) y') as (c & d & -> & EC & CR & DR); [lia|].
  rewrite interpolate_int by (auto; split; lia). eexists. eexists. split; [reflexivity|]. rewrite <- EA, <- EC. reflexivity.
Qed.
Print Assumptions C115_shift_repeat.

Definition ex_src (w h : Z) (f : Z -> Z) : image Z := mkImg w h w (map (fun i => f (Z.of_nat i)) (seq 0 (Z.to_nat (w * h)))).
Definition ident : affine := Affine (of_int 1) (of_int 0) (of_int 0) (of_int 1) (of_int 0) (of_int 0).
Definition no_smp (n : nat) : flt := F0.
(** A warp by a half pixel: the hypotheses hold, and the outcome. *)
Example C115_example : small_map U 0 0 U (2 ^ 148) 0 (ex_src 3 2 (fun _ => 7)) 4 /\
  (exists n, warp_affine_bilinear no_smp (ex_src 3 2 (fun _ => 7)) (ex_src 3 3 (fun i => 10 * i)) (Affine (FF U) (FF 0) (FF 0) (FF U) (FF (2 ^ 148)) (FF 0)) White = Ok (mkImg 3 2 3 [5; 15; 255; 35; 45; 255], n)).
Proof.
  split.
  - unfold small_map, exact_x, exact_y. cbn [ex_src i_w i_h]. split; [lia|]. split; [lia|]. split; [lia|]. intros x y [X Y]. cbn [ex_src i_w i_h] in X, Y.
    assert (x = 0 \/ x = 1 \/ x = 2) as [->|[->| ->]] by lia; (assert (y = 0 \/ y = 1) as [->| ->] by lia); repeat split; vm_compute; discriminate.
  - eexists. vm_compute. reflexivity.
Qed.
(** The identity loses the last row and the last column. *)
Theorem C115_identity_refuted : exists src g n, image_ok src /\ byte_img src /\ warp_affine_bilinear no_smp src src ident Black = Ok (g, n) /\
  pix 0 src (i_w src - 1) (i_h src - 1) = 200 /\ pix 0 g (i_w src - 1) (i_h src - 1) = 0.
Proof.
  exists (ex_src 3 3 (fun _ => 200)). do 2 eexists. split; [constructor; vm_compute; intuition discriminate|]. split; [repeat constructor; vm_compute; discriminate|]. split; [vm_compute; reflexivity|]. split; reflexivity.
Qed.
Print Assumptions C115_identity_refuted.
(** Between -1 and 0 the code extrapolates: here the border value is 100, and all
    values are at least 100, but the result at -1/2 is 50 although borders are
    repeated (and 50 where black is wanted). *)
Theorem C115_extrapolates_refuted : exists src, image_ok src /\ Forall (fun b => 100 <= b <= 200) (i_data src) /\
  (exists n, pixel no_smp Repeat src (FF (- 2 ^ 148)) (FF 0) n = Ok (50, n)) /\ (exists n, pixel no_smp Black src (FF (- 2 ^ 148)) (FF 0) n = Ok (50, n)) /\
  (exists n, pixel no_smp Mirror src (FF (- 2 ^ 148)) (FF 0) n = Ok (50, n)).
Proof.
  exists (mkImg 2 2 2 [100; 200; 100; 200]). split; [constructor; vm_compute; intuition discriminate|]. split; [repeat constructor; vm_compute; discriminate|]. repeat split; exists O; vm_compute; reflexivity.
Qed.
Print Assumptions C115_extrapolates_refuted.
(** Interpolation in an image of one colour can change it. *)
Theorem C115_constant_refuted : exists src b n, image_ok src /\ Forall (fun b => b = 15) (i_data src) /\
  pixel no_smp Black src (FF (11184811 * 2 ^ 124)) (FF 0) n = Ok (b, n) /\ b = 14.
Proof.
  exists (ex_src 2 2 (fun _ => 15)). exists 14, O. split; [constructor; vm_compute; intuition discriminate|]. split; [repeat constructor|]. split; [vm_compute; reflexivity|reflexivity].
Qed.
Print Assumptions C115_constant_refuted.
(** Reflection divides by zero for a source one pixel wide, and reads outside of the
    source at twice its width. *)
Theorem C115_mirror_refuted : exists s1 s2, image_ok s1 /\ image_ok s2 /\ byte_img s1 /\ byte_img s2 /\
  pixel no_smp Mirror s1 (of_int 1) (of_int 0) O = UB /\ pixel no_smp Mirror s2 (of_int (2 * i_w s2 - 2)) (of_int 0) O = UB.
Proof.
  exists (ex_src 1 4 (fun _ => 9)), (ex_src 4 4 (fun _ => 9)). do 2 (split; [constructor; vm_compute; intuition discriminate|]). do 2 (split; [repeat constructor; vm_compute; discriminate|]). split; vm_compute; reflexivity.
Qed.
Print Assumptions C115_mirror_refuted.

(** C116: rotation by 45 degrees about the centres of images up to 2048 x 2048;
    [RS] is the float nearest to 1/sqrt 2. *)
Theorem C116_rotate_partial : forall dest src cw, image_ok dest -> image_ok src -> byte_img src ->
  1 <= i_w src <= 2048 -> 1 <= i_h src <= 2048 -> i_w dest <= 2048 -> i_h dest <= 2048 ->
  exists g, rotate45_uc dest src cw = Ok g /\ only_pixels dest g /\
    forall x y, in_img dest x y -> exists X Y,
      Z.abs (2 * X - rotated_x (11863283 * 2 ^ 125) (if cw then 1 else -1) (i_w src) (i_w dest) (i_h dest) x y) <= (2000000 + x * 1000000) * W /\
      Z.abs (2 * Y - rotated_y (11863283 * 2 ^ 125) (if cw then 1 else -1) (i_h src) (i_w dest) (i_h dest) x y) <= (2000000 + x * 1000000) * W /\
      0 <= pix 0 g x y <= 255 /\ sampled (fun b => b = 0) src X Y (pix 0 g x y).
Proof.
  intros dest src cw G GS B SW SH DW DH.
  destruct (rotate_ok (pixel (fun _ => F0) Black src) cw dest src (fun X Y b => 0 <= b <= 255 /\ sampled (fun b => b = 0) src X Y b)) as (g & E & O & _ & V); auto; try lia.
  - intros x y X Y n I PL PX PY. destruct (fixed_ok (fun _ => F0) src GS B ltac:(lia) ltac:(lia) X Y PX PY Black 0 n ltac:(auto)) as (b & E & R). exists b, n. auto.
  - exists g. split; [exact E|]. split; [exact O|]. intros x y I. destruct (V x y I) as (X & Y & (P1 & P2) & R). exists X, Y. auto.
Qed.
Print Assumptions C116_rotate_partial.
(** The constant: its square differs from 1/2 by less than 2^-24. *)
Theorem C116_constant : let r := 11863283 * 2 ^ 125 in 2 ^ 24 * Z.abs (2 * r * r - U * U) < U * U.
Proof. vm_compute. reflexivity. Qed.
Print Assumptions C116_constant.
Example C116_example : rotate45_uc (ex_src 4 4 (fun _ => 7)) (ex_src 4 4 (fun i => 10 * i)) true = Ok (mkImg 4 4 4 [71; 50; 29; 8; 107; 85; 64; 43; 0; 121; 100; 78; 0; 0; 135; 0]).
Proof. vm_compute. reflexivity. Qed.
(** Rotating a float image drops the fractions of its values: a constant image of
    1/2 turns black. *)
Theorem C116_float_refuted : exists src dest g, image_ok src /\ Forall (fun v => v = half) (i_data src) /\ rotate45_f32 dest src true = Ok g /\
  Forall (fun v => v = F0) (i_data g).
Proof.
  exists (mkImg 4 4 4 (repeat half 16)), (mkImg 4 4 4 (repeat half 16)), (mkImg 4 4 4 (repeat F0 16)).
  split; [constructor; vm_compute; intuition discriminate|]. split; [repeat constructor|]. split; [vm_compute; reflexivity|repeat constructor].
Qed.
Print Assumptions C116_float_refuted.
