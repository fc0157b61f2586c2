(** C130-C133: the affine warp processor. *)
From Coq Require Import Reals Lra Lia.
From Verif Require Import Base BaseLemmas Flt FltErr Gray Img WarpModel WarpSpec WarpProofs WarpProps AwpModel AwpSpec AwpProofs AwbModel AwbSpec AwbProofs.
Local Open Scope R_scope.

(** C130: whatever was warped before, the reported forward transform is the
    rotation by the tilt angle, the compression, the rotation by the planar angle
    and the scaling about the centres of the image and of the result; the reported
    inverse transform inverts it. *)
Theorem C130_forward : forall wp img scale planar_angle tilt tilt_angle wp' p,
  resize_buffers wp img scale planar_angle tilt tilt_angle = Ok wp' ->
  t_apply (forward_t wp') p = affine_warp img (result_wh wp') scale planar_angle tilt tilt_angle p.
Proof. intros. eapply forward_formula; eauto. Qed.
Print Assumptions C130_forward.
Theorem C130_inverse : forall wp img scale planar_angle tilt tilt_angle wp' p, scale <> 0 -> tilt <> 0 ->
  resize_buffers wp img scale planar_angle tilt tilt_angle = Ok wp' ->
  t_apply (inverse_t wp') (t_apply (forward_t wp') p) = p /\ t_apply (forward_t wp') (t_apply (inverse_t wp') p) = p.
Proof. intros wp img scale planar_angle tilt tilt_angle wp' p HS HT E. exact (mutual_inverse _ _ _ _ _ _ _ _ HS HT E). Qed.
Print Assumptions C130_inverse.
(** The sizes are defined for all tilts of at least 1 and sizes that leave room. *)
Theorem C130_defined : forall wp img scale planar_angle tilt tilt_angle, (0 <= fst img)%Z -> (0 <= snd img)%Z -> 1 <= tilt ->
  2 * (Rabs scale + 1) * (IZR (fst img) + IZR (snd img)) + 2 <= IZR INT_MAX ->
  exists wp', resize_buffers wp img scale planar_angle tilt tilt_angle = Ok wp'.
Proof. intros. apply resize_defined; auto. Qed.
Print Assumptions C130_defined.
Definition ex_wp : awp := Awp (Aff 5 6 7 8 9 10) identity_t (3, 4)%Z (5, 6)%Z (7, 8)%Z.
Example C130_example : exists wp', resize_buffers ex_wp (640, 480)%Z 2 1 3 (1 / 2) = Ok wp' /\
  t_apply (forward_t wp') (320, 240) = centre (result_wh wp').
Proof.
  destruct (C130_defined ex_wp (640, 480)%Z 2 1 3 (1 / 2)) as (wp' & E); try (cbn; lia); try lra.
  - cbn [fst snd]. rewrite (Rabs_right 2) by lra. unfold INT_MAX. change (2 ^ 31 - 1)%Z with 2147483647%Z. lra.
  - exists wp'. split; [exact E|]. rewrite (C130_forward _ _ _ _ _ _ _ _ E). unfold affine_warp, plus, grow, rotate, compress, minus, centre. cbn [fst snd].
    replace (IZR 640 / 2) with 320 by lra. replace (IZR 480 / 2) with 240 by lra. unfold Rdiv. f_equal; ring.
Qed.

(** C131: in each of the three buffers, every point of the image lies more than
    half a pixel inside; the result is at most two pixels larger than the warped
    image in each direction. *)
Theorem C131_inside : forall wp img scale planar_angle tilt tilt_angle wp' p, (0 <= fst img)%Z -> (0 <= snd img)%Z ->
  resize_buffers wp img scale planar_angle tilt tilt_angle = Ok wp' -> on_image img p ->
  well_inside (skew_wh wp') (plus (centre (skew_wh wp')) (rotate tilt_angle (minus p (centre img)))) /\
  well_inside (sub_wh wp') (plus (centre (sub_wh wp')) (compress tilt (rotate tilt_angle (minus p (centre img))))) /\
  well_inside (result_wh wp') (affine_warp img (result_wh wp') scale planar_angle tilt tilt_angle p).
Proof. intros wp img scale planar_angle tilt tilt_angle wp' p HW HH E HP. exact (all_inside _ _ _ _ _ _ _ _ HW HH E HP). Qed.
Print Assumptions C131_inside.
Theorem C131_tight : forall wp img scale planar_angle tilt tilt_angle wp', (0 <= fst img)%Z -> (0 <= snd img)%Z ->
  resize_buffers wp img scale planar_angle tilt tilt_angle = Ok wp' ->
  let f := affine_warp img (result_wh wp') scale planar_angle tilt tilt_angle in
  (exists p q, on_image img p /\ on_image img q /\ IZR (fst (result_wh wp')) - 2 <= fst (f p) - fst (f q)) /\
  (exists p q, on_image img p /\ on_image img q /\ IZR (snd (result_wh wp')) - 2 <= snd (f p) - snd (f q)).
Proof. intros wp img scale planar_angle tilt tilt_angle wp' HW HH E. exact (result_tight _ _ _ _ _ _ _ HW HH E). Qed.
Print Assumptions C131_tight.
(** A corner of a 640 x 480 image that is halved in x. *)
Example C131_example : exists wp', resize_buffers ex_wp (640, 480)%Z 1 0 2 0 = Ok wp' /\ on_image (640, 480)%Z (640, 0) /\
  well_inside (result_wh wp') (affine_warp (640, 480)%Z (result_wh wp') 1 0 2 0 (640, 0)).
Proof.
  destruct (C130_defined ex_wp (640, 480)%Z 1 0 2 0) as (wp' & E); try (cbn; lia); try lra.
  - cbn [fst snd]. rewrite (Rabs_right 1) by lra. unfold INT_MAX. change (2 ^ 31 - 1)%Z with 2147483647%Z. lra.
  - assert (on_image (640, 480)%Z (640, 0)) as O by (split; cbn; lra). exists wp'. split; [exact E|]. split; [exact O|]. refine (proj2 (proj2 (C131_inside _ _ _ _ _ _ _ _ _ _ E O))); cbn; lia.
Qed.

Local Open Scope Z_scope.
(** C132: resampling into a buffer.  The coefficients are the floats a0 / U, ...;
    X, Y is the position of a pixel up to rounding errors. *)
Theorem C132_resample_partial : forall a0 a1 a3 a4 a6 a7 c dest src, image_ok dest -> image_ok src -> byte_img src -> 1 <= i_w src -> 1 <= i_h src ->
  small_map a0 a1 a3 a4 a6 a7 dest c ->
  exists g, warp_core dest src (Affine (FF a0) (FF a1) (FF a3) (FF a4) (FF a6) (FF a7)) = Ok g /\ only_pixels dest g /\
    forall x y, in_img dest x y -> exists X Y, placed a0 a1 a3 a4 a6 a7 c x y X Y /\ resampled src X Y (pix 0 dest x y) (pix 0 g x y).
Proof.
  intros a0 a1 a3 a4 a6 a7 c dest src G GS B W1 H1 SM. unfold warp_core. cbn [t0 t1 t3 t4 t6 t7].
  destruct (all_rows a0 a1 a3 a4 a6 a7 (core_pixel src) dest c (fun X Y o => forall old, resampled src X Y old (match o with Some b => b | None => old end)) G SM) as (g & n & -> & O & _ & V).
  - intros X Y n PX PY. apply core_ok; assumption.
  - exists g. split; [reflexivity|]. split; [exact O|]. intros x y I. destruct (V x y I) as (X & Y & o & PL & R & ->). exists X, Y. auto.
Qed.
Print Assumptions C132_resample_partial.
(** The warp as a whole never delivers: the first blur is given a standard
    deviation of zero, which the kernel function rejects. *)
Theorem C132_warp_refuted : forall fcos fsin sigma_of xpass ypass smp img skew sub result scale planar_angle tilt tilt_angle post_sigma inv bg g,
  warp fcos fsin sigma_of xpass ypass smp img skew sub result scale planar_angle tilt tilt_angle post_sigma inv bg <> Ok g.
Proof. intros. apply warp_stops. Qed.
Print Assumptions C132_warp_refuted.
(** A 4 x 4 image of 7, 14, ... moved by half a pixel into a 4 x 3 buffer of ones;
    and a whole warp. *)
Definition ex_img : image Z := ex_src 4 4 (fun i => 10 * i).
Definition ex_dst : image Z := ex_src 4 3 (fun _ => 1).
Example C132_example : small_map U 0 0 U (2 ^ 148) 0 ex_dst 8 /\ image_ok ex_img /\ byte_img ex_img /\
  warp_core ex_dst ex_img (Affine (FF U) (FF 0) (FF 0) (FF U) (FF (2 ^ 148)) (FF 0)) = Ok (mkImg 4 3 4 [5; 15; 25; 1; 45; 55; 65; 1; 85; 95; 105; 1]) /\
  warp (fun _ => F1) (fun _ => F0) (fun t => t) (fun _ g => Ok g) (fun _ g => Ok g) (fun _ => F0) ex_img ex_dst ex_dst ex_dst F1 F0 (of_int 2) F0 F1
    (Affine (FF U) (FF 0) (FF 0) (FF U) (FF 0) (FF 0)) BgNoise = Fatal.
Proof.
  split; [|split; [constructor; vm_compute; intuition discriminate|]].
  - split; [lia|]. split; [vm_compute; discriminate|]. split; [vm_compute; discriminate|]. intros x y [IX IY]. change (i_w ex_dst) with 4 in IX. change (i_h ex_dst) with 3 in IY.
    unfold exact_x, exact_y. change (2 ^ 148) with (U / 2). assert (2 * (U / 2) = U) by reflexivity. pose proof U_pos. set (k := U / 2) in *. clearbody k. rewrite !Z.mul_0_r. nia.
  - split; [repeat constructor; vm_compute; discriminate|]. split; vm_compute; reflexivity.
Qed.

(** C133: the background.  Exactly the pixels whose position lies in the border of
    the image or outside of it are replaced: by the chosen colour, by noise or by
    the value at the nearest edge. *)
Section Background.
Variables a0 a1 a3 a4 a6 a7 c : Z.
Variables dest src : image Z.
Hypothesis G : image_ok dest.
Hypothesis GS : image_ok src.
Hypothesis B : byte_img src.
Hypothesis W2 : 2 <= i_w src.
Hypothesis H2 : 2 <= i_h src.
Hypothesis SM : small_map a0 a1 a3 a4 a6 a7 dest c.
Notation t := (Affine (FF a0) (FF a1) (FF a3) (FF a4) (FF a6) (FF a7)).
Lemma bg_all smp bg (value : Z -> Z -> Z -> Prop) :
  (forall X Y n, pos_ok X -> pos_ok Y -> exists o n', bg_pixel smp bg src (FF X) (FF Y) n = Ok (o, n') /\ forall old, filled (value X Y) src X Y old (match o with Some b => b | None => old end)) ->
  exists g n, fill_warp_buffer_bg smp dest src t bg = Ok (g, n) /\ only_pixels dest g /\
    forall x y, in_img dest x y -> exists X Y, placed a0 a1 a3 a4 a6 a7 c x y X Y /\ filled (value X Y) src X Y (pix 0 dest x y) (pix 0 g x y).
Proof.
  intro HP. unfold fill_warp_buffer_bg. cbn [t0 t1 t3 t4 t6 t7].
  destruct (all_rows a0 a1 a3 a4 a6 a7 (bg_pixel smp bg src) dest c (fun X Y o => forall old, filled (value X Y) src X Y old (match o with Some b => b | None => old end)) G SM HP) as (g & n & -> & O & _ & V).
  exists g, n. split; [reflexivity|]. split; [exact O|]. intros x y I. destruct (V x y I) as (X & Y & o & PL & R & ->). exists X, Y. auto.
Qed.
Theorem C133_fixed_partial : forall smp color,
  exists g n, fill_warp_buffer_bg smp dest src t (BgFixed color) = Ok (g, n) /\ only_pixels dest g /\
    forall x y, in_img dest x y -> exists X Y, placed a0 a1 a3 a4 a6 a7 c x y X Y /\ filled (fun b => b = color) src X Y (pix 0 dest x y) (pix 0 g x y).
Proof. intros. apply (bg_all smp (BgFixed color) (fun _ _ b => b = color)). intros. apply fixed_bg; assumption. Qed.
Theorem C133_noise_partial : forall smp, (forall n, exists s, smp n = FF s /\ 0 <= s <= U) ->
  exists g n, fill_warp_buffer_bg smp dest src t BgNoise = Ok (g, n) /\ only_pixels dest g /\
    forall x y, in_img dest x y -> exists X Y, placed a0 a1 a3 a4 a6 a7 c x y X Y /\ filled (fun b => 0 <= b <= 255) src X Y (pix 0 dest x y) (pix 0 g x y).
Proof. intros smp HS. apply (bg_all smp BgNoise (fun _ _ b => 0 <= b <= 255)). intros. apply noise_bg; assumption. Qed.
Theorem C133_repeat_partial : forall smp,
  exists g n, fill_warp_buffer_bg smp dest src t BgRepeat = Ok (g, n) /\ only_pixels dest g /\
    forall x y, in_img dest x y -> exists X Y, placed a0 a1 a3 a4 a6 a7 c x y X Y /\
      filled (fun b => 0 <= b <= 255 /\ edge_value src X Y b) src X Y (pix 0 dest x y) (pix 0 g x y).
Proof. intros. apply (bg_all smp BgRepeat (fun X Y b => 0 <= b <= 255 /\ edge_value src X Y b)). intros. apply repeat_bg; assumption. Qed.
End Background.
Print Assumptions C133_fixed_partial.
Print Assumptions C133_noise_partial.
Print Assumptions C133_repeat_partial.
(** Not only the outside is replaced: with the identity, every pixel of a 3 x 3
    image is background although each comes from a pixel of the image. *)
Theorem C133_inside_refuted : exists src dest, image_ok src /\ byte_img src /\ (forall x y, in_img dest x y -> in_img src x y) /\
  exists g n, fill_warp_buffer_bg (fun _ => F0) dest src (Affine (FF U) (FF 0) (FF 0) (FF U) (FF 0) (FF 0)) (BgFixed 9) = Ok (g, n) /\ Forall (fun v => v = 9) (i_data g).
Proof.
  exists (ex_src 3 3 (fun i => i)), (ex_src 3 3 (fun i => i)). split; [constructor; vm_compute; intuition discriminate|]. split; [repeat constructor; vm_compute; discriminate|]. split; [auto|].
  exists (mkImg 3 3 3 (repeat 9 9)), O. split; [vm_compute; reflexivity|repeat constructor].
Qed.
Print Assumptions C133_inside_refuted.
Definition ex_big : image Z := ex_src 5 5 (fun i => 10 * i).
Example C133_example : small_map U 0 0 U 0 0 ex_dst 8 /\ image_ok ex_big /\ byte_img ex_big /\
  fill_warp_buffer_bg (fun _ => F0) ex_dst ex_big (Affine (FF U) (FF 0) (FF 0) (FF U) (FF 0) (FF 0)) (BgFixed 9) = Ok (mkImg 4 3 4 [9; 9; 9; 9; 9; 1; 1; 9; 9; 1; 1; 9], O) /\
  fill_warp_buffer_bg (fun _ => F0) ex_dst ex_big (Affine (FF U) (FF 0) (FF 0) (FF U) (FF 0) (FF 0)) BgRepeat = Ok (mkImg 4 3 4 [0; 10; 20; 40; 50; 1; 1; 90; 100; 1; 1; 140], O) /\
  fill_warp_buffer_bg (fun _ => FF (2 ^ 148)) ex_dst ex_big (Affine (FF U) (FF 0) (FF 0) (FF U) (FF 0) (FF 0)) BgNoise = Ok (mkImg 4 3 4 [127; 127; 127; 127; 127; 1; 1; 127; 127; 1; 1; 127], 8%nat).
Proof.
  split; [|split; [constructor; vm_compute; intuition discriminate|]].
  - split; [lia|]. split; [vm_compute; discriminate|]. split; [vm_compute; discriminate|]. intros x y [IX IY]. change (i_w ex_dst) with 4 in IX. change (i_h ex_dst) with 3 in IY.
    unfold exact_x, exact_y. pose proof U_pos. rewrite !Z.mul_0_r. nia.
  - split; [repeat constructor; vm_compute; discriminate|]. do 2 (split; [vm_compute; reflexivity|]). vm_compute; reflexivity.
Qed.
