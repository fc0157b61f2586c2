From Verif Require Import Base BaseLemmas Gray Img Flt ImgModel ImgSpec WarpSpec ShrinkSpec ImgShrink.
Local Open Scope Z_scope.

(** ** C77 *)
(** Scaling a byte image by any factor below 1 / (1 + n / 2^22), n the larger of width
    and height, stays inside the image; the size is the scaled size rounded down, and
    every pixel is the bilinear value at the scaled position, truncated. *)
Theorem C77_shrink_partial : forall junk src f, image_ok src -> byte_img src ->
  Z.max (i_w src) (i_h src) <= 2 ^ 22 -> shrinks f (Z.max (i_w src) (i_h src)) ->
  exists g dw dh, scale_uc junk src (FF f) = Ok g /\ fresh g dw dh /\ scaled_size f (i_w src) dw /\ scaled_size f (i_h src) dh /\
    forall x y, in_img g x y -> exists X Y, scaled_pos f x X /\ scaled_pos f y Y /\ inside src X Y /\ near (pix 0 g x y) (value_at plain plain src X Y).
Proof. exact shrink_uc. Qed.
Print Assumptions C77_shrink_partial.
(** The same for a float image holding the values of a byte image; nothing is truncated. *)
Theorem C77_shrink_f32_partial : forall junk src (bs : image Z) f, image_ok src -> byte_img bs -> i_w bs = i_w src -> i_h bs = i_h src ->
  (forall x y, in_img src x y -> pix F0 src x y = of_int (pix 0 bs x y)) ->
  Z.max (i_w src) (i_h src) <= 2 ^ 22 -> shrinks f (Z.max (i_w src) (i_h src)) ->
  exists g dw dh, scale_f32 junk src (FF f) = Ok g /\ fresh g dw dh /\ scaled_size f (i_w src) dw /\ scaled_size f (i_h src) dh /\
    forall x y, in_img g x y -> exists X Y, scaled_pos f x X /\ scaled_pos f y Y /\ inside bs X Y /\ close (pix F0 g x y) (value_at plain plain bs X Y).
Proof. exact shrink_f32. Qed.
Print Assumptions C77_shrink_f32_partial.
(** Finding: no factor from one on is safe; an image of one pixel is read outside. *)
Theorem C77_factor_refuted : forall junk src f g, image_ok src -> i_w src = 1 -> i_h src = 1 -> U <= f -> scale_uc junk src (FF f) <> Ok g.
Proof. exact enlarge_one. Qed.
Print Assumptions C77_factor_refuted.
(** A factor of 5/8, on an image of 4 x 4 pixels with gaps. *)
Definition ex77 : image Z := mkImg 4 4 5 [0; 40; 80; 120; 9; 10; 50; 90; 130; 9; 20; 60; 100; 140; 9; 30; 70; 110; 150; 9].
Definition f58 : Z := 5 * 2 ^ 146.
Example C77_shrink_example : image_ok ex77 /\ byte_img ex77 /\ shrinks f58 (Z.max (i_w ex77) (i_h ex77)) /\
  scale_uc (fun _ => 77) ex77 (FF f58) = Ok (mkImg 2 2 2 [0; 64; 16; 80]).
Proof.
  split; [constructor; cbn; try lia; unfold INT_MAX; lia|]. split; [repeat constructor; lia|].
  split; [split; [reflexivity|apply Z.leb_le; vm_compute; reflexivity]|vm_compute; reflexivity].
Qed.
Example C77_factor_example : image_ok (mkImg 1 1 1 [200]) /\ scale_uc (fun _ => 77) (mkImg 1 1 1 [200]) (FF (3 * U)) = UB.
Proof. split; [constructor; cbn; try lia; unfold INT_MAX; lia|vm_compute; reflexivity]. Qed.
