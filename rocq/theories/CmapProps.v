(** Colour maps. *)
From Coq Require Import Lia.
From Verif Require Import Base BaseLemmas Flt FltErr Gray Img PnmModel PnmSpec CmapData CmapModel CmapSpec CmapProofs CmapMore CmapImage.
Local Open Scope Z_scope.

(** C117: every value from 0 to 1 has a colour: the table interpolated at its place,
    to 1/256 of a level. *)
Theorem C117_values_partial : forall m V, 0 <= V <= U -> exists c, color_map_apply (FF V) m = Ok c /\ coloured m V U c.
Proof. exact apply_ok. Qed.
Print Assumptions C117_values_partial.
(** The ends of the table. *)
Theorem C117_ends : forall m d rows, table m = Some (d, rows) ->
  (exists c, color_map_apply (of_int 0) m = Ok c /\ colour_at d rows 0 c) /\
  (exists c, color_map_apply (of_int 1) m = Ok c /\ colour_at d rows ((Z.of_nat (length rows) - 1) * U) c).
Proof.
  intros m d rows T. destruct (table_ok m d rows T) as (D & F & N). pose proof U_pos as UP. split.
  - change (of_int 0) with (FF 0). apply colour_at_ok; [exact T| |split; [try apply Z.le_refl; apply Z.mul_nonneg_nonneg; lia|try apply Z.le_refl; apply Z.mul_nonneg_nonneg; lia]]. change (FF 0) with (of_int 0). rewrite fmul_int by (unfold small24; lia). now rewrite Z.mul_0_r.
  - replace (of_int 1) with (FF U) by reflexivity. apply colour_at_ok; [exact T| |split; [try apply Z.le_refl; apply Z.mul_nonneg_nonneg; lia|try apply Z.le_refl; apply Z.mul_nonneg_nonneg; lia]]. replace (FF U) with (of_int 1) by reflexivity. rewrite fmul_int by (unfold small24; lia). rewrite Z.mul_1_r. apply of_int_exact. unfold small24; lia.
Qed.
Print Assumptions C117_ends.
(** A byte has the colour of its row in a table of 256 rows, and gray keeps it. *)
Theorem C117_bytes : forall m b, 0 <= b <= 255 -> exists c, color_map_apply (fdiv (of_int b) (of_int 255)) m = Ok c /\
  coloured m b 255 c /\ (m = CGray -> c = (b, b, b)) /\ (forall d rows, table m = Some (d, rows) -> length rows = 256%nat -> colour_at d rows (b * U) c).
Proof. exact byte_ok. Qed.
Print Assumptions C117_bytes.
(** Values beyond 1, below 0 and NaN read outside of the table. *)
Theorem C117_outside_refuted : color_map_apply (of_int 2) Viridis = UB /\ color_map_apply (of_int (-1)) Viridis = UB /\ color_map_apply FNaN Viridis = UB /\ color_map_apply (of_int 2) CGray = UB.
Proof. split; [|split; [|split]]; vm_compute; reflexivity. Qed.
Print Assumptions C117_outside_refuted.
Example C117_example : 0 <= 2 ^ 148 <= U /\ color_map_apply (FF (2 ^ 148)) Viridis = Ok (32, 144, 140) /\ color_map_apply (FF (2 ^ 148)) CGray = Ok (127, 127, 127) /\
  color_map_apply (fdiv (of_int 255) (of_int 255)) Plasma = Ok (239, 248, 33) /\ length magma_data = 256%nat /\ length cubehelix_data = 201%nat.
Proof. split; [split; vm_compute; discriminate|]. repeat split; vm_compute; reflexivity. Qed.

(** C118: colouring an image of bytes, and one of floats from 0 to 1. *)
Theorem C118_bytes : forall junk gray m, image_ok gray -> 4 * i_w gray * i_h gray <= INT_MAX -> i_h gray <= INT_MAX -> 4 * i_w gray <= INT_MAX -> (forall x y, in_img gray x y -> 0 <= pix 0 gray x y <= 255) ->
  exists u, apply_colormap_uc junk gray m = Ok u /\ sized u RGBA (i_w gray) (i_h gray) /\
    forall x y, in_img gray x y -> sample u x y 3 = 255%N /\ coloured m (pix 0 gray x y) 255 (colour_of u x y) /\
      (m = CGray -> colour_of u x y = (pix 0 gray x y, pix 0 gray x y, pix 0 gray x y)) /\
      (forall d rows, table m = Some (d, rows) -> length rows = 256%nat -> colour_at d rows (pix 0 gray x y * U) (colour_of u x y)).
Proof.
  intros junk gray m G A4 H1 W4 B. pose proof (io_w _ G). pose proof (io_h _ G).
  destruct (image_coloured 0 (fun b => fdiv (of_int b) (of_int 255)) m (byte_colour m) junk gray) as (u & E & S & V); auto; [lia| |].
  - intros x y I. destruct (byte_ok m (pix 0 gray x y) (B x y I)) as (c & E & C). exists c. split; [exact E|]. split; [exact C|]. eapply coloured_byte. exact (proj1 C).
  - exists u. split; [exact E|]. split; [exact S|]. intros x y I. destruct (V x y I) as [(C1 & C2 & C3) V3]. auto.
Qed.
Print Assumptions C118_bytes.
Theorem C118_floats_partial : forall junk gray m, image_ok gray -> 4 * i_w gray * i_h gray <= INT_MAX -> i_h gray <= INT_MAX -> 4 * i_w gray <= INT_MAX ->
  (forall x y, in_img gray x y -> exists V, pix F0 gray x y = FF V /\ 0 <= V <= U) ->
  exists u, apply_colormap_f32 junk gray m = Ok u /\ sized u RGBA (i_w gray) (i_h gray) /\
    forall x y, in_img gray x y -> sample u x y 3 = 255%N /\ exists V, pix F0 gray x y = FF V /\ coloured m V U (colour_of u x y).
Proof.
  intros junk gray m G A4 H1 W4 B. pose proof (io_w _ G). pose proof (io_h _ G).
  destruct (image_coloured F0 (fun v => v) m (fun v c => exists V, v = FF V /\ coloured m V U c) junk gray) as (u & E & S & V); auto; [lia| |].
  - intros x y I. destruct (B x y I) as (V & -> & VB). destruct (apply_ok m V VB) as (c & E & C). exists c. split; [exact E|]. split; [eauto|]. eapply coloured_byte. exact C.
  - exists u. split; [exact E|]. split; [exact S|]. intros x y I. destruct (V x y I). auto.
Qed.
Print Assumptions C118_floats_partial.
Example C118_example : exists u, apply_colormap_uc (fun _ => 9%N) (mkImg 2 1 3 [0; 128; 77]) Viridis = Ok u /\ i_data (u_px u) = [68; 1; 84; 255; 32; 144; 140; 255]%N.
Proof. eexists. split; vm_compute; reflexivity. Qed.
(** A float image with a value above 1 (as a sum of images has) reads outside of the table. *)
Theorem C118_floats_refuted : forall junk, exists gray, image_ok gray /\ apply_colormap_f32 junk gray Viridis = UB.
Proof. intro junk. exists (mkImg 1 1 1 [of_int 2]). split; [constructor; vm_compute; intuition discriminate|]. vm_compute. reflexivity. Qed.
Print Assumptions C118_floats_refuted.
