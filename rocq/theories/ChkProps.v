(** C145: local radon images and checkerboard scores. *)
From Coq Require Import Lia.
From Verif Require Import Base Flt FltErr Img ImgSpec KernModel KernSpec KernProofs HdetSpec ChkModel ChkSpec ChkProofs ChkScore.
Local Open Scope Z_scope.

(** The four images have the size of the input.  They hold the means over the
    windows of radius [r] along the rows, the columns and the two diagonals. *)
Theorem C145_radon : forall junk bufj img r,
  image_ok img -> byte_img img -> 2 <= i_w img <= 2048 -> 2 <= i_h img <= 2048 -> i_w img + i_h img <= 2894 -> 1 <= r <= 32767 ->
  exists n l0 l1 l2 l3, diagonal_side (i_w img) (i_h img) n /\ local_radon junk bufj img r = Ok (l0, l1, l2, l3) /\
    (byte_image l0 (i_w img) (i_h img) /\ byte_image l1 (i_w img) (i_h img) /\ byte_image l2 (i_w img) (i_h img) /\ byte_image l3 (i_w img) (i_h img)) /\
    row_means r img l0 /\ col_means r img l1 /\ diagonal_means n r true img l2 /\ diagonal_means n r false img l3.
Proof. exact local_radon_ok. Qed.
Print Assumptions C145_radon.
Definition ex_img : image Z := mkImg 4 4 4 [0; 0; 200; 200; 0; 0; 200; 200; 200; 200; 0; 0; 200; 200; 0; 0].
Example C145_example : image_ok ex_img /\ byte_img ex_img /\
  local_radon (fun _ _ => 77) (fun _ => FNaN) ex_img 1 = Ok (
    mkImg 4 4 4 [0; 66; 133; 200; 0; 66; 133; 200; 200; 133; 66; 0; 200; 133; 66; 0],
    mkImg 4 4 4 [0; 0; 200; 200; 66; 66; 133; 133; 133; 133; 66; 66; 200; 200; 0; 0],
    mkImg 4 4 4 [12; 55; 145; 103; 55; 109; 142; 58; 145; 142; 80; 0; 95; 58; 0; 0],
    mkImg 4 4 4 [12; 52; 143; 92; 52; 66; 80; 95; 143; 80; 56; 40; 92; 95; 40; 4]).
Proof. split; [constructor; vm_compute; intuition discriminate|]. split; [repeat constructor; discriminate|]. vm_compute. reflexivity. Qed.

(** The score is the squared spread (largest minus smallest, over 255) of the four
    images, smoothed; it is between 0 and 1.02. *)
Theorem C145_score : forall junk bufj kernel k l0 l1 l2 l3 w h,
  weights kernel k -> 1000 * total k (length kernel) <= 1001 * U -> 2 <= Z.of_nat (length kernel) <= 64 ->
  byte_image l0 w h -> byte_image l1 w h -> byte_image l2 w h -> byte_image l3 w h -> 2 <= w -> 2 <= h -> Z.max w h + 126 <= INT_MAX ->
  exists s f, score_image junk bufj kernel (l0, l1, l2, l3) = Ok s /\ fresh s w h /\
    (forall x y, 0 <= x < w -> 0 <= y < h ->
       squared_spread (fold_right Z.min (pix 0 l0 x y) [pix 0 l1 x y; pix 0 l2 x y; pix 0 l3 x y])
                      (fold_right Z.max (pix 0 l0 x y) [pix 0 l1 x y; pix 0 l2 x y; pix 0 l3 x y]) (f x y)) /\
    (forall x y, 0 <= x < w -> 0 <= y < h -> pix F0 s x y = windowed (Some kernel) w h (fun x y => FF (f x y)) x y) /\
    (forall x y, 0 <= x < w -> 0 <= y < h -> exists v, pix F0 s x y = FF v /\ 0 <= v /\ 50 * v <= 51 * U).
Proof. intros. eapply score_image_ok; eauto; lia. Qed.
Print Assumptions C145_score.

(** Where the four images agree everywhere the score is zero everywhere. *)
Theorem C145_flat : forall junk bufj kernel k l0 l1 l2 l3 w h,
  weights kernel k -> 1000 * total k (length kernel) <= 1001 * U -> 2 <= Z.of_nat (length kernel) <= 64 ->
  byte_image l0 w h -> byte_image l1 w h -> byte_image l2 w h -> byte_image l3 w h -> 2 <= w -> 2 <= h -> Z.max w h + 126 <= INT_MAX ->
  (forall x y, 0 <= x < w -> 0 <= y < h -> pix 0 l1 x y = pix 0 l0 x y /\ pix 0 l2 x y = pix 0 l0 x y /\ pix 0 l3 x y = pix 0 l0 x y) ->
  exists s, score_image junk bufj kernel (l0, l1, l2, l3) = Ok s /\ forall x y, 0 <= x < w -> 0 <= y < h -> pix F0 s x y = F0.
Proof.
  intros junk bufj kernel k l0 l1 l2 l3 w h K T L B0 B1 B2 B3 W H M A.
  destruct (C145_score junk bufj kernel k l0 l1 l2 l3 w h K T L B0 B1 B2 B3 W H M) as (s & f & E & _ & Q & V & _). exists s. split; [exact E|].
  intros x y X Y. rewrite V by auto. apply windowed_zero with k; auto; [lia..|]. intros i j I J. destruct (Q i j I J) as (_ & Z0 & _). destruct (A i j I J) as (E1 & E2 & E3). rewrite Z0; [reflexivity|]. rewrite E1, E2, E3. cbn. lia.
Qed.
Print Assumptions C145_flat.

(** Before smoothing a larger spread always has the larger score. *)
Theorem C145_order : forall lo hi v lo' hi' v', 0 <= lo <= hi -> 0 <= lo' <= hi' -> squared_spread lo hi v -> squared_spread lo' hi' v' -> hi - lo < hi' - lo' -> v < v'.
Proof.
  intros lo hi v lo' hi' v' L L' (_ & _ & E) (_ & _ & E') S. set (a := hi - lo) in *. set (b := hi' - lo') in *. assert (AB : a * a + 1 <= b * b) by nia.
  assert (Q : (a * a + 1) * U <= b * b * U) by (apply Z.mul_le_mono_nonneg_r; [discriminate|exact AB]). rewrite Z.mul_add_distr_r in Q. set (p := a * a * U) in *. set (q := b * b * U) in *. clearbody p q. pose proof U_pos. lia.
Qed.
Print Assumptions C145_order.

(** Both steps, with the kernel that nx_kernel_sym_gaussian makes (C119). *)
Theorem C145_detect : forall junk junk' bufj bufj' img r kv n kernel, bell kv n -> 2 <= n <= 64 -> Z.of_nat (length kernel) = n ->
  image_ok img -> byte_img img -> 2 <= i_w img <= 2048 -> 2 <= i_h img <= 2048 -> i_w img + i_h img <= 2894 -> 1 <= r <= 32767 ->
  exists s, (let* k := kernel_sym_gaussian kv n kernel in let* lr := local_radon junk bufj img r in score_image junk' bufj' k lr) = Ok s /\
    fresh s (i_w img) (i_h img) /\ forall x y, in_img img x y -> exists v, pix F0 s x y = FF v /\ 0 <= v /\ 50 * v <= 51 * U.
Proof.
  intros junk junk' bufj bufj' img r kv n kernel BL N LK G B W H S R.
  destruct (kernel_normalised kv n kernel BL ltac:(lia) LK) as (k' & k & -> & LK' & K & T & _). cbn [bind].
  destruct (C145_radon junk bufj img r G B W H S R) as (m & l0 & l1 & l2 & l3 & _ & -> & (B0 & B1 & B2 & B3) & _). cbn [bind].
  destruct (C145_score junk' bufj' k' k l0 l1 l2 l3 _ _ K ltac:(lia) ltac:(lia) B0 B1 B2 B3 ltac:(lia) ltac:(lia)) as (s & f & E & F & _ & _ & V); [pose proof int_rng; lia|].
  exists s. split; [exact E|]. split; [exact F|]. intros x y [X Y]. auto.
Qed.
Print Assumptions C145_detect.

(** A blank image does not score zero near its border: turning it brings in the
    black outside. *)
Theorem C145_blank_refuted : exists img kernel k s, image_ok img /\ (forall x y, in_img img x y -> pix 0 img x y = 200) /\
  weights kernel k /\ total k (length kernel) = U /\
  (let* lr := local_radon (fun _ _ => 0) (fun _ => F0) img 1 in score_image (fun _ => F0) (fun _ => F0) kernel lr) = Ok s /\ exists v, pix F0 s 3 3 = FF v /\ 0 < v.
Proof.
  exists (mkImg 4 4 4 (repeat 200 16)), [FF (2 ^ 148); FF (2 ^ 147)], (fun i => if i =? 0 then 2 ^ 148 else 2 ^ 147). eexists. split; [constructor; vm_compute; intuition discriminate|].
  split; [intros x y [X Y]; cbn in X, Y; assert (x = 0 \/ x = 1 \/ x = 2 \/ x = 3) as [->|[->|[->| ->]]] by lia; assert (y = 0 \/ y = 1 \/ y = 2 \/ y = 3) as [->|[->|[->| ->]]] by lia; reflexivity|].
  split; [intros i I; cbn [length] in I; assert (i = 0 \/ i = 1) as [->| ->] by lia; split; vm_compute; [reflexivity|discriminate|reflexivity|discriminate]|].
  split; [vm_compute; reflexivity|]. split; [vm_compute; reflexivity|]. eexists. split; [vm_compute; reflexivity|reflexivity].
Qed.
Print Assumptions C145_blank_refuted.
