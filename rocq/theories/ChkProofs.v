From Coq Require Import Lia.
From Verif Require Import Base BaseLemmas Gray Flt FltErr FilterModel FilterSpec FilterProofs Img ImgModel ImgSpec ImgProofs ImgBox KernModel KernSpec KernProofs KernSmooth HdetSpec HdetProofs.
From Verif Require Import WarpModel WarpSpec WarpProofs WarpPixel WarpRows WarpAll WarpRotate ChkModel ChkSpec.
Local Open Scope Z_scope.

Lemma temp_dim_ok w h : 0 <= w -> 0 <= h -> w + h + 2 <= INT_MAX -> exists n, temp_dim w h = Ok n /\ diagonal_side w h n.
Proof.
  intros W H B. unfold temp_dim. pose proof int_rng as [I0 I1]. rewrite chk_int_in by lia. cbn [bind]. rewrite chk_int_in by lia. cbn [bind]. eexists. split; [reflexivity|].
  set (s := w + h + 2). assert (S0 : 0 <= s * s / 2) by (apply Z.div_pos; [nia|lia]). pose proof (Z.sqrt_spec _ S0) as SP. pose proof (Z.sqrt_nonneg (s * s / 2)) as SN.
  pose proof (Z.div_mod (s * s) 2 ltac:(lia)) as DM. pose proof (Z.mod_pos_bound (s * s) 2 ltac:(lia)) as MB. set (n := Z.sqrt (s * s / 2)) in *. cbv zeta in SP. unfold Z.succ in SP. unfold diagonal_side. fold s. lia.
Qed.
Lemma fresh_byte g w h : byte_image g w h -> byte_img g.
Proof.
  intros ((FW & FH & FS & G) & B). unfold byte_img. apply Forall_forall. intros v I. apply (In_nth _ _ 0) in I as (k & K & E).
  pose proof (io_len g G) as L. pose proof (io_w g G) as W0. pose proof (io_h g G) as H0. rewrite FS in *.
  assert (WP : 0 < w) by (destruct (Z.eq_dec w 0) as [Z0|]; [rewrite Z0 in L; lia|lia]).
  pose proof (Z.div_mod (Z.of_nat k) w ltac:(lia)) as DM. pose proof (Z.mod_pos_bound (Z.of_nat k) w WP) as MB. set (x := Z.of_nat k mod w) in *. set (y := Z.of_nat k / w) in *.
  assert (Y0 : 0 <= y) by (apply Z.div_pos; lia). assert (Y1 : y < i_h g) by (apply Z.div_lt_upper_bound; lia).
  specialize (B x y). unfold pix in B. rewrite FS in B. replace (Z.to_nat (y * w + x)) with k in B by lia. rewrite E in B. apply B. unfold in_img. lia.
Qed.
Lemma turn_ok dest src cw w h : fresh dest w h -> image_ok src -> byte_img src -> 1 <= i_w src <= 2048 -> 1 <= i_h src <= 2048 -> w <= 2048 -> h <= 2048 ->
  exists g, rotate45_uc dest src cw = Ok g /\ byte_image g w h /\ turned cw src g.
Proof.
  intros (DW & DH & DS & G) GS B SW SH WB HB.
  destruct (rotate_ok (pixel (fun _ => F0) Black src) cw dest src (fun X Y b => 0 <= b <= 255 /\ sampled (fun b => b = 0) src X Y b)) as (g & E & (O & _) & OK & V); auto; try lia.
  - intros x y X Y n I PL PX PY. destruct (fixed_ok (fun _ => F0) src GS B ltac:(lia) ltac:(lia) X Y PX PY Black 0 n ltac:(auto)) as (b & E & R). exists b, n. auto.
  - exists g. split; [exact E|]. pose proof O as (O1 & O2 & O3). split; [split; [unfold fresh; intuition congruence|]|].
    + intros x y I. apply (same_shape_in _ _ _ _ O) in I. destruct (V x y I) as (X & Y & _ & R & _). exact R.
    + intros x y I. apply (same_shape_in _ _ _ _ O) in I. destruct (V x y I) as (X & Y & (P1 & P2) & _ & R). exists X, Y. rewrite O1, O2. auto.
Qed.
Lemma rows_ok src s0 dest w h r buf : s0 = match src with Some s => s | None => dest end -> fresh dest w h -> i_w s0 = w -> i_h s0 = h -> image_ok s0 -> byte_img s0 ->
  1 < w -> 1 <= r <= 32767 -> w + 2 * r <= Z.of_nat (length buf) ->
  exists g buf', row_filter of_int to_uc (box_filter w r) r src dest buf = Ok (g, buf') /\ length buf' = length buf /\ byte_image g w h /\ row_means r s0 g.
Proof.
  intros E0 (DW & DH & DS & DO) SW SH SO B W R L.
  assert (BY : forall x y, 0 <= x < w -> 0 <= y < h -> 0 <= pix 0 s0 x y <= 255) by (intros x y X Y; apply (pix_byte s0 x y SO B); unfold in_img; lia).
  destruct (row_filter_ok 0 of_int to_uc (box_filter w r) r (fun p => window_mean w r (fun x => pix 0 s0 x (snd p)) (fst p)) (length buf) src dest buf) as (g' & b & E' & S & O & LB & V);
    rewrite <- ?E0; auto; try lia.
  - intros y s b Y S LB BB. rewrite SW in *. rewrite SH in *. destruct (box_line w r s b (fun x => pix 0 s0 x y)) as (b' & E1 & L1 & V1); auto; try lia.
    exists b'. split; [exact E1|]. split; [lia|exact V1].
  - exists g', b. split; [exact E'|]. split; [exact LB|]. pose proof S as (S1 & S2 & S3). split; [split; [unfold fresh; intuition congruence|]|].
    + intros x y I. apply (same_shape_in _ _ _ _ S) in I. rewrite V by exact I. cbn [fst snd]. destruct I. apply window_mean_byte; [lia|lia|]. intros i Ii. apply BY; lia.
    + intros x y I. apply (same_shape_in _ _ _ _ S) in I. rewrite V by exact I. now rewrite SW.
Qed.
Lemma cols_ok s0 dest w h r buf : fresh dest w h -> i_w s0 = w -> i_h s0 = h -> image_ok s0 -> byte_img s0 ->
  1 < h -> 1 <= r <= 32767 -> h + 2 * r <= Z.of_nat (length buf) ->
  exists g buf', col_filter of_int to_uc (box_filter h r) r (Some s0) dest buf = Ok (g, buf') /\ length buf' = length buf /\ byte_image g w h /\ col_means r s0 g.
Proof.
  intros (DW & DH & DS & DO) SW SH SO B W R L.
  assert (BY : forall x y, 0 <= x < w -> 0 <= y < h -> 0 <= pix 0 s0 x y <= 255) by (intros x y X Y; apply (pix_byte s0 x y SO B); unfold in_img; lia).
  destruct (col_filter_ok 0 of_int to_uc (box_filter h r) r (fun p => window_mean h r (fun y => pix 0 s0 (fst p) y) (snd p)) (length buf) (Some s0) dest buf) as (g' & b & E' & S & O & LB & V);
    auto; try lia.
  - intros x s b X S LB BB. rewrite SW in *. rewrite SH in *. destruct (box_line h r s b (fun y => pix 0 s0 x y)) as (b' & E1 & L1 & V1); auto; try lia.
    exists b'. split; [exact E1|]. split; [lia|exact V1].
  - exists g', b. split; [exact E'|]. split; [exact LB|]. pose proof S as (S1 & S2 & S3). split; [split; [unfold fresh; intuition congruence|]|].
    + intros x y I. apply (same_shape_in _ _ _ _ S) in I. rewrite V by exact I. cbn [fst snd]. destruct I. apply window_mean_byte; [lia|lia|]. intros i Ii. apply BY; lia.
    + intros x y I. apply (same_shape_in _ _ _ _ S) in I. rewrite V by exact I. now rewrite SH.
Qed.
Lemma slanted_ok n temp img r buf dest cw : fresh temp n n -> fresh dest (i_w img) (i_h img) -> image_ok img -> byte_img img -> 1 <= i_w img <= 2048 -> 1 <= i_h img <= 2048 -> 1 < n <= 2048 ->
  1 <= r <= 32767 -> n + 2 * r <= Z.of_nat (length buf) ->
  exists g t buf', slanted temp img r buf dest cw = Ok (g, t, buf') /\ fresh t n n /\ length buf' = length buf /\ byte_image g (i_w img) (i_h img) /\ diagonal_means n r cw img g.
Proof.
  intros FT FD GI BI W H N R L. unfold slanted.
  destruct (turn_ok temp img cw n n FT GI BI W H ltac:(lia) ltac:(lia)) as (t & -> & BT & TT). cbn [bind]. pose proof BT as ((TW & TH & TS & TO) & _). rewrite TW.
  destruct (rows_ok None t t n n r buf eq_refl (proj1 BT) TW TH TO (fresh_byte _ _ _ BT) ltac:(lia) R L) as (m & buf' & -> & LB & BM & RM). cbn [bind].
  pose proof BM as ((MW & MH & MS & MO) & _).
  destruct (turn_ok dest m (negb cw) _ _ FD MO (fresh_byte _ _ _ BM) ltac:(lia) ltac:(lia) ltac:(lia) ltac:(lia)) as (g & -> & BG & TG). cbn [bind].
  exists g, m, buf'. split; [reflexivity|]. split; [apply BM|]. split; [exact LB|]. split; [exact BG|]. exists t, m. split; [apply BT|]. split; [apply BM|]. auto.
Qed.
Lemma local_radon_ok junk bufj img r : image_ok img -> byte_img img -> 2 <= i_w img <= 2048 -> 2 <= i_h img <= 2048 -> i_w img + i_h img <= 2894 -> 1 <= r <= 32767 ->
  exists n l0 l1 l2 l3, diagonal_side (i_w img) (i_h img) n /\ local_radon junk bufj img r = Ok (l0, l1, l2, l3) /\
    (byte_image l0 (i_w img) (i_h img) /\ byte_image l1 (i_w img) (i_h img) /\ byte_image l2 (i_w img) (i_h img) /\ byte_image l3 (i_w img) (i_h img)) /\
    row_means r img l0 /\ col_means r img l1 /\ diagonal_means n r true img l2 /\ diagonal_means n r false img l3.
Proof.
  intros G B W H S R. unfold local_radon. pose proof int_rng as [I0 I1].
  assert (WH : i_w img * i_h img <= 2048 * 2048) by (apply Z.mul_le_mono_nonneg; lia).
  destruct (img_new_fresh (junk 0%nat) (i_w img) (i_h img)) as (l0 & -> & F0'); [lia..|]. destruct (img_new_fresh (junk 1%nat) (i_w img) (i_h img)) as (l1 & -> & F1'); [lia..|].
  destruct (img_new_fresh (junk 2%nat) (i_w img) (i_h img)) as (l2 & -> & F2); [lia..|]. destruct (img_new_fresh (junk 3%nat) (i_w img) (i_h img)) as (l3 & -> & F3); [lia..|]. cbn [bind].
  destruct (temp_dim_ok (i_w img) (i_h img)) as (n & -> & D); [lia..|]. cbn [bind]. pose proof D as (N0 & N1 & N2).
  assert (NB : n <= 2048). { destruct (Z.le_gt_cases n 2048) as [|C]; [assumption|exfalso]. assert (2049 * 2049 <= n * n) by (apply Z.mul_le_mono_nonneg; lia). assert ((i_w img + i_h img + 2) * (i_w img + i_h img + 2) <= 2896 * 2896) by (apply Z.mul_le_mono_nonneg; lia). lia. }
  assert (NL : 1 < n). { destruct (Z.le_gt_cases n 1) as [C|]; [exfalso|assumption]. assert ((n + 1) * (n + 1) <= 2 * 2) by (apply Z.mul_le_mono_nonneg; lia). assert (6 * 6 <= (i_w img + i_h img + 2) * (i_w img + i_h img + 2)) by (apply Z.mul_le_mono_nonneg; lia). lia. }
  rewrite buf_len_ok by lia. cbn [bind]. set (buf := map bufj _).
  assert (LB : Z.of_nat (length buf) = Z.max n (Z.max (i_w img) (i_h img)) + 2 * r) by (unfold buf; rewrite map_length, seq_length; lia). clearbody buf.
  destruct (rows_ok (Some img) img l0 (i_w img) (i_h img) r buf eq_refl F0' eq_refl eq_refl G B ltac:(lia) R ltac:(lia)) as (g0 & b0 & -> & L0 & B0 & M0). cbn [bind].
  destruct (cols_ok img l1 (i_w img) (i_h img) r b0 F1' eq_refl eq_refl G B ltac:(lia) R ltac:(lia)) as (g1 & b1 & -> & L1 & B1 & M1). cbn [bind].
  assert (NN : n * n <= 2048 * 2048) by (apply Z.mul_le_mono_nonneg; lia).
  destruct (img_new_fresh (junk 4%nat) n n) as (temp & -> & FT); [lia..|]. cbn [bind].
  destruct (slanted_ok n temp img r b1 l2 true FT F2 G B ltac:(lia) ltac:(lia) ltac:(lia) R ltac:(lia)) as (g2 & t & b2 & -> & FT2 & L2 & B2 & M2). cbn [bind].
  destruct (slanted_ok n t img r b2 l3 false FT2 F3 G B ltac:(lia) ltac:(lia) ltac:(lia) R ltac:(lia)) as (g3 & t' & b3 & -> & FT3 & L3 & B3 & M3). cbn [bind].
  exists n, g0, g1, g2, g3. auto 10.
Qed.
