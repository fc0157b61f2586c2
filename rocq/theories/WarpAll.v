From Coq Require Import Lia.
From Verif Require Import Base BaseLemmas Flt FltErr Gray Img WarpModel WarpSpec WarpProofs WarpPixel WarpRows.
Local Open Scope Z_scope.

(** The coordinates stay below [c] pixels. *)
Lemma position s0 a b e c w x y : 0 <= y <= 2 ^ 24 -> 1 <= c <= 2 ^ 20 -> 0 <= x < w -> (w + 2) * (65 * (c + 1)) <= 2 ^ 30 ->
  Z.abs (y * a) <= c * U -> (forall x, 0 <= x < w -> Z.abs (x * e + y * a + b) <= c * U) ->
  s0 = fadd (fmul (of_int y) (FF a)) (FF b) ->
  exists X, steps (Z.to_nat x) s0 (FF e) = FF X /\ Z.abs (X - (x * e + y * a + b)) <= (x + 2) * (65 * (c + 1)) * W /\ pos_ok X.
Proof.
  intros Y C XW WC B1 B2 ->. pose proof W_pos as WP. pose proof U_W as UW. pose proof U_pos as UP.
  assert (B0 : Z.abs (y * a + b) <= c * U) by (rewrite <- (B2 0 ltac:(lia)); apply Z.eq_le_incl; f_equal; ring).
  destruct (start_err y a b c Y C B1 B0) as (s & -> & ES).
  destruct (steps_err (y * a + b) e c (Z.to_nat (w - 1)) ltac:(lia) (Z.to_nat x) (130 * (c + 1)) ltac:(lia) ltac:(lia)) with (s' := s) as (p & EP & HP).
  - rewrite Z2Nat.id by lia. lia.
  - intros j J. rewrite <- (B2 (Z.of_nat j)) by lia. apply Z.eq_le_incl. f_equal. ring.
  - exact ES.
  - exists p. split; [exact EP|]. rewrite Z2Nat.id in HP by lia.
    assert (H : Z.abs (p - (x * e + y * a + b)) <= (x + 2) * (65 * (c + 1)) * W).
    { replace (x * e + y * a + b) with (y * a + b + x * e) by ring. eapply Z.le_trans; [exact HP|]. apply Z.eq_le_incl. ring. }
    split; [exact H|]. unfold pos_ok. specialize (B2 x XW). set (k := x * e + y * a + b) in *.
    assert ((x + 2) * (65 * (c + 1)) * W <= U). { rewrite UW. apply Z.mul_le_mono_nonneg_r; [lia|]. change (2 ^ 30) with 1073741824 in WC. assert ((x + 2) * (65 * (c + 1)) <= (w + 2) * (65 * (c + 1))) by (apply Z.mul_le_mono_nonneg_r; lia). lia. }
    assert ((c + 1) * U <= 2 ^ 24 * U) by (apply Z.mul_le_mono_nonneg_r; lia). set (l := (x + 2) * (65 * (c + 1)) * W) in *. set (m := 2 ^ 24 * U) in *. clearbody k l m. lia.
Qed.
Section Warp.
Variables a0 a1 a3 a4 a6 a7 : Z.
Notation small_map := (small_map a0 a1 a3 a4 a6 a7).
Notation placed := (placed a0 a1 a3 a4 a6 a7).
Lemma warp_ok smp dest src bg c (R : Z -> Z -> Z -> Prop) : image_ok dest -> 0 <= i_w src < 2 ^ 30 -> 0 <= i_h src < 2 ^ 30 -> small_map dest c ->
  (forall x y X Y n, in_img dest x y -> placed c x y X Y -> pos_ok X -> pos_ok Y -> exists b n', pixel smp bg src (FF X) (FF Y) n = Ok (b, n') /\ R X Y b) ->
  exists g n', warp_affine_bilinear smp dest src (Affine (FF a0) (FF a1) (FF a3) (FF a4) (FF a6) (FF a7)) bg = Ok (g, n') /\ only_pixels dest g /\ image_ok g /\
    forall x y, in_img dest x y -> exists X Y, placed c x y X Y /\ R X Y (pix 0 g x y).
Proof.
  intros G SW SH (C & WC & HD & SM) HP. unfold warp_affine_bilinear. pose proof int_rng as [J1 J2]. rewrite !chk_int_in by (rewrite J1, J2; lia). cbn [bind t0 t1 t3 t4 t6 t7].
  apply (rows_ok 0 (pixel smp bg src) (FF a0) (FF a1) (fun x y b => exists X Y, placed c x y X Y /\ R X Y b)); [exact G|].
  intros x y n I. pose proof I as [IX IY].
  destruct (position (fadd (fmul (of_int y) (FF a3)) (FF a6)) a3 a6 a0 c (i_w dest) x y) as (X & -> & DX & PX); try lia; try (apply (SM x y I)).
  { intros x' X'. apply (SM x' y). split; [exact X'|exact IY]. }
  { reflexivity. }
  destruct (position (fadd (fmul (of_int y) (FF a4)) (FF a7)) a4 a7 a1 c (i_w dest) x y) as (Y & -> & DY & PY); try lia; try (apply (SM x y I)).
  { intros x' X'. apply (SM x' y). split; [exact X'|exact IY]. }
  { reflexivity. }
  assert (PL : placed c x y X Y) by (split; [exact DX|exact DY]).
  destruct (HP x y X Y n I PL PX PY) as (b & n' & E & RB). exists b, n'. split; [exact E|]. exists X, Y. auto.
Qed.
End Warp.

(** Whole pixels. *)
Lemma steps_int s d : forall n, (forall j, (j <= n)%nat -> small24 (s + Z.of_nat j * d)) -> small24 d -> steps n (of_int s) (of_int d) = of_int (s + Z.of_nat n * d).
Proof.
  induction n as [|n IH]; intros H D; [cbn [steps]; f_equal; lia|]. cbn [steps]. rewrite IH by (try exact D; intros j J; apply H; lia).
  rewrite fadd_int; [f_equal; lia|apply H; lia|exact D|]. replace (s + Z.of_nat n * d + d) with (s + Z.of_nat (S n) * d) by lia. apply H. lia.
Qed.
Lemma split_int i : small24 i -> split_pos (of_int i) = Ok (i, i + 1, of_int 0, of_int 1).
Proof.
  intro S0. unfold split_pos. rewrite to_int_of_int by exact S0. cbn [bind]. rewrite fsub_int by (try exact S0; unfold small24; lia). rewrite Z.sub_diag.
  change F1 with (of_int 1). rewrite fsub_int by (unfold small24; lia). unfold small24 in S0. rewrite chk_int_in by (pose proof int_rng as [-> ->]; lia). reflexivity.
Qed.
Lemma interpolate_int src x0 x1 y0 y1 : image_ok src -> byte_img src -> in_img src x0 y0 -> in_img src x1 y0 -> in_img src x0 y1 -> in_img src x1 y1 ->
  interpolate src x0 x1 (of_int 0) (of_int 1) y0 y1 (of_int 0) (of_int 1) = Ok (pix 0 src x0 y0).
Proof.
  intros G B I1 I2 I3 I4. unfold interpolate. rewrite !(iget_ok 0) by assumption. cbn [bind]. unfold mix.
  pose proof (byte_pix src x0 y0 B) as A1. pose proof (byte_pix src x1 y0 B) as A2. pose proof (byte_pix src x0 y1 B) as A3. pose proof (byte_pix src x1 y1 B) as A4.
  set (a := pix 0 src x0 y0) in *. set (b := pix 0 src x1 y0) in *. set (c := pix 0 src x0 y1) in *. set (d := pix 0 src x1 y1) in *. clearbody a b c d.
  assert (S0 : forall z, 0 <= z <= 255 -> small24 z) by (unfold small24; lia).
  rewrite !(fmul_int 1), !(fmul_int 0) by (apply S0; lia). rewrite !Z.mul_1_l, !Z.mul_0_l. rewrite !fadd_int by (apply S0; lia). rewrite !(fmul_int 1), !(fmul_int 0) by (apply S0; lia). rewrite fadd_int by (apply S0; lia).
  rewrite to_int_of_int by (apply S0; lia). cbn [bind]. f_equal. unfold clamp_byte. destruct (Z.ltb_spec (1 * (a + 0) + 0 * (c + 0)) 0); [lia|]. destruct (Z.ltb_spec 255 (1 * (a + 0) + 0 * (c + 0))); lia.
Qed.
Lemma translate_ok smp dest src bg i j (R : Z -> Z -> Z -> Prop) : image_ok dest -> 0 <= i_w src < 2 ^ 30 -> 0 <= i_h src < 2 ^ 30 -> i_w dest <= 2 ^ 20 -> i_h dest <= 2 ^ 20 -> Z.abs i <= 2 ^ 20 -> Z.abs j <= 2 ^ 20 ->
  (forall x y n, in_img dest x y -> exists b n', pixel smp bg src (of_int (x + i)) (of_int (y + j)) n = Ok (b, n') /\ R x y b) ->
  exists g n', warp_affine_bilinear smp dest src (Affine (of_int 1) (of_int 0) (of_int 0) (of_int 1) (of_int i) (of_int j)) bg = Ok (g, n') /\ only_pixels dest g /\ image_ok g /\
    forall x y, in_img dest x y -> R x y (pix 0 g x y).
Proof.
  intros G SW SH W20 H20 I20 J20 HP. unfold warp_affine_bilinear. pose proof int_rng as [J1 J2]. rewrite !chk_int_in by (rewrite J1, J2; lia). cbn [bind t0 t1 t3 t4 t6 t7].
  apply (rows_ok 0 (pixel smp bg src) (of_int 1) (of_int 0) R); [exact G|].
  intros x y n I. pose proof I as [IX IY].
  assert (E1 : fadd (fmul (of_int y) (of_int 0)) (of_int i) = of_int i) by (rewrite fmul_int by (unfold small24; lia); rewrite Z.mul_0_r, fadd_int by (unfold small24; lia); reflexivity).
  assert (E2 : fadd (fmul (of_int y) (of_int 1)) (of_int j) = of_int (y + j)) by (rewrite fmul_int by (unfold small24; lia); rewrite Z.mul_1_r, fadd_int by (unfold small24; lia); reflexivity).
  rewrite E1, E2. rewrite !steps_int by (unfold small24; lia). rewrite Z2Nat.id by lia. replace (i + x * 1) with (x + i) by ring. replace (y + j + x * 0) with (y + j) by ring. apply HP, I.
Qed.
