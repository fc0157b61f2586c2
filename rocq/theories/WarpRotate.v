From Coq Require Import Lia.
From Verif Require Import Base BaseLemmas Flt FltErr Gray Img WarpModel WarpSpec WarpProofs WarpPixel WarpRows.
Local Open Scope Z_scope.

Definition RS : Z := 11863283 * 2 ^ 125.
Lemma RS_lt : 0 < RS < U.
Proof. split; reflexivity. Qed.
Definition sg (cw : bool) : Z := if cw then 1 else -1.
Lemma sg_abs cw : Z.abs (sg cw) = 1.
Proof. destruct cw; reflexivity. Qed.
Lemma CW_int cw : CW cw = of_int (sg cw).
Proof. destruct cw; reflexivity. Qed.
Lemma mul_RS k c : Z.abs k <= c -> Z.abs (RS * k) <= c * U.
Proof. intro K. pose proof RS_lt. rewrite Z.abs_mul, (Z.abs_eq RS), Z.mul_comm by lia. apply Z.mul_le_mono_nonneg; lia. Qed.
Lemma RS_mul_err k c : Z.abs k <= c -> 1 <= c <= 2 ^ 20 -> exists m, fmul SQRT2_INV (of_int k) = FF m /\ fmul (of_int k) SQRT2_INV = FF m /\ Z.abs (m - RS * k) <= 65 * c * W.
Proof.
  intros K C. pose proof U_pos as UP. rewrite of_int_exact by (unfold small24; lia). unfold SQRT2_INV. fold RS.
  destruct (fmul_err RS (k * U) c ltac:(lia)) as (m & E & EM).
  { rewrite Z.mul_assoc, Z.abs_mul, (Z.abs_eq U) by lia. apply Z.mul_le_mono_nonneg_r; [lia|]. apply mul_RS, K. }
  exists m. split; [exact E|]. split.
  - rewrite <- E. unfold fmul. f_equal. ring.
  - replace (m * U - RS * (k * U)) with ((m - RS * k) * U) in EM by ring. rewrite Z.abs_mul, (Z.abs_eq U) in EM by lia. apply Z.mul_le_mono_pos_r in EM; lia.
Qed.
(** (a + S k) / 2. *)
Lemma shift_err a k m1 : Z.abs a <= 2048 -> Z.abs k <= 4096 -> Z.abs (m1 - RS * k) <= 65 * 4096 * W ->
  exists m, fmul (fadd (of_int a) (FF m1)) half = FF m /\ Z.abs (2 * m - (a * U + RS * k)) <= 65 * 16387 * W /\ Z.abs m <= 3073 * U.
Proof.
  intros A K E1. pose proof U_pos as UP. pose proof W_pos as WP. pose proof U_W as UW. pose proof (mul_RS k 4096 K) as RK. rewrite of_int_exact by (unfold small24; lia).
  assert (AU : Z.abs (a * U) <= 2048 * U) by (rewrite Z.abs_mul, (Z.abs_eq U) by lia; apply Z.mul_le_mono_nonneg_r; lia).
  set (rk := RS * k) in *. set (au := a * U) in *. clearbody rk au.
  destruct (fadd_err au m1 6145) as (m2 & -> & E2); [lia|lia|]. change half with (FF (2 ^ 148)).
  assert (M2 : Z.abs m2 <= 6146 * U) by lia.
  assert (H : U = 2 * 2 ^ 148) by reflexivity.
  destruct (fmul_err m2 (2 ^ 148) 3073) as (m & -> & E3); [lia| |].
  { replace (3073 * U * U) with (6146 * U * 2 ^ 148) by (rewrite H; ring). rewrite Z.abs_mul, (Z.abs_eq (2 ^ 148)) by lia. apply Z.mul_le_mono_nonneg_r; lia. }
  assert (E4 : Z.abs (2 * m - m2) <= 130 * 3073 * W).
  { set (h := 2 ^ 148) in *. replace (m * U - m2 * h) with ((2 * m - m2) * h) in E3 by (rewrite H; ring). replace (65 * 3073 * W * U) with (130 * 3073 * W * h) in E3 by (rewrite H; ring).
    assert (0 < h) by reflexivity. rewrite Z.abs_mul, (Z.abs_eq h) in E3 by lia. apply Z.mul_le_mono_pos_r in E3; [exact E3|assumption]. }
  exists m. split; [reflexivity|]. split; [lia|]. lia.
Qed.
(** A row: start s = (k RS + t), then steps of +-RS. *)
Lemma rot_pos k d t x : Z.abs k <= 2048 -> Z.abs t <= 3073 * U -> 0 <= x < 2048 -> Z.abs d = RS ->
  forall m1, Z.abs (m1 - RS * k) <= 65 * 2048 * W ->
  exists X, steps (Z.to_nat x) (fadd (FF m1) (FF t)) (FF d) = FF X /\ Z.abs (X - (RS * k + t + x * d)) <= (466115 + x * 476000) * W /\ pos_ok X.
Proof.
  intros K T X D m1 E1. pose proof U_pos as UP. pose proof W_pos as WP. pose proof U_W as UW. pose proof (mul_RS k 2048 K) as RK. pose proof RS_lt as RL. set (rk := RS * k) in *. clearbody rk.
  destruct (fadd_err m1 t 5122) as (s & -> & ES); [lia|lia|].
  assert (SD : forall j, 0 <= j <= 2047 -> Z.abs (j * d) <= 2047 * U) by (intros j J; rewrite Z.abs_mul, D, (Z.abs_eq j) by lia; apply Z.mul_le_mono_nonneg; lia).
  destruct (steps_err (rk + t) d 7300 2047%nat ltac:(lia) (Z.to_nat x) 466115 ltac:(lia) ltac:(lia) ltac:(lia)) with (s' := s) as (p & EP & HP).
  - intros j J. specialize (SD (Z.of_nat j) ltac:(lia)). set (jd := Z.of_nat j * d) in *. clearbody jd. lia.
  - lia.
  - exists p. split; [exact EP|]. rewrite Z2Nat.id in HP by lia. specialize (SD x ltac:(lia)). set (xd := x * d) in *. clearbody xd.
    assert (H : Z.abs (p - (rk + t + xd)) <= (466115 + x * 476000) * W) by (eapply Z.le_trans; [exact HP|]; apply Z.mul_le_mono_nonneg_r; lia).
    split; [exact H|]. unfold pos_ok. assert ((466115 + x * 476000) * W <= U) by (rewrite UW; apply Z.mul_le_mono_nonneg_r; lia). set (l := (466115 + x * 476000) * W) in *. clearbody l. lia.
Qed.
Definition rot_placed (cw : bool) (dest src : image Z) (x y X Y : Z) : Prop :=
  Z.abs (2 * X - rotated_x RS (sg cw) (i_w src) (i_w dest) (i_h dest) x y) <= (2000000 + x * 1000000) * W /\
  Z.abs (2 * Y - rotated_y RS (sg cw) (i_h src) (i_w dest) (i_h dest) x y) <= (2000000 + x * 1000000) * W.
Lemma rotate_ok px cw dest src (R : Z -> Z -> Z -> Prop) : image_ok dest -> 0 <= i_w src <= 2048 -> 0 <= i_h src <= 2048 -> i_w dest <= 2048 -> i_h dest <= 2048 ->
  (forall x y X Y n, in_img dest x y -> rot_placed cw dest src x y X Y -> pos_ok X -> pos_ok Y -> exists b n', px (FF X) (FF Y) n = Ok (b, n') /\ R X Y b) ->
  exists g, rotate45 px dest (i_w src) (i_h src) cw = Ok g /\ only_pixels dest g /\ image_ok g /\
    forall x y, in_img dest x y -> exists X Y, rot_placed cw dest src x y X Y /\ R X Y (pix 0 g x y).
Proof.
  intros G SW SH DW DH HP. pose proof (io_w dest G) as W0. pose proof (io_h dest G) as H0. pose proof (sg_abs cw) as SA. pose proof W_pos as WP.
  assert (SC : sg cw = 1 \/ sg cw = -1) by (destruct cw; auto).
  unfold rotate45, rot_tx, rot_ty. rewrite CW_int. set (s := sg cw) in *.
  rewrite !(fmul_int s) by (unfold small24; lia). rewrite fadd_int by (unfold small24; lia). rewrite fsub_int by (unfold small24; lia).
  destruct (RS_mul_err (i_w dest + s * i_h dest) 4096) as (q1 & -> & _ & E1); [lia|lia|].
  destruct (RS_mul_err (s * i_w dest - i_h dest) 4096) as (q2 & -> & _ & E2); [lia|lia|].
  unfold fsub. cbn [fneg].
  destruct (shift_err (i_w src) (- (i_w dest + s * i_h dest)) (- q1)) as (tx & -> & ETX & BTX); [lia|lia|rewrite Z.mul_opp_r; lia|].
  destruct (shift_err (i_h src) (s * i_w dest - i_h dest) q2) as (ty & -> & ETY & BTY); [lia|lia|exact E2|].
  assert (ED : fneg (fmul (of_int s) SQRT2_INV) = FF (- (s * RS))) by (unfold s; destruct cw; reflexivity). rewrite ED.
  destruct (rows_ok 0 px SQRT2_INV (FF (- (s * RS))) (fun x y b => exists X Y, rot_placed cw dest src x y X Y /\ R X Y b)
     (fun y => fadd (fmul (fmul (of_int s) (of_int y)) SQRT2_INV) (FF tx)) (fun y => fadd (fmul (of_int y) SQRT2_INV) (FF ty)) dest G) as (g & n' & E & O & GG & V).
  - intros x y n I. pose proof I as [IX IY]. rewrite fmul_int by (unfold small24; lia).
    destruct (RS_mul_err (s * y) 2048) as (m1 & _ & -> & EM1); [lia|lia|]. destruct (RS_mul_err y 2048) as (m2 & _ & -> & EM2); [lia|lia|].
    destruct (rot_pos (s * y) RS tx x) with (m1 := m1) as (X & EX & DX & PX); [lia|exact BTX|lia|pose proof RS_lt; lia|exact EM1|].
    destruct (rot_pos y (- (s * RS)) ty x) with (m1 := m2) as (Y & EY & DY & PY); [lia|exact BTY|lia|pose proof RS_lt; rewrite Z.abs_opp, Z.abs_mul, SA; lia|exact EM2|].
    change SQRT2_INV with (FF RS). rewrite EX, EY.
    assert (PL : rot_placed cw dest src x y X Y).
    { unfold rot_placed, rotated_x, rotated_y. fold s. split.
      - replace (2 * X - (i_w src * U + RS * (2 * x - i_w dest + s * (2 * y - i_h dest)))) with (2 * (X - (RS * (s * y) + tx + x * RS)) + (2 * tx - (i_w src * U + RS * - (i_w dest + s * i_h dest)))) by ring.
        set (p := X - _) in *. set (q := 2 * tx - _) in *. clearbody p q. clear -DX ETX WP IX. lia.
      - replace (2 * Y - (i_h src * U + RS * (2 * y - i_h dest - s * (2 * x - i_w dest)))) with (2 * (Y - (RS * y + ty + x * - (s * RS))) + (2 * ty - (i_h src * U + RS * (s * i_w dest - i_h dest)))) by ring.
        set (p := Y - _) in *. set (q := 2 * ty - _) in *. clearbody p q. clear -DY ETY WP IX. lia. }
    destruct (HP x y X Y n I PL PX PY) as (b & n1 & EB & RB). exists b, n1. split; [exact EB|]. exists X, Y. auto.
  - rewrite E. cbn [bind]. exists g. auto.
Qed.
