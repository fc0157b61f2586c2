From Coq Require Import Lia.
From Verif Require Import Base BaseLemmas Flt FltErr Gray Img PnmModel PnmSpec CmapData CmapModel CmapSpec.
Local Open Scope Z_scope.

Lemma abs_mul_le a b A B : Z.abs a <= A -> Z.abs b <= B -> Z.abs (a * b) <= A * B.
Proof. intros HA HB. rewrite Z.abs_mul. apply Z.mul_le_mono_nonneg; lia. Qed.
Lemma dec_err d a : 0 < d -> 0 <= a <= d -> exists t, dec d a = FF t /\ Z.abs (t * d - a * U) <= 65 * W * d.
Proof.
  intros D A. pose proof U_pos as UP. destruct (mkf_err (a * U) d 1 D ltac:(lia)) as (t & E & R).
  - rewrite Z.abs_eq by (apply Z.mul_nonneg_nonneg; lia). rewrite Z.mul_1_l, (Z.mul_comm a). apply Z.mul_le_mono_nonneg_l; lia.
  - exists t. split; [exact E|]. lia.
Qed.
Lemma dec_size d a t : 0 < d -> 0 <= a <= d -> Z.abs (t * d - a * U) <= 65 * W * d -> Z.abs t <= 2 * U.
Proof.
  intros D A T. pose proof W_pos as WP. pose proof U_W as UW. pose proof U_pos as UP.
  assert (0 <= a * U <= d * U) by (split; [apply Z.mul_nonneg_nonneg; lia|apply Z.mul_le_mono_nonneg_r; lia]).
  assert (Z.abs (t * d) <= 2 * U * d).
  { assert (65 * W * d <= U * d) by (apply Z.mul_le_mono_nonneg_r; lia). lia. }
  rewrite Z.abs_mul, (Z.abs_eq d) in H0 by lia. apply Z.mul_le_mono_pos_r in H0; lia.
Qed.
(** One channel between two rows. *)
Lemma blend_err d u r a b : 0 < d -> 0 <= r < U -> Z.abs (u - r) <= 65 * W -> 0 <= a <= d -> 0 <= b <= d ->
  exists s, blend (FF u) (dec d a) (dec d b) = FF s /\ Z.abs (s * d - ((U - r) * a + r * b)) <= 3200 * W * d.
Proof.
  intros D R EU A B. pose proof W_pos as WP. pose proof U_W as UW. pose proof U_pos as UP.
  unfold blend. destruct (dec_err d a D A) as (ta & -> & EA). destruct (dec_err d b D B) as (tb & -> & EB).
  pose proof (dec_size d a ta D A EA) as SA. pose proof (dec_size d b tb D B EB) as SB.
  change F1 with (FF U). destruct (fsub_err U u 2 ltac:(lia) ltac:(lia)) as (up & -> & EP).
  assert (EUP : Z.abs (up - (U - r)) <= 195 * W) by lia.
  assert (PA : Z.abs (up * ta) <= 2 * U * (2 * U)) by (apply abs_mul_le; lia).
  assert (PB : Z.abs (u * tb) <= 2 * U * (2 * U)) by (apply abs_mul_le; lia).
  destruct (fmul_err up ta 4) as (m1 & -> & E1); [lia|lia|]. destruct (fmul_err u tb 4) as (m2 & -> & E2); [lia|lia|].
  assert (B1 : Z.abs m1 <= 5 * U).
  { assert (Z.abs (m1 * U) <= 5 * U * U). { assert (65 * 4 * W * U <= 1 * U * U) by (apply Z.mul_le_mono_nonneg_r; lia). lia. }
    rewrite Z.abs_mul, (Z.abs_eq U) in H by lia. apply Z.mul_le_mono_pos_r in H; lia. }
  assert (B2 : Z.abs m2 <= 5 * U).
  { assert (Z.abs (m2 * U) <= 5 * U * U). { assert (65 * 4 * W * U <= 1 * U * U) by (apply Z.mul_le_mono_nonneg_r; lia). lia. }
    rewrite Z.abs_mul, (Z.abs_eq U) in H by lia. apply Z.mul_le_mono_pos_r in H; lia. }
  destruct (fadd_err m1 m2 10 ltac:(lia) ltac:(lia)) as (s & -> & ES). exists s. split; [reflexivity|].
  assert (D1 : Z.abs ((up - (U - r)) * ta) <= 195 * W * (2 * U)) by (apply abs_mul_le; [exact EUP|exact SA]).
  assert (D2 : Z.abs ((u - r) * tb) <= 65 * W * (2 * U)) by (apply abs_mul_le; [exact EU|exact SB]).
  assert (ESU : Z.abs ((s - (m1 + m2)) * U) <= 65 * 10 * W * U) by (apply abs_mul_le; [exact ES|clear -UP; lia]).
  assert (T : Z.abs (s * U - ((U - r) * ta + r * tb)) <= 2100 * W * U).
  { rewrite Z.mul_sub_distr_r in D1, D2, ESU. rewrite Z.mul_add_distr_r in ESU. set (x1 := up * ta) in *. set (x2 := u * tb) in *. set (x3 := (U - r) * ta) in *. set (x4 := r * tb) in *. set (x5 := s * U) in *. set (x6 := m1 * U) in *. set (x7 := m2 * U) in *.
    set (wu := W * U) in *. replace (195 * W * (2 * U)) with (390 * wu) in D1 by (unfold wu; ring). replace (65 * W * (2 * U)) with (130 * wu) in D2 by (unfold wu; ring). replace (65 * 10 * W * U) with (650 * wu) in ESU by (unfold wu; ring). replace (65 * 4 * W * U) with (260 * wu) in E1, E2 by (unfold wu; ring). replace (2100 * W * U) with (2100 * wu) by (unfold wu; ring).
    assert (0 < wu) by (unfold wu; apply Z.mul_pos_pos; lia). clear -D1 D2 ESU E1 E2 H. clearbody x1 x2 x3 x4 x5 x6 x7 wu. lia. }
  assert (G1 : Z.abs ((U - r) * (ta * d - a * U)) <= U * (65 * W * d)) by (apply abs_mul_le; [clear -R; lia|exact EA]).
  assert (G2 : Z.abs (r * (tb * d - b * U)) <= U * (65 * W * d)) by (apply abs_mul_le; [clear -R; lia|exact EB]).
  assert (TD : Z.abs ((s * U - ((U - r) * ta + r * tb)) * d) <= 2100 * W * U * d) by (apply abs_mul_le; [exact T|clear -D; lia]).
  assert (F : Z.abs ((s * d - ((U - r) * a + r * b)) * U) <= 3200 * W * d * U).
  { replace ((s * d - ((U - r) * a + r * b)) * U) with ((s * U - ((U - r) * ta + r * tb)) * d + (U - r) * (ta * d - a * U) + r * (tb * d - b * U)) by ring.
    set (x1 := (s * U - _) * d) in *. set (x2 := (U - r) * (ta * d - a * U)) in *. set (x3 := r * (tb * d - b * U)) in *.
    set (w := W * d * U). replace (U * (65 * W * d)) with (65 * w) in G1, G2 by (unfold w; ring). replace (2100 * W * U * d) with (2100 * w) in TD by (unfold w; ring). replace (3200 * W * d * U) with (3200 * w) by (unfold w; ring).
    assert (0 < w) by (unfold w; repeat apply Z.mul_pos_pos; clear -WP D UP; lia). clear -G1 G2 TD H. clearbody x1 x2 x3 w. lia. }
  rewrite Z.abs_mul, (Z.abs_eq U) in F by (clear -UP; lia). apply Z.mul_le_mono_pos_r in F; [exact F|exact UP].
Qed.
(** The byte of a channel. *)
Lemma uchar_ok d s q : 0 < d -> 0 <= q <= U * d -> Z.abs (s * d - q) <= 3200 * W * d -> exists c, to_uchar (FF s) = Ok c /\ near255 c q (U * d).
Proof.
  intros D Q ES. pose proof W_pos as WP. pose proof U_W as UW. pose proof U_pos as UP.
  assert (S1 : Z.abs s <= 2 * U).
  { assert (Z.abs (s * d) <= 2 * U * d). { assert (3200 * W * d <= U * d) by (apply Z.mul_le_mono_nonneg_r; lia). lia. }
    rewrite Z.abs_mul, (Z.abs_eq d) in H by lia. apply Z.mul_le_mono_pos_r in H; lia. }
  unfold to_uchar. rewrite of_int_exact by (unfold small24; lia).
  destruct (fmul_err s (255 * U) 510) as (m & -> & EM); [lia|rewrite Z.abs_mul, (Z.abs_eq (255 * U)) by lia; replace (510 * U * U) with (2 * U * (255 * U)) by ring; apply Z.mul_le_mono_nonneg_r; lia|].
  assert (M : Z.abs (m - 255 * s) <= 33150 * W).
  { replace (m * U - s * (255 * U)) with ((m - 255 * s) * U) in EM by ring. rewrite Z.abs_mul, (Z.abs_eq U) in EM by lia. replace (65 * 510 * W) with (33150 * W) in EM by ring. apply Z.mul_le_mono_pos_r in EM; lia. }
  assert (MD : Z.abs (m * d - 255 * q) <= 849150 * W * d).
  { assert (Z.abs ((m - 255 * s) * d) <= 33150 * W * d) by (apply abs_mul_le; lia). rewrite Z.mul_sub_distr_r in H. replace (255 * s * d) with (255 * (s * d)) in H by ring. set (x := m * d) in *. set (y := s * d) in *. replace (33150 * W * d) with (33150 * (W * d)) in H by ring. replace (3200 * W * d) with (3200 * (W * d)) in ES by ring. replace (849150 * W * d) with (849150 * (W * d)) by ring. set (w := W * d) in *. clear -ES H. clearbody x y w. lia. }
  assert (WD : U * d = 1073741824 * (W * d)) by (rewrite UW; ring). replace (849150 * W * d) with (849150 * (W * d)) in MD by ring.
  set (w := W * d) in *. assert (PW : 0 < w) by (apply Z.mul_pos_pos; lia).
  assert (Z.lt m (256 * U)) as MU. { apply (Z.mul_lt_mono_pos_r d); [lia|]. rewrite <- Z.mul_assoc. rewrite WD in *. set (x := m * d) in *. clear -MD PW Q. clearbody x w. lia. }
  assert (Z.lt (- U) m) as ML. { apply (Z.mul_lt_mono_pos_r d); [lia|]. rewrite Z.mul_opp_l, WD. set (x := m * d) in *. clear -MD PW Q. clearbody x w. lia. }
  unfold to_int. pose proof int_rng as [I1 I2].
  assert (exists c, m ÷ U = c /\ 0 <= c <= 255 /\ (0 <= m -> c * U <= m < (c + 1) * U) /\ (m < 0 -> c = 0)) as (c & -> & C & C1 & C2).
  { destruct (Z.lt_ge_cases m 0) as [N|P].
    - exists 0. split; [|split; [lia|split; [lia|auto]]]. rewrite <- (Z.opp_involutive m), Z.quot_opp_l, Z.quot_small by lia. reflexivity.
    - exists (m / U). rewrite Z.quot_div_nonneg by lia. split; [reflexivity|]. split; [split; [apply Z.div_pos; lia|]|].
      + enough (m / U < 256) by lia. apply Z.div_lt_upper_bound; lia.
      + split; [|lia]. intros _. pose proof (Z.div_mod m U ltac:(lia)). pose proof (Z.mod_pos_bound m U UP). replace ((m / U + 1) * U) with (U * (m / U) + U) by ring. replace (m / U * U) with (U * (m / U)) by ring. clear -H H0. set (a := U * (m / U)) in *. set (b := m mod U) in *. clearbody a b. lia. }
  rewrite chk_int_in by (rewrite I1, I2; lia). cbn [bind]. destruct (Z.leb_spec 0 c); [|lia]. destruct (Z.leb_spec c 255); [|lia]. cbn [andb]. exists c. split; [reflexivity|]. split; [exact C|].
  destruct (Z.lt_ge_cases m 0) as [N|P].
  - rewrite (C2 N). rewrite Z.mul_0_l. rewrite WD in *. assert (MN : m * d <= 0) by (apply Z.mul_nonpos_nonneg; clear -N D; lia). set (x := m * d) in *. clear -MD PW Q MN. clearbody x w. lia.
  - destruct (C1 P) as [L1 L2]. apply (Z.mul_le_mono_nonneg_r _ _ d) in L1; [|lia]. apply (Z.mul_lt_mono_pos_r d) in L2; [|lia]. rewrite <- Z.mul_assoc in L1, L2. rewrite WD in *. set (x := m * d) in *. set (y := c * (1073741824 * w)) in *. rewrite Z.mul_add_distr_r in *. fold y in L2. fold y. clear -MD PW Q L1 L2. clearbody x w y. lia.
Qed.
