From Coq Require Import Lia.
From Verif Require Import Base BaseLemmas Flt FltErr Gray Img WarpModel WarpSpec.
Local Open Scope Z_scope.

Lemma abs_mul_le a b A B : Z.abs a <= A -> Z.abs b <= B -> Z.abs (a * b) <= A * B.
Proof. intros HA HB. rewrite Z.abs_mul. apply Z.mul_le_mono_nonneg; lia. Qed.
(** The fractional part. *)
Definition pos_ok (X : Z) : Prop := Z.abs X <= 2 ^ 24 * U.
Lemma split_ok X : pos_ok X -> exists u up, split_pos (FF X) = Ok (X ÷ U, X ÷ U + 1, FF u, FF up) /\
  Z.abs (u - Z.rem X U) <= 65 * W /\ Z.abs (up - (U - Z.rem X U)) <= 260 * W.
Proof.
  intro P. unfold pos_ok in P. pose proof U_pos as UP. pose proof W_pos as WP. pose proof U_W as UW.
  assert (Q : Z.abs (X ÷ U) <= 2 ^ 24).
  { rewrite <- Z.quot_abs by lia. rewrite (Z.abs_eq U) by lia. rewrite Z.quot_div_nonneg by lia. apply Z.div_le_upper_bound; lia. }
  pose proof (Z.quot_rem' X U) as QR. pose proof (Z.rem_bound_abs X U ltac:(lia)) as RB. rewrite (Z.abs_eq U) in RB by lia.
  unfold split_pos, to_int. set (i := X ÷ U) in *. set (r := Z.rem X U) in *. clearbody i r.
  pose proof int_rng as [I1 I2]. rewrite chk_int_in by (rewrite I1, I2; lia). cbn [bind].
  rewrite of_int_exact by (unfold small24; lia).
  destruct (fsub_err X (i * U) 1 ltac:(lia) ltac:(lia)) as (u & -> & EU). replace (X - i * U) with r in EU by lia.
  destruct (fsub_err U u 3 ltac:(lia) ltac:(lia)) as (up & EUP & EB). change F1 with (FF U). rewrite EUP.
  rewrite chk_int_in by (rewrite I1, I2; lia). cbn [bind]. exists u, up. split; [reflexivity|]. lia.
Qed.
(** A weighted sum of two values. *)
Lemma pair_err u up r a b : Z.abs r < U -> Z.abs (u - r) <= 65 * W -> Z.abs (up - (U - r)) <= 260 * W -> 0 <= a <= 255 -> 0 <= b <= 255 ->
  exists s, fadd (fmul (FF up) (FF (a * U))) (fmul (FF u) (FF (b * U))) = FF s /\ Z.abs (s - ((U - r) * a + r * b)) <= 300000 * W.
Proof.
  intros R EU EUP A B. pose proof W_pos as WP. pose proof U_W as UW. pose proof U_pos as UP.
  assert (PA : Z.abs (up * a) <= 3 * U * 255) by (apply abs_mul_le; lia).
  assert (PB : Z.abs (u * b) <= 2 * U * 255) by (apply abs_mul_le; lia).
  destruct (fmul_err up (a * U) 765) as (m1 & -> & E1); [lia|rewrite Z.mul_assoc, Z.abs_mul, (Z.abs_eq U) by lia; apply Z.mul_le_mono_nonneg_r; lia|].
  destruct (fmul_err u (b * U) 510) as (m2 & -> & E2); [lia|rewrite Z.mul_assoc, Z.abs_mul, (Z.abs_eq U) by lia; apply Z.mul_le_mono_nonneg_r; lia|].
  assert (M1 : Z.abs (m1 - up * a) <= 65 * 765 * W).
  { replace (m1 * U - up * (a * U)) with ((m1 - up * a) * U) in E1 by ring. rewrite Z.abs_mul, (Z.abs_eq U) in E1 by lia. apply Z.mul_le_mono_pos_r in E1; lia. }
  assert (M2 : Z.abs (m2 - u * b) <= 65 * 510 * W).
  { replace (m2 * U - u * (b * U)) with ((m2 - u * b) * U) in E2 by ring. rewrite Z.abs_mul, (Z.abs_eq U) in E2 by lia. apply Z.mul_le_mono_pos_r in E2; lia. }
  assert (D1 : Z.abs ((up - (U - r)) * a) <= 260 * W * 255) by (apply abs_mul_le; lia).
  assert (D2 : Z.abs ((u - r) * b) <= 65 * W * 255) by (apply abs_mul_le; lia).
  rewrite Z.mul_sub_distr_r in D1, D2. set (pa := up * a) in *. set (pb := u * b) in *. set (qa := (U - r) * a) in *. set (qb := r * b) in *. clearbody pa pb qa qb.
  destruct (fadd_err m1 m2 1300) as (s & -> & ES); [lia|lia|]. exists s. split; [reflexivity|]. lia.
Qed.
Lemma mix_err u up v vp r q a b c d : Z.abs r < U -> Z.abs q < U ->
  Z.abs (u - r) <= 65 * W -> Z.abs (up - (U - r)) <= 260 * W -> Z.abs (v - q) <= 65 * W -> Z.abs (vp - (U - q)) <= 260 * W ->
  0 <= a <= 255 -> 0 <= b <= 255 -> 0 <= c <= 255 -> 0 <= d <= 255 ->
  exists m, mix (FF u) (FF up) (FF v) (FF vp) (of_int a) (of_int b) (of_int c) (of_int d) = FF m /\
    Z.abs (m * U - bilinear a b c d r q) <= 4194304 * W * U /\ Z.abs m <= 8000 * U.
Proof.
  intros R Q EU EUP EV EVP A B C D. pose proof W_pos as WP. pose proof U_W as UW. pose proof U_pos as UP.
  unfold mix. rewrite !of_int_exact by (unfold small24; lia).
  destruct (pair_err u up r a b R EU EUP A B) as (s0 & -> & E0). destruct (pair_err u up r c d R EU EUP C D) as (s1 & -> & E1).
  assert (B0 : Z.abs ((U - r) * a + r * b) <= 765 * U).
  { assert (Z.abs ((U - r) * a) <= 2 * U * 255) by (apply abs_mul_le; lia). assert (Z.abs (r * b) <= U * 255) by (apply abs_mul_le; lia). lia. }
  assert (B1 : Z.abs ((U - r) * c + r * d) <= 765 * U).
  { assert (Z.abs ((U - r) * c) <= 2 * U * 255) by (apply abs_mul_le; lia). assert (Z.abs (r * d) <= U * 255) by (apply abs_mul_le; lia). lia. }
  assert (BE : bilinear a b c d r q = (U - q) * ((U - r) * a + r * b) + q * ((U - r) * c + r * d)) by (unfold bilinear; ring). rewrite BE. clear BE.
  set (S0 := (U - r) * a + r * b) in *. set (S1 := (U - r) * c + r * d) in *. clearbody S0 S1. clear EU EUP R r u up A B C D a b c d.
  assert (V1 : Z.abs vp <= 3 * U) by lia. assert (V2 : Z.abs v <= 2 * U) by lia. assert (T0 : Z.abs s0 <= 766 * U) by lia. assert (T1 : Z.abs s1 <= 766 * U) by lia.
  assert (P0 : Z.abs (vp * s0) <= 3 * U * (766 * U)) by (apply abs_mul_le; lia). assert (P1 : Z.abs (v * s1) <= 2 * U * (766 * U)) by (apply abs_mul_le; lia).
  destruct (fmul_err vp s0 2298) as (m0 & -> & F0); [lia|lia|]. destruct (fmul_err v s1 1532) as (m1 & -> & F1); [lia|lia|].
  assert (D0 : Z.abs ((vp - (U - q)) * s0) <= 260 * W * (766 * U)) by (apply abs_mul_le; [exact EVP|exact T0]).
  assert (D1 : Z.abs ((U - q) * (s0 - S0)) <= 2 * U * (300000 * W)) by (apply abs_mul_le; [clear -Q UP; lia|exact E0]).
  assert (D2 : Z.abs ((v - q) * s1) <= 65 * W * (766 * U)) by (apply abs_mul_le; [exact EV|exact T1]).
  assert (D3 : Z.abs (q * (s1 - S1)) <= U * (300000 * W)) by (apply abs_mul_le; [clear -Q UP; lia|exact E1]).
  assert (X0 : Z.abs (m0 * U - (U - q) * S0) <= (65 * 2298 + 260 * 766 + 600000) * (W * U)).
  { replace (m0 * U - (U - q) * S0) with ((m0 * U - vp * s0) + (vp - (U - q)) * s0 + (U - q) * (s0 - S0)) by ring. clear -F0 D0 D1.
    set (x := m0 * U - vp * s0) in *. set (y := (vp - (U - q)) * s0) in *. set (z := (U - q) * (s0 - S0)) in *. clearbody x y z.
    replace (65 * 2298 * W * U) with (65 * 2298 * (W * U)) in F0 by ring. replace (260 * W * (766 * U)) with (260 * 766 * (W * U)) in D0 by ring. replace (2 * U * (300000 * W)) with (600000 * (W * U)) in D1 by ring.
    set (g := W * U) in *. clearbody g. lia. }
  assert (X1 : Z.abs (m1 * U - q * S1) <= (65 * 1532 + 65 * 766 + 300000) * (W * U)).
  { replace (m1 * U - q * S1) with ((m1 * U - v * s1) + (v - q) * s1 + q * (s1 - S1)) by ring. clear -F1 D2 D3.
    set (x := m1 * U - v * s1) in *. set (y := (v - q) * s1) in *. set (z := q * (s1 - S1)) in *. clearbody x y z.
    replace (65 * 1532 * W * U) with (65 * 1532 * (W * U)) in F1 by ring. replace (65 * W * (766 * U)) with (65 * 766 * (W * U)) in D2 by ring. replace (U * (300000 * W)) with (300000 * (W * U)) in D3 by ring.
    set (g := W * U) in *. clearbody g. lia. }
  clear D0 D1 D2 D3.
  assert (M0 : Z.abs m0 <= 2300 * U).
  { assert (H : Z.abs (m0 * U) <= 2300 * U * U).
    { clear -F0 P0 UW UP WP. set (x := m0 * U) in *. set (y := vp * s0) in *. clearbody x y.
      assert (G : 65 * 2298 * W <= U) by lia. apply (Z.mul_le_mono_nonneg_r _ _ U) in G; [|lia]. set (g := U * U) in *. replace (3 * U * (766 * U)) with (2298 * g) in P0 by (unfold g; ring). replace (2300 * U * U) with (2300 * g) by (unfold g; ring). set (h := 65 * 2298 * W * U) in *. clearbody g h. lia. }
    rewrite Z.abs_mul, (Z.abs_eq U) in H by lia. apply Z.mul_le_mono_pos_r in H; lia. }
  assert (M1 : Z.abs m1 <= 1534 * U).
  { assert (H : Z.abs (m1 * U) <= 1534 * U * U).
    { clear -F1 P1 UW UP WP. set (x := m1 * U) in *. set (y := v * s1) in *. clearbody x y.
      assert (G : 65 * 1532 * W <= U) by lia. apply (Z.mul_le_mono_nonneg_r _ _ U) in G; [|lia]. set (g := U * U) in *. replace (2 * U * (766 * U)) with (1532 * g) in P1 by (unfold g; ring). replace (1534 * U * U) with (1534 * g) by (unfold g; ring). set (h := 65 * 1532 * W * U) in *. clearbody g h. lia. }
    rewrite Z.abs_mul, (Z.abs_eq U) in H by lia. apply Z.mul_le_mono_pos_r in H; lia. }
  clear F0 F1 P0 P1.
  destruct (fadd_err m0 m1 4000) as (m & -> & EM); [lia|clear -M0 M1 UP; lia|]. exists m. split; [reflexivity|]. split; [|clear -EM M0 M1 UP WP UW; lia].
  assert (XM : Z.abs ((m - (m0 + m1)) * U) <= 65 * 4000 * W * U) by (apply abs_mul_le; [exact EM|clear -UP; lia]).
  replace (m * U - ((U - q) * S0 + q * S1)) with ((m - (m0 + m1)) * U + (m0 * U - (U - q) * S0) + (m1 * U - q * S1)) by ring. clear -XM X0 X1 UP WP.
  set (x := (m - (m0 + m1)) * U) in *. set (y := m0 * U - (U - q) * S0) in *. set (z := m1 * U - q * S1) in *. clearbody x y z.
  replace (65 * 4000 * W * U) with (65 * 4000 * (W * U)) in XM by ring. replace (4194304 * W * U) with (4194304 * (W * U)) by ring. assert (0 <= W * U) by (apply Z.mul_nonneg_nonneg; lia). set (g := W * U) in *. clearbody g. lia.
Qed.
Definition byte_img (g : image Z) : Prop := Forall (fun b => 0 <= b <= 255) (i_data g).
Lemma byte_pix g x y : byte_img g -> 0 <= pix 0 g x y <= 255.
Proof.
  intro B. unfold pix. destruct (Nat.lt_ge_cases (Z.to_nat (y * i_stride g + x)) (length (i_data g))) as [L|L].
  - unfold byte_img in B. rewrite Forall_forall in B. apply B, nth_In, L.
  - rewrite nth_overflow by exact L. lia.
Qed.
Lemma clamp_range i : 0 <= clamp_byte i <= 255.
Proof. unfold clamp_byte. destruct (Z.ltb_spec i 0); [lia|]. destruct (Z.ltb_spec 255 i); lia. Qed.
Lemma clamp_near m q : 0 <= q <= 255 * U ^ 2 -> Z.abs (m * U - q) <= 4194304 * W * U -> near (clamp_byte (m ÷ U)) q.
Proof.
  intros Q E. pose proof U_pos as UP. pose proof U_W as UW. pose proof W_pos as WP.
  assert (E' : 256 * Z.abs (m * U - q) <= U ^ 2) by (rewrite Z.pow_2_r; rewrite UW at 2; replace (1073741824 * W * U) with (256 * (4194304 * W * U)) by ring; apply Z.mul_le_mono_nonneg_l; [lia|exact E]).
  clear E. rewrite Z.pow_2_r in *. unfold near. rewrite Z.pow_2_r.
  pose proof (Z.quot_rem' m U) as QR. set (i := m ÷ U) in *.
  assert (U1 : 1 <= U) by lia. assert (UU : U <= U * U) by (replace U with (1 * U) at 1 by ring; apply Z.mul_le_mono_nonneg_r; lia).
  destruct (Z.le_gt_cases 0 m) as [M|M].
  - pose proof (Z.rem_bound_pos m U M UP) as R. assert (I0 : 0 <= i) by (unfold i; apply Z.quot_pos; lia).
    assert (L1 : i * (U * U) <= m * U) by (rewrite Z.mul_assoc; apply Z.mul_le_mono_nonneg_r; lia).
    assert (L2 : m * U <= (i + 1) * (U * U) - U) by (replace ((i + 1) * (U * U) - U) with (((i + 1) * U - 1) * U) by ring; apply Z.mul_le_mono_nonneg_r; lia).
    unfold clamp_byte. destruct (Z.ltb_spec i 0); [lia|]. destruct (Z.ltb_spec 255 i) as [G|G].
    + exfalso. assert (256 * (U * U) <= i * (U * U)) by (apply Z.mul_le_mono_nonneg_r; lia). set (g := U * U) in *. set (k := m * U) in *. set (j := i * g) in *. clearbody g k j. lia.
    + set (g := U * U) in *. set (k := m * U) in *. rewrite Z.mul_add_distr_r in *. set (j := i * g) in *. clearbody g k j. lia.
  - assert (MU : m * U <= 0) by nia.
    assert (I0 : i = 0).
    { assert (B : - U < m). { apply (Z.mul_lt_mono_pos_r U); [lia|]. set (g := U * U) in *. replace (- U * U) with (- g) by (unfold g; ring). set (k := m * U) in *. clearbody g k. lia. }
      unfold i. apply Z.quot_small_iff; [lia|]. rewrite (Z.abs_neq m), (Z.abs_eq U) by lia. lia. }
    rewrite I0. unfold clamp_byte. cbn [Z.ltb Z.compare]. set (g := U * U) in *. set (k := m * U) in *. clearbody g k. lia.
Qed.
Lemma interpolate_ok src x0 x1 u up y0 y1 v vp r q : image_ok src -> byte_img src -> in_img src x0 y0 -> in_img src x1 y0 -> in_img src x0 y1 -> in_img src x1 y1 ->
  Z.abs r < U -> Z.abs q < U ->
  Z.abs (u - r) <= 65 * W -> Z.abs (up - (U - r)) <= 260 * W -> Z.abs (v - q) <= 65 * W -> Z.abs (vp - (U - q)) <= 260 * W ->
  exists b, interpolate src x0 x1 (FF u) (FF up) y0 y1 (FF v) (FF vp) = Ok b /\ 0 <= b <= 255 /\
    let t := bilinear (pix 0 src x0 y0) (pix 0 src x1 y0) (pix 0 src x0 y1) (pix 0 src x1 y1) r q in
    (0 <= t <= 255 * U ^ 2 -> near b t).
Proof.
  intros G B I1 I2 I3 I4 R Q EU EUP EV EVP. unfold interpolate. rewrite !(iget_ok 0) by assumption. cbn [bind].
  destruct (mix_err u up v vp r q (pix 0 src x0 y0) (pix 0 src x1 y0) (pix 0 src x0 y1) (pix 0 src x1 y1) R Q EU EUP EV EVP) as (m & -> & EM & BM); try (apply byte_pix; exact B).
  unfold to_int. pose proof U_pos as UP. rewrite chk_int_in.
  2: { pose proof int_rng as [-> ->]. assert (Z.abs (m ÷ U) <= 8000); [|lia]. rewrite <- Z.quot_abs by lia. rewrite (Z.abs_eq U) by lia. rewrite Z.quot_div_nonneg by lia. apply Z.div_le_upper_bound; lia. }
  cbn [bind]. eexists. split; [reflexivity|]. split; [apply clamp_range|]. cbv zeta. intro T. apply clamp_near; [exact T|exact EM].
Qed.
Lemma bilinear_range a b c d u v : 0 <= a <= 255 -> 0 <= b <= 255 -> 0 <= c <= 255 -> 0 <= d <= 255 -> 0 <= u <= U -> 0 <= v <= U -> 0 <= bilinear a b c d u v <= 255 * U ^ 2.
Proof.
  intros A B C D X Y. unfold bilinear. set (p := (U - u) * (U - v)). set (q := u * (U - v)). set (r := (U - u) * v). set (s := u * v).
  assert (0 <= p /\ 0 <= q /\ 0 <= r /\ 0 <= s) as (P & Q & R & S0) by (unfold p, q, r, s; repeat split; apply Z.mul_nonneg_nonneg; lia).
  assert (E : p + q + r + s = U ^ 2) by (unfold p, q, r, s; ring). clearbody p q r s. rewrite <- E. nia.
Qed.
