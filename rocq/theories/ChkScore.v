From Coq Require Import Lia.
From Verif Require Import Base BaseLemmas Gray Flt FltErr FilterModel FilterSpec FilterProofs Img ImgModel ImgSpec ImgProofs ImgBox KernModel KernSpec KernProofs KernSmooth HdetSpec HdetProofs.
From Verif Require Import ChkModel ChkSpec.
Local Open Scope Z_scope.

Lemma U_big : U * U < 2 ^ 300.
Proof. reflexivity. Qed.
Lemma unit_range p d : 0 <= p -> 0 < d -> p <= U * d -> 0 <= rnd p d <= U.
Proof. intros P D B. split; [now apply rnd_nonneg|]. replace U with (1 * 2 ^ 149) by reflexivity. apply rnd_le; [exact P|exact D|discriminate|split; discriminate|]. exact B. Qed.
Lemma mkf_unit p d : 0 <= p -> 0 < d -> p <= U * d -> mkf p d = FF (rnd p d).
Proof.
  intros P D B. apply mkf_nonneg; [exact P|exact D|]. assert (U < 2 ^ 276) by reflexivity. apply Z.le_lt_trans with (U * d); [exact B|]. apply Z.mul_lt_mono_pos_r; assumption.
Qed.
Lemma unit_err p d : 0 <= p -> 0 < d -> p <= U * d -> Z.abs (rnd p d * d - p) <= 65 * W * d.
Proof.
  intros P D B. destruct (mkf_err p d 1) as (m & E & ER); [exact D|split; discriminate|rewrite Z.abs_eq by exact P; lia|].
  rewrite (mkf_unit p d P D B) in E. injection E as <-. lia.
Qed.
Lemma level_ok k : 0 <= k <= 255 -> exists q, unit_level k = FF q /\ 0 <= q <= U /\ Z.abs (255 * q - k * U) <= 16575 * W.
Proof.
  intros K. unfold unit_level. rewrite !of_int_exact by (unfold small24; lia).
  assert (E : fdiv (FF (k * U)) (FF (255 * U)) = mkf (k * U * U) (255 * U)) by (cbn [fdiv]; change (255 * U =? 0) with false; cbn match; now rewrite Z.mul_1_r). rewrite E. clear E.
  assert (P : 0 <= k * U * U) by (apply Z.mul_nonneg_nonneg; [apply Z.mul_nonneg_nonneg; [lia|discriminate]|discriminate]).
  assert (B : k * U * U <= U * (255 * U)) by (replace (U * (255 * U)) with (255 * U * U) by ring; apply Z.mul_le_mono_nonneg_r; [discriminate|]; apply Z.mul_le_mono_nonneg_r; [discriminate|lia]).
  rewrite (mkf_unit _ _ P (eq_refl : 0 < 255 * U) B). eexists. split; [reflexivity|]. split; [apply unit_range; [exact P|reflexivity|exact B]|].
  pose proof (unit_err _ _ P (eq_refl : 0 < 255 * U) B) as ER. set (q := rnd _ _) in *. clearbody q.
  replace (q * (255 * U) - k * U * U) with ((255 * q - k * U) * U) in ER by ring. rewrite Z.abs_mul, (Z.abs_eq U) in ER by discriminate.
  apply (Z.mul_le_mono_pos_r _ _ U); [exact U_pos|]. lia.
Qed.
Lemma level_mono j k : 0 <= j <= k -> k <= 255 -> forall p q, unit_level j = FF p -> unit_level k = FF q -> p <= q.
Proof.
  intros J K p q. destruct (Z.eq_dec j k) as [->|NE]; [intros -> E; injection E; lia|]. intros P Q.
  destruct (level_ok j) as (p' & P' & _ & EP); [lia|]. destruct (level_ok k) as (q' & Q' & _ & EQ); [lia|].
  rewrite P in P'. rewrite Q in Q'. injection P' as <-. injection Q' as <-.
  assert (j * U + U <= k * U) by (replace (j * U + U) with ((j + 1) * U) by ring; apply Z.mul_le_mono_nonneg_r; [discriminate|lia]).
  pose proof U_W. pose proof W_pos. lia.
Qed.
Lemma spread_ok lo hi : 0 <= lo <= hi -> hi <= 255 -> exists v, (let d := fsub (unit_level hi) (unit_level lo) in fmul d d) = FF v /\ squared_spread lo hi v.
Proof.
  intros L H. destruct (level_ok lo) as (p & EP & BP & RP); [lia|]. destruct (level_ok hi) as (q & EQ & BQ & RQ); [lia|].
  pose proof (level_mono lo hi ltac:(lia) H p q EP EQ) as PQ. rewrite EP, EQ. cbv zeta. unfold fsub. cbn [fneg fadd].
  replace (q + - p) with (q - p) by ring. rewrite mkf_unit; [|lia..]. pose proof (unit_range (q - p) 1 ltac:(lia) ltac:(lia) ltac:(lia)) as DR. pose proof (unit_err (q - p) 1 ltac:(lia) ltac:(lia) ltac:(lia)) as DE.
  set (d := rnd (q - p) 1) in *. cbn [fmul].
  assert (DD0 : 0 <= d * d) by (apply Z.mul_nonneg_nonneg; lia). assert (DD : d * d <= U * U) by (apply Z.mul_le_mono_nonneg; lia).
  rewrite mkf_unit; [|exact DD0|exact U_pos|exact DD]. eexists. split; [reflexivity|]. pose proof (unit_err (d * d) U DD0 U_pos DD) as VE.
  split; [apply unit_range; [exact DD0|exact U_pos|exact DD]|]. split.
  - intros ->. rewrite EP in EQ. injection EQ as ->. assert (D0 : d = 0) by (unfold d; rewrite Z.sub_diag; apply rnd_zero; lia). rewrite D0. apply rnd_zero. exact U_pos.
  - set (v := rnd (d * d) U) in *. clearbody v. clearbody d.
    assert (E1 : Z.abs (255 * d - (hi - lo) * U) <= 49725 * W) by (rewrite Z.mul_sub_distr_r; lia). set (t := hi - lo) in *. assert (T : 0 <= t <= 255) by (unfold t; lia). clearbody t.
    assert (E2 : Z.abs ((255 * d) * (255 * d) - (t * U) * (t * U)) <= (49725 * W) * (510 * U)).
    { replace ((255 * d) * (255 * d) - (t * U) * (t * U)) with ((255 * d - t * U) * (255 * d + t * U)) by ring. rewrite Z.abs_mul. apply Z.mul_le_mono_nonneg; [lia|exact E1|lia|].
      assert (t * U <= 255 * U) by (apply Z.mul_le_mono_nonneg_r; [discriminate|lia]). assert (0 <= t * U) by (apply Z.mul_nonneg_nonneg; [lia|discriminate]). rewrite Z.abs_eq by lia. lia. }
    assert (E3 : Z.abs ((65025 * v - t * t * U) * U) <= (25359750 * W + 65025 * 65 * W) * U).
    { replace ((65025 * v - t * t * U) * U) with (65025 * (v * U - d * d) + ((255 * d) * (255 * d) - (t * U) * (t * U))) by ring.
      replace ((49725 * W) * (510 * U)) with (25359750 * (W * U)) in E2 by ring. replace (65 * W * U) with (65 * (W * U)) in VE by ring.
      replace ((25359750 * W + 65025 * 65 * W) * U) with (25359750 * (W * U) + 4226625 * (W * U)) by ring.
      set (e := v * U - d * d) in *. set (e2 := 255 * d * (255 * d) - t * U * (t * U)) in *. set (g := W * U) in *. clearbody e e2 g. lia. }
    rewrite Z.abs_mul, (Z.abs_eq U) in E3 by discriminate. apply Z.mul_le_mono_pos_r in E3; [|exact U_pos]. pose proof U_W as UW. pose proof W_pos. clear -E3 UW H0. lia.
Qed.
Lemma spread_score_ok a b c d : 0 <= a <= 255 -> 0 <= b <= 255 -> 0 <= c <= 255 -> 0 <= d <= 255 ->
  exists v, spread_score a b c d = FF v /\ squared_spread (fold_right Z.min a [b; c; d]) (fold_right Z.max a [b; c; d]) v.
Proof.
  intros A B C D. destruct (spread_ok (min4 a b c d) (max4 a b c d)) as (v & E & S); [unfold min4, max4; lia|unfold max4; lia|].
  exists v. split; [exact E|]. replace (fold_right Z.min a [b; c; d]) with (min4 a b c d) by (unfold min4; cbn; lia). now replace (fold_right Z.max a [b; c; d]) with (max4 a b c d) by (unfold max4; cbn; lia).
Qed.

(** Smoothing values between 0 and B. *)
Lemma conv_range kf k s z c B m : (forall i, 0 <= i <= Z.of_nat m -> kf i = FF (k i) /\ 0 <= k i) -> (forall j, s j = FF (z j) /\ 0 <= z j <= B) -> B <= 2 * U ->
  1000 * (k 0 + 2 * zsum k 1 m) <= 1001 * U -> Z.of_nat m < 4096 ->
  exists a, conv_sum fadd fmul kf s c m = FF a /\ 0 <= a /\ a * U <= B * (k 0 + 2 * zsum k 1 m) + 66560 * W * (Z.of_nat m + 1) * U.
Proof.
  intros K Z BB. pose proof W_pos as WP. pose proof U_W as UW. pose proof U_pos as UP. induction m as [|m IH]; intros TOT M; cbn [conv_sum].
  - destruct (K 0 ltac:(lia)) as [E0 K0]. destruct (Z c) as [ES Z0]. rewrite E0, ES. cbn [zsum] in *. set (x := k 0) in *. set (y := z c) in *. clearbody x y.
    assert (XY : x * y <= x * B) by (apply Z.mul_le_mono_nonneg_l; lia). assert (XB : x * B <= (2 * U) * (2 * U)) by (apply Z.mul_le_mono_nonneg; lia).
    destruct (fmul_pos x y) as (p & E & P & ER); [lia|lia|apply Z.le_trans with (2 * U * (2 * U)); [lia|discriminate]|].
    exists p. split; [exact E|]. split; [exact P|]. assert (0 <= W * U) by (apply Z.mul_nonneg_nonneg; lia). change (Z.of_nat 0) with 0. lia.
  - destruct (K (Z.of_nat (S m)) ltac:(lia)) as [E0 K0]. cbn [zsum] in TOT |- *. replace (1 + Z.of_nat m) with (Z.of_nat (S m)) in TOT |- * by lia.
    assert (ZS : 0 <= zsum k 1 m) by (apply zsum_nonneg; intros; apply K; lia). assert (KZ : 0 <= k 0) by (apply K; lia).
    destruct IH as (a & EA & A0 & ERA); [intros; apply K; lia|lia|lia|]. rewrite EA, E0.
    destruct (Z (c - Z.of_nat (S m))) as [-> Z1]. destruct (Z (c + Z.of_nat (S m))) as [-> Z2]. set (z1 := z (c - _)) in *. set (z2 := z (c + _)) in *. clearbody z1 z2.
    destruct (fadd_pos z1 z2) as (y & -> & Y0 & EY); [lia|lia|lia|].
    set (x := k (Z.of_nat (S m))) in *. clearbody x. set (u := zsum k 1 m) in *. clearbody u. set (k0 := k 0) in *. clearbody k0.
    assert (XX : x <= U) by (clear -TOT ZS KZ UP; lia).
    assert (XY : x * y <= x * (2 * B + 16640 * W)) by (apply Z.mul_le_mono_nonneg_l; lia).
    assert (XW : x * (16640 * W) <= U * (16640 * W)) by (apply Z.mul_le_mono_nonneg_r; lia).
    assert (XY5 : x * y <= U * (5 * U)) by (apply Z.mul_le_mono_nonneg; lia).
    destruct (fmul_pos x y) as (p & -> & P & ER); [lia|lia|apply Z.le_trans with (U * (5 * U)); [exact XY5|discriminate]|].
    assert (PU : p * U <= 6 * U * U) by (assert (E6 : U * (5 * U) + 16640 * W * U <= 6 * U * U) by discriminate; lia). assert (P6 : p <= 6 * U) by (apply (Z.mul_le_mono_pos_r _ _ U); [exact UP|exact PU]).
    assert (A6 : a <= 100 * U).
    { apply (Z.mul_le_mono_pos_r _ _ U); [exact UP|]. eapply Z.le_trans; [exact ERA|]. assert (Q1 : B * (k0 + 2 * u) <= (2 * U) * (2 * U)) by (apply Z.mul_le_mono_nonneg; lia).
      assert (Q2 : 66560 * W * (Z.of_nat m + 1) * U <= 66560 * W * 4096 * U) by (apply Z.mul_le_mono_nonneg_r; [lia|]; apply Z.mul_le_mono_nonneg_l; lia).
      assert (Q3 : 2 * U * (2 * U) + 66560 * W * 4096 * U <= 100 * U * U) by discriminate. lia. }
    destruct (fadd_pos a p A0 P) as (r & E' & R & ER'); [lia|]. exists r. split; [exact E'|]. split; [exact R|].
    assert (RU : r * U <= (a + p + 16640 * W) * U) by (apply Z.mul_le_mono_nonneg_r; lia).
    replace (Z.of_nat (S m) + 1) with ((Z.of_nat m + 1) + 1) by lia. set (n := Z.of_nat m + 1) in *. clearbody n.
    replace (66560 * W * (n + 1) * U) with (66560 * W * n * U + 66560 * (W * U)) by ring. replace (16640 * W * U) with (16640 * (W * U)) in ER by ring. replace (U * (16640 * W)) with (16640 * (W * U)) in XW by ring.
    replace ((a + p + 16640 * W) * U) with (a * U + p * U + 16640 * (W * U)) in RU by ring. replace (x * (2 * B + 16640 * W)) with (2 * (B * x) + x * (16640 * W)) in XY by ring.
    replace (B * (k0 + 2 * (u + x))) with (B * (k0 + 2 * u) + 2 * (B * x)) by ring. assert (WU : 0 <= W * U) by (apply Z.mul_nonneg_nonneg; lia). clear -RU ER XY XW ERA WU.
    set (g := W * U) in *. set (pu := p * U) in *. set (au := a * U) in *. set (xy := x * y) in *. set (xw := x * (16640 * W)) in *. set (bx := B * x) in *. set (b0 := B * (k0 + 2 * u)) in *. set (e := 66560 * W * n * U) in *. clearbody g pu au xy xw bx b0 e. lia.
Qed.
Lemma conv_zero kf s c m : (forall i, 0 <= i <= Z.of_nat m -> exists k, kf i = FF k) -> (forall j, s j = F0) -> conv_sum fadd fmul kf s c m = F0.
Proof.
  assert (MZ : forall k, fmul (FF k) F0 = F0) by (intro k; cbn [fmul F0]; rewrite Z.mul_0_r; reflexivity).
  intros K S. induction m as [|m IH]; cbn [conv_sum].
  - destruct (K 0 ltac:(lia)) as (k & ->). rewrite S. apply MZ.
  - rewrite IH by (intros; apply K; lia). destruct (K (Z.of_nat (Datatypes.S m)) ltac:(lia)) as (k & ->). rewrite !S. change (fadd F0 F0) with F0. rewrite MZ. reflexivity.
Qed.
Lemma smoothed_range kernel k n s z c B : weights kernel k -> 1000 * (total k (length kernel)) <= 1001 * U -> (1 <= length kernel)%nat -> Z.of_nat (length kernel) <= 64 -> 0 < n ->
  B <= 2 * U -> (forall i, 0 <= i < n -> s i = FF (z i) /\ 0 <= z i <= B) ->
  exists a, smoothed kernel n s c = FF a /\ 0 <= a /\ 1000 * a <= 1001 * B + 4 * U.
Proof.
  intros K T L1 L2 N BB S. unfold smoothed, total in *. set (r := (length kernel - 1)%nat) in *.
  destruct (conv_range (at_ F0 kernel) k (fun j => s (clamped n j)) (fun j => z (clamped n j)) c B r) as (a & E & A0 & AB); auto.
  - intros i I. apply K. unfold r in I. lia.
  - intros j. apply S, clamped_in, N.
  - unfold r. lia.
  - exists a. split; [exact E|]. split; [exact A0|]. pose proof U_pos as UP. pose proof W_pos as WP. assert (B0 : 0 <= B) by (destruct (S 0 ltac:(lia)); lia).
    set (t := k 0 + 2 * zsum k 1 r) in *. clearbody t. assert (Q1 : B * (1000 * t) <= B * (1001 * U)) by (apply Z.mul_le_mono_nonneg_l; lia).
    assert (Q2 : 66560 * W * (Z.of_nat r + 1) * U <= 66560 * W * 64 * U) by (apply Z.mul_le_mono_nonneg_r; [lia|]; apply Z.mul_le_mono_nonneg_l; [lia|unfold r; lia]).
    assert (Q3 : 1000 * (66560 * W * 64 * U) <= 4 * U * U) by discriminate.
    apply (Z.mul_le_mono_pos_r _ _ U); [exact UP|]. set (e := 66560 * W * (Z.of_nat r + 1) * U) in *. clearbody e. set (e' := 66560 * W * 64 * U) in *. clearbody e'. set (uu := 4 * U * U) in *.
    replace ((1001 * B + 4 * U) * U) with (B * (1001 * U) + uu) by (unfold uu; ring). clearbody uu. replace (B * (1000 * t)) with (1000 * (B * t)) in Q1 by ring. set (bt := B * t) in *. clearbody bt. set (b1 := B * (1001 * U)) in *. clearbody b1.
    replace (1000 * a * U) with (1000 * (a * U)) by ring. set (au := a * U) in *. clearbody au. lia.
Qed.
Lemma score_image_ok junk bufj kernel k l0 l1 l2 l3 w h : weights kernel k -> 1000 * (total k (length kernel)) <= 1001 * U -> (2 <= length kernel)%nat -> Z.of_nat (length kernel) <= 64 ->
  byte_image l0 w h -> byte_image l1 w h -> byte_image l2 w h -> byte_image l3 w h -> 2 <= w -> 2 <= h -> Z.max w h + 126 <= INT_MAX ->
  exists s f, score_image junk bufj kernel (l0, l1, l2, l3) = Ok s /\ fresh s w h /\
    (forall x y, 0 <= x < w -> 0 <= y < h ->
       squared_spread (fold_right Z.min (pix 0 l0 x y) [pix 0 l1 x y; pix 0 l2 x y; pix 0 l3 x y]) (fold_right Z.max (pix 0 l0 x y) [pix 0 l1 x y; pix 0 l2 x y; pix 0 l3 x y]) (f x y)) /\
    (forall x y, 0 <= x < w -> 0 <= y < h -> pix F0 s x y = windowed (Some kernel) w h (fun x y => FF (f x y)) x y) /\
    (forall x y, 0 <= x < w -> 0 <= y < h -> exists v, pix F0 s x y = FF v /\ 0 <= v /\ 50 * v <= 51 * U).
Proof.
  intros K T L2 L64 (F0' & B0) (F1' & B1) (F2 & B2) (F3 & B3) W H M. unfold score_image. pose proof F0' as (FW & FH & FS & FO). rewrite FW, FH.
  pose proof (size_bound l0 FO) as SB. rewrite FW, FH in SB.
  destruct (img_new_fresh junk w h) as (s0 & -> & S0); [lia..|]. cbn [bind]. pose proof S0 as (SW & SH & SS & SO).
  set (val := fun x y => spread_score (pix 0 l0 x y) (pix 0 l1 x y) (pix 0 l2 x y) (pix 0 l3 x y)).
  assert (VAL : forall x y, 0 <= x < w -> 0 <= y < h -> exists v, val x y = FF v /\
    squared_spread (fold_right Z.min (pix 0 l0 x y) [pix 0 l1 x y; pix 0 l2 x y; pix 0 l3 x y]) (fold_right Z.max (pix 0 l0 x y) [pix 0 l1 x y; pix 0 l2 x y; pix 0 l3 x y]) v).
  { intros x y X Y. apply spread_score_ok; [apply B0|apply B1|apply B2|apply B3]; eapply fresh_in; eauto. }
  destruct (scan_fill_all F0 (fun x y _ => let* a := iget l0 x y in let* b := iget l1 x y in let* c := iget l2 x y in let* d := iget l3 x y in Ok (spread_score a b c d)) val s0 SO) as (s1 & E1 & S1 & O1 & V1 & _).
  { intros x y g I _ _ _. apply (fresh_in _ _ _ _ _ S0) in I. rewrite (iget_ok 0 l0) by (try exact FO; eapply fresh_in; eauto). cbn [bind].
    rewrite (iget_ok 0 l1) by (try apply F1'; eapply fresh_in; eauto). cbn [bind]. rewrite (iget_ok 0 l2) by (try apply F2; eapply fresh_in; eauto). cbn [bind].
    rewrite (iget_ok 0 l3) by (try apply F3; eapply fresh_in; eauto). reflexivity. }
  rewrite SW, SH in E1. rewrite E1. cbn [bind]. pose proof (fresh_shape _ _ _ _ S0 S1 O1) as FS1.
  set (f := fun x y => match val x y with FF v => v | _ => 0 end).
  assert (FV : forall x y, 0 <= x < w -> 0 <= y < h -> val x y = FF (f x y)) by (intros x y X Y; destruct (VAL x y X Y) as (v & E & _); unfold f; now rewrite E).
  assert (FQ : forall x y, 0 <= x < w -> 0 <= y < h -> squared_spread (fold_right Z.min (pix 0 l0 x y) [pix 0 l1 x y; pix 0 l2 x y; pix 0 l3 x y]) (fold_right Z.max (pix 0 l0 x y) [pix 0 l1 x y; pix 0 l2 x y; pix 0 l3 x y]) (f x y))
    by (intros x y X Y; destruct (VAL x y X Y) as (v & E & Q); unfold f; now rewrite E).
  destruct (smooth_win bufj (fun x y => FF (f x y)) kernel s1 w h FS1 W H L2) as (s & -> & FSS & V); [lia| |].
  { intros x y X Y. rewrite V1 by (eapply fresh_in; eauto). auto. }
  exists s, f. split; [reflexivity|]. split; [exact FSS|]. split; [exact FQ|]. split; [exact V|].
  intros x y X Y. rewrite V by auto. cbn [windowed]. pose proof U_pos as UP.
  assert (P1 : forall j, 0 <= j < h -> exists a, smoothed kernel w (fun i => FF (f i j)) x = FF a /\ 0 <= a /\ 1000 * a <= 1001 * U + 4 * U).
  { intros j J. apply (smoothed_range kernel k w _ (fun i => f i j)); auto; try lia. intros i I. split; [reflexivity|]. destruct (FQ i j I J) as (R & _). exact R. }
  set (z := fun j => match smoothed kernel w (fun i => FF (f i j)) x with FF a => a | _ => 0 end).
  assert (Q2 : 1005 * U / 1000 <= 2 * U) by (apply Z.div_le_upper_bound; lia).
  assert (Q3 : forall j, 0 <= j < h -> smoothed kernel w (fun i => FF (f i j)) x = FF (z j) /\ 0 <= z j <= 1005 * U / 1000).
  { intros j J. destruct (P1 j J) as (a & E & A0 & A1). unfold z. rewrite E. split; [reflexivity|]. split; [exact A0|]. apply Z.div_le_lower_bound; lia. }
  destruct (smoothed_range kernel k h (fun j => smoothed kernel w (fun i => FF (f i j)) x) z y (1005 * U / 1000) K T ltac:(lia) L64 ltac:(lia) Q2 Q3) as (a & E & A0 & AB).
  exists a. split; [exact E|]. split; [exact A0|]. pose proof (Z.mul_div_le (1005 * U) 1000 ltac:(lia)) as DL. set (q := 1005 * U / 1000) in *. clearbody q. lia.
Qed.
Lemma windowed_zero kernel k w h g x y : weights kernel k -> (1 <= length kernel)%nat -> 0 < w -> 0 < h -> (forall i j, 0 <= i < w -> 0 <= j < h -> g i j = F0) -> windowed (Some kernel) w h g x y = F0.
Proof.
  intros K L W H G. cbn [windowed]. unfold smoothed. apply conv_zero.
  - intros i I. destruct (K i ltac:(lia)) as [E _]. eauto.
  - intros j. apply conv_zero.
    + intros i I. destruct (K i ltac:(lia)) as [E _]. eauto.
    + intros i. apply G; apply clamped_in; lia.
Qed.
