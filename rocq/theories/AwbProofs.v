From Coq Require Import Lia.
From Verif Require Import Base BaseLemmas Flt FltErr Gray Img SiftCache WarpModel WarpSpec WarpProofs WarpPixel WarpRows WarpAll AwbModel AwbSpec.
Local Open Scope Z_scope.

(** ** The loops *)
Section Rows.
Variable px : flt -> flt -> nat -> res (option Z * nat).
Variables dx dy : flt.
Variable R : Z -> Z -> option Z -> Prop.
Notation keep o old := (match o with Some b => b | None => old end).
Lemma row_opt_ok y sx sy w : forall k x dest n, image_ok dest -> i_w dest = w -> 0 <= x -> x + Z.of_nat k = w -> 0 <= y < i_h dest ->
  (forall x' n, x <= x' < w -> exists b n', px (steps (Z.to_nat x') sx dx) (steps (Z.to_nat x') sy dy) n = Ok (b, n') /\ R x' y b) ->
  exists g n', row_opt px dx dy k x y (steps (Z.to_nat x) sx dx) (steps (Z.to_nat x) sy dy) dest n = Ok (g, n') /\ same_shape g dest /\ image_ok g /\
    (forall x', x <= x' < w -> exists o, R x' y o /\ pix 0 g x' y = keep o (pix 0 dest x' y)) /\
    (forall x' y', in_img dest x' y' -> y' <> y \/ x' < x -> pix 0 g x' y' = pix 0 dest x' y') /\
    frame dest g (fun _ y' => y' = y).
Proof.
  induction k as [|k IH]; intros x dest n G WE X XK YR HP; cbn [row_opt].
  - exists dest, n. split; [reflexivity|]. split; [apply same_shape_refl|]. split; [exact G|]. split; [intros; lia|]. split; [reflexivity|]. intros i _. reflexivity.
  - destruct (HP x n ltac:(lia)) as (o & n1 & -> & RB). cbn [bind].
    assert (exists g1, (match o with None => Ok dest | Some b => iput dest x y b end) = Ok g1 /\ same_shape g1 dest /\ image_ok g1 /\
      (forall x' y', in_img dest x' y' -> pix 0 g1 x' y' = if (x' =? x) && (y' =? y) then keep o (pix 0 dest x y) else pix 0 dest x' y') /\
      (forall i, i <> Z.to_nat (y * i_stride dest + x) -> nth_error (i_data g1) i = nth_error (i_data dest) i)) as (g1 & -> & S1 & G1 & V1 & D1).
    { destruct o as [b|].
      - destruct (iput_ok 0 dest x y b G ltac:(split; lia)) as (g1 & -> & S1 & G1 & D1 & V1). exists g1. split; [reflexivity|]. split; [exact S1|]. split; [exact G1|]. split; [exact V1|].
        intros i NE. rewrite D1. apply nth_error_lset_neq. intro EQ. apply NE. symmetry. exact EQ.
      - exists dest. split; [reflexivity|]. split; [apply same_shape_refl|]. split; [exact G|]. split; [|reflexivity].
        intros x' y' _. destruct (Z.eqb_spec x' x) as [->|], (Z.eqb_spec y' y) as [->|]; reflexivity. }
    cbn [bind].
    replace (fadd (steps (Z.to_nat x) sx dx) dx) with (steps (Z.to_nat (x + 1)) sx dx) by (replace (Z.to_nat (x + 1)) with (S (Z.to_nat x)) by lia; reflexivity).
    replace (fadd (steps (Z.to_nat x) sy dy) dy) with (steps (Z.to_nat (x + 1)) sy dy) by (replace (Z.to_nat (x + 1)) with (S (Z.to_nat x)) by lia; reflexivity).
    destruct S1 as (SW & SH & SS).
    destruct (IH (x + 1) g1 n1 G1 ltac:(lia) ltac:(lia) ltac:(lia) ltac:(lia)) as (g & n' & E & SG & GG & VG & FG & FR).
    { intros x' m X'. apply HP. lia. }
    exists g, n'. split; [exact E|]. split; [unfold same_shape in *; lia|]. split; [exact GG|]. split; [|split].
    + intros x' X'. destruct (Z.eq_dec x' x) as [->|NE].
      * exists o. split; [exact RB|]. rewrite FG by (try (right; lia); split; lia). rewrite V1 by (split; lia). rewrite !Z.eqb_refl. reflexivity.
      * destruct (VG x' ltac:(lia)) as (o' & RO & ->). exists o'. split; [exact RO|]. rewrite V1 by (split; lia). destruct (Z.eqb_spec x' x); [lia|]. reflexivity.
    + intros x' y' I Q. rewrite FG; [|destruct I; split; lia|lia]. rewrite V1 by exact I. destruct (Z.eqb_spec x' x), (Z.eqb_spec y' y); cbn [andb]; try reflexivity. lia.
    + intros i F. rewrite FR.
      * apply D1. apply (F x y); [split; lia|reflexivity].
      * intros x' y' I Q. rewrite SS. apply F; [destruct I; split; lia|exact Q].
Qed.
Variables x0 y0 : Z -> flt.
Lemma rows_opt_ok dest : image_ok dest ->
  (forall x y n, in_img dest x y -> exists b n', px (steps (Z.to_nat x) (x0 y) dx) (steps (Z.to_nat x) (y0 y) dy) n = Ok (b, n') /\ R x y b) ->
  exists g n', rows_opt px dx dy x0 y0 dest = Ok (g, n') /\ only_pixels dest g /\ image_ok g /\
    forall x y, in_img dest x y -> exists o, R x y o /\ pix 0 g x y = keep o (pix 0 dest x y).
Proof.
  intros G HP. unfold rows_opt.
  assert (K : forall h, 0 <= h <= i_h dest -> exists g n', for_each (fun y s => row_opt px dx dy (Z.to_nat (i_w dest)) 0 y (x0 y) (y0 y) (fst s) (snd s)) (zrange 0 h) (dest, O) = Ok (g, n') /\
    same_shape g dest /\ image_ok g /\ (forall x y, in_img dest x y -> if y <? h then exists o, R x y o /\ pix 0 g x y = keep o (pix 0 dest x y) else pix 0 g x y = pix 0 dest x y) /\ frame dest g (fun _ y => y < h)).
  { intros h HR. rewrite <- (Z2Nat.id h) by lia. assert (HN : Z.of_nat (Z.to_nat h) <= i_h dest) by lia. revert HN. generalize (Z.to_nat h) as m. induction m as [|m IH]; intro HN.
    - exists dest, O. split; [reflexivity|]. split; [apply same_shape_refl|]. split; [exact G|]. split; [|intros i _; reflexivity]. intros x y [_ IY]. change (Z.of_nat 0) with 0. destruct (Z.ltb_spec y 0); [lia|reflexivity].
    - destruct IH as (g & n' & E & SG & GG & VG & FG); [lia|]. rewrite Nat2Z.inj_succ, <- Z.add_1_r, zrange_snoc by lia. rewrite for_each_app, E. cbn [bind for_each fst snd].
      destruct SG as (SW & SH & SS). pose proof GG as [GW GH GL GM].
      destruct (row_opt_ok (Z.of_nat m) (x0 (Z.of_nat m)) (y0 (Z.of_nat m)) (i_w dest) (Z.to_nat (i_w dest)) 0 g n') as (g2 & n2 & E2 & S2 & G2 & V2 & F2 & FR2).
      + exact GG.
      + exact SW.
      + lia.
      + destruct G as [GW' _ _ _]. lia.
      + lia.
      + intros x' q X'. apply HP. split; lia.
      + cbn [Z.to_nat steps] in E2. rewrite E2. cbn [bind]. exists g2, n2. split; [reflexivity|]. split; [unfold same_shape in *; lia|]. split; [exact G2|]. split.
        * intros x y I. specialize (VG x y I). destruct (Z.ltb_spec y (Z.of_nat m)).
          { destruct (Z.ltb_spec y (Z.of_nat m + 1)); [|lia]. destruct VG as (o & RO & VO). exists o. split; [exact RO|]. rewrite F2; [exact VO|destruct I; split; lia|lia]. }
          destruct (Z.ltb_spec y (Z.of_nat m + 1)).
          { assert (y = Z.of_nat m) as -> by lia. destruct (V2 x ltac:(destruct I; lia)) as (o & RO & VO). exists o. split; [exact RO|]. rewrite VO, VG. reflexivity. }
          rewrite F2; [exact VG|destruct I; split; lia|lia].
        * intros i F. rewrite FR2; [apply FG; intros x y I L; apply F; [exact I|lia]|]. intros x y I Q. rewrite SS. apply F; [destruct I; split; lia|lia]. }
  destruct (K (i_h dest)) as (g & n' & E & SG & GG & VG & FG); [destruct G; lia|]. exists g, n'. split; [exact E|]. split; [split; [exact SG|]|split; [exact GG|]].
  - intros i F. apply FG. intros x y I _. apply F, I.
  - intros x y I. specialize (VG x y I). destruct (Z.ltb_spec y (i_h dest)); [exact VG|destruct I; lia].
Qed.
End Rows.

Section Place.
Variables a0 a1 a3 a4 a6 a7 : Z.
Notation small_map := (small_map a0 a1 a3 a4 a6 a7).
Notation placed := (placed a0 a1 a3 a4 a6 a7).
Lemma all_rows px dest c (R : Z -> Z -> option Z -> Prop) : image_ok dest -> small_map dest c ->
  (forall X Y n, pos_ok X -> pos_ok Y -> exists o n', px (FF X) (FF Y) n = Ok (o, n') /\ R X Y o) ->
  exists g n', rows_opt px (FF a0) (FF a1) (fun y => fadd (fmul (of_int y) (FF a3)) (FF a6)) (fun y => fadd (fmul (of_int y) (FF a4)) (FF a7)) dest = Ok (g, n') /\
    only_pixels dest g /\ image_ok g /\
    forall x y, in_img dest x y -> exists X Y o, placed c x y X Y /\ R X Y o /\ pix 0 g x y = match o with Some b => b | None => pix 0 dest x y end.
Proof.
  intros G (C & WC & HD & SM) HP.
  destruct (rows_opt_ok px (FF a0) (FF a1) (fun x y o => exists X Y, placed c x y X Y /\ R X Y o)
    (fun y => fadd (fmul (of_int y) (FF a3)) (FF a6)) (fun y => fadd (fmul (of_int y) (FF a4)) (FF a7)) dest G) as (g & n' & E & O & GG & V).
  - intros x y n I. pose proof I as [IX IY].
    destruct (position (fadd (fmul (of_int y) (FF a3)) (FF a6)) a3 a6 a0 c (i_w dest) x y) as (X & -> & DX & PX); try lia; try (apply (SM x y I)).
    { intros x' X'. apply (SM x' y). split; [exact X'|exact IY]. }
    { reflexivity. }
    destruct (position (fadd (fmul (of_int y) (FF a4)) (FF a7)) a4 a7 a1 c (i_w dest) x y) as (Y & -> & DY & PY); try lia; try (apply (SM x y I)).
    { intros x' X'. apply (SM x' y). split; [exact X'|exact IY]. }
    { reflexivity. }
    destruct (HP X Y n PX PY) as (o & n' & E & RB). exists o, n'. split; [exact E|]. exists X, Y. split; [split; [exact DX|exact DY]|exact RB].
  - exists g, n'. split; [exact E|]. split; [exact O|]. split; [exact GG|]. intros x y I. destruct (V x y I) as (o & (X & Y & PL & RO) & VO). exists X, Y, o. auto.
Qed.
End Place.

(** ** Resampling *)
Lemma split_parts X i i1 u up : split_pos (FF X) = Ok (i, i1, u, up) -> to_int (FF X) = Ok i /\ fsub (FF X) (of_int i) = u /\ fsub F1 u = up.
Proof.
  unfold split_pos. destruct (to_int (FF X)) as [j| | |]; try discriminate. cbn [bind]. unfold chk_int. destruct (in_int (j + 1)); [|discriminate]. cbn [bind].
  intro E. apply (f_equal (fun r => match r with Ok p => p | _ => (i, i1, u, up) end)) in E. cbv beta iota in E.
  pose proof (f_equal (fun p => fst (fst (fst p))) E) as E1. cbn [fst] in E1. subst j.
  pose proof (f_equal (fun p => snd (fst p)) E) as E2. cbn [fst snd] in E2.
  pose proof (f_equal snd E) as E3. cbn [snd] in E3. rewrite E2 in E3. auto.
Qed.
Lemma core_ok src X Y n : image_ok src -> byte_img src -> 1 <= i_w src -> 1 <= i_h src -> pos_ok X -> pos_ok Y ->
  exists o n', core_pixel src (FF X) (FF Y) n = Ok (o, n') /\ forall old, resampled src X Y old (match o with Some b => b | None => old end).
Proof.
  intros G B W1 H1 PX PY. unfold core_pixel.
  destruct (split_ok X PX) as (u & up & SX & EU & EUP). destruct (split_parts _ _ _ _ _ SX) as (IX & UX & UPX).
  destruct (split_ok Y PY) as (v & vp & SY & EV & EVP). destruct (split_parts _ _ _ _ _ SY) as (IY & VY & VPY). rewrite IX. cbn [bind]. rewrite IY. cbn [bind]. cbv zeta. rewrite UX, VY, UPX, VPY. clear IX IY UX VY UPX VPY SX SY.
  replace ((X ÷ U <? 0) || (i_w src - 1 <=? X ÷ U) || (Y ÷ U <? 0) || (i_h src - 1 <=? Y ÷ U)) with (outside (i_w src) (X ÷ U) || outside (i_h src) (Y ÷ U)) by (unfold outside; apply Bool.orb_assoc).
  destruct (outside (i_w src) (X ÷ U) || outside (i_h src) (Y ÷ U)) eqn:O.
  - exists None, n. split; [reflexivity|]. intro old. split; [|split; [reflexivity|left; reflexivity]].
    intros [IX IY]. destruct (inside_axis _ _ IX) as (OX & _). destruct (inside_axis _ _ IY) as (OY & _). rewrite OX, OY in O. discriminate.
  - destruct (plain_ok src G B X Y u up v vp O EU EUP EV EVP) as (b & E & R & N). rewrite E. exists (Some b), n. split; [reflexivity|]. intro old. split; [exact N|]. split; [|right; exact R].
    intros A. exfalso. destruct A as [A|A]; apply away_axis in A; try assumption; rewrite A in O; [discriminate|rewrite Bool.orb_true_r in O; discriminate].
Qed.

(** ** The background *)
Lemma bg_axis_ok n X : 2 <= n -> if bg_axis n (X ÷ U) (X ÷ U + 1) then in_border n X else ~ in_border n X.
Proof.
  intro N. unfold bg_axis, in_border. pose proof U_pos as UP.
  destruct (Z.lt_ge_cases X U) as [L|L].
  - assert (X ÷ U <= 0) by (destruct (Z.le_gt_cases X (- U)) as [L2|L2]; [pose proof (quot_low X L2); lia|]; destruct (Z.le_gt_cases X 0); [rewrite quot_mid by lia; lia|]; rewrite Z.quot_small by lia; lia).
    destruct (Z.leb_spec (X ÷ U) 0); [left; exact L|lia].
  - destruct (quot_nonneg X ltac:(lia)) as [-> _]. assert (1 <= X / U) by (apply Z.div_le_lower_bound; lia). destruct (Z.leb_spec (X / U) 0); [lia|]. cbn [orb].
    destruct (Z.leb_spec (n - 1) (X / U + 1)) as [Q|Q].
    + right. pose proof (Z.mul_div_le X U UP). assert ((n - 2) * U <= U * (X / U)) by (rewrite (Z.mul_comm U); apply Z.mul_le_mono_nonneg_r; lia). lia.
    + intros [A|A]; [lia|]. assert (n - 2 <= X / U) by (apply Z.div_le_lower_bound; lia). lia.
Qed.
Lemma bg_both src X Y : 2 <= i_w src -> 2 <= i_h src ->
  if bg_axis (i_w src) (X ÷ U) (X ÷ U + 1) || bg_axis (i_h src) (Y ÷ U) (Y ÷ U + 1) then background src X Y else ~ background src X Y.
Proof.
  intros HW HH. pose proof (bg_axis_ok (i_w src) X HW) as A. pose proof (bg_axis_ok (i_h src) Y HH) as B. unfold background.
  destruct (bg_axis (i_w src) _ _), (bg_axis (i_h src) _ _); cbn [orb]; tauto.
Qed.
Notation keep o old := (match o with Some b => b | None => old end).
Lemma fixed_bg smp c src X Y n : 2 <= i_w src -> 2 <= i_h src -> pos_ok X -> pos_ok Y ->
  exists o n', bg_pixel smp (BgFixed c) src (FF X) (FF Y) n = Ok (o, n') /\ forall old, filled (fun b => b = c) src X Y old (keep o old).
Proof.
  intros HW HH PX PY. unfold bg_pixel. destruct (split_ok X PX) as (u & up & -> & _). destruct (split_ok Y PY) as (v & vp & -> & _). cbn [bind].
  pose proof (bg_both src X Y HW HH) as K. destruct (_ || _); eexists; exists n; (split; [reflexivity|]); intro old; split; cbv beta iota; intro; (reflexivity || contradiction).
Qed.
Lemma noise_bg smp src X Y n : 2 <= i_w src -> 2 <= i_h src -> pos_ok X -> pos_ok Y -> (forall n, exists s, smp n = FF s /\ 0 <= s <= U) ->
  exists o n', bg_pixel smp BgNoise src (FF X) (FF Y) n = Ok (o, n') /\ forall old, filled (fun b => 0 <= b <= 255) src X Y old (keep o old).
Proof.
  intros HW HH PX PY HS. unfold bg_pixel. destruct (split_ok X PX) as (u & up & -> & _). destruct (split_ok Y PY) as (v & vp & -> & _). cbn [bind].
  pose proof (bg_both src X Y HW HH) as K. destruct (_ || _); [|exists None, n; split; [reflexivity|]; intro old; split; cbv beta iota; intro; (reflexivity || contradiction)].
  destruct (HS n) as (s & -> & SR). rewrite of_int_exact by (unfold small24; lia). rewrite fmul_FF. pose proof U_pos as UP.
  assert (RL : rnd (255 * U * s) U <= 255 * 2 ^ 149).
  { apply rnd_le; try lia. change (2 ^ 149) with U. replace (255 * U * s) with (255 * s * U) by ring. apply Z.mul_le_mono_nonneg_r; lia. }
  rewrite (mkf_val (255 * U * s) U (255 * 2 ^ 149)) by (try exact RL; try lia; reflexivity).
  pose proof (rnd_nonneg (255 * U * s) U ltac:(lia) UP) as RN.
  assert (SG : 0 <= Z.sgn (255 * U * s) * rnd (255 * U * s) U <= 255 * U).
  { change (2 ^ 149) with U in RL. assert (0 <= 255 * U * s) by (apply Z.mul_nonneg_nonneg; lia). destruct (Z.sgn_spec (255 * U * s)) as [[_ ->]|[[_ ->]|[N _]]]; lia. }
  set (m := Z.sgn _ * _) in *. clearbody m. unfold to_int. assert (Q : 0 <= m ÷ U <= 255) by (rewrite Z.quot_div_nonneg by lia; split; [apply Z.div_pos; lia|apply Z.div_le_upper_bound; lia]).
  rewrite chk_int_in by (pose proof int_rng as [-> ->]; lia). cbn [bind]. exists (Some (m ÷ U)), (S n).
  destruct (Z.leb_spec 0 (m ÷ U)); [|lia]. destruct (Z.leb_spec (m ÷ U) 255); [|lia]. split; [reflexivity|]. intro old. split; intro; [exact Q|contradiction].
Qed.
Lemma bg_repeat_ok n X : 2 <= n -> exists i0 i1 b, bg_repeat n (X ÷ U) (X ÷ U + 1) = (i0, i1, b) /\ 0 <= i0 < n /\ 0 <= i1 < n /\ b = bg_axis n (X ÷ U) (X ÷ U + 1) /\
  i0 = last_again n (to_edge n X / U) /\ (i1 = i0 /\ to_edge n X mod U = 0 \/ i1 = last_again n (to_edge n X / U + 1) /\ Z.rem X U = to_edge n X mod U).
Proof.
  intro N. pose proof U_pos as UP. pose proof (bg_axis_ok n X N) as K. unfold bg_repeat. unfold bg_axis in *.
  destruct (Z.leb_spec (X ÷ U) 0) as [L|L]; cbn [orb] in *.
  - exists 0, 0, true. split; [reflexivity|]. split; [lia|]. split; [lia|]. split; [reflexivity|].
    assert (X < U). { destruct (Z.lt_ge_cases X U) as [Q|Q]; [exact Q|]. destruct (quot_nonneg X ltac:(lia)) as [E _]. assert (1 <= X / U) by (apply Z.div_le_lower_bound; lia). lia. }
    unfold to_edge. destruct (Z.ltb_spec X U); [|lia]. rewrite Z.div_0_l, Z.mod_0_l by lia. unfold last_again. split; [lia|]. left. auto.
  - assert (U <= X). { destruct (Z.lt_ge_cases X U) as [Q|Q]; [|exact Q]. exfalso. destruct (Z.le_gt_cases X (- U)) as [L2|L2]; [pose proof (quot_low X L2); lia|]. destruct (Z.le_gt_cases X 0); [rewrite quot_mid in L by lia; lia|]. rewrite Z.quot_small in L by lia. lia. }
    unfold to_edge. destruct (Z.ltb_spec X U); [lia|].
    destruct (Z.leb_spec (n - 1) (X ÷ U + 1)) as [L2|L2]; cbn [orb] in K.
    + destruct K as [K|K]; [lia|]. destruct (Z.leb_spec ((n - 2) * U) X); [|lia]. exists (n - 1), (n - 1), true. split; [reflexivity|]. split; [lia|]. split; [lia|]. split; [reflexivity|].
      rewrite Z.div_mul, Z.mod_mul by lia. unfold last_again. split; [lia|]. left. auto.
    + destruct (Z.leb_spec ((n - 2) * U) X) as [Q|Q]; [exfalso; apply K; right; exact Q|]. destruct (quot_nonneg X ltac:(lia)) as [E1 E2]. rewrite E1 in *. exists (X / U), (X / U + 1), false.
      split; [reflexivity|]. split; [lia|]. split; [lia|]. split; [reflexivity|]. unfold last_again. split; [lia|]. right. split; [lia|exact E2].
Qed.
Lemma repeat_bg smp src X Y n : image_ok src -> byte_img src -> 2 <= i_w src -> 2 <= i_h src -> pos_ok X -> pos_ok Y ->
  exists o n', bg_pixel smp BgRepeat src (FF X) (FF Y) n = Ok (o, n') /\ forall old, filled (fun b => 0 <= b <= 255 /\ edge_value src X Y b) src X Y old (keep o old).
Proof.
  intros G B HW HH PX PY. unfold bg_pixel. destruct (split_ok X PX) as (u & up & -> & EU & EUP). destruct (split_ok Y PY) as (v & vp & -> & EV & EVP). cbn [bind].
  pose proof (bg_both src X Y HW HH) as K.
  destruct (bg_repeat_ok (i_w src) X HW) as (x0 & x1 & bx & -> & R0 & R1 & -> & X0 & SX). destruct (bg_repeat_ok (i_h src) Y HH) as (y0 & y1 & by' & -> & R2 & R3 & -> & Y0 & SY).
  destruct (bg_axis (i_w src) _ _ || bg_axis (i_h src) _ _); [|exists None, n; split; [reflexivity|]; intro old; split; cbv beta iota; intro; (reflexivity || contradiction)].
  destruct (interpolate_ok src x0 x1 u up y0 y1 v vp (Z.rem X U) (Z.rem Y U) G B) as (b & -> & R & N); auto using rem_small; try (split; lia). cbn [bind].
  exists (Some b), n. split; [reflexivity|]. intro old. split; cbv beta iota; intro; [|contradiction]. split; [exact R|]. cbv zeta in N. unfold edge_value.
  set (cx := to_edge (i_w src) X) in *. set (cy := to_edge (i_h src) Y) in *.
  assert (E : bilinear (pix 0 src x0 y0) (pix 0 src x1 y0) (pix 0 src x0 y1) (pix 0 src x1 y1) (Z.rem X U) (Z.rem Y U) = value_at (last_again (i_w src)) (last_again (i_h src)) src cx cy).
  { unfold value_at. destruct SX as [(X1 & RX)|(X1 & RX)], SY as [(Y1 & RY)|(Y1 & RY)]; rewrite ?X1, ?Y1, X0, Y0, ?RX, ?RY; unfold bilinear; ring. }
  rewrite E in N. apply N. unfold value_at. pose proof (mod_range cx). pose proof (mod_range cy). apply bilinear_range; try (apply byte_pix; exact B); lia.
Qed.

(** ** The whole warp stops at the first blur *)
Lemma warp_stops fcos fsin sigma_of xpass ypass smp img skew sub result scale planar tilt tilt_angle post inv bg g :
  warp fcos fsin sigma_of xpass ypass smp img skew sub result scale planar tilt tilt_angle post inv bg <> Ok g.
Proof.
  unfold warp. destruct (warp_core skew img _) as [s| | |]; cbn [bind]; try discriminate. unfold blur at 1. destruct (f_gt (sigma_of tilt) F0); [|discriminate].
  destruct (xpass (sigma_of tilt) s); cbn [bind]; discriminate.
Qed.
