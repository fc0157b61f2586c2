From Coq Require Import Lia.
From Verif Require Import Base BaseLemmas Flt FltErr Gray Img SiftCache WarpModel WarpSpec WarpProofs.
Local Open Scope Z_scope.

Lemma rem_small X : Z.abs (Z.rem X U) < U.
Proof. pose proof (Z.rem_bound_abs X U ltac:(discriminate)) as R. rewrite (Z.abs_eq U) in R by (pose proof U_pos; lia). exact R. Qed.
Lemma quot_nonneg X : 0 <= X -> X ÷ U = X / U /\ Z.rem X U = X mod U.
Proof. intro P. pose proof U_pos. split; [apply Z.quot_div_nonneg; lia|apply Z.rem_mod_nonneg; lia]. Qed.
Lemma quot_low X : X <= - U -> X ÷ U <= -1.
Proof. intro P. pose proof U_pos as UP. replace X with (- - X) by ring. rewrite Z.quot_opp_l by lia. rewrite Z.quot_div_nonneg by lia. assert (1 <= - X / U) by (apply Z.div_le_lower_bound; lia). lia. Qed.
Lemma quot_mid X : - U < X <= 0 -> X ÷ U = 0.
Proof. intro P. pose proof U_pos as UP. apply Z.quot_small_iff; [lia|]. rewrite (Z.abs_neq X), (Z.abs_eq U) by lia. lia. Qed.
Lemma div_range X a b : 0 <= a -> a * U <= X < b * U -> a <= X / U < b.
Proof. intros A B. pose proof U_pos. split; [apply Z.div_le_lower_bound; lia|apply Z.div_lt_upper_bound; lia]. Qed.
Lemma inside_axis n X : 0 <= X < (n - 1) * U -> outside n (X ÷ U) = false /\ 0 <= X / U < n - 1 /\ X ÷ U = X / U /\ Z.rem X U = X mod U.
Proof.
  intros P. destruct (quot_nonneg X ltac:(lia)) as [E1 E2]. pose proof (div_range X 0 (n - 1) ltac:(lia) ltac:(lia)) as D. split; [|split; [exact D|split; assumption]].
  rewrite E1. unfold outside. destruct (Z.ltb_spec (X / U) 0); [lia|]. destruct (Z.leb_spec (n - 1) (X / U)); [lia|reflexivity].
Qed.
Lemma away_axis n X : 1 <= n -> away n X -> outside n (X ÷ U) = true.
Proof.
  intros N [P|P]; unfold outside.
  - pose proof (quot_low X P). destruct (Z.ltb_spec (X ÷ U) 0); [reflexivity|lia].
  - pose proof U_pos as UP. assert (0 <= X) by nia. destruct (quot_nonneg X ltac:(lia)) as [-> _]. assert (n - 1 <= X / U) by (apply Z.div_le_lower_bound; lia).
    destruct (Z.leb_spec (n - 1) (X / U)); [apply Bool.orb_true_r|lia].
Qed.
Lemma not_outside n i : outside n i = false -> 0 <= i < n - 1.
Proof. unfold outside. destruct (Z.ltb_spec i 0); [discriminate|]. destruct (Z.leb_spec (n - 1) i); [discriminate|]. lia. Qed.
Lemma mod_range X : 0 <= X mod U < U.
Proof. apply Z.mod_pos_bound, U_pos. Qed.

Section Pixel.
Variable smp : nat -> flt.
Variable src : image Z.
Hypothesis G : image_ok src.
Hypothesis B : byte_img src.
Hypothesis W1 : 1 <= i_w src.
Hypothesis H1 : 1 <= i_h src.
Variables X Y : Z.
Hypothesis PX : pos_ok X.
Hypothesis PY : pos_ok Y.
(** The shared part: interpolation in the interior. *)
Lemma plain_ok u up v vp : outside (i_w src) (X ÷ U) || outside (i_h src) (Y ÷ U) = false ->
  Z.abs (u - Z.rem X U) <= 65 * W -> Z.abs (up - (U - Z.rem X U)) <= 260 * W -> Z.abs (v - Z.rem Y U) <= 65 * W -> Z.abs (vp - (U - Z.rem Y U)) <= 260 * W ->
  exists b, interpolate src (X ÷ U) (X ÷ U + 1) (FF u) (FF up) (Y ÷ U) (Y ÷ U + 1) (FF v) (FF vp) = Ok b /\ 0 <= b <= 255 /\
    (inside src X Y -> near b (value_at plain plain src X Y)).
Proof.
  intros O EU EUP EV EVP. apply Bool.orb_false_iff in O as [O1 O2]. apply not_outside in O1, O2.
  destruct (interpolate_ok src (X ÷ U) (X ÷ U + 1) u up (Y ÷ U) (Y ÷ U + 1) v vp (Z.rem X U) (Z.rem Y U) G B) as (b & E & R & N); auto using rem_small; try (split; lia).
  exists b. split; [exact E|]. split; [exact R|]. intros [IX IY]. cbv zeta in N. destruct (inside_axis _ _ IX) as (_ & _ & QX & RX). destruct (inside_axis _ _ IY) as (_ & _ & QY & RY).
  rewrite RX, RY, QX, QY in N. unfold value_at, plain. apply N. apply bilinear_range; try (apply byte_pix; exact B); pose proof (mod_range X); pose proof (mod_range Y); lia.
Qed.
Lemma fixed_ok bg fixed n : (bg = Black /\ fixed = 0) \/ (bg = White /\ fixed = 255) ->
  exists b, pixel smp bg src (FF X) (FF Y) n = Ok (b, n) /\ 0 <= b <= 255 /\ sampled (fun b => b = fixed) src X Y b.
Proof.
  intro BG. unfold pixel. destruct (split_ok X PX) as (u & up & -> & EU & EUP). destruct (split_ok Y PY) as (v & vp & -> & EV & EVP). cbn [bind]. cbv zeta.
  destruct (outside (i_w src) (X ÷ U) || outside (i_h src) (Y ÷ U)) eqn:O.
  - exists fixed. split; [destruct BG as [[-> ->]|[-> ->]]; reflexivity|]. split; [destruct BG as [[_ ->]|[_ ->]]; lia|]. split; [|reflexivity].
    intros [IX IY]. destruct (inside_axis _ _ IX) as (OX & _). destruct (inside_axis _ _ IY) as (OY & _). rewrite OX, OY in O. discriminate.
  - destruct (plain_ok u up v vp O EU EUP EV EVP) as (b & E & R & N). exists b. rewrite E. split; [destruct BG as [[-> ->]|[-> ->]]; reflexivity|]. split; [exact R|]. split; [exact N|].
    intros A. exfalso. destruct A as [A|A]; apply away_axis in A; try assumption; rewrite A in O; [discriminate|rewrite Bool.orb_true_r in O; discriminate].
Qed.
Lemma noise_ok n : (exists s, smp n = FF s /\ 0 <= s <= U) ->
  exists b n', pixel smp Noise src (FF X) (FF Y) n = Ok (b, n') /\ 0 <= b <= 255 /\ sampled (fun _ => True) src X Y b.
Proof.
  intros (s & ES & SR). unfold pixel. destruct (split_ok X PX) as (u & up & -> & EU & EUP). destruct (split_ok Y PY) as (v & vp & -> & EV & EVP). cbn [bind]. cbv zeta.
  destruct (outside (i_w src) (X ÷ U) || outside (i_h src) (Y ÷ U)) eqn:O.
  - rewrite ES, of_int_exact by (unfold small24; lia). rewrite fmul_FF. pose proof U_pos as UP.
    assert (RL : rnd (255 * U * s) U <= 255 * 2 ^ 149).
    { apply rnd_le; try lia. change (2 ^ 149) with U. replace (255 * U * s) with (255 * s * U) by ring. apply Z.mul_le_mono_nonneg_r; lia. }
    rewrite (mkf_val (255 * U * s) U (255 * 2 ^ 149)) by (try exact RL; try lia; reflexivity).
    pose proof (rnd_nonneg (255 * U * s) U ltac:(lia) UP) as RN.
    assert (SG : 0 <= Z.sgn (255 * U * s) * rnd (255 * U * s) U <= 255 * U).
    { change (2 ^ 149) with U in RL. assert (0 <= 255 * U * s) by (apply Z.mul_nonneg_nonneg; lia). destruct (Z.sgn_spec (255 * U * s)) as [[_ ->]|[[_ ->]|[N _]]]; lia. }
    set (m := Z.sgn _ * _) in *. clearbody m. unfold to_int. assert (Q : 0 <= m ÷ U <= 255) by (rewrite Z.quot_div_nonneg by lia; split; [apply Z.div_pos; lia|apply Z.div_le_upper_bound; lia]).
    rewrite chk_int_in by (pose proof int_rng as [-> ->]; lia). cbn [bind]. exists (m ÷ U), (S n).
    destruct (Z.leb_spec 0 (m ÷ U)); [|lia]. destruct (Z.leb_spec (m ÷ U) 255); [|lia]. split; [reflexivity|]. split; [exact Q|]. split; [|intros _; exact I].
    intros [IX IY]. destruct (inside_axis _ _ IX) as (OX & _). destruct (inside_axis _ _ IY) as (OY & _). rewrite OX, OY in O. discriminate.
  - destruct (plain_ok u up v vp O EU EUP EV EVP) as (b & E & R & N). exists b, n. rewrite E. split; [reflexivity|]. split; [exact R|]. split; [exact N|intros _; exact I].
Qed.
End Pixel.

(** Repeated borders. *)
Lemma repeat_axis_ok n X : 1 <= n -> exists i0 i1, repeat_axis n (X ÷ U) (X ÷ U + 1) = (i0, i1) /\ 0 <= i0 < n /\ 0 <= i1 < n /\
  (0 <= X \/ X <= - U -> let c := clamp_pos n X in i0 = last_again n (c / U) /\
    (i1 = last_again n (c / U + 1) /\ Z.rem X U = c mod U \/ i1 = i0 /\ c mod U = 0)).
Proof.
  intro N. pose proof U_pos as UP. unfold repeat_axis. destruct (Z.ltb_spec (X ÷ U) 0) as [L|L].
  - exists 0, 0. split; [reflexivity|]. split; [lia|]. split; [lia|]. intro P. cbv zeta.
    assert (XL : X <= - U). { destruct P as [P|P]; [|exact P]. destruct (quot_nonneg X P) as [E _]. pose proof (Z.div_pos X U P UP). lia. }
    assert (C : clamp_pos n X = 0) by (unfold clamp_pos; assert (0 <= (n - 1) * U) by (apply Z.mul_nonneg_nonneg; lia); lia). rewrite C. rewrite Z.div_0_l, Z.mod_0_l by lia. unfold last_again. split; [lia|]. right. split; [reflexivity|reflexivity].
  - destruct (Z.leb_spec (n - 1) (X ÷ U)) as [L'|L'].
    + exists (n - 1), (n - 1). split; [reflexivity|]. split; [lia|]. split; [lia|]. intro P. cbv zeta.
      assert (X0 : 0 <= X). { destruct P as [P|P]; [exact P|]. pose proof (quot_low X P). lia. }
      destruct (quot_nonneg X X0) as [E _]. rewrite E in L'. assert (XG : (n - 1) * U <= X). { pose proof (Z.mul_div_le X U UP). assert ((n - 1) * U <= X / U * U) by (apply Z.mul_le_mono_nonneg_r; lia). lia. }
      assert (C : clamp_pos n X = (n - 1) * U) by (unfold clamp_pos; assert (0 <= (n - 1) * U) by (apply Z.mul_nonneg_nonneg; lia); lia). rewrite C. rewrite Z.div_mul, Z.mod_mul by lia. unfold last_again. split; [lia|]. right. split; reflexivity.
    + exists (X ÷ U), (X ÷ U + 1). split; [reflexivity|]. split; [lia|]. split; [lia|]. intro P. cbv zeta.
      assert (X0 : 0 <= X). { destruct P as [P|P]; [exact P|]. pose proof (quot_low X P). lia. }
      destruct (quot_nonneg X X0) as [E ER]. rewrite E in *. rewrite ER.
      assert (XL : X < (n - 1) * U). { pose proof (Z.mul_succ_div_gt X U UP). assert (U * Z.succ (X / U) <= (n - 1) * U) by (rewrite (Z.mul_comm U); apply Z.mul_le_mono_nonneg_r; lia). lia. }
      assert (C : clamp_pos n X = X) by (unfold clamp_pos; lia). rewrite C. unfold last_again. split; [lia|]. left. split; [lia|reflexivity].
Qed.
Lemma repeat_ok smp src X Y n : image_ok src -> byte_img src -> 1 <= i_w src -> 1 <= i_h src -> pos_ok X -> pos_ok Y ->
  exists b, pixel smp Repeat src (FF X) (FF Y) n = Ok (b, n) /\ 0 <= b <= 255 /\ sampled_repeat src X Y b.
Proof.
  intros G B W1 H1 PX PY. unfold pixel. destruct (split_ok X PX) as (u & up & -> & EU & EUP). destruct (split_ok Y PY) as (v & vp & -> & EV & EVP). cbn [bind]. cbv zeta.
  destruct (repeat_axis_ok (i_w src) X W1) as (x0 & x1 & -> & R0 & R1 & SX). destruct (repeat_axis_ok (i_h src) Y H1) as (y0 & y1 & -> & R2 & R3 & SY).
  destruct (interpolate_ok src x0 x1 u up y0 y1 v vp (Z.rem X U) (Z.rem Y U) G B) as (b & -> & R & N); auto using rem_small; try (split; lia). cbn [bind].
  exists b. split; [reflexivity|]. split; [exact R|]. intros CX CY. specialize (SX CX). specialize (SY CY). cbv zeta in SX, SY, N.
  set (cx := clamp_pos (i_w src) X) in *. set (cy := clamp_pos (i_h src) Y) in *.
  assert (E : bilinear (pix 0 src x0 y0) (pix 0 src x1 y0) (pix 0 src x0 y1) (pix 0 src x1 y1) (Z.rem X U) (Z.rem Y U) = value_at (last_again (i_w src)) (last_again (i_h src)) src cx cy).
  { unfold value_at. destruct SX as (X0 & [(X1 & RX)|(X1 & RX)]), SY as (Y0 & [(Y1 & RY)|(Y1 & RY)]); rewrite ?X1, ?Y1, X0, Y0, ?RX, ?RY; unfold bilinear; ring. }
  rewrite E in N. apply N. unfold value_at. pose proof (mod_range cx). pose proof (mod_range cy). apply bilinear_range; try (apply byte_pix; exact B); lia.
Qed.
(** Reflected borders. *)
Lemma mirror_axis_ok n X : 2 <= n -> n < 2 ^ 30 -> - n * U < X < (2 * n - 3) * U -> exists i0 i1, mirror_axis n (X ÷ U) (X ÷ U + 1) = Ok (i0, i1) /\ 0 <= i0 < n /\ 0 <= i1 < n /\
  (0 <= X -> i0 = reflected n (X / U) /\ i1 = reflected n (X / U + 1)).
Proof.
  intros N N30 P. pose proof U_pos as UP. pose proof int_rng as [J1 J2]. unfold mirror_axis. destruct (Z.ltb_spec (X ÷ U) 0) as [L|L].
  - assert (XN : X < 0). { destruct (Z.le_gt_cases 0 X) as [C|C]; [|exact C]. destruct (quot_nonneg X C) as [E _]. pose proof (Z.div_pos X U C UP). lia. }
    assert (Q : - (n - 1) <= X ÷ U). { replace X with (- - X) by ring. rewrite Z.quot_opp_l by lia. rewrite Z.quot_div_nonneg by lia. assert (- X / U < n) by (apply Z.div_lt_upper_bound; lia). lia. }
    set (i := X ÷ U) in *. clearbody i.
    assert (ML : forall j, - (n - 1) <= j < 0 -> mirror_low (n * 2 - 2) j = Ok (- j)).
    { intros j J. unfold mirror_low. rewrite chk_int_in by (rewrite J1, J2; lia). cbn [bind]. destruct (Z.eqb_spec (n * 2 - 2) 0); [lia|]. rewrite Z.quot_small by lia. rewrite Z.mul_0_r, chk_int_in by (rewrite J1, J2; lia). cbn [bind]. rewrite Z.sub_0_r. apply chk_int_in. rewrite J1, J2; lia. }
    rewrite ML by lia. cbn [bind]. destruct (Z.ltb_spec (i + 1) 0).
    + rewrite ML by lia. cbn [bind]. exists (- i), (- (i + 1)). split; [reflexivity|]. lia.
    + cbn [bind]. exists (- i), (i + 1). split; [reflexivity|]. lia.
  - assert (MH : forall j, n <= j < n * 2 - 2 -> mirror_high (n * 2 - 2) j = Ok (2 * (n - 1) - j)).
    { intros j J. unfold mirror_high. destruct (Z.eqb_spec (n * 2 - 2) 0); [lia|]. rewrite chk_int_in by (rewrite J1, J2; lia). cbn [bind]. rewrite Z.quot_small by lia. rewrite Z.mul_0_r, chk_int_in by (rewrite J1, J2; lia). cbn [bind]. rewrite chk_int_in by (rewrite J1, J2; lia). f_equal. lia. }
    assert (QU : X ÷ U < 2 * n - 3 /\ (0 <= X -> X ÷ U = X / U)).
    { destruct (Z.le_gt_cases 0 X) as [C|C].
      - destruct (quot_nonneg X C) as [E _]. rewrite E. split; [apply Z.div_lt_upper_bound; lia|reflexivity].
      - split; [|lia]. assert (X ÷ U <= 0); [|lia]. replace X with (- - X) by ring. rewrite Z.quot_opp_l by lia. pose proof (Z.quot_pos (- X) U ltac:(lia) UP). lia. }
    destruct QU as [QU QE]. set (i := X ÷ U) in *. clearbody i.
    destruct (Z.leb_spec (n - 1) i) as [L'|L'].
    + destruct (Z.leb_spec n i) as [A|A]; [rewrite MH by lia|]; cbn [bind]; (destruct (Z.leb_spec n (i + 1)) as [A'|A']; [rewrite MH by lia|lia]); cbn [bind]; do 2 eexists; (split; [reflexivity|]); (split; [lia|]); (split; [lia|]); intro X0; specialize (QE X0); rewrite <- QE; unfold reflected;
        destruct (Z.ltb_spec i n); try lia; destruct (Z.ltb_spec (i + 1) n); try lia.
    + exists i, (i + 1). split; [reflexivity|]. split; [lia|]. split; [lia|]. intro X0. specialize (QE X0). rewrite <- QE. unfold reflected. destruct (Z.ltb_spec i n); [|lia]. destruct (Z.ltb_spec (i + 1) n); lia.
Qed.
Lemma mirror_ok smp src X Y n : image_ok src -> byte_img src -> 2 <= i_w src < 2 ^ 30 -> 2 <= i_h src < 2 ^ 30 -> pos_ok X -> pos_ok Y ->
  - i_w src * U < X < (2 * i_w src - 3) * U -> - i_h src * U < Y < (2 * i_h src - 3) * U ->
  exists b, pixel smp Mirror src (FF X) (FF Y) n = Ok (b, n) /\ 0 <= b <= 255 /\ sampled_mirror src X Y b.
Proof.
  intros G B W1 H1 PX PY BX BY. unfold pixel. destruct (split_ok X PX) as (u & up & -> & EU & EUP). destruct (split_ok Y PY) as (v & vp & -> & EV & EVP). cbn [bind]. cbv zeta.
  destruct (mirror_axis_ok (i_w src) X ltac:(lia) ltac:(lia) BX) as (x0 & x1 & -> & R0 & R1 & SX). destruct (mirror_axis_ok (i_h src) Y ltac:(lia) ltac:(lia) BY) as (y0 & y1 & -> & R2 & R3 & SY). cbn [bind].
  destruct (interpolate_ok src x0 x1 u up y0 y1 v vp (Z.rem X U) (Z.rem Y U) G B) as (b & -> & R & N); auto using rem_small; try (split; lia). cbn [bind].
  exists b. split; [reflexivity|]. split; [exact R|]. intros CX CY. destruct (SX CX) as [X0 X1]. destruct (SY CY) as [Y0 Y1]. cbv zeta in N.
  destruct (quot_nonneg X CX) as [_ RX]. destruct (quot_nonneg Y CY) as [_ RY]. rewrite RX, RY, X0, X1, Y0, Y1 in N. unfold value_at. apply N. pose proof (mod_range X). pose proof (mod_range Y). apply bilinear_range; try (apply byte_pix; exact B); lia.
Qed.
