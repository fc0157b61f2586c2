(** Scaling by a factor below one. *)
From Coq Require Import Lia.
From Verif Require Import Base BaseLemmas Gray Img Flt FltErr ImgModel ImgSpec ImgProofs ImgBox ImgScale WarpModel WarpSpec WarpProofs ShrinkSpec.
Local Open Scope Z_scope.
Notation K := 16777216.

Lemma mkf_rel p d : 0 < d -> 0 <= p < 2 ^ 276 * d -> exists m, mkf p d = FF m /\ 0 <= m /\ K * Z.abs (m * d - p) <= p + K * d /\ (p = 0 -> m = 0).
Proof.
  intros D [P B]. unfold mkf. rewrite (Z.abs_eq p) by lia. pose proof (rnd_err p d P D) as ER. pose proof (rnd_lt p d P D B) as L.
  destruct (Z.ltb_spec (rnd p d) (2 ^ 277)) as [_|G]; [|lia]. eexists. split; [reflexivity|].
  assert (Z.eq p 0 \/ 0 < p) as [E|G] by (unfold Z.eq; lia).
  - unfold Z.eq in E. subst p. rewrite rnd_zero by exact D. cbn [Z.sgn]. lia.
  - rewrite Z.sgn_pos, Z.mul_1_l by exact G. split; [apply rnd_nonneg; lia|]. split; [exact ER|lia].
Qed.
Lemma mulr a b c : 0 <= c -> a <= b -> a * c <= b * c.
Proof. intros. now apply Z.mul_le_mono_nonneg_r. Qed.
Section Arith.
Variable u : Z.
Hypothesis UB : K * K <= u.
Lemma size_arith n f m : 0 < f -> 0 <= n -> f * (K + 4 * n) <= K * u -> K * Z.abs (m - n * f) <= n * f + K -> m < (n + 1) * u.
Proof.
  intros F N S E. set (p := n * f) in *. assert (PN : 0 <= p) by (unfold p; nia). assert (FU : f <= u) by nia.
  assert (PU : p <= n * u) by (unfold p; nia). assert (P4 : K * f + 4 * p <= K * u) by (unfold p; nia). rewrite Z.mul_add_distr_r. clearbody p. lia.
Qed.
Lemma pos_arith n f m d k I X : 0 < f -> 0 <= n <= 4194304 -> f * (K + 4 * n) <= K * u -> K * Z.abs (m - n * f) <= n * f + K -> d * u <= m -> 0 <= k < d ->
  0 <= I -> K * Z.abs (I * f - u * u) <= u * u + K * f -> 0 <= X -> K * Z.abs (X - k * I) <= k * I + K -> X < (n - 1) * u.
Proof.
  intros F N SH EM D KD I0 EI X0 EX. apply (Z.mul_lt_mono_pos_r f); [exact F|].
  assert (U0 : 0 < u) by lia.
  set (p := n * f) in *. assert (PN : 0 <= p) by (apply Z.mul_nonneg_nonneg; lia).
  assert (P4 : K * f + 4 * p <= K * u) by (unfold p; lia).
  assert (FU : f <= u) by lia.
  assert (KD' : (k + 1) * u <= d * u) by (apply mulr; lia).
  assert (KU : K * (k * u) <= (K + 1) * p + K - K * u) by (clear - EM D KD'; lia).
  assert (K0 : 0 <= k * u) by (apply Z.mul_nonneg_nonneg; lia).
  assert (PL : u <= 2 * p) by (clear - KU UB U0 PN K0; lia).
  assert (H1 : K * (X * f) <= (K + 1) * (k * (I * f)) + K * f).
  { assert (H : K * X <= (K + 1) * (k * I) + K) by (clear - EX; lia). apply (mulr _ _ f) in H; [|lia].
    replace (K * (X * f)) with (K * X * f) by ring. replace ((K + 1) * (k * (I * f)) + K * f) with (((K + 1) * (k * I) + K) * f) by ring. exact H. }
  assert (H2 : K * (k * (I * f)) <= (K + 1) * (k * (u * u)) + K * (k * f)).
  { assert (H : K * (I * f) <= (K + 1) * (u * u) + K * f) by (clear - EI; lia). apply (mulr _ _ k) in H; [|lia].
    replace (K * (k * (I * f))) with (K * (I * f) * k) by ring. replace ((K + 1) * (k * (u * u)) + K * (k * f)) with (((K + 1) * (u * u) + K * f) * k) by ring. exact H. }
  assert (H3 : K * (k * (u * u)) <= (K + 1) * (p * u) + K * u - K * (u * u)).
  { apply (mulr _ _ u) in KU; [|lia]. replace (K * (k * (u * u))) with (K * (k * u) * u) by ring. replace ((K + 1) * (p * u) + K * u - K * (u * u)) with (((K + 1) * p + K - K * u) * u) by ring. exact KU. }
  assert (H4 : K * (f * u) + 4 * (p * u) <= K * (u * u)).
  { apply (mulr _ _ u) in P4; [|lia]. replace (K * (f * u) + 4 * (p * u)) with ((K * f + 4 * p) * u) by ring. replace (K * (u * u)) with (K * u * u) by ring. exact P4. }
  assert (KN : k <= n).
  { assert (k * u <= n * u); [|apply (Z.mul_le_mono_pos_r _ _ u); lia]. assert (p <= n * u) by (unfold p; apply Z.mul_le_mono_nonneg_l; lia). clear - KU UB H P4 F PN U0. lia. }
  assert (H5 : k * f <= p) by (apply mulr; lia).
  assert (H6 : K * K * p <= u * p) by (apply mulr; lia). assert (H7 : K * K * u <= u * u) by (apply mulr; lia). assert (H8 : u * u <= 2 * p * u) by (apply mulr; lia). assert (H9 : K * K * f <= u * f) by (apply mulr; lia).
  replace ((n - 1) * u * f) with (u * p - u * f) by (unfold p; ring).
  rewrite <- (Z.mul_assoc 2 p u) in H8. rewrite (Z.mul_comm p u) in *. rewrite (Z.mul_comm f u) in *.
  assert (fu0 : 0 <= u * f) by (apply Z.mul_nonneg_nonneg; lia).
  set (xf := X * f) in *. set (kif := k * (I * f)) in *. set (kuu := k * (u * u)) in *. set (kf := k * f) in *. set (pu := u * p) in *. set (uu := u * u) in *. set (fu := u * f) in *.
  clearbody xf kif kuu kf pu uu fu p. clear EX EI EM SH KD KU KD' D I0 X0 K0. lia.
Qed.
Lemma near_arith f k I X : 0 < f <= u -> 0 < k -> 0 <= I -> K * Z.abs (I * f - u * u) <= u * u + K * f -> K * Z.abs (X - k * I) <= k * I + K ->
  4194304 * Z.abs (X * f - k * u * u) <= k * u * u.
Proof.
  intros F K0 I0 EI EX.
  replace (X * f - k * u * u) with ((X - k * I) * f + k * (I * f - u * u)) by ring.
  assert (HA : K * Z.abs ((X - k * I) * f) <= k * (I * f) + K * f).
  { rewrite Z.abs_mul, (Z.abs_eq f) by lia. apply (mulr _ _ f) in EX; [|lia]. replace (k * (I * f) + K * f) with ((k * I + K) * f) by ring. rewrite Z.mul_assoc. exact EX. }
  assert (HB : K * Z.abs (k * (I * f - u * u)) <= k * (u * u) + K * (k * f)).
  { rewrite Z.abs_mul, (Z.abs_eq k) by lia. apply (mulr _ _ k) in EI; [|lia]. replace (k * (u * u) + K * (k * f)) with ((u * u + K * f) * k) by ring. replace (K * (k * Z.abs (I * f - u * u))) with (K * Z.abs (I * f - u * u) * k) by ring. exact EI. }
  assert (HI : K * (k * (I * f)) <= (K + 1) * (k * (u * u)) + K * (k * f)).
  { assert (H : K * (I * f) <= (K + 1) * (u * u) + K * f) by (clear - EI; lia). apply (mulr _ _ k) in H; [|lia].
    replace (K * (k * (I * f))) with (K * (I * f) * k) by ring. replace ((K + 1) * (k * (u * u)) + K * (k * f)) with (((K + 1) * (u * u) + K * f) * k) by ring. exact H. }
  assert (U0 : 0 < u) by lia.
  assert (HF : K * K * (k * f) <= k * (u * u)).
  { assert (H : K * K * f <= u * u) by (apply Z.mul_le_mono_nonneg; lia). apply (mulr _ _ k) in H; [|lia]. replace (K * K * (k * f)) with (K * K * f * k) by ring. rewrite (Z.mul_comm k). exact H. }
  assert (HF' : 1 * f <= k * f) by (apply mulr; lia).
  rewrite <- Z.mul_assoc. set (kf := k * f) in *. set (kuu := k * (u * u)) in *. set (kif := k * (I * f)) in *. set (q := (X - k * I) * f) in *. set (r := k * (I * f - u * u)) in *. clearbody kf kuu kif q r. clear EI EX UB. lia.
Qed.
End Arith.
Lemma KKU : K * K <= U. Proof. unfold U. apply Z.lt_pred_le. reflexivity. Qed.
Lemma U149 : U = 2 ^ 149. Proof. reflexivity. Qed.
Lemma small_mul a b e : 0 <= a -> 0 <= b < 2 ^ e -> 0 <= e -> a <= 4194304 -> a * b < 2 ^ (22 + e).
Proof. intros. rewrite Z.pow_add_r by lia. change (2 ^ 22) with 4194304. apply Z.le_lt_trans with (4194304 * b); [apply mulr; lia|]. lia. Qed.
(** One axis: the size, and the positions. *)
Lemma axis_ok n f : 0 <= n <= 4194304 -> shrinks f n -> exists d, to_int (fmul (of_int n) (FF f)) = Ok d /\ 0 <= d <= n /\ scaled_size f n d /\
  forall k, 0 <= k < d -> exists X, fmul (of_int k) (fdiv F1 (FF f)) = FF X /\ 0 <= X < (n - 1) * U /\ scaled_pos f k X.
Proof.
  intros N [F SH]. change (2 ^ 22) with 4194304 in SH. pose proof U_pos as UP. pose proof KKU as KU.
  assert (SH' : f * (K + 4 * n) <= K * U) by lia.
  assert (NF : 0 <= n * f) by (apply Z.mul_nonneg_nonneg; lia).
  assert (FU : f <= U) by (clear - SH NF; lia).
  rewrite of_int_exact by (unfold small24; change (2 ^ 24) with 16777216; lia).
  assert (BIG : forall a, 0 <= a < 2 ^ 276 -> 0 <= a * U < 2 ^ 276 * U) by (intros a A; split; [apply Z.mul_nonneg_nonneg; lia|apply Z.mul_lt_mono_pos_r; lia]).
  assert (M1 : 0 <= n * f < 2 ^ 276).
  { split; [exact NF|]. apply Z.lt_le_trans with (2 ^ (22 + 150)); [apply small_mul; try lia|apply Z.pow_le_mono_r; lia]. split; [lia|]. apply Z.le_lt_trans with (1 := FU). rewrite U149. apply Z.pow_lt_mono_r; lia. }
  destruct (mkf_rel (n * f * U) U UP (BIG _ M1)) as (m & EM & M0 & ERR & _).
  assert (E1 : fmul (FF (n * U)) (FF f) = FF m) by (unfold fmul; rewrite <- EM; f_equal; ring).
  assert (ERR' : K * Z.abs (m - n * f) <= n * f + K).
  { replace (m * U - n * f * U) with ((m - n * f) * U) in ERR by ring. rewrite Z.abs_mul, (Z.abs_eq U), Z.mul_assoc in ERR by lia. rewrite <- Z.mul_add_distr_r in ERR. apply Z.mul_le_mono_pos_r in ERR; [exact ERR|exact UP]. }
  pose proof (size_arith U KU n f m F ltac:(lia) SH' ERR') as MU.
  set (d := m / U). pose proof (Z.div_mod m U ltac:(lia)) as DM. pose proof (Z.mod_pos_bound m U UP) as MB. fold d in DM.
  assert (D0 : 0 <= d) by (apply Z.div_pos; lia). assert (DN : d <= n) by (assert (d < n + 1); [apply Z.div_lt_upper_bound; lia|lia]).
  exists d. rewrite E1. unfold to_int. rewrite Z.quot_div_nonneg by lia. pose proof int_rng as [I1 I2]. split; [apply chk_int_in; fold d; rewrite I1, I2; lia|]. split; [lia|].
  split; [unfold scaled_size; change (2 ^ 24) with 16777216; replace ((d + 1) * U) with (U * d + U) by ring; rewrite (Z.mul_comm d U); clear - ERR' DM MB; split; lia|].
  intros k KD. assert (DU : d * U <= m) by (rewrite Z.mul_comm; lia).
  assert (FL : U < 8388608 * f).
  { assert (d1 : 1 * U <= d * U) by (apply mulr; lia). assert (n * f <= 4194304 * f) by (apply mulr; lia). clear - d1 H ERR' DU NF KU. lia. }
  assert (P1 : 0 <= U * U < 2 ^ 276 * f).
  { split; [apply Z.mul_nonneg_nonneg; lia|]. apply Z.lt_le_trans with (U * (8388608 * f)); [apply Z.mul_lt_mono_pos_l; lia|]. replace (U * (8388608 * f)) with (U * 8388608 * f) by ring. apply mulr; [lia|]. rewrite U149. change 8388608 with (2 ^ 23). rewrite <- Z.pow_add_r by lia. apply Z.pow_le_mono_r; lia. }
  destruct (mkf_rel (U * U) f F P1) as (I & EI & I0 & ERI & _).
  assert (E2 : fdiv F1 (FF f) = FF I).
  { change F1 with (FF U). unfold fdiv. destruct (Z.eqb_spec f 0) as [Z0|_]; [lia|]. rewrite Z.sgn_pos, Z.mul_1_r, Z.abs_eq by lia. exact EI. }
  rewrite E2. rewrite of_int_exact by (unfold small24; change (2 ^ 24) with 16777216; lia).
  assert (IL : I < 2 ^ 174).
  { assert (H : K * (I * f) <= (K + 1) * (U * U) + K * f) by (clear - ERI; lia). apply (Z.mul_lt_mono_pos_r f); [exact F|].
    assert (H2 : U * U < U * 8388608 * f) by (replace (U * 8388608 * f) with (U * (8388608 * f)) by ring; apply Z.mul_lt_mono_pos_l; lia).
    assert (H3 : 1 * f <= U * 8388608 * f) by (apply mulr; lia).
    apply Z.lt_le_trans with (4 * (U * 8388608) * f); [clear - H H2 H3 F; lia|]. apply mulr; [lia|]. rewrite U149. change 8388608 with (2 ^ 23). rewrite <- Z.pow_add_r by lia. change (4 * 2 ^ (149 + 23)) with (2 ^ 2 * 2 ^ (149 + 23)). rewrite <- Z.pow_add_r by lia. apply Z.pow_le_mono_r; lia. }
  assert (M2 : 0 <= k * I < 2 ^ 276).
  { split; [apply Z.mul_nonneg_nonneg; lia|]. apply Z.lt_le_trans with (2 ^ (22 + 174)); [apply small_mul; lia|apply Z.pow_le_mono_r; lia]. }
  destruct (mkf_rel (k * I * U) U UP (BIG _ M2)) as (X & EX & X0 & ERX & XZ).
  exists X. split; [unfold fmul; rewrite <- EX; f_equal; ring|].
  assert (ERX' : K * Z.abs (X - k * I) <= k * I + K).
  { replace (X * U - k * I * U) with ((X - k * I) * U) in ERX by ring. rewrite Z.abs_mul, (Z.abs_eq U), Z.mul_assoc in ERX by lia. rewrite <- Z.mul_add_distr_r in ERX. apply Z.mul_le_mono_pos_r in ERX; [exact ERX|exact UP]. }
  split; [split; [exact X0|]; exact (pos_arith U KU n f m d k I X F N SH' ERR' DU KD I0 ERI X0 ERX')|].
  unfold scaled_pos. change (2 ^ 22) with 4194304. assert (Z.eq k 0 \/ 0 < k) as [Z0|G] by (unfold Z.eq; lia).
  - unfold Z.eq in Z0. rewrite XZ by (rewrite Z0; reflexivity). rewrite Z0, !Z.mul_0_l. cbn. lia.
  - exact (near_arith U KU f k I X ltac:(lia) G I0 ERI ERX').
Qed.
Lemma pos_split n X : n <= 4194304 -> 0 <= X < (n - 1) * U -> exists u up, to_int (FF X) = Ok (X / U) /\ fsub (FF X) (of_int (X / U)) = FF u /\ fsub F1 (FF u) = FF up /\
  Z.abs (u - X mod U) <= 65 * W /\ Z.abs (up - (U - X mod U)) <= 260 * W /\ 0 <= X / U /\ X / U + 1 < n.
Proof.
  intros N [X0 XN]. pose proof U_pos as UP. assert (PO : pos_ok X).
  { unfold pos_ok. rewrite Z.abs_eq by lia. apply Z.le_trans with (n * U); [lia|]. change (2 ^ 24) with 16777216. apply mulr; lia. }
  destruct (split_ok X PO) as (u & up & E & EU & EP). rewrite Z.quot_div_nonneg, Z.rem_mod_nonneg in * by lia.
  assert (I0 : 0 <= X / U) by (apply Z.div_pos; lia). assert (I1 : X / U < n - 1) by (apply Z.div_lt_upper_bound; lia).
  unfold split_pos in E. assert (T : to_int (FF X) = Ok (X / U)).
  { unfold to_int. rewrite Z.quot_div_nonneg by lia. pose proof int_rng as [J1 J2]. apply chk_int_in. rewrite J1, J2. lia. }
  rewrite T in E. cbn [bind] in E. destruct (chk_int (X / U + 1)) as [i1| | |]; try discriminate. cbn [bind] in E.
  assert (E1 : fsub (FF X) (of_int (X / U)) = FF u) by congruence. assert (E2 : fsub F1 (fsub (FF X) (of_int (X / U))) = FF up) by congruence. rewrite E1 in E2.
  exists u, up. repeat (split; [assumption|]). lia.
Qed.
Definition scale_gen {A} (fin : A -> A -> A -> A -> flt -> flt -> flt -> flt -> res A) (junk : nat -> A) (src : image A) (scale_f : flt) : res (image A) :=
  let* dw := to_int (fmul (of_int (i_w src)) scale_f) in
  let* dh := to_int (fmul (of_int (i_h src)) scale_f) in
  let* dest := img_new junk dw dh in
  let inv_scale := fdiv F1 scale_f in
  let s := i_stride src in
  for_each (fun y dest =>
    let yp := fmul (of_int y) inv_scale in
    let* ypi := to_int yp in
    let dy := fsub yp (of_int ypi) in
    let* row := chk_int (ypi * s) in
    for_each (fun x dest =>
      let* v := (
        let xp := fmul (of_int x) inv_scale in
        let* xpi := to_int xp in
        let dx := fsub xp (of_int xpi) in
        let sample := row + xpi in
        let* Ix0 := zget (i_data src) sample in
        let* Ix1 := zget (i_data src) (sample + 1) in
        let* Iy0 := zget (i_data src) (sample + s) in
        let* Iy1 := zget (i_data src) (sample + s + 1) in
        fin Ix0 Ix1 Iy0 Iy1 dx (fsub F1 dx) dy (fsub F1 dy)) in
      iput dest x y v) (zrange 0 dw) dest) (zrange 0 dh) dest.
Definition blend (a b c d dx ex dy ey : flt) : flt := fadd (fmul (fadd (fmul a ex) (fmul b dx)) ey) (fmul (fadd (fmul c ex) (fmul d dx)) dy).
Definition fin_uc (a b c d : Z) (dx ex dy ey : flt) : res Z :=
  let* interp := to_short (blend (of_int a) (of_int b) (of_int c) (of_int d) dx ex dy ey) in Ok (if interp <? 0 then 0 else if 255 <? interp then 255 else interp).
Lemma scale_uc_gen junk src f : scale_uc junk src f = scale_gen fin_uc junk src f.
Proof. reflexivity. Qed.
Lemma scale_f32_gen junk src f : scale_f32 junk src f = scale_gen (fun a b c d dx ex dy ey => Ok (blend a b c d dx ex dy ey)) junk src f.
Proof. reflexivity. Qed.
Lemma fmul_comm a b : fmul a b = fmul b a.
Proof. destruct a, b; cbn [fmul]; try reflexivity; [now rewrite Z.mul_comm|now rewrite Bool.xorb_comm..]. Qed.
Lemma blend_mix a b c d dx ex dy ey : blend a b c d dx ex dy ey = mix dx ex dy ey a b c d.
Proof. unfold blend, mix. now rewrite !(fmul_comm _ ex), !(fmul_comm _ dx), !(fmul_comm _ ey), !(fmul_comm _ dy). Qed.

(** The four pixels around a position. *)
Definition around {A} (d : A) (src : image A) (X Y : Z) : A * A * A * A :=
  (pix d src (X / U) (Y / U), pix d src (X / U + 1) (Y / U), pix d src (X / U) (Y / U + 1), pix d src (X / U + 1) (Y / U + 1)).
Lemma scale_gen_ok {A} (d : A) fin junk src f (P : Z -> Z -> A -> Prop) : image_ok src -> i_w src <= 4194304 -> i_h src <= 4194304 ->
  shrinks f (Z.max (i_w src) (i_h src)) ->
  (forall x y X Y u up v vp, 0 <= X < (i_w src - 1) * U -> 0 <= Y < (i_h src - 1) * U -> scaled_pos f x X -> scaled_pos f y Y ->
    Z.abs (u - X mod U) <= 65 * W -> Z.abs (up - (U - X mod U)) <= 260 * W -> Z.abs (v - Y mod U) <= 65 * W -> Z.abs (vp - (U - Y mod U)) <= 260 * W ->
    let '(p, q, r, s) := around d src X Y in exists b, fin p q r s (FF u) (FF up) (FF v) (FF vp) = Ok b /\ P x y b) ->
  exists g dw dh, scale_gen fin junk src (FF f) = Ok g /\ fresh g dw dh /\ scaled_size f (i_w src) dw /\ scaled_size f (i_h src) dh /\
    forall x y, in_img g x y -> P x y (pix d g x y).
Proof.
  intros G W24 H24 [F SH] FIN. pose proof (io_w src G) as W. pose proof (io_h src G) as H. pose proof (size_bound src G) as SB. pose proof int_rng as [I0 I1]. pose proof U_pos as UP.
  assert (SW : shrinks f (i_w src)) by (split; [exact F|nia]). assert (SHH : shrinks f (i_h src)) by (split; [exact F|nia]). clear SH.
  destruct (axis_ok (i_w src) f ltac:(lia) SW) as (dw & EW & DW & SZW & PW). destruct (axis_ok (i_h src) f ltac:(lia) SHH) as (dh & EH & DH & SZH & PH).
  set (fx := fun k => match fmul (of_int k) (fdiv F1 (FF f)) with FF X => X | _ => 0 end).
  unfold scale_gen. rewrite EW, EH. cbn [bind].
  destruct (img_new_fresh junk dw dh) as (g & E & FR); [nia..|]. rewrite E. cbn [bind]. cbv zeta.
  set (v := fun p : Z * Z => let X := fx (fst p) in let Y := fx (snd p) in let '(a, b, c, e) := around d src X Y in
     let dx := fsub (FF X) (of_int (X / U)) in let dy := fsub (FF Y) (of_int (Y / U)) in match fin a b c e dx (fsub F1 dx) dy (fsub F1 dy) with Ok b => b | _ => d end).
  assert (GZ : forall x y, 0 <= x < i_w src -> 0 <= y < i_h src -> zget (i_data src) (y * i_stride src + x) = Ok (pix d src x y)).
  { intros x y X Y. apply zget_lt. apply (pix_index src x y G). split; auto. }
  assert (VAL : forall x y, 0 <= x < dw -> 0 <= y < dh -> exists X Y u up vv vp, fmul (of_int x) (fdiv F1 (FF f)) = FF X /\ fmul (of_int y) (fdiv F1 (FF f)) = FF Y /\
     to_int (FF X) = Ok (X / U) /\ to_int (FF Y) = Ok (Y / U) /\ fsub (FF X) (of_int (X / U)) = FF u /\ fsub (FF Y) (of_int (Y / U)) = FF vv /\ fsub F1 (FF u) = FF up /\ fsub F1 (FF vv) = FF vp /\
     0 <= X / U /\ X / U + 1 < i_w src /\ 0 <= Y / U /\ Y / U + 1 < i_h src /\
     (let '(p, q, r, s) := around d src X Y in fin p q r s (FF u) (FF up) (FF vv) (FF vp) = Ok (v (x, y))) /\ P x y (v (x, y))).
  { intros x y X Y. destruct (PW x X) as (x' & E1 & R1 & S1). destruct (PH y Y) as (y' & E2 & R2 & S2).
    destruct (pos_split _ _ W24 R1) as (u & up & A1 & A2 & A3 & A4 & A5 & A6 & A7). destruct (pos_split _ _ H24 R2) as (vv & vp & B1 & B2 & B3 & B4 & B5 & B6 & B7).
    specialize (FIN x y x' y' u up vv vp R1 R2 S1 S2 A4 A5 B4 B5). exists x', y', u, up, vv, vp. repeat (split; [assumption|]).
    unfold around in FIN |- *. destruct FIN as (b & EB & PB).
    assert (VB : v (x, y) = b) by (unfold v, fx; cbn [fst snd]; rewrite E1, E2; cbv zeta; unfold around; rewrite A2, B2, A3, B3, EB; reflexivity). rewrite VB. auto. }
  match goal with |- exists g' dw' dh', ?t = Ok g' /\ _ => assert (T : t = puts v (raster 0 dw 0 dh) g) end.
  { rewrite puts_raster. unfold scan. apply for_each_eq. intros y g1 Y. apply zrange_in in Y.
    destruct (PH y Y) as (Y' & EY & RY & _). destruct (pos_split _ _ H24 RY) as (_ & _ & TY & _ & _ & _ & _ & IY0 & IY1).
    rewrite EY, TY. cbn [bind]. rewrite chk_int_in by (pose proof (io_max src G); nia). cbn [bind].
    apply for_each_eq. intros x g2 X. apply zrange_in in X.
    destruct (VAL x y X Y) as (X' & Y2 & u & up & vv & vp & E1 & E2 & T1 & T2 & D1 & D2 & M1 & M2 & L1 & L2 & L3 & L4 & FE & _).
    assert (YY : Y2 = Y') by congruence. subst Y2. rewrite E1, T1. cbn [bind]. rewrite D1, D2, M1, M2. unfold around in FE.
    rewrite GZ by lia. cbn [bind]. rewrite <- Z.add_assoc. rewrite GZ by lia. cbn [bind].
    replace (Y' / U * i_stride src + X' / U + i_stride src) with ((Y' / U + 1) * i_stride src + X' / U) by ring. rewrite GZ by lia. cbn [bind].
    replace ((Y' / U + 1) * i_stride src + X' / U + 1) with ((Y' / U + 1) * i_stride src + (X' / U + 1)) by ring. rewrite GZ by lia. cbn [bind].
    rewrite FE. reflexivity. }
  rewrite T. clear T. destruct (puts_all d v (raster 0 dw 0 dh) g) as (g' & E' & SS & O & VV & _).
  - apply FR.
  - intros [x y] I. apply raster_in in I. rewrite (fresh_in _ _ _ _ _ FR). exact I.
  - intros x y I. rewrite (fresh_in _ _ _ _ _ FR) in I. now apply raster_in.
  - exists g', dw, dh. split; [exact E'|]. split; [eapply fresh_shape; eauto|]. split; [exact SZW|]. split; [exact SZH|]. intros x y I. apply (same_shape_in _ _ _ _ SS) in I. rewrite VV by exact I.
    apply (fresh_in _ _ _ _ _ FR) in I. destruct I as [IX IY]. destruct (VAL x y IX IY) as (X' & Y' & u & up & vv & vp & R). apply R.
Qed.
Lemma clamp_same i : (if i <? 0 then 0 else if 255 <? i then 255 else i) = clamp_byte i.
Proof. reflexivity. Qed.
Lemma fin_uc_ok a b c d u up v vp r q : 0 <= r < U -> 0 <= q < U ->
  Z.abs (u - r) <= 65 * W -> Z.abs (up - (U - r)) <= 260 * W -> Z.abs (v - q) <= 65 * W -> Z.abs (vp - (U - q)) <= 260 * W ->
  0 <= a <= 255 -> 0 <= b <= 255 -> 0 <= c <= 255 -> 0 <= d <= 255 ->
  exists p, fin_uc a b c d (FF u) (FF up) (FF v) (FF vp) = Ok p /\ near p (bilinear a b c d r q).
Proof.
  intros R Q EU EUP EV EVP A B C D. unfold fin_uc. rewrite blend_mix.
  destruct (mix_err u up v vp r q a b c d) as (m & -> & EM & BM); try assumption; [lia|lia|].
  pose proof U_pos as UP. assert (MB : Z.abs (m ÷ U) <= 8000) by (rewrite <- Z.quot_abs by lia; rewrite (Z.abs_eq U) by lia; rewrite Z.quot_div_nonneg by lia; apply Z.div_le_upper_bound; lia).
  unfold to_short, to_int. rewrite chk_int_in by (pose proof int_rng as [-> ->]; lia). cbn [bind].
  destruct (Z.leb_spec (-32768) (m ÷ U)), (Z.leb_spec (m ÷ U) 32767); try lia. cbn [andb bind]. eexists. split; [reflexivity|].
  rewrite clamp_same. apply clamp_near; [|exact EM]. apply bilinear_range; lia.
Qed.
Lemma shrink_uc junk src f : image_ok src -> ImgSpec.byte_img src -> Z.max (i_w src) (i_h src) <= 2 ^ 22 -> shrinks f (Z.max (i_w src) (i_h src)) ->
  exists g dw dh, scale_uc junk src (FF f) = Ok g /\ fresh g dw dh /\ scaled_size f (i_w src) dw /\ scaled_size f (i_h src) dh /\
    forall x y, in_img g x y -> exists X Y, scaled_pos f x X /\ scaled_pos f y Y /\ inside src X Y /\ near (pix 0 g x y) (value_at plain plain src X Y).
Proof.
  intros G B M S. change (2 ^ 22) with 4194304 in M. rewrite scale_uc_gen.
  apply (scale_gen_ok 0 fin_uc junk src f (fun x y b => exists X Y, scaled_pos f x X /\ scaled_pos f y Y /\ inside src X Y /\ near b (value_at plain plain src X Y)) G ltac:(lia) ltac:(lia) S).
  intros x y X Y u up v vp RX RY SX SY EU EUP EV EVP. unfold around. pose proof U_pos as UP.
  destruct (fin_uc_ok (pix 0 src (X / U) (Y / U)) (pix 0 src (X / U + 1) (Y / U)) (pix 0 src (X / U) (Y / U + 1)) (pix 0 src (X / U + 1) (Y / U + 1)) u up v vp (X mod U) (Y mod U)) as (p & E & N);
    try (apply byte_pix; exact B); try assumption; try (apply Z.mod_pos_bound; exact UP).
  exists p. split; [exact E|]. exists X, Y. split; [exact SX|]. split; [exact SY|]. split; [split; assumption|exact N].
Qed.
Lemma shrink_f32 junk src (bs : image Z) f : image_ok src -> ImgSpec.byte_img bs -> i_w bs = i_w src -> i_h bs = i_h src -> (forall x y, in_img src x y -> pix F0 src x y = of_int (pix 0 bs x y)) ->
  Z.max (i_w src) (i_h src) <= 2 ^ 22 -> shrinks f (Z.max (i_w src) (i_h src)) ->
  exists g dw dh, scale_f32 junk src (FF f) = Ok g /\ fresh g dw dh /\ scaled_size f (i_w src) dw /\ scaled_size f (i_h src) dh /\
    forall x y, in_img g x y -> exists X Y, scaled_pos f x X /\ scaled_pos f y Y /\ inside bs X Y /\ close (pix F0 g x y) (value_at plain plain bs X Y).
Proof.
  intros G B BW BH V M S. change (2 ^ 22) with 4194304 in M. rewrite scale_f32_gen.
  apply (scale_gen_ok F0 _ junk src f (fun x y b => exists X Y, scaled_pos f x X /\ scaled_pos f y Y /\ inside bs X Y /\ close b (value_at plain plain bs X Y)) G ltac:(lia) ltac:(lia) S).
  intros x y X Y u up v vp RX RY SX SY EU EUP EV EVP. unfold around. pose proof U_pos as UP.
  assert (X0 : 0 <= X / U) by (apply Z.div_pos; lia). assert (X1 : X / U < i_w src - 1) by (apply Z.div_lt_upper_bound; lia).
  assert (Y0 : 0 <= Y / U) by (apply Z.div_pos; lia). assert (Y1 : Y / U < i_h src - 1) by (apply Z.div_lt_upper_bound; lia).
  rewrite !V by (split; lia). eexists. split; [reflexivity|]. exists X, Y. split; [exact SX|]. split; [exact SY|].
  split; [unfold inside; rewrite BW, BH; split; assumption|].
  rewrite blend_mix. pose proof (Z.mod_pos_bound X U UP) as MX. pose proof (Z.mod_pos_bound Y U UP) as MY.
  destruct (mix_err u up v vp (X mod U) (Y mod U) (pix 0 bs (X / U) (Y / U)) (pix 0 bs (X / U + 1) (Y / U)) (pix 0 bs (X / U) (Y / U + 1)) (pix 0 bs (X / U + 1) (Y / U + 1))) as (m & -> & EM & _);
    try (apply byte_pix; exact B); try assumption; [lia|lia|].
  exists m. split; [reflexivity|]. unfold value_at, plain. cbv zeta. rewrite Z.pow_2_r. clear - EM.
  match type of EM with ?q <= _ => set (e := q) in * end. clearbody e. rewrite U_W at 1. replace (1073741824 * W * U) with (256 * (4194304 * W * U)) by ring. lia.
Qed.
Lemma scale_size_ok junk src f g : scale_uc junk src f = Ok g -> exists d, to_int (fmul (of_int (i_w src)) f) = Ok d.
Proof. unfold scale_uc. destruct (to_int (fmul (of_int (i_w src)) f)) as [d| | |]; intro E; [now exists d|discriminate E..]. Qed.
(** No factor from one on is safe. *)
Lemma enlarge_one junk src f g : image_ok src -> i_w src = 1 -> i_h src = 1 -> U <= f -> scale_uc junk src (FF f) <> Ok g.
Proof.
  intros G W1 H1 F Q. pose proof U_pos as UP.
  assert (D : forall d, to_int (fmul (of_int 1) (FF f)) = Ok d -> 0 < d).
  { intros d E. rewrite of_int_exact in E by (unfold small24; lia). unfold fmul, mkf in E. rewrite Z.mul_1_l in E.
    assert (UF : 0 <= U * f) by (apply Z.mul_nonneg_nonneg; lia). rewrite (Z.abs_eq (U * f)) in E by exact UF.
    pose proof (rnd_ge (U * f) U 1 149 UF UP ltac:(lia) ltac:(lia)) as R. rewrite Z.mul_1_l, <- U149 in R. specialize (R ltac:(apply Z.mul_le_mono_nonneg_l; lia)).
    set (r := rnd (U * f) U) in *. clearbody r. destruct (r <? 2 ^ 277); [|discriminate]. rewrite Z.sgn_pos, Z.mul_1_l in E by (apply Z.mul_pos_pos; lia).
    unfold to_int in E. rewrite Z.quot_div_nonneg in E by lia. unfold chk_int in E. destruct (in_int (r / U)); [|discriminate].
    assert (r / U = d) by congruence. subst d. apply Z.div_str_pos. lia. }
  destruct (scale_size_ok _ _ _ _ Q) as (d & E). rewrite W1 in E.
  assert (ZI : to_int (fmul (of_int 0) (fdiv F1 (FF f))) = Ok 0).
  { change F1 with (FF U). unfold fdiv. destruct (Z.eqb_spec f 0) as [Z0|_]; [lia|]. rewrite Z.sgn_pos, Z.mul_1_r, (Z.abs_eq f) by lia.
    destruct (mkf_rel (U * U) f) as (I & -> & _); [lia|split; [apply Z.mul_nonneg_nonneg; lia|]|].
    - apply Z.lt_le_trans with (2 ^ 276 * U); [apply Z.mul_lt_mono_pos_r; [lia|rewrite U149; apply Z.pow_lt_mono_r; lia]|apply Z.mul_le_mono_nonneg_l; lia].
    - rewrite of_int_exact by (unfold small24; lia). unfold fmul. rewrite !Z.mul_0_l. destruct (mkf_rel 0 U UP) as (z & -> & _ & _ & Z0); [split; [lia|apply Z.mul_pos_pos; lia]|]. rewrite Z0 by reflexivity. reflexivity. }
  specialize (D d E). refine (scale_oob junk src (FF f) g d d 0 0 G _ _ D _ ZI _ ZI Q); rewrite ?W1, ?H1; [exact E|exact E|lia|lia].
Qed.
