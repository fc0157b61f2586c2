(** The result of normalizing has length one up to rounding. *)
From Coq Require Import Lia Reals Lra.
From Verif Require Import Base BaseLemmas Flt FltErr FvModel FvSpec FvProofs.
Local Open Scope R_scope.

Definition dl : R := / IZR (2 ^ 23).
Lemma dl_pos : 0 < dl < / 8000000.
Proof. unfold dl. change (2 ^ 23)%Z with 8388608%Z. split; [apply Rinv_0_lt_compat; lra|apply Rinv_lt_contravar; lra]. Qed.
(** [x] is [y] up to [k] relative errors. *)
Definition near (k : nat) (x y : R) : Prop := y * (1 - dl) ^ k <= x <= y * (1 + dl) ^ k.
Lemma near_refl x : near 0 x x.
Proof. unfold near. cbn. lra. Qed.
Lemma pow_lo k : 0 < (1 - dl) ^ k <= 1.
Proof. pose proof dl_pos. split; [apply pow_lt; lra|]. apply Rle_trans with (1 ^ k); [apply pow_incr; lra|rewrite pow1; lra]. Qed.
Lemma pow_hi k : 1 <= (1 + dl) ^ k.
Proof. pose proof dl_pos. apply pow_R1_Rle. lra. Qed.
Lemma near_trans j k x y z : 0 <= z -> near j x y -> near k y z -> near (j + k) x z.
Proof.
  unfold near. intros Z0 [A B] [C D]. rewrite !pow_add. pose proof (pow_lo j). pose proof (pow_hi j). split.
  - apply Rle_trans with (2 := A). rewrite (Rmult_comm (_ ^ j)), <- Rmult_assoc. apply Rmult_le_compat_r; lra.
  - apply Rle_trans with (1 := B). rewrite (Rmult_comm (_ ^ j)), <- Rmult_assoc. apply Rmult_le_compat_r; lra.
Qed.
Lemma near_weaken j k x y : 0 <= y -> near j x y -> near (k + j) x y.
Proof.
  unfold near. intros Y [A B]. rewrite !pow_add. pose proof (pow_lo j). pose proof (pow_hi j). pose proof (pow_lo k). pose proof (pow_hi k). split.
  - apply Rle_trans with (2 := A). apply Rmult_le_compat_l; [lra|]. rewrite <- (Rmult_1_l ((1 - dl) ^ j)) at 2. apply Rmult_le_compat_r; lra.
  - apply Rle_trans with (1 := B). apply Rmult_le_compat_l; [lra|]. rewrite <- (Rmult_1_l ((1 + dl) ^ j)) at 1. apply Rmult_le_compat_r; lra.
Qed.
Lemma near_add k x y x' y' : near k x y -> near k x' y' -> near k (x + x') (y + y').
Proof. unfold near. lra. Qed.
Lemma near_mul j k x y x' y' : 0 <= y -> 0 <= y' -> near j x y -> near k x' y' -> near (j + k) (x * x') (y * y').
Proof.
  unfold near. intros Y Y' [A B] [C D]. rewrite !pow_add. pose proof (pow_lo j). pose proof (pow_hi j). pose proof (pow_lo k). pose proof (pow_hi k).
  assert (0 <= y * (1 - dl) ^ j) by (apply Rmult_le_pos; lra). assert (0 <= y' * (1 - dl) ^ k) by (apply Rmult_le_pos; lra).
  split; [replace (y * y' * ((1 - dl) ^ j * (1 - dl) ^ k)) with (y * (1 - dl) ^ j * (y' * (1 - dl) ^ k)) by ring|replace (y * y' * ((1 + dl) ^ j * (1 + dl) ^ k)) with (y * (1 + dl) ^ j * (y' * (1 + dl) ^ k)) by ring]; apply Rmult_le_compat; lra.
Qed.
Lemma near_scale c k x y : 0 <= c -> near k x y -> near k (c * x) (c * y).
Proof. unfold near. intros C [A B]. rewrite !Rmult_assoc. split; apply Rmult_le_compat_l; assumption. Qed.
Lemma IZR_pos z : (0 < z)%Z -> 0 < IZR z.
Proof. intro H. apply IZR_lt. exact H. Qed.

(** One rounding. *)
Lemma rnd_near1 p d : (0 < d)%Z -> (p = 0 \/ 2 ^ 25 * d <= p)%Z -> near 1 (IZR (rnd p d)) (IZR p / IZR d).
Proof.
  intros D C. pose proof (IZR_pos d D) as D0. assert (P : (0 <= p)%Z) by (destruct C as [->|C]; [lia|change (2 ^ 25)%Z with 33554432%Z in C; lia]).
  destruct C as [->|C]; [rewrite rnd_zero by exact D; unfold near, Rdiv; rewrite !Rmult_0_l; lra|].
  pose proof (rnd_err p d P D) as E. change (2 ^ 25)%Z with 33554432%Z in C. assert (E2 : (2 * 8388608 * Z.abs (rnd p d * d - p) <= 2 * p)%Z) by lia.
  assert (E3 : (8388608 * (rnd p d * d) <= 8388609 * p)%Z) by lia. assert (E4 : (8388607 * p <= 8388608 * (rnd p d * d))%Z) by lia.
  apply IZR_le in E3, E4. rewrite !mult_IZR in E3, E4. unfold near. rewrite !pow_1. set (r := IZR (rnd p d)) in *. set (b := IZR d) in *. set (a := IZR p) in *. clearbody r a b.
  assert (DL : 8388608 * dl = 1) by (unfold dl; change (2 ^ 23)%Z with 8388608%Z; field).
  set (t := dl) in *. clearbody t.
  split; apply (Rmult_le_reg_r (8388608 * b)); try (apply Rmult_lt_0_compat; lra).
  - replace (a / b * (1 - t) * (8388608 * b)) with (a * (8388608 - 8388608 * t)) by (field; lra). rewrite DL. lra.
  - replace (a / b * (1 + t) * (8388608 * b)) with (a * (8388608 + 8388608 * t)) by (field; lra). rewrite DL. lra.
Qed.
(** The sum of the rounded squares. *)
Definition rsum (ns : list Z) : R := fold_right (fun n s => IZR n * IZR n + s) 0 ns.
Lemma rsum_nonneg ns : 0 <= rsum ns.
Proof. induction ns as [|n ns IH]; cbn [rsum fold_right]; [lra|]. fold (rsum ns). nra. Qed.
Lemma rsum_sum ns : IZR (sum_sq ns) = rsum ns.
Proof. induction ns as [|n ns IH]; [reflexivity|]. cbn [sum_sq rsum fold_right]. rewrite plus_IZR, mult_IZR, IH. reflexivity. Qed.
Lemma sumz_near ns : Forall (fun n => n = 0 \/ 2 ^ 87 <= n)%Z ns -> forall a s j, (a = 0 \/ 2 ^ 25 <= a)%Z -> 0 <= s -> near (S j) (IZR a) s ->
  near (S (length ns + j)) (IZR (sumz a ns)) (s + rsum ns / IZR U).
Proof.
  assert (U0 : 0 < IZR U) by (apply IZR_pos; exact U_pos).
  induction 1 as [|n ns N NS IH]; intros a s j A S0 NR; [cbn; unfold sumz, Rdiv; cbn; rewrite Rmult_0_l, Rplus_0_r; exact NR|].
  unfold sumz. cbn [fold_left]. fold (sumz (rnd (a + rnd (n * n) U) 1) ns). cbn [length rsum fold_right]. fold (rsum ns).
  assert (NN : (0 <= n * n)%Z) by nia. pose proof (square_big n N) as SB.
  assert (RB : (rnd (n * n) U = 0 \/ 2 ^ 25 <= rnd (n * n) U)%Z).
  { destruct SB as [->|SB]; [left; apply rnd_zero; exact U_pos|right]. rewrite <- (Z.mul_1_l (2 ^ 25)). apply rnd_ge; try lia. exact U_pos. }
  pose proof (rnd_near1 (n * n) U U_pos SB) as N1. rewrite mult_IZR in N1. set (b := rnd (n * n) U) in *. clearbody b.
  assert (Q0 : 0 <= IZR n * IZR n / IZR U) by (apply Rmult_le_pos; [nra|left; apply Rinv_0_lt_compat; exact U0]).
  set (q := IZR n * IZR n / IZR U) in *.
  assert (N2 : near (S j) (IZR (a + b)) (s + q)).
  { rewrite plus_IZR. apply near_add; [exact NR|]. replace (S j) with (j + 1)%nat by lia. apply near_weaken; [exact Q0|exact N1]. }
  assert (AB : (a + b = 0 \/ 2 ^ 25 <= a + b)%Z) by (change (2 ^ 25)%Z with 33554432%Z in *; lia).
  assert (N3 : near (S (S j)) (IZR (rnd (a + b) 1)) (s + q)).
  { change (S (S j)) with (1 + S j)%nat. apply (near_trans 1 (S j) _ (IZR (a + b))); [lra| |exact N2].
    replace (IZR (a + b)) with (IZR (a + b) / IZR 1) by (unfold Rdiv; rewrite Rinv_1; ring). apply rnd_near1; [lia|]. rewrite Z.mul_1_r. exact AB. }
  assert (RR : (rnd (a + b) 1 = 0 \/ 2 ^ 25 <= rnd (a + b) 1)%Z).
  { destruct AB as [AB|AB]; [left; rewrite AB; apply rnd_zero; lia|right]. rewrite <- (Z.mul_1_l (2 ^ 25)). apply rnd_ge; lia. }
  specialize (IH (rnd (a + b) 1) (s + q) (S j) RR ltac:(lra) N3).
  replace (S (S (length ns) + j)) with (S (length ns + S j)) by lia.
  replace (s + (IZR n * IZR n + rsum ns) / IZR U) with (s + q + rsum ns / IZR U) by (unfold q; field; lra). exact IH.
Qed.
Lemma sqrt_near n r : (0 < n)%Z -> fsqrt (FF n) = FF r -> near 2 (IZR r * IZR r) (IZR n * IZR U).
Proof.
  intros N E. destruct (fsqrt_parts n N) as (q & w & E' & E0 & Q & W & B). cbv zeta in *. set (e := (_ - 23)%Z) in *. rewrite E in E'. injection E' as ->. clear E.
  assert (P : (0 < 2 ^ e)%Z) by (apply Z.pow_pos_nonneg; lia). assert (P4 : (4 ^ e = 2 ^ e * 2 ^ e)%Z) by (change 4%Z with (2 * 2)%Z; apply Z.pow_mul_l).
  rewrite P4 in B. destruct B as [B1 B2]. apply IZR_le in B1. apply IZR_lt in B2. rewrite !Z.pow_2_r, !mult_IZR, !plus_IZR in *.
  destruct Q as [Q _]. apply IZR_le in Q. change (IZR (2 ^ 23)) with 8388608 in Q.
  assert (WR : IZR w = IZR q \/ IZR w = IZR q + 1) by (destruct W as [->| ->]; [left|right; rewrite plus_IZR]; reflexivity).
  apply IZR_pos in P. set (t := IZR (2 ^ e)) in *. set (m := IZR n * IZR U) in *. set (Q' := IZR q) in *. set (W' := IZR w) in *. clearbody t m Q' W'.
  assert (DL : 8388608 * dl = 1) by (unfold dl; change (2 ^ 23)%Z with 8388608%Z; field). pose proof dl_pos as DP. set (d := dl) in *. 
  assert (T : 0 < t * t) by nra.
  assert (H1 : Q' + 1 <= Q' * (1 + d)) by nra. assert (H2 : (Q' + 1) * (1 - d) <= Q') by nra.
  unfold near. fold d. cbn [pow]. rewrite !Rmult_1_r. clearbody d.
  replace (W' * t * (W' * t)) with (W' * W' * (t * t)) by ring. set (tt := t * t) in *. clearbody tt.
  assert (WL : Q' <= W') by lra. assert (WU : W' <= Q' + 1) by lra. split.
  - (* m < (q+1)^2 tt *)
    apply Rle_trans with ((Q' + 1) * (1 - d) * ((Q' + 1) * (1 - d)) * tt).
    + replace ((Q' + 1) * (1 - d) * ((Q' + 1) * (1 - d)) * tt) with ((Q' + 1) * (Q' + 1) * tt * ((1 - d) * (1 - d))) by ring. apply Rmult_le_compat_r; [nra|lra].
    + apply Rmult_le_compat_r; [lra|]. apply Rmult_le_compat; nra.
  - apply Rle_trans with (Q' * (1 + d) * (Q' * (1 + d)) * tt).
    + apply Rmult_le_compat_r; [lra|]. apply Rmult_le_compat; nra.
    + replace (Q' * (1 + d) * (Q' * (1 + d)) * tt) with (Q' * Q' * tt * ((1 + d) * (1 + d))) by ring. apply Rmult_le_compat_r; [nra|lra].
Qed.
(** 131 relative errors are less than 2 in 10^5. *)
Lemma bern n : 1 - INR n * dl <= (1 - dl) ^ n.
Proof.
  pose proof dl_pos. induction n as [|n IH]; [cbn; lra|]. rewrite S_INR. cbn [pow]. pose proof (pos_INR n).
  apply Rle_trans with ((1 - dl) * (1 - INR n * dl)); [nra|apply Rmult_le_compat_l; lra].
Qed.
Lemma hi_lo n : (1 + dl) ^ n * (1 - dl) ^ n <= 1.
Proof. rewrite <- Rpow_mult_distr. pose proof dl_pos. apply Rle_trans with (1 ^ n); [apply pow_incr; nra|rewrite pow1; lra]. Qed.
Lemma to_unit_core ns : (length ns <= 128)%nat -> Forall (zero_or_between (-40) 40) ns -> Exists (fun n => n <> 0%Z) ns -> exists r,
  (0 < r <= 2 ^ 197)%Z /\ nx_svec_to_unit (map FF ns) = (FF r, map FF (map (scaled_by r) ns)) /\
  Forall (fun n => near 1 (IZR (scaled_by r n)) (IZR n * IZR U / IZR r)) ns /\
  0 < rsum ns /\ rsum ns * (1 - / 50000) <= IZR r * IZR r <= rsum ns * (1 + / 40000).
Proof.
  intros L A X. unfold zero_or_between in A. change (149 + -40)%Z with 109%Z in A. change (149 + 40)%Z with 189%Z in A.
  assert (O1 : (2 ^ 87 <= 2 ^ 109)%Z) by (vm_compute; discriminate). assert (O2 : (2 ^ 189 <= 2 ^ 209)%Z) by (vm_compute; discriminate). assert (O3 : (0 < 2 ^ 87)%Z) by reflexivity.
  assert (A1 : Forall (fun n => 0 <= n <= 2 ^ 209)%Z ns) by (eapply Forall_impl; [|exact A]; cbv beta; intros; lia).
  assert (A2 : Forall (fun n => n = 0 \/ 2 ^ 87 <= n)%Z ns) by (eapply Forall_impl; [|exact A]; cbv beta; intros; lia).
  destruct (sumz_zero ns A2 0 ltac:(lia) rep_0) as [_ SP]. specialize (SP X).
  destruct (to_unit_parts ns A1 ltac:(lia) SP) as (r & R & SE & E). exists r.
  assert (U0 : 0 < IZR U) by (apply IZR_pos; exact U_pos).
  (* the norm *)
  pose proof (sumz_near ns A2 0 0 0%nat (or_introl eq_refl) ltac:(lra)) as SN. rewrite Rplus_0_l, Nat.add_0_r in SN.
  assert (SN' : near (S (length ns)) (IZR (sumz 0 ns)) (rsum ns / IZR U)) by (apply SN; unfold near; lra). clear SN.
  pose proof (sqrt_near _ r SP SE) as QN. pose proof (rsum_nonneg ns) as RS0.
  assert (RN : near (2 + S (length ns)) (IZR r * IZR r) (rsum ns)).
  { apply (near_trans _ _ _ (IZR (sumz 0 ns) * IZR U)); [exact RS0|exact QN|]. apply (near_scale (IZR U)) in SN'; [|lra].
    replace (IZR U * (rsum ns / IZR U)) with (rsum ns) in SN' by (field; lra). rewrite Rmult_comm. exact SN'. }
  clear SN' QN. apply (near_weaken _ (128 - length ns)) in RN; [|exact RS0]. replace (128 - length ns + (2 + S (length ns)))%nat with 131%nat in RN by lia.
  pose proof (IZR_pos r R) as R0.
  (* how large the norm is *)
  assert (RU : (r <= 2 ^ 197)%Z).
  { destruct (sum_finite ns A1 0 0 ltac:(lia) ltac:(lia) ltac:(lia)) as [_ SB].
    assert (SU : (sumz 0 ns <= 128 * 2 ^ 229)%Z).
    { clear - A L. assert (G : forall l a i, Forall (fun n => n = 0 \/ 2 ^ 109 <= n <= 2 ^ 189)%Z l -> (0 <= i)%Z -> (0 <= a <= i * 2 ^ 229)%Z -> (i + Z.of_nat (length l) <= 128)%Z -> (sumz a l <= (i + Z.of_nat (length l)) * 2 ^ 229)%Z).
      { induction l as [|n l IH]; intros a i F I B LL; [cbn [sumz fold_left length]; rewrite Z.add_0_r; apply B|]. unfold sumz. cbn [fold_left]. fold (sumz (rnd (a + rnd (n * n) U) 1) l).
        inversion F as [|? ? F1 F2]; subst. assert (LE : Z.of_nat (length (n :: l)) = (Z.of_nat (length l) + 1)%Z) by (cbn [length]; lia). rewrite LE in *.
        assert (NB : (0 <= n <= 2 ^ 189)%Z) by (assert (0 < 2 ^ 109)%Z by reflexivity; assert (0 < 2 ^ 189)%Z by reflexivity; lia).
        assert (NB2 : (0 <= n * n <= 2 ^ 229 * U)%Z) by (split; [nia|]; change (2 ^ 229 * U)%Z with (2 ^ 189 * 2 ^ 189)%Z; apply Z.mul_le_mono_nonneg; lia).
        assert (B2 : (0 <= rnd (n * n) U <= 2 ^ 229)%Z) by (split; [apply rnd_nonneg; [lia|exact U_pos]|rewrite <- (Z.mul_1_l (2 ^ 229)); apply rnd_le; try lia; try exact U_pos]).
        replace (i + (Z.of_nat (length l) + 1))%Z with ((i + 1) + Z.of_nat (length l))%Z by lia. apply IH; [exact F2|lia| |lia].
        split; [apply rnd_nonneg; lia|]. apply rnd_le; lia. }
      assert (H := G ns 0%Z 0%Z A ltac:(lia) ltac:(lia) ltac:(lia)). eapply Z.le_trans; [exact H|]. apply Z.mul_le_mono_nonneg_r; [vm_compute; discriminate|lia]. }
    destruct (fsqrt_pos _ SP) as (r' & SE' & _ & _ & U2). rewrite SE in SE'. injection SE' as <-.
    assert (M : (r * r <= 4 * (128 * 2 ^ 229 * U))%Z) by (assert (sumz 0 ns * U <= 128 * 2 ^ 229 * U)%Z by (apply Z.mul_le_mono_nonneg_r; [pose proof U_pos; lia|exact SU]); lia).
    assert (M2 : (4 * (128 * 2 ^ 229 * U) <= 2 ^ 197 * 2 ^ 197)%Z) by (vm_compute; discriminate).
    set (z := (2 ^ 197)%Z) in *. assert (0 < z)%Z by reflexivity. clearbody z. nia. }
  assert (SCN : Forall (fun n => near 1 (IZR (scaled_by r n)) (IZR n * IZR U / IZR r)) ns).
  { eapply Forall_impl; [|exact A]. cbv beta. intros n Hn. unfold scaled_by. rewrite <- mult_IZR. apply rnd_near1; [exact R|].
    destruct Hn as [->|[Hn _]]; [left; reflexivity|right]. apply Z.le_trans with (2 ^ 109 * U)%Z.
    - assert (2 ^ 25 * r <= 2 ^ 25 * 2 ^ 197)%Z by (apply Z.mul_le_mono_nonneg_l; lia). assert (2 ^ 25 * 2 ^ 197 <= 2 ^ 109 * U)%Z by (vm_compute; discriminate). lia.
    - apply Z.mul_le_mono_nonneg_r; [pose proof U_pos; lia|exact Hn]. }
  set (T := rsum ns) in *.
  assert (BL : 1 - / 50000 <= (1 - dl) ^ 131).
  { apply Rle_trans with (2 := bern 131). pose proof dl_pos as [_ DU]. change (INR 131) with (INR (100 + 31)). rewrite plus_INR. assert (E1 : INR 100 = 100) by (rewrite INR_IZR_INZ; reflexivity). assert (E2 : INR 31 = 31) by (rewrite INR_IZR_INZ; reflexivity). rewrite E1, E2. lra. }
  pose proof (hi_lo 131) as HL. pose proof (pow_hi 131) as H1. pose proof (pow_lo 131) as L1.
  unfold near in RN. set (lo := (1 - dl) ^ 131) in *. set (hi := (1 + dl) ^ 131) in *. clearbody lo hi.
  assert (HB : hi <= 1 + / 40000) by nra.
  set (rr := IZR r * IZR r) in *. assert (RR : 0 < rr) by (unfold rr; nra). assert (T0 : 0 < T) by nra.
  assert (B1 : T * (1 - / 50000) <= rr) by nra. assert (B2 : rr <= T * (1 + / 40000)) by nra.
  split; [split; assumption|]. split; [exact E|]. split; [exact SCN|]. split; [exact T0|]. split; assumption.
Qed.
Lemma to_unit_near ns : (length ns <= 128)%nat -> Forall (zero_or_between (-40) 40) ns -> Exists (fun n => n <> 0%Z) ns -> exists r ms,
  nx_svec_to_unit (map FF ns) = (FF r, map FF ms) /\ length ms = length ns /\
  (10000 * Z.abs (sum_sq ms - U * U) <= U * U)%Z /\ (10000 * Z.abs (r * r - sum_sq ns) <= sum_sq ns)%Z.
Proof.
  intros L A X. destruct (to_unit_core ns L A X) as (r & [R _] & E & SCN & T0 & B1 & B2). exists r, (map (scaled_by r) ns). split; [exact E|]. split; [apply map_length|].
  assert (A1 : Forall (fun n => 0 <= n)%Z ns).
  { eapply Forall_impl; [|exact A]. intros n [->|[H _]]; [lia|]. assert (0 < 2 ^ (149 + -40))%Z by reflexivity. lia. }
  assert (U0 : 0 < IZR U) by (apply IZR_pos; exact U_pos). pose proof (IZR_pos r R) as R0.
  assert (MS : near 2 (rsum (map (scaled_by r) ns)) (rsum ns * (IZR U * IZR U / (IZR r * IZR r)))).
  { clear - SCN R0 U0 A1. induction ns as [|n l IH]; [cbn; rewrite Rmult_0_l; unfold near; lra|]. inversion SCN as [|? ? H1 H2]; subst. inversion A1 as [|? ? H3 H4]; subst.
    cbn [map rsum fold_right]. fold (rsum l) (rsum (map (scaled_by r) l)). rewrite Rmult_plus_distr_r. apply near_add; [|apply IH; assumption].
    replace (IZR n * IZR n * (IZR U * IZR U / (IZR r * IZR r))) with (IZR n * IZR U / IZR r * (IZR n * IZR U / IZR r)) by (field; lra).
    assert (0 <= IZR n * IZR U / IZR r) by (apply Rmult_le_pos; [apply Rmult_le_pos; [apply IZR_le; lia|lra]|left; apply Rinv_0_lt_compat; exact R0]).
    apply (near_mul 1 1); assumption. }
  set (T := rsum ns) in *. set (M := rsum (map (scaled_by r) ns)) in *. unfold near in MS. cbn [pow] in MS.
  set (rr := IZR r * IZR r) in *. assert (RR : 0 < rr) by (unfold rr; nra).
  assert (C2 : (10000 * Z.abs (r * r - sum_sq ns) <= sum_sq ns)%Z).
  { assert (D1 : (10000 * (r * r - sum_sq ns) <= sum_sq ns)%Z) by (apply le_IZR; rewrite mult_IZR, minus_IZR, mult_IZR, rsum_sum; fold T rr; lra).
    assert (D2 : (10000 * (sum_sq ns - r * r) <= sum_sq ns)%Z) by (apply le_IZR; rewrite mult_IZR, minus_IZR, mult_IZR, rsum_sum; fold T rr; lra). lia. }
  split; [|exact C2].
  set (V := IZR U * IZR U) in *. assert (V0 : 0 < V) by (unfold V; nra).
  assert (Q1 : V * (1 - / 30000) <= T * (V / rr)).
  { apply (Rmult_le_reg_r rr); [exact RR|]. replace (T * (V / rr) * rr) with (V * T) by (field; lra). rewrite Rmult_assoc. apply Rmult_le_compat_l; nra. }
  assert (Q2 : T * (V / rr) <= V * (1 + / 30000)).
  { apply (Rmult_le_reg_r rr); [exact RR|]. replace (T * (V / rr) * rr) with (V * T) by (field; lra). rewrite Rmult_assoc. apply Rmult_le_compat_l; nra. }
  set (K := T * (V / rr)) in *. clearbody K.
  pose proof dl_pos as DP. set (d := dl) in *. clearbody d.
  assert (F1 : V * (1 - / 10000) <= M) by (assert (V * (1 - / 30000) * ((1 - / 8000000) * (1 - / 8000000)) <= K * ((1 - d) * ((1 - d) * 1))) by (apply Rmult_le_compat; nra); nra).
  assert (F2 : M <= V * (1 + / 10000)) by (assert (K * ((1 + d) * ((1 + d) * 1)) <= V * (1 + / 30000) * ((1 + / 8000000) * (1 + / 8000000))) by (apply Rmult_le_compat; nra); nra).
  assert (D1 : (10000 * (sum_sq (map (scaled_by r) ns) - U * U) <= U * U)%Z) by (apply le_IZR; rewrite mult_IZR, minus_IZR, mult_IZR, rsum_sum; fold V M; lra).
  assert (D2 : (10000 * (U * U - sum_sq (map (scaled_by r) ns)) <= U * U)%Z) by (apply le_IZR; rewrite mult_IZR, minus_IZR, mult_IZR, rsum_sum; fold V M; lra). lia.
Qed.
