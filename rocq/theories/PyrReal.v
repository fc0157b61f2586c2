(** The update functions over the reals: how much every level is blurred. *)
From Coq Require Import Reals Lra.
From Verif Require Import Base BaseLemmas Gray PyrModel PyrSpec PyrProofs.
Local Open Scope R_scope.

(** An image is known by the standard deviation of its blur, in its own pixels, and
    by how many times it was halved.  Smoothing adds variances. *)
Definition blurred : Type := R * Z.
Definition blur (s : R) (g : blurred) : res blurred := Ok (sqrt (fst g * fst g + s * s), snd g).
Definition halve (g : blurred) : res blurred := Ok (fst g / 2, (snd g + 1)%Z).
Definition sub_blur (c d : R) : R := sqrt (d * d - c * c).
Definition posb (x : R) : bool := if Rlt_dec 0 x then true else false.

Lemma blur_sub b d o : 0 <= b <= d -> blur (sub_blur b d) (b, o) = Ok (d, o).
Proof.
  intros [B D]. unfold blur, sub_blur. cbn [fst snd]. rewrite sqrt_sqrt by nra. replace (b * b + (d * d - b * b)) with (d * d) by ring. rewrite sqrt_square by lra. reflexivity.
Qed.
Lemma half_pow_R o : half_pow R Rmult 1 (/ 2) o = (/ 2) ^ o.
Proof. induction o as [|o IH]; cbn [half_pow pow]; [reflexivity|]. rewrite IH. ring. Qed.

Section Fine.
Variables (s0 : R) (sig : Z -> R) (n_oct steps : Z).
Hypothesis S0 : / 2 <= s0.
Hypothesis SIG0 : sig 0%Z = s0.
Hypothesis MONO : forall i, (0 <= i)%Z -> 0 < sig i <= sig (i + 1)%Z.
Hypothesis NO : (1 <= n_oct)%Z.
Hypothesis NS : (1 <= steps)%Z.
Lemma first_R : first_of blurred R blur sub_blur posb (/ 2) sig (/ 2, 0%Z) (s0, 0%Z).
Proof.
  unfold first_of. rewrite SIG0. unfold posb. destruct (Rlt_dec 0 (sub_blur (/ 2) s0)) as [P|N].
  - apply blur_sub. lra.
  - destruct (Rle_lt_or_eq_dec _ _ S0) as [L|E]; [|now rewrite <- E]. exfalso. apply N. unfold sub_blur. apply sqrt_lt_R0. nra.
Qed.
Lemma reached0_R : reached R sub_blur Rmult posb 1 (/ 2) (/ 2) sig steps 0 = s0.
Proof.
  unfold reached. cbn [Z.eqb]. rewrite SIG0. unfold posb. destruct (Rlt_dec 0 (sub_blur (/ 2) s0)) as [P|N]; [reflexivity|].
  destruct (Rle_lt_or_eq_dec _ _ S0) as [L|E]; [|exact E]. exfalso. apply N. unfold sub_blur. apply sqrt_lt_R0. nra.
Qed.
Lemma before_index i : (1 <= i)%Z -> (if i mod steps =? 0 then i / steps - 1 else i / steps)%Z = ((i - 1) / steps)%Z.
Proof.
  intro I. pose proof (Z.div_mod i steps ltac:(lia)) as D. pose proof (Z.mod_pos_bound i steps ltac:(lia)) as B. destruct (Z.eqb_spec (i mod steps) 0) as [E|E].
  - apply (Z.div_unique _ _ _ (steps - 1)); [lia|]. rewrite E in D. lia.
  - apply (Z.div_unique _ _ _ (i mod steps - 1)); lia.
Qed.
Lemma wanted_R i : (1 <= i)%Z -> wanted R Rmult 1 (/ 2) sig steps i = sig i * (/ 2) ^ Z.to_nat ((i - 1) / steps).
Proof. intro I. unfold wanted. rewrite before_index, half_pow_R by exact I. reflexivity. Qed.
Lemma reached_R i : (0 <= i)%Z -> reached R sub_blur Rmult posb 1 (/ 2) (/ 2) sig steps i = sig i * (/ 2) ^ Z.to_nat (i / steps).
Proof.
  intro I. destruct (Z.eq_dec i 0) as [->|NI]; [rewrite reached0_R, SIG0, Z.div_0_l by lia; cbn; ring|].
  unfold reached. destruct (Z.eqb_spec i 0); [lia|]. rewrite wanted_R by lia. pose proof (before_index i ltac:(lia)) as BI. destruct (Z.eqb_spec (i mod steps) 0) as [E|E].
  - rewrite <- BI. assert (1 <= i / steps)%Z. { pose proof (Z.div_mod i steps ltac:(lia)) as D. rewrite E in D. destruct (Z_lt_le_dec 0 (i / steps)) as [G|G]; [lia|]. pose proof (Z.mul_le_mono_nonneg_l _ _ steps ltac:(lia) G). lia. }
    replace (Z.to_nat (i / steps)) with (S (Z.to_nat (i / steps - 1))) by lia. cbn [pow]. ring.
  - rewrite <- BI. reflexivity.
Qed.
Lemma fine_R (levels : list blurred) : Z.of_nat (length levels) = (n_oct * steps)%Z -> nth 0 levels (0, 0%Z) = (/ 2, 0%Z) ->
  exists ls, update_fine blurred R blur blur halve sub_blur posb Rmult 1 (/ 2) (/ 2) sig n_oct steps levels = Ok ls /\ length ls = length levels /\
    forall i, (0 <= i < n_oct * steps)%Z -> nth (Z.to_nat i) ls (0, 0%Z) = (sig i / 2 ^ Z.to_nat (i / steps), (i / steps)%Z).
Proof.
  intros L V. destruct (update_fine_ok blurred R blur blur halve halve (fun _ => halve) (fun g => g) sub_blur posb Rmult 1 (/ 2) (/ 2) sig (0, 0%Z) n_oct steps NO NS (fun _ _ => True)) with (levels := levels) (l := (s0, 0%Z)) as (ls & E & LL & V0 & _ & ST); auto.
  - intros i p _ _. eexists. split; [reflexivity|exact Logic.I].
  - intros o p _ _. eexists. split; [reflexivity|exact Logic.I].
  - cbn [Z.to_nat]. rewrite V. apply first_R.
  - exists ls. split; [exact E|]. split; [exact LL|]. intros i I.
    assert (G : forall n, (Z.of_nat n < n_oct * steps)%Z -> nth n ls (0, 0%Z) = (sig (Z.of_nat n) * (/ 2) ^ Z.to_nat (Z.of_nat n / steps), (Z.of_nat n / steps)%Z)).
    { induction n as [|n IH]; intro N.
      - change (Z.to_nat 0) with O in V0. rewrite V0. change (Z.of_nat 0) with 0%Z. rewrite Z.div_0_l, SIG0 by lia. cbn [Z.to_nat pow]. f_equal. ring.
      - destruct (ST (Z.of_nat (S n)) ltac:(lia)) as (w & W & D). replace (Z.to_nat (Z.of_nat (S n) - 1)) with n in W by lia. rewrite Nat2Z.id in D. rewrite (IH ltac:(lia)) in W. clear IH.
        unfold added in W. rewrite wanted_R in W by lia. replace (Z.of_nat (S n) - 1)%Z with (Z.of_nat n) in W by lia. rewrite reached_R in W by lia.
        assert (P : 0 < (/ 2) ^ Z.to_nat (Z.of_nat n / steps)) by (apply pow_lt; lra). pose proof (MONO (Z.of_nat n) ltac:(lia)) as M. replace (Z.of_nat n + 1)%Z with (Z.of_nat (S n)) in M by lia.
        rewrite blur_sub in W by (split; [apply Rmult_le_pos; lra|apply Rmult_le_compat_r; lra]). injection W as <-.
        pose proof (before_index (Z.of_nat (S n)) ltac:(lia)) as BI. replace (Z.of_nat (S n) - 1)%Z with (Z.of_nat n) in BI by lia.
        destruct (Z.eqb_spec (Z.of_nat (S n) mod steps) 0) as [E0|E0].
        + injection D as D. rewrite <- D. unfold halve. cbn [fst snd]. change (Z.pos (Pos.of_succ_nat n)) with (Z.of_nat (S n)). assert (Q : (0 <= Z.of_nat n / steps)%Z) by (apply Z.div_pos; lia).
          replace (Z.of_nat (S n) / steps)%Z with (Z.of_nat n / steps + 1)%Z by lia. replace (Z.to_nat (Z.of_nat n / steps + 1)) with (S (Z.to_nat (Z.of_nat n / steps))) by lia. cbn [pow]. apply f_equal2; [unfold Rdiv; ring|reflexivity].
        + rewrite D, BI. reflexivity. }
    specialize (G (Z.to_nat i) ltac:(lia)). rewrite Z2Nat.id in G by lia. rewrite G. f_equal. unfold Rdiv. now rewrite pow_inv.
Qed.
End Fine.
