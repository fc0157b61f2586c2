(** The float and double samples. *)
From Verif Require Import Base BaseLemmas Flt SiftCache SfmtModel SfmtSpec.
Local Open Scope Z_scope.

Lemma real2_s_rnd v : (v < 2 ^ 32)%N -> real2_s v = FF (rnd (Z.of_N v * 2 ^ 117) 1) /\ 0 <= rnd (Z.of_N v * 2 ^ 117) 1 <= U.
Proof.
  intro H. assert (B : 0 <= Z.of_N v < 2 ^ 32) by (change (2 ^ 32) with (Z.of_N (2 ^ 32)); lia).
  assert (R : 0 <= rnd (Z.of_N v * 2 ^ 117) 1 <= U).
  { split; [apply rnd_nonneg; lia|]. unfold U. change (2 ^ 149) with (2 ^ 24 * 2 ^ 125). apply rnd_le; lia. }
  split; [|exact R]. unfold real2_s. rewrite (mkf_val _ 1 U) by (try lia; unfold U; try apply Z.pow_lt_mono_r; lia).
  f_equal. destruct (Z.eq_dec (Z.of_N v) 0) as [->|NZ]; [reflexivity|]. rewrite Z.sgn_pos by lia. lia.
Qed.
Lemma real2_s_one v : (v < 2 ^ 32)%N -> (rnd (Z.of_N v * 2 ^ 117) 1 < U <-> (v < 2 ^ 32 - 128)%N).
Proof.
  intro H. assert (B : 0 <= Z.of_N v < 2 ^ 32) by (change (2 ^ 32) with (Z.of_N (2 ^ 32)); lia).
  assert (E : (v < 2 ^ 32 - 128)%N <-> Z.of_N v < 2 ^ 32 - 128) by (change (2 ^ 32 - 128) with (Z.of_N (2 ^ 32 - 128)); lia). rewrite E. clear E.
  assert (UE : U = 2 ^ 24 * 2 ^ 125) by reflexivity. split; intro L.
  - destruct (Z.lt_ge_cases (Z.of_N v) (2 ^ 32 - 128)) as [G|G]; [exact G|]. exfalso.
    assert (M : rnd ((2 ^ 32 - 128) * 2 ^ 117) 1 <= rnd (Z.of_N v * 2 ^ 117) 1) by (apply rnd_mono; lia).
    assert (V : rnd ((2 ^ 32 - 128) * 2 ^ 117) 1 = U) by (vm_compute; reflexivity). lia.
  - destruct (Z.le_gt_cases (Z.of_N v) ((2 ^ 24 - 1) * 2 ^ 8)) as [G|G].
    + assert (rnd (Z.of_N v * 2 ^ 117) 1 <= (2 ^ 24 - 1) * 2 ^ 125) by (apply rnd_le; lia). lia.
    + rewrite (rnd_near _ 1 (2 ^ 24 - 1) 125) by lia. lia.
Qed.
Lemma real2_s_near v : (v < 2 ^ 32)%N -> Z.abs (rnd (Z.of_N v * 2 ^ 117) 1 - Z.of_N v * 2 ^ 117) <= 2 ^ 124.
Proof.
  intro H. assert (B : 0 <= Z.of_N v < 2 ^ 32) by (change (2 ^ 32) with (Z.of_N (2 ^ 32)); lia). set (p := Z.of_N v * 2 ^ 117).
  assert (P : 0 <= p < 2 ^ 149) by (unfold p; lia). clearbody p. clear H B v.
  unfold rnd. rewrite Z.div_1_r, Z.mul_1_l. set (s := Z.max 0 (Z.log2 p - 23)).
  assert (S0 : 0 <= s <= 125).
  { unfold s. destruct (Z.eq_dec p 0) as [->|NZ]; [cbn; lia|]. assert (Z.log2 p < 149) by (apply Z.log2_lt_pow2; lia). lia. }
  assert (P2 : 2 ^ s <= 2 ^ 125) by (apply Z.pow_le_mono_r; lia). assert (0 < 2 ^ s) by (apply Z.pow_pos_nonneg; lia).
  destruct (rhe_bound p (2 ^ s)) as [_ R]; [lia|lia|]. lia.
Qed.
Lemma real2_s_mono v v' : (v <= v')%N -> rnd (Z.of_N v * 2 ^ 117) 1 <= rnd (Z.of_N v' * 2 ^ 117) 1.
Proof. intro H. apply rnd_mono; nia. Qed.
Lemma real2_s_exact v : (v <= 2 ^ 24)%N -> rnd (Z.of_N v * 2 ^ 117) 1 = Z.of_N v * 2 ^ 117.
Proof.
  intro H. assert (B : 0 <= Z.of_N v <= 2 ^ 24) by (change (2 ^ 24) with (Z.of_N (2 ^ 24)); lia).
  rewrite <- (Z.mul_1_r (Z.of_N v * 2 ^ 117)) at 1. apply rnd_exact; lia.
Qed.
