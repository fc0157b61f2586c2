(** Rounding errors of single precision, in units of [W] = 2^-30. *)
From Verif Require Import Base BaseLemmas Flt.
Local Open Scope Z_scope.

Definition W : Z := 2 ^ 119.
Lemma W_pos : 1 <= W.
Proof. unfold W. apply Z.lt_pred_le. cbn. reflexivity. Qed.
Lemma U_W : U = 1073741824 * W.
Proof. reflexivity. Qed.
Lemma rnd_err p d : 0 <= p -> 0 < d -> 16777216 * Z.abs (rnd p d * d - p) <= p + 16777216 * d.
Proof.
  intros P D. destruct (rnd_exp p d P D) as (S0 & PS & SU & SL). cbv zeta in *. unfold rnd. set (s := Z.max _ _) in *.
  destruct (rhe_bound p (d * 2 ^ s) P ltac:(nia)) as [_ B]. set (r := rhe _ _) in *.
  change (2 ^ 23) with 8388608 in SL. change (2 ^ 24) with 16777216 in SU.
  replace (r * 2 ^ s * d) with (r * (d * 2 ^ s)) by ring.
  assert (Z.eq s 0 \/ 0 < s) as [E|G] by (unfold Z.eq; lia).
  - unfold Z.eq in E. rewrite E in *. change (2 ^ 0) with 1 in *. rewrite Z.mul_1_r in *. set (q := r * d) in *. clearbody q. lia.
  - specialize (SL G). set (q := r * (d * 2 ^ s)) in *. set (e := d * 2 ^ s) in *. clearbody q e. lia.
Qed.
Lemma rnd_lt p d : 0 <= p -> 0 < d -> p < 2 ^ 276 * d -> rnd p d < 2 ^ 277.
Proof.
  intros P D L. apply Z.le_lt_trans with (1 * 2 ^ 276); [apply rnd_le; try lia; rewrite Z.mul_1_l; lia|]. rewrite Z.mul_1_l. apply Z.pow_lt_mono_r; lia.
Qed.
(** A result of size at most [c]. *)
Lemma mkf_err p d c : 0 < d -> 1 <= c <= 2 ^ 64 -> Z.abs p <= c * U * d -> exists m, mkf p d = FF m /\ Z.abs (m * d - p) <= 65 * c * W * d.
Proof.
  intros D C B. unfold mkf. pose proof (rnd_err (Z.abs p) d ltac:(lia) D) as ER.
  assert (L : rnd (Z.abs p) d < 2 ^ 277).
  { apply rnd_lt; [lia|exact D|]. apply Z.le_lt_trans with (1 := B). replace (2 ^ 276) with (2 ^ 127 * U) by reflexivity. apply Z.mul_lt_mono_pos_r; [exact D|]. apply Z.mul_lt_mono_pos_r; [reflexivity|]. apply Z.le_lt_trans with (2 ^ 64); [lia|]. apply Z.pow_lt_mono_r; lia. }
  destruct (Z.ltb_spec (rnd (Z.abs p) d) (2 ^ 277)) as [_|G]; [|lia].
  eexists. split; [reflexivity|].
  assert (E : Z.abs (Z.sgn p * rnd (Z.abs p) d * d - p) = Z.abs (rnd (Z.abs p) d * d - Z.abs p)).
  { destruct (Z.sgn_spec p) as [[S1 S2]|[[S1 S2]|[S1 S2]]]; rewrite S2.
    - rewrite Z.mul_1_l, (Z.abs_eq p) by lia. reflexivity.
    - subst p. rewrite Z.abs_0, rnd_zero by exact D. reflexivity.
    - rewrite (Z.abs_neq p) by lia. set (q := rnd _ _). replace (- (1) * q * d - p) with (- (q * d - - p)) by ring. apply Z.abs_opp. }
  rewrite E. set (q := Z.abs (_ * d - _)) in *. rewrite U_W in B. pose proof W_pos as WP.
  assert (16777216 * q <= c * (1073741824 * W) * d + 16777216 * d) by lia.
  assert (1 <= c * W) by nia.
  replace (65 * c * W * d) with (64 * (c * W * d) + c * W * d) by ring. replace (c * (1073741824 * W) * d) with (16777216 * (64 * (c * W * d))) in H by ring.
  assert (1 * d <= c * W * d) by (apply Z.mul_le_mono_nonneg_r; lia). lia.
Qed.
Lemma fadd_err x y c : 1 <= c <= 2 ^ 64 -> Z.abs (x + y) <= c * U -> exists m, fadd (FF x) (FF y) = FF m /\ Z.abs (m - (x + y)) <= 65 * c * W.
Proof.
  intros C B. destruct (mkf_err (x + y) 1 c ltac:(lia) C ltac:(lia)) as (m & E & R). exists m. split; [exact E|]. lia.
Qed.
Lemma fsub_err x y c : 1 <= c <= 2 ^ 64 -> Z.abs (x - y) <= c * U -> exists m, fsub (FF x) (FF y) = FF m /\ Z.abs (m - (x - y)) <= 65 * c * W.
Proof.
  intros C B. exact (fadd_err x (- y) c C B).
Qed.
Lemma fmul_err x y c : 1 <= c <= 2 ^ 64 -> Z.abs (x * y) <= c * U * U -> exists m, fmul (FF x) (FF y) = FF m /\ Z.abs (m * U - x * y) <= 65 * c * W * U.
Proof.
  intros C B. destruct (mkf_err (x * y) U c U_pos C B) as (m & E & R). exists m. split; [exact E|exact R].
Qed.
