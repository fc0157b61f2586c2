(** Proofs about nx_erf. *)
From Coq Require Import Reals Lra.
From Verif Require Import Base ErfModel.
Local Open Scope R_scope.

Definition gp (t : R) : R :=
  (((((1061405429 / 1000000000) * t + - (1453152027 / 1000000000)) * t + 1421413741 / 1000000000) * t + - (284496736 / 1000000000)) * t + 254829592 / 1000000000) * t.
Definition tt (x : R) : R := 1 / (1 + 3275911 / 10000000 * x).
Definition tail (x : R) : R := gp (tt x) * exp (- x * x).

Lemma erf_pos x : 0 <= x -> nx_erf x = 1 - tail x.
Proof. intros X. unfold nx_erf, tail, gp, tt. destruct (Rlt_dec x 0); [lra|]. rewrite (Rabs_pos_eq x X). ring. Qed.
Lemma erf_neg x : x < 0 -> nx_erf x = - (1 - tail (- x)).
Proof. intros X. unfold nx_erf, tail, gp, tt. destruct (Rlt_dec x 0); [|lra]. rewrite (Rabs_left x X). ring. Qed.

(** The polynomial increases: its difference quotient is positive. *)
Definition dg (t : R) : R :=
  254829592 / 1000000000 + 2 * (- (284496736 / 1000000000)) * t + 3 * (1421413741 / 1000000000) * t ^ 2 + 4 * (- (1453152027 / 1000000000)) * t ^ 3 + 5 * (1061405429 / 1000000000) * t ^ 4.
Lemma dg_pos t : 0 < dg t.
Proof.
  unfold dg.
  assert (E : 254829592 / 1000000000 + 2 * (- (284496736 / 1000000000)) * t + 3 * (1421413741 / 1000000000) * t ^ 2 + 4 * (- (1453152027 / 1000000000)) * t ^ 3 + 5 * (1061405429 / 1000000000) * t ^ 4 =
    5 * (1061405429 / 1000000000) * (t * (t - 5477/10000)) ^ 2 + (3 * (1421413741 / 1000000000) - 5 * (1061405429 / 1000000000) * (5477/10000)^2) * t ^ 2
    + (4 * (- (1453152027 / 1000000000)) + 2 * (5 * (1061405429 / 1000000000)) * (5477/10000)) * t^3 + 2 * (- (284496736 / 1000000000)) * t + 254829592 / 1000000000) by field.
  rewrite E. clear E.
  nra.
Qed.
(** Boole's rule is exact for polynomials of degree four. *)
Lemma gp_incr t s : t < s -> gp t < gp s.
Proof.
  intros L.
  assert (E : gp s - gp t = (s - t) / 90 * (7 * dg t + 32 * dg (t + (s - t) / 4) + 12 * dg (t + (s - t) / 2) + 32 * dg (t + 3 * (s - t) / 4) + 7 * dg s)) by (unfold gp, dg; field).
  pose proof (dg_pos t). pose proof (dg_pos (t + (s - t) / 4)). pose proof (dg_pos (t + (s - t) / 2)). pose proof (dg_pos (t + 3 * (s - t) / 4)). pose proof (dg_pos s).
  assert (0 < (s - t) / 90 * (7 * dg t + 32 * dg (t + (s - t) / 4) + 12 * dg (t + (s - t) / 2) + 32 * dg (t + 3 * (s - t) / 4) + 7 * dg s)) by (apply Rmult_lt_0_compat; lra).
  lra.
Qed.
Lemma gp_0 : gp 0 = 0.
Proof. unfold gp. ring. Qed.
Lemma gp_1 : gp 1 = 1 - 1 / 1000000000.
Proof. unfold gp. field. Qed.
Lemma tt_decr x y : 0 <= x -> x < y -> 0 < tt y < tt x /\ tt x <= 1.
Proof.
  intros X L. unfold tt. split; [split|].
  - apply Rdiv_lt_0_compat; lra.
  - unfold Rdiv. rewrite !Rmult_1_l. apply Rinv_lt_contravar; [apply Rmult_lt_0_compat; lra|lra].
  - apply Rmult_le_reg_r with (1 + 3275911 / 10000000 * x); [lra|]. unfold Rdiv at 1. rewrite Rmult_assoc, Rinv_l by lra. lra.
Qed.
Lemma tail_bounds x : 0 <= x -> 0 < tail x /\ tail x < exp (- x * x) /\ tail x <= 1 - 1 / 1000000000.
Proof.
  intros X. destruct (tt_decr x (x + 1) X ltac:(lra)) as [[T0 T1] T2].
  assert (G0 : 0 < gp (tt x)) by (rewrite <- gp_0; apply gp_incr; lra).
  assert (G1 : gp (tt x) <= 1 - 1 / 1000000000).
  { rewrite <- gp_1. destruct T2 as [T2|T2]; [left; now apply gp_incr|rewrite T2; right; reflexivity]. }
  pose proof (exp_pos (- x * x)) as E0. assert (E1 : exp (- x * x) <= 1).
  { rewrite <- exp_0. destruct X as [X| <-]; [left; apply exp_increasing; nra|right; f_equal; ring]. }
  unfold tail. repeat split; nra.
Qed.
Lemma tail_decr x y : 0 <= x -> x < y -> tail y < tail x.
Proof.
  intros X L. destruct (tt_decr x y X L) as [[T0 T1] T2]. pose proof (gp_incr _ _ T1) as G. assert (G0 : 0 < gp (tt y)) by (rewrite <- gp_0; apply gp_incr; lra).
  assert (E : exp (- y * y) < exp (- x * x)) by (apply exp_increasing; nra). pose proof (exp_pos (- y * y)). unfold tail. nra.
Qed.
