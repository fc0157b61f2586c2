(** The error function (C157). *)
From Coq Require Import Reals Lra.
From Verif Require Import Base ErfModel ErfProofs.
Local Open Scope R_scope.

(** ** C157 *)
(** It increases strictly on the whole line. *)
Theorem C157_increasing : forall x y, x < y -> nx_erf x < nx_erf y.
Proof.
  intros x y L. destruct (Rlt_dec x 0) as [X|X], (Rlt_dec y 0) as [Y|Y].
  - rewrite !erf_neg by lra. pose proof (tail_decr (- y) (- x) ltac:(lra) ltac:(lra)). lra.
  - rewrite erf_neg, erf_pos by lra. pose proof (tail_bounds (- x) ltac:(lra)). pose proof (tail_bounds y ltac:(lra)). lra.
  - lra.
  - rewrite !erf_pos by lra. pose proof (tail_decr x y ltac:(lra) L). lra.
Qed.
Print Assumptions C157_increasing.
(** It lies strictly between -1 and 1 and has the sign of its argument. *)
Theorem C157_range : forall x, -1 < nx_erf x < 1 /\ (0 <= x -> 0 < nx_erf x) /\ (x < 0 -> nx_erf x < 0).
Proof.
  intros x. destruct (Rlt_dec x 0) as [X|X].
  - rewrite erf_neg by lra. pose proof (tail_bounds (- x) ltac:(lra)). repeat split; intros; lra.
  - rewrite erf_pos by lra. pose proof (tail_bounds x ltac:(lra)). repeat split; intros; lra.
Qed.
Print Assumptions C157_range.
(** It approaches 1 as fast as exp (-x^2) vanishes. *)
Theorem C157_tail : forall x, 0 <= x -> 0 < 1 - nx_erf x < exp (- x ^ 2).
Proof. intros x X. rewrite erf_pos by lra. pose proof (tail_bounds x X). replace (- x ^ 2) with (- x * x) by ring. lra. Qed.
Print Assumptions C157_tail.
(** It is odd except at 0. *)
Theorem C157_odd_partial : forall x, x <> 0 -> nx_erf (- x) = - nx_erf x.
Proof.
  intros x X. destruct (Rlt_dec x 0) as [L|L].
  - rewrite (erf_neg x L), erf_pos by lra. ring.
  - rewrite (erf_pos x), erf_neg by lra. rewrite Ropp_involutive. reflexivity.
Qed.
Print Assumptions C157_odd_partial.
(** At 0 it is 1e-9. *)
Theorem C157_zero_refuted : nx_erf 0 = 1 / 1000000000 /\ nx_erf (- 0) <> - nx_erf 0.
Proof.
  assert (E : nx_erf 0 = 1 / 1000000000).
  { rewrite erf_pos by lra. unfold tail. replace (tt 0) with 1 by (unfold tt; field). replace (- 0 * 0) with 0 by ring. rewrite gp_1, exp_0. lra. }
  split; [exact E|]. rewrite Ropp_0, E. lra.
Qed.
Print Assumptions C157_zero_refuted.
Example C157_example : nx_erf (-1) < nx_erf (-1/2) < 0 /\ 0 < nx_erf (1/2) < nx_erf 1.
Proof. repeat split; try (apply C157_increasing; lra); apply (C157_range _); lra. Qed.
