From Coq Require Import Reals List ZArith Lra Lia Sorting.Permutation Psatz.
From Verif Require Import MomModel MomSpec.
Import ListNotations.
Local Open Scope R_scope.

Lemma fold_total (f : R -> R) x : forall a, fold_left (fun s v => s + f v) x a = a + total (map f x).
Proof. induction x as [|v x IH]; intro a; cbn [fold_left map total]; [lra|]. rewrite IH. lra. Qed.
Lemma total_perm x y : Permutation x y -> total x = total y.
Proof. induction 1; cbn [total]; lra. Qed.
Lemma total_pos x : (forall v, In v x -> 0 <= v) -> 0 <= total x.
Proof. induction x as [|v x IH]; intro H; cbn [total]; [lra|]. pose proof (H v (or_introl eq_refl)). specialize (IH (fun w I => H w (or_intror I))). lra. Qed.
Lemma total_zero x : (forall v, In v x -> 0 <= v) -> total x = 0 -> forall v, In v x -> v = 0.
Proof.
  induction x as [|v x IH]; intros H E w I; [destruct I|]. cbn [total] in E. pose proof (H v (or_introl eq_refl)). pose proof (total_pos x (fun w I => H w (or_intror I))).
  destruct I as [<-|I]; [lra|]. apply IH; [intros; apply H; now right|lra|exact I].
Qed.
Lemma total_bounds x a b : (forall v, In v x -> a <= v <= b) -> INR (length x) * a <= total x <= INR (length x) * b.
Proof.
  induction x as [|v x IH]; intro H; [cbn; lra|]. cbn [total]. change (length (v :: x)) with (S (length x)). rewrite S_INR. pose proof (H v (or_introl eq_refl)). specialize (IH (fun w I => H w (or_intror I))). lra.
Qed.
Lemma total_affine x a b : total (map (fun v => a * v + b) x) = a * total x + INR (length x) * b.
Proof. induction x as [|v x IH]; [cbn; lra|]. cbn [map total]. change (length (v :: x)) with (S (length x)). rewrite S_INR, IH. lra. Qed.
Lemma mean_loop_spec x : x <> [] -> is_mean x (mean_loop x).
Proof.
  intro NE. unfold is_mean, mean_loop. rewrite (fold_total (fun v => v)). rewrite map_id. assert (P : INR (length x) <> 0) by (apply not_0_INR; destruct x; [congruence|discriminate]). field. exact P.
Qed.
Lemma two_INR (x : list R) : (2 <= length x)%nat -> 1 <= INR (length x) - 1.
Proof. intro L. apply le_INR in L. change (INR 2) with (1 + 1) in L. lra. Qed.
Lemma stdev_loop_spec x m : (2 <= length x)%nat -> is_stdev x m (stdev_loop m x).
Proof.
  intro L. pose proof (two_INR x L) as P. split; [apply sqrt_pos|]. unfold stdev_loop. cbv zeta. rewrite (fold_total (fun v => (v - m) * (v - m))).
  assert (E : total (map (fun v => (v - m) * (v - m)) x) = total (map (fun v => (v - m) ^ 2) x)) by (f_equal; apply map_ext; intro v; ring).
  rewrite E. assert (T : 0 <= total (map (fun v => (v - m) ^ 2) x)) by (apply total_pos; intros v I; apply in_map_iff in I; destruct I as (w & <- & _); apply pow2_ge_0).
  set (t := total _) in *. rewrite pow2_sqrt; [field; lra|]. apply Rmult_le_pos; [lra|]. apply Rlt_le, Rinv_0_lt_compat. lra.
Qed.
Lemma mean_unique x m m' : x <> [] -> is_mean x m -> is_mean x m' -> m = m'.
Proof. unfold is_mean. intros NE A B. assert (P : INR (length x) <> 0) by (apply not_0_INR; destruct x; [congruence|discriminate]). apply Rmult_eq_reg_l with (INR (length x)); [congruence|exact P]. Qed.
Lemma stdev_unique x m s s' : (2 <= length x)%nat -> is_stdev x m s -> is_stdev x m s' -> s = s'.
Proof.
  intros L (A & B) (C & D). pose proof (two_INR x L) as P. assert (E : s ^ 2 = s' ^ 2) by (apply Rmult_eq_reg_l with (INR (length x) - 1); [congruence|lra]). nra.
Qed.
Lemma is_mean_perm x y m : Permutation x y -> is_mean x m -> is_mean y m.
Proof. intros P. unfold is_mean. now rewrite (Permutation_length P), (total_perm x y P). Qed.
Lemma is_stdev_perm x y m s : Permutation x y -> is_stdev x m s -> is_stdev y m s.
Proof. intros P (A & B). split; [exact A|]. rewrite <- (Permutation_length P), B. apply total_perm. now apply Permutation_map. Qed.
