(** C134: mean and standard deviation.  [qsort] is any permutation of the data. *)
From Coq Require Import Reals List ZArith Lra Lia Sorting.Permutation Psatz.
From Verif Require Import MomModel MomSpec MomProofs.
Import ListNotations.
Local Open Scope R_scope.

Theorem C134_moments : forall qsort x, (forall l, Permutation l (qsort l)) -> x <> [] ->
  is_mean x (fst (dmoments qsort x)) /\ ((2 <= length x)%nat -> is_stdev x (fst (dmoments qsort x)) (snd (dmoments qsort x))) /\
  (length x = 1%nat -> snd (dmoments qsort x) = 0).
Proof.
  intros qsort x Q NE. destruct x as [|a [|b x]]; [congruence| |].
  - cbn. split; [unfold is_mean; cbn; lra|]. split; [lia|auto].
  - set (y := a :: b :: x) in *. change (dmoments qsort y) with (let z := qsort y in let mean := mean_loop z in (mean, stdev_loop mean z)). cbv zeta. cbn [fst snd].
    pose proof (Permutation_sym (Q y)) as P. assert (LY : (2 <= length (qsort y))%nat) by (rewrite (Permutation_length P); cbn; lia).
    split; [apply (is_mean_perm _ _ _ P), mean_loop_spec; intro X; rewrite X in LY; cbn in LY; lia|]. split; [|intro X; discriminate X].
    intros _. apply (is_stdev_perm _ _ _ _ P). now apply stdev_loop_spec.
Qed.
Print Assumptions C134_moments.
(** The same for ints. *)
Theorem C134_int : forall qsort x, (forall l, Permutation l (qsort l)) -> x <> [] ->
  is_mean (map IZR x) (fst (imoments qsort x)) /\ ((2 <= length x)%nat -> is_stdev (map IZR x) (fst (imoments qsort x)) (snd (imoments qsort x))) /\
  (length x = 1%nat -> snd (imoments qsort x) = 0).
Proof.
  intros qsort x Q NE. destruct x as [|a [|b x]]; [congruence| |].
  - cbn. split; [unfold is_mean; cbn; lra|]. split; [lia|auto].
  - set (y := a :: b :: x) in *. change (imoments qsort y) with (let z := map IZR (qsort y) in let mean := mean_loop z in (mean, stdev_loop mean z)). cbv zeta. cbn [fst snd].
    pose proof (Permutation_map IZR (Permutation_sym (Q y))) as P. assert (LY : (2 <= length (map IZR (qsort y)))%nat) by (rewrite (Permutation_length P); cbn; lia).
    split; [apply (is_mean_perm _ _ _ P), mean_loop_spec; intro X; rewrite X in LY; cbn in LY; lia|]. split; [|intro X; discriminate X].
    intros _. apply (is_stdev_perm _ _ _ _ P). now apply stdev_loop_spec.
Qed.
Print Assumptions C134_int.
(** No data. *)
Theorem C134_empty : forall q q', dmoments q [] = (0, 0) /\ imoments q' [] = (0, 0).
Proof. split; reflexivity. Qed.
Print Assumptions C134_empty.
(** The order of the data does not matter. *)
Theorem C134_order : forall qsort qsort' x y, (forall l, Permutation l (qsort l)) -> (forall l, Permutation l (qsort' l)) -> Permutation x y ->
  dmoments qsort x = dmoments qsort' y.
Proof.
  intros q q' x y Q Q' P. destruct x as [|a x]; [apply Permutation_nil in P; now subst|]. assert (NX : a :: x <> []) by discriminate. set (z := a :: x) in *. clearbody z.
  assert (NY : y <> []) by (intros ->; apply Permutation_sym, Permutation_nil in P; congruence).
  destruct (C134_moments q z Q NX) as (M & S & S1). destruct (C134_moments q' y Q' NY) as (M' & S' & S1'). pose proof (Permutation_length P) as L.
  apply (is_mean_perm _ _ _ (Permutation_sym P)) in M'. pose proof (mean_unique _ _ _ NX M M') as EM. destruct (dmoments q z) as [m s], (dmoments q' y) as [m' s']. cbn [fst snd] in *. subst m'.
  f_equal. destruct (Nat.lt_ge_cases (length z) 2) as [LT|GE].
  - assert (L1 : length z = 1%nat) by (destruct z as [|? [|? ?]]; [congruence|reflexivity|cbn in LT; lia]). rewrite S1, S1' by lia. reflexivity.
  - specialize (S GE). specialize (S' ltac:(lia)). apply (is_stdev_perm _ _ _ _ (Permutation_sym P)) in S'. exact (stdev_unique z m s s' GE S S').
Qed.
Print Assumptions C134_order.
(** The mean lies between the smallest and the largest value; the deviation is 0
    exactly for constant data. *)
Theorem C134_range : forall qsort x a b, (forall l, Permutation l (qsort l)) -> x <> [] -> (forall v, In v x -> a <= v <= b) ->
  a <= fst (dmoments qsort x) <= b /\ 0 <= snd (dmoments qsort x) /\ (snd (dmoments qsort x) = 0 <-> forall v w, In v x -> In w x -> v = w).
Proof.
  intros q x a b Q NX B. destruct (C134_moments q x Q NX) as (M & S & S1). destruct (dmoments q x) as [m s]. cbn [fst snd] in *.
  assert (P : 0 < INR (length x)) by (apply lt_0_INR; destruct x; [congruence|cbn; lia]). pose proof (total_bounds x a b B) as T. unfold is_mean in M.
  split; [split; apply Rmult_le_reg_l with (INR (length x)); lra|]. destruct (Nat.lt_ge_cases (length x) 2) as [LT|GE].
  - assert (L1 : length x = 1%nat) by (destruct x as [|? [|? ?]]; [congruence|reflexivity|cbn in LT; lia]). rewrite S1 by exact L1. split; [lra|]. split; [|reflexivity]. intros _ v w V W. destruct x as [|u [|? ?]]; try discriminate. destruct V as [<-|[]], W as [<-|[]]. reflexivity.
  - destruct (S GE) as (S0 & SS). split; [exact S0|]. pose proof (two_INR x GE) as P2. split.
    + intros -> v w V W. assert (Z : forall u, In u x -> u = m).
      { intros u U. assert (D : (u - m) ^ 2 = 0). { apply (total_zero (map (fun v => (v - m) ^ 2) x)); [intros z I; apply in_map_iff in I; destruct I as (z' & <- & _); apply pow2_ge_0|rewrite <- SS; ring|]. apply in_map_iff. now exists u. } nra. }
      now rewrite (Z v V), (Z w W).
    + intro C. assert (Z : forall u, In u x -> u = m).
      { intros u U. pose proof (total_bounds x u u) as TB. assert (F : forall v, In v x -> u <= v <= u) by (intros v V; rewrite (C v u V U); lra). specialize (TB F). apply Rmult_eq_reg_l with (INR (length x)); lra. }
      assert (T0 : total (map (fun v => (v - m) ^ 2) x) = 0).
      { clear -Z. induction x as [|u x IH]; [reflexivity|]. cbn [map total]. rewrite IH by (intros; apply Z; now right). rewrite (Z u (or_introl eq_refl)). ring. }
      rewrite T0 in SS. nra.
Qed.
Print Assumptions C134_range.
(** Changing the unit and the origin of the data. *)
Theorem C134_affine : forall qsort x a b, (forall l, Permutation l (qsort l)) -> x <> [] ->
  fst (dmoments qsort (map (fun v => a * v + b) x)) = a * fst (dmoments qsort x) + b /\ snd (dmoments qsort (map (fun v => a * v + b) x)) = Rabs a * snd (dmoments qsort x).
Proof.
  intros q x a b Q NX. set (y := map (fun v => a * v + b) x). assert (NY : y <> []) by (unfold y; destruct x; [congruence|discriminate]). assert (LY : length y = length x) by apply map_length.
  destruct (C134_moments q x Q NX) as (M & S & S1). destruct (C134_moments q y Q NY) as (M' & S' & S1'). destruct (dmoments q x) as [m s], (dmoments q y) as [m' s']. cbn [fst snd] in *.
  assert (EM : m' = a * m + b). { apply (mean_unique y); [exact NY|exact M'|]. unfold is_mean in *. rewrite LY. unfold y. rewrite total_affine. rewrite <- M. ring. }
  split; [exact EM|]. destruct (Nat.lt_ge_cases (length x) 2) as [LT|GE].
  - assert (L1 : length x = 1%nat) by (destruct x as [|? [|? ?]]; [congruence|reflexivity|cbn in LT; lia]). rewrite S1 by exact L1. rewrite S1' by congruence. ring.
  - specialize (S GE). specialize (S' ltac:(lia)). apply (stdev_unique y m'); [lia|exact S'|]. destruct S as (S0 & SS). split; [apply Rmult_le_pos; [apply Rabs_pos|exact S0]|].
    rewrite LY. unfold y. rewrite map_map. rewrite Rpow_mult_distr. rewrite RPow_abs. rewrite Rabs_pos_eq by apply pow2_ge_0.
    transitivity (a ^ 2 * ((INR (length x) - 1) * s ^ 2)); [ring|]. rewrite SS. subst m'. clear. induction x as [|v x IH]; cbn [map total]; [ring|]. rewrite <- IH. ring.
Qed.
Print Assumptions C134_affine.
Example C134_example : (forall l : list R, Permutation l l) /\ dmoments (fun l => l) [1; 3] = (2, sqrt 2).
Proof.
  split; [auto|]. assert (M : mean_loop [1; 3] = 2) by (unfold mean_loop; cbn [fold_left length INR]; field). change (dmoments (fun l => l) [1; 3]) with (mean_loop [1; 3], stdev_loop (mean_loop [1; 3]) [1; 3]).
  rewrite M. f_equal. unfold stdev_loop. cbn [fold_left length INR]. f_equal. field.
Qed.
