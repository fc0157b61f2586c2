(** What the samples of a normal distribution must be, for the stream of words of
    the uniform sampler. *)
From Verif Require Import Base BaseLemmas Flt SfmtModel SfmtSpec GaussModel.
Local Open Scope nat_scope.

Section Spec.
Context {D : Type}.
Variable A : arith D.
Variable w : nat -> N.   (* the 32-bit words of the uniform sampler *)
(** The t-th pair of uniform values as a point of the square [-1, 1] x [-1, 1],
    and its squared distance to the centre. *)
Definition coord (k : nat) : D := sub A (mul A (c2 A) (conv A (real2_s (w k)))) (c1 A).
Definition dist2 (t : nat) : D := add A (mul A (coord (2 * t)) (coord (2 * t))) (mul A (coord (2 * t + 1)) (coord (2 * t + 1))).
Definition inside (t : nat) : bool := negb (ge A (dist2 t) (c1 A)).
(** Pair t is the i-th (from 0) that lies inside the circle. *)
Definition nth_inside (i t : nat) : Prop := inside t = true /\ length (filter inside (seq 0 t)) = i.
(** The sample made from coordinate c (0 or 1) of pair t. *)
Definition polar (mean sigma : D) (t c : nat) : D :=
  add A (mul A (mul A sigma (sqrt A (div A (mul A (cm2 A) (log A (dist2 t))) (dist2 t)))) (coord (2 * t + c))) mean.
(** The array of a request answered from the accepted pairs p, p + 1, ... *)
Definition answered (r : request D) (p : nat) (o : list D) : Prop :=
  length o = length (r_buf r) /\
  forall j, j < Z.to_nat (r_n r) -> exists t, nth_inside (p + j / 2) t /\ nth_error o j = Some (polar (r_mean r) (r_sigma r) t (j mod 2)).
(** The number of pairs a request uses. *)
Definition pairs_used (r : request D) : nat := (Z.to_nat (r_n r) + 1) / 2.
Fixpoint all_answered (rs : list (request D)) (p : nat) (os : list (list D)) : Prop :=
  match rs, os with
  | [], [] => True
  | r :: rs', o :: os' => answered r p o /\ all_answered rs' (p + pairs_used r) os'
  | _, _ => False
  end.
Definition total_pairs (rs : list (request D)) : nat := list_sum (map pairs_used rs).
End Spec.
(** Requests a program can make: a count that is not negative and an array of at
    least (here: exactly) that length. *)
Definition sound {D} (r : request D) : Prop := (0 <= r_n r <= INT_MAX)%Z /\ Z.of_nat (length (r_buf r)) = r_n r.
