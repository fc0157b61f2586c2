(** The arithmetic mean and the sample standard deviation. *)
From Coq Require Import Reals List.
Import ListNotations.
Local Open Scope R_scope.
Fixpoint total (x : list R) : R := match x with [] => 0 | v :: x => v + total x end.
(** n * mean is the sum. *)
Definition is_mean (x : list R) (m : R) : Prop := INR (length x) * m = total x.
(** s is not negative and (n - 1) * s^2 is the sum of the squared distances from
    the mean. *)
Definition is_stdev (x : list R) (m s : R) : Prop := 0 <= s /\ (INR (length x) - 1) * s ^ 2 = total (map (fun v => (v - m) ^ 2) x).
