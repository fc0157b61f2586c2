(** Words for the properties of float vectors and SIFT descriptors. *)
From Coq Require Import ZArith List.
From Verif Require Import Base Flt.
Import ListNotations.
Local Open Scope Z_scope.

(** A finite float that is not negative; [n] counts units of 2^-149. *)
Definition nonneg_float (x : flt) : Prop := exists n, x = FF n /\ 0 <= n < 2 ^ 277.
(** Zero, or a magnitude from 2^lo to 2^hi (1.0 is 2^149 units). *)
Definition zero_or_between (lo hi n : Z) : Prop := n = 0 \/ 2 ^ (149 + lo) <= n <= 2 ^ (149 + hi).
(** The sum of the exact squares. *)
Fixpoint sum_sq (ns : list Z) : Z := match ns with [] => 0 | n :: ns => n * n + sum_sq ns end.
(** Ordering of floats, for finite ones. *)
Definition at_most (x y : flt) : Prop := match x, y with FF a, FF b => a <= b | _, _ => False end.
(** [i] is the first index of a largest element, for a strict order [lt]. *)
Definition first_largest {A} (lt : A -> A -> Prop) (v : list A) (i : Z) : Prop :=
  0 <= i < Z.of_nat (length v) /\
  exists x, nth_error v (Z.to_nat i) = Some x /\
    (forall j y, nth_error v j = Some y -> ~ lt x y) /\
    (forall j y, nth_error v j = Some y -> (j < Z.to_nat i)%nat -> lt y x).

(** What a descriptor cell should hold, over the reals: the share of the cell in
    the length of the vector, at most one fifth, divided by the length of the
    vector of these shares, in units of 1/512. *)
From Coq Require Import Reals.
Definition length_of (xs : list R) : R := sqrt (fold_right (fun x s => (x * x + s)%R) 0%R xs).
Definition capped_share (ns : list Z) (n : Z) : R := Rmin (IZR n / length_of (map IZR ns)) (1 / 5).
Definition ideal_cell (ns : list Z) (n : Z) : R := (512 * (capped_share ns n / length_of (map (capped_share ns) ns)))%R.
