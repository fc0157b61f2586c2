(** What scaling by a factor means.  The factor is [f] / U, positions are in units of U. *)
From Verif Require Import Base BaseLemmas Flt Gray Img WarpSpec.
Local Open Scope Z_scope.

(** [f] is so far below one that the rounding of positions up to [n] does not matter:
    f / U <= 1 / (1 + n / 2^22). *)
Definition shrinks (f n : Z) : Prop := 0 < f /\ f * (2 ^ 22 + n) <= 2 ^ 22 * U.
(** [d] is n * f rounded down, up to the rounding of the product to a float. *)
Definition scaled_size (f n d : Z) : Prop :=
  2 ^ 24 * (d * U) <= (2 ^ 24 + 1) * (n * f) + 2 ^ 24 /\ (2 ^ 24 - 1) * (n * f) - 2 ^ 24 < 2 ^ 24 * ((d + 1) * U).
(** [X] is k / f, to a relative error of 2^-22. *)
Definition scaled_pos (f k X : Z) : Prop := 2 ^ 22 * Z.abs (X * f - k * U * U) <= k * U * U.
(** [m] is q / U^2 except for 1/256, as a float. *)
Definition close (m : flt) (q : Z) : Prop := exists z, m = FF z /\ 256 * Z.abs (z * U - q) <= U ^ 2.
