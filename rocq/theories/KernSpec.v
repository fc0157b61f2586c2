(** What is said about Gaussian kernels and smoothing. *)
From Verif Require Import Base Flt FilterModel FilterSpec Img ImgSpec.
Local Open Scope Z_scope.

(** Values of a sampled Gaussian: 1 at the centre, nonnegative and not increasing.
    ([FF m] is m / U.) *)
Definition bell (kv : Z -> flt) (n : Z) : Prop := exists m : Z -> Z,
  (forall i, 0 <= i < n -> kv i = FF (m i)) /\ m 0 = U /\ (forall i, 0 <= i < n -> 0 <= m i <= U) /\ (forall i j, 0 <= i <= j -> j < n -> m j <= m i).
(** The weights [k 0 / U] in the middle and [k i / U] on both sides. *)
Definition weights (kernel : list flt) (k : Z -> Z) : Prop := forall i, 0 <= i < Z.of_nat (length kernel) -> at_ F0 kernel i = FF (k i) /\ 0 <= k i.
Definition total (k : Z -> Z) (n : nat) : Z := k 0 + 2 * zsum k 1 (n - 1).
(** The convolution of bytes with the exact weights, in units of 1 / U of a level;
    positions are clamped to 0 .. n-1. *)
Definition mean_at (k : Z -> Z) (r : nat) (n : Z) (s : Z -> Z) (c : Z) : Z := conv_sum Z.add Z.mul k (fun j => s (clamped n j)) c r.
(** [q] is the mean [c] rounded down, up to a quarter of a level. *)
Definition near_floor (q c : Z) : Prop := 4 * (q * U) - U <= 4 * c <= 4 * ((q + 1) * U) + U.
