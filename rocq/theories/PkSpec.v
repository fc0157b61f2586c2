(** The walk of the refinement of a peak. *)
From Coq Require Import Reals.
From Verif Require Import Base PkModel.
Local Open Scope Z_scope.

(** The move an offset [b] asks for at coordinate [x] of [w]: towards the peak if it is
    more than 0.6 away and the border of three pixels allows it. *)
Definition asks (b : R) (x w d : Z) : Prop :=
  (d = 1 /\ (b > 6 / 10)%R /\ x < w - 3) \/ (d = -1 /\ (b < - (6 / 10))%R /\ x > 3) \/
  (d = 0 /\ ((b > 6 / 10)%R -> x >= w - 3) /\ ((b < - (6 / 10))%R -> x <= 3)).
(** [k] moves lead from the first pixel to the second, each what the fit asked for. *)
Inductive walk (w h : Z) (solve : Z -> Z -> option offsets) : nat -> Z -> Z -> Z -> Z -> Prop :=
| walk_here x y : walk w h solve 0 x y x y
| walk_move k x y b dx dy x' y' : solve x y = Some b -> asks (o_x b) x w dx -> asks (o_y b) y h dy -> dx <> 0 \/ dy <> 0 ->
    walk w h solve k (x + dx) (y + dy) x' y' -> walk w h solve (S k) x y x' y'.
