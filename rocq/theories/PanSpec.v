(** Shortest paths to a reference image. *)
From Verif Require Import Base ProjModel ProjSpec.
Local Open Scope R_scope.

Section Paths.
Variables (n : nat) (w : nat -> nat -> R) (source : nat).
(** A path of some cost from an image to the source; w j i is the cost from i to j,
    negative if there is none. *)
Inductive path : nat -> R -> Prop :=
| P_end : path source 0
| P_step i j l : (i < n)%nat -> (j < n)%nat -> 0 <= w j i -> path j l -> path i (w j i + l).
(** The path one gets by going to the next image again and again, its cost and its number
    of steps. *)
Inductive follows (nx : nat -> option nat) : nat -> R -> nat -> Prop :=
| F_end : nx source = Some source -> follows nx source 0 0
| F_step i j l k : i <> source -> nx i = Some j -> (j < n)%nat -> i <> j -> 0 <= w j i -> follows nx j l k -> follows nx i (w j i + l) (S k).
End Paths.
(** A point of image [i] is carried to [y] along the path, image after image. *)
Inductive carried (H : nat -> nat -> option mat3) (nx : nat -> option nat) : nat -> vec2 -> vec2 -> Prop :=
| C_end i x : nx i = Some i -> carried H nx i x x
| C_step i j h x z y : i <> j -> nx i = Some j -> H j i = Some h -> maps_to h x z -> carried H nx j z y -> carried H nx i x y.
