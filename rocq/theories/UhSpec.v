(** What the record of a search for a homography says. *)
From Verif Require Import Base Dbl UsacModel.
Local Open Scope Z_scope.

(** A sampled homography that passed the shape check. *)
Definition accepted (log : list event) (mo : model) : Prop := In (ECheck mo true) log.
(** The number of samples drawn. *)
Fixpoint n_samples (log : list event) : Z :=
  match log with [] => 0 | ESample _ :: log => 1 + n_samples log | _ :: log => n_samples log end.
(** A source of random numbers that brings every index of every pool four times
    over, [k] times. *)
Definition covers (n : Z) (b : list Z) : Prop :=
  forall top i, 4 <= top <= n -> 0 <= i < top -> exists r, In r b /\ draw top r = i.
Inductive rich (n : Z) : nat -> list Z -> Prop :=
| rich_0 rs : rich n 0 rs
| rich_S k b0 b1 b2 b3 rs : covers n b0 -> covers n b1 -> covers n b2 -> covers n b3 -> rich n k rs -> rich n (S k) (b0 ++ b1 ++ b2 ++ b3 ++ rs).
