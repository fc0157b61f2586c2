(** Transfer of points by VGHomography, src/vg_homography.cc:31-52 and
    include/virg/nexus/vg_homography.hpp:40, and by nx_homography_transfer_fwd,
    include/virg/nexus/nx_homography.h:36-46, in memory, where the point given and the
    result may overlap.  Simplifications: over the reals; memory is total. *)
From Verif Require Import Base ProjModel.
Local Open Scope R_scope.

Notation mem := (nat -> R).
Definition upd (m : mem) (p : nat) (v : R) : mem := fun a => if Nat.eqb a p then v else m a.
(** The constructor, 31-33. *)
Definition new_homography : mat3 := M3 1 0 0 0 1 0 0 0 1.
(** set, hpp:40. *)
Definition set_homography (h h_new : mat3) : mat3 := h_new.
(** transfer_fwd<double>, 35-43, transfer_fwd<float>, 45-52, and the function in C, which
    have the same lines: [x] is read again after xp[0] is written.  None when the divisor
    s is zero (infinities or NaN are stored then). *)
Definition transfer (h : mat3) (m : mem) (xp x : nat) : option mem :=
  let s := m2 h * m x + m5 h * m (S x) + m8 h in
  if is_zero s then None else
  let s_inv := 1 / s in
  let m := upd m xp ((m0 h * m x + m3 h * m (S x) + m6 h) * s_inv) in
  let m := upd m (S xp) ((m1 h * m x + m4 h * m (S x) + m7 h) * s_inv) in
  Some m.
