(** What the bit operations are meant to compute, in plain arithmetic. *)
From Verif Require Import Base.
Local Open Scope N_scope.

(** Number of one bits among the [w] lowest bits of [x]. *)
Definition ones (w : nat) (x : N) : N :=
  N.of_nat (length (filter (fun i => N.testbit x (N.of_nat i)) (seq 0 w))).

(** [r] is [x] rotated right by [n] in a [w]-bit word. *)
Definition is_rotr (w n x r : N) : Prop :=
  r < 2 ^ w /\
  forall i, i < w -> N.testbit r i = N.testbit x ((i + n) mod w).

(** Base-256 digits of [x], most significant first. *)
Fixpoint digits256 (k : nat) (x : N) : list N :=
  match k with
  | O => []
  | S j => (x / 256 ^ N.of_nat j) mod 256 :: digits256 j x
  end.

(** Value of a big-endian byte string. *)
Fixpoint be_value (acc : N) (l : list N) : N :=
  match l with
  | [] => acc
  | b :: t => be_value (acc * 256 + b) t
  end.

(** The abstract bit array: last value stored at each index. *)
Definition bits_store (m : N -> bool) (op : N * bool) : N -> bool :=
  fun k => if k =? fst op then snd op else m k.
Definition bits_after (m : N -> bool) (ops : list (N * bool)) : N -> bool :=
  fold_left bits_store ops m.
