(** What the filter properties say.  A buffer is a list of samples. *)
From Verif Require Import Base Flt FilterModel.
Local Open Scope Z_scope.

Section Spec.
Context {A : Type}.
Variables (zero : A) (add sub mul : A -> A -> A) (divz : A -> Z -> A).
Definition at_ (l : list A) (i : Z) : A := nth (Z.to_nat i) l zero.
(** The sample [j] of a signal with [n] samples extended on both sides. *)
Definition extended (mode : border_mode) (n : Z) (s : Z -> A) (j : Z) : A :=
  if (0 <=? j) && (j <? n) then s j
  else match mode with
       | BZero => zero
       | BRepeat => if j <? 0 then s 0 else s (n - 1)
       | BMirror => if j <? 0 then s (- j) else s (n - 1 - (j - (n - 1)))
       end.
(** kernel[0] * s(c) + sum over k = 1 .. m of kernel[k] * (s(c - k) + s(c + k)),
    added in this order. *)
Fixpoint conv_sum (kernel s : Z -> A) (c : Z) (m : nat) : A :=
  match m with
  | O => mul (kernel 0) (s c)
  | S m => add (conv_sum kernel s c m) (mul (kernel (Z.of_nat (S m))) (add (s (c - Z.of_nat (S m))) (s (c + Z.of_nat (S m)))))
  end.
End Spec.
(** The sum of f(a), f(a + 1), ..., f(a + m - 1) over the integers. *)
Fixpoint zsum (f : Z -> Z) (a : Z) (m : nat) : Z := match m with O => 0 | S m => zsum f a m + f (a + Z.of_nat m) end.
