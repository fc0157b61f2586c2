(** Medians and quartiles, and what the C library's sort promises. *)
From Verif Require Import Base.
From Coq Require Import Sorting.Permutation Sorting.Sorted.
Local Open Scope Z_scope.

(** The median: the middle element, or the mean of the two middle ones. *)
Inductive is_median {A B} (conv : A -> B) (avg : A -> A -> B) : list A -> B -> Prop :=
| median_odd : forall a x b, length a = length b -> is_median conv avg (a ++ [x] ++ b) (conv x)
| median_even : forall a x y b, length a = length b -> is_median conv avg (a ++ [x; y] ++ b) (avg x y).
(** The median-of-halves rule for sorted data [s]: the halves leave out the
    middle element if there is one. *)
Definition five_numbers {A B} (conv : A -> B) (avg : A -> A -> B) (s : list A) (median lq uq : B) : Prop :=
  exists lo mid hi, s = lo ++ mid ++ hi /\ length lo = length hi /\ (length mid <= 1)%nat /\
  is_median conv avg s median /\ is_median conv avg lo lq /\ is_median conv avg hi uq.

(** A comparator orders the elements of [l]. *)
Definition orders {A} (cmp : A -> A -> Z) (l : list A) : Prop :=
  (forall a b, In a l -> In b l -> Z.sgn (cmp a b) = - Z.sgn (cmp b a)) /\
  (forall a b c, In a l -> In b l -> In c l -> cmp a b <= 0 -> cmp b c <= 0 -> cmp a c <= 0).
(** qsort (ISO C 7.22.5.2). *)
Definition qsort_contract {A} (qsort : (A -> A -> Z) -> list A -> list A) : Prop :=
  forall cmp l, orders cmp l -> Permutation l (qsort cmp l) /\ StronglySorted (fun a b => cmp a b <= 0) (qsort cmp l).
