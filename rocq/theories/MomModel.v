(** Model of the mean and the standard deviation of src/nx_statistics.c, over the
    real numbers (rounding is not modelled).  The order statistics are in
    StatModel.v. *)
From Coq Require Import Reals List ZArith.
Import ListNotations.
Local Open Scope R_scope.

(** The loops of nx_dstatistics_1d, 84-104, over the sorted data. *)
Definition mean_loop (x : list R) : R := fold_left (fun mean v => mean + v) x 0 / INR (length x).
Definition stdev_loop (mean : R) (x : list R) : R :=
  sqrt (fold_left (fun s v => let d := v - mean in s + d * d) x 0 / (INR (length x) - 1)).
(** nx_dstatistics_1d, 37-105: (mean, standard deviation). *)
Definition dmoments (qsort : list R -> list R) (x : list R) : R * R :=
  match x with
  | [] => (0, 0)
  | [v] => (v, 0)
  | _ => let x := qsort x in let mean := mean_loop x in (mean, stdev_loop mean x)
  end.
(** nx_istatistics_1d, 107-177: the ints are converted to doubles one by one. *)
Definition imoments (qsort : list Z -> list Z) (x : list Z) : R * R :=
  match x with
  | [] => (0, 0)
  | [v] => (IZR v, 0)
  | _ => let x := map IZR (qsort x) in let mean := mean_loop x in (mean, stdev_loop mean x)
  end.
