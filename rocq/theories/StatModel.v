(** Model of src/nx_statistics.c (order statistics, extrema) and of the
    comparators of include/virg/nexus/nx_math.h:86-106.  Mean and standard
    deviation are left out. *)
From Verif Require Import Base BaseLemmas Dbl.
Local Open Scope Z_scope.

(** nx_compare_int_incr, nx_math.h:100-106. *)
Definition compare_int_incr (i0 i1 : Z) : res Z := chk_int (i0 - i1).
(** nx_compare_double_incr, nx_math.h:86-98. *)
Definition compare_double_incr (d0 d1 : dbl) : Z :=
  if d_lt d0 d1 then -1 else if d_gt d0 d1 then 1 else 0.

Section Quartiles.
(** [A]: the data; [B]: the statistics, doubles.  [conv] is the conversion,
    [avg x y] is (x + y) / 2.0. *)
Variables (A B : Type) (conv : A -> B) (avg : A -> A -> res B).
(** nx_dstatistics_1d, 60-80; nx_istatistics_1d, 130-150: (median, lower
    quartile, upper quartile) of sorted data. *)
Definition quartiles (x : list A) : res (B * B * B) :=
  let n := Z.of_nat (length x) in
  let half_n := n / 2 in
  let half_half_n := half_n / 2 in
  let at_ i := let* v := zget x i in Ok (conv v) in
  let mid i j := let* v := zget x i in let* w := zget x j in avg v w in
  if Z.odd n then
    let* median := at_ half_n in
    if Z.odd half_n then
      let* lq := at_ half_half_n in
      let* uq := at_ (half_n + half_half_n + 1) in
      Ok (median, lq, uq)
    else
      let* lq := mid (half_half_n - 1) half_half_n in
      let* uq := mid (half_n + half_half_n) (half_n + half_half_n + 1) in
      Ok (median, lq, uq)
  else
    let* median := mid (half_n - 1) half_n in
    if Z.odd half_n then
      let* lq := at_ half_half_n in
      let* uq := at_ (half_n + half_half_n) in
      Ok (median, lq, uq)
    else
      let* lq := mid (half_half_n - 1) half_half_n in
      let* uq := mid (half_n + half_half_n - 1) (half_n + half_half_n) in
      Ok (median, lq, uq).
End Quartiles.

(** The fields of struct NXStatistics1D that are modelled. *)
Record stats (B : Type) := { st_n : Z; st_median : B; st_lq : B; st_uq : B; st_min : B; st_max : B }.
Arguments st_n {B}. Arguments st_median {B}. Arguments st_lq {B}. Arguments st_uq {B}. Arguments st_min {B}. Arguments st_max {B}.
Arguments Build_stats {B}.

(** nx_istatistics_1d, 107-177.  Halves of ints are exact as doubles; the model
    counts in halves, so a value v stands for v / 2.  [ovf] is what the compiled
    comparator answers where its subtraction overflows; [qsort] is the sort of
    the C library. *)
Definition istat_conv (v : Z) : Z := 2 * v.
Definition istat_avg (v w : Z) : res Z := chk_int (v + w).
Definition istatistics (qsort : (Z -> Z -> Z) -> list Z -> list Z) (ovf : Z -> Z -> Z) (x : list Z) : res (stats Z) :=
  match x with
  | [] => Ok (Build_stats 0 0 0 0 0 0)
  | [v] => Ok (Build_stats 1 (2 * v) (2 * v) (2 * v) (2 * v) (2 * v))
  | _ =>
    let x := qsort (fun a b => match compare_int_incr a b with Ok z => z | _ => ovf a b end) x in
    let* (q, uq) := quartiles Z Z istat_conv istat_avg x in
    let (median, lq) := q : Z * Z in
    let mm := fold_left (fun '(mn, mx) v => (if v <? mn then v else mn, if mx <? v then v else mx)) x (INT_MAX, INT_MIN) in
    Ok (Build_stats (Z.of_nat (length x)) median lq uq (2 * fst mm) (2 * snd mm))
  end.

(** nx_dstatistics_1d, 37-105.  [davg x y] is (x + y) / 2.0 in double
    arithmetic. *)
Definition dstatistics (qsort : (dbl -> dbl -> Z) -> list dbl -> list dbl) (davg : dbl -> dbl -> dbl) (x : list dbl) : res (stats dbl) :=
  match x with
  | [] => Ok (Build_stats 0 D_ZERO D_ZERO D_ZERO D_ZERO D_ZERO)
  | [v] => Ok (Build_stats 1 v v v v v)
  | _ =>
    let x := qsort compare_double_incr x in
    let* (q, uq) := quartiles dbl dbl (fun v => v) (fun v w => Ok (davg v w)) x in
    let (median, lq) := q : dbl * dbl in
    let mm := fold_left (fun '(mn, mx) v => (if d_lt v mn then v else mn, if d_gt v mx then v else mx)) x (D_MAX, D_MINUS_MAX) in
    Ok (Build_stats (Z.of_nat (length x)) median lq uq (fst mm) (snd mm))
  end.
