(** nx_erf, over the reals: src/nx_math.c.  The rounding of doubles is not modelled;
    exp and fabs are the mathematical functions. *)
From Coq Require Import Reals.
From Verif Require Import Base.
Local Open Scope R_scope.

(** src/nx_math.c:32-54. *)
Definition nx_erf (x0 : R) : R :=
  let a1 := 254829592 / 1000000000 in
  let a2 := - (284496736 / 1000000000) in
  let a3 := 1421413741 / 1000000000 in
  let a4 := - (1453152027 / 1000000000) in
  let a5 := 1061405429 / 1000000000 in
  let p := 3275911 / 10000000 in
  let sign := if Rlt_dec x0 0 then -1 else 1 in
  let x := Rabs x0 in
  let t := 1 / (1 + p * x) in
  let y := 1 - (((((a5 * t + a4) * t) + a3) * t + a2) * t + a1) * t * exp (- x * x) in
  sign * y.
