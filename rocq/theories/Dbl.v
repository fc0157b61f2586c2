(** IEEE 754 binary64 values as their 64-bit patterns: order and conversion to
    int.  No arithmetic. *)
From Verif Require Import Base.
Local Open Scope Z_scope.

Notation dbl := N (only parsing).
Definition d_sign (x : dbl) : bool := N.testbit x 63.
Definition d_mag (x : dbl) : Z := Z.of_N (N.land x 9223372036854775807).
Definition D_INF_MAG : Z := 9218868437227405312.   (* 0x7FF0000000000000 *)
Definition d_nan (x : dbl) : bool := D_INF_MAG <? d_mag x.
Definition d_finite (x : dbl) : bool := d_mag x <? D_INF_MAG.
(** Order isomorphism of the values that are not NaN into the integers; the two
    zeros are equal. *)
Definition d_key (x : dbl) : Z := if d_sign x then - d_mag x else d_mag x.
(** The C comparisons x < y and x > y. *)
Definition d_lt (x y : dbl) : bool := negb (d_nan x) && negb (d_nan y) && (d_key x <? d_key y).
Definition d_gt (x y : dbl) : bool := d_lt y x.
Definition D_MAX : dbl := 9218868437227405311%N.      (* DBL_MAX *)
Definition D_MINUS_MAX : dbl := 18442240474082181119%N.  (* -DBL_MAX *)
Definition D_ZERO : dbl := 0%N.

(** (int)x: truncation; out of range is undefined. *)
Definition d_trunc (x : dbl) : Z :=
  let e := d_mag x / 2 ^ 52 in
  let f := d_mag x mod 2 ^ 52 in
  let m := if e =? 0 then f else f + 2 ^ 52 in
  let e := if e =? 0 then 1 else e in
  let a := if 1075 <=? e then m * 2 ^ (e - 1075) else m / 2 ^ (1075 - e) in
  if d_sign x then - a else a.
Definition d_to_int (x : dbl) : res Z :=
  if d_finite x then chk_int (d_trunc x) else UB.

Lemma d_lt_irrefl x : d_lt x x = false.
Proof. unfold d_lt. rewrite Z.ltb_irrefl. apply andb_false_r. Qed.
Lemma d_lt_trans x y z : d_lt x y = true -> d_lt y z = true -> d_lt x z = true.
Proof. unfold d_lt. destruct (d_nan x), (d_nan y), (d_nan z); cbn; try discriminate. lia. Qed.
Lemma d_lt_asym x y : d_lt x y = true -> d_lt y x = false.
Proof. unfold d_lt. destruct (d_nan x), (d_nan y); cbn; try discriminate; auto. lia. Qed.
(** A bound stays a bound when it grows. *)
Lemma d_gt_grow s b b' : d_gt s b = false -> d_gt b' b = true -> d_gt s b' = false.
Proof. unfold d_gt, d_lt. destruct (d_nan s), (d_nan b), (d_nan b'); cbn; try discriminate; auto. lia. Qed.
Lemma d_gt_nan s b : d_gt s b = true -> d_nan s = false.
Proof. unfold d_gt, d_lt. destruct (d_nan s), (d_nan b); cbn; congruence. Qed.
