(** Extrema, circular histograms and trilinear cells. *)
From Verif Require Import Base Flt SiftDogModel.

Local Open Scope Z_scope.

(** A float image with its rows in memory. *)
Definition dimg_ok (im : dimg) (w h stride : Z) : Prop :=
  d_w im = w /\ d_h im = h /\ d_stride im = stride /\ Z.of_nat (length (d_data im)) = stride * h.
(** The pixel in column x of row y. *)
Definition pixel (im : dimg) (y x : Z) : flt := nth (Z.to_nat (y * d_stride im + x)) (d_data im) FNaN.
(** The value at (x, y) compares like [cmp] with all its 26 neighbours. *)
Definition beats_all (cmp : flt -> flt -> bool) (dogm dog dogp : dimg) (y x : Z) : Prop :=
  forall dy dx, -1 <= dy <= 1 -> -1 <= dx <= 1 ->
    cmp (pixel dog y x) (pixel dogm (y + dy) (x + dx)) = true /\
    cmp (pixel dog y x) (pixel dogp (y + dy) (x + dx)) = true /\
    (dy <> 0 \/ dx <> 0 -> cmp (pixel dog y x) (pixel dog (y + dy) (x + dx)) = true).
(** A positive strict maximum or a negative strict minimum. *)
Definition extremum (dogm dog dogp : dimg) (y x : Z) : Prop :=
  (f_gt (pixel dog y x) F0 = true /\ beats_all f_gt dogm dog dogp y x) \/
  (f_lt (pixel dog y x) F0 = true /\ beats_all f_lt dogm dog dogp y x).
(** The 3 x 3 pixels around a place, row by row. *)
Definition patch (dog : dimg) (y x : Z) : list flt :=
  map (fun d => pixel dog (y + fst d) (x + snd d)) [(-1, -1); (-1, 0); (-1, 1); (0, -1); (0, 0); (0, 1); (1, -1); (1, 0); (1, 1)].

(** One round of circular averaging of 36 bins. *)
Definition bin (h : list flt) (i : nat) : flt := nth (i mod 36) h FNaN.
Definition circular_average (h : list flt) : list flt :=
  map (fun i => avg3 (bin h (i + 35)) (bin h i) (bin h (i + 1))) (seq 0 36).
(** The largest of the bins. *)
Definition largest (h : list flt) (m : flt) : Prop := In m h /\ forall v, In v h -> f_gt v m = false.
(** Bin [i] (from 0) is larger than both circular neighbours and than 0.8
    times the largest. *)
Definition circular_peak (h : list flt) (m : flt) (i : nat) : Prop :=
  f_gt (bin h i) (bin h (i + 35)) = true /\ f_gt (bin h i) (bin h (i + 1)) = true /\ f_gt (bin h i) (fmul m F08) = true.

(** What a sample adds to row r, column c, bin b of the descriptor. *)
Definition share (pxi pyi hi : Z) (xeps yeps heps weight : flt) (r c b : Z) : option flt :=
  let wy := if r =? pyi then Some (fmul weight (fsub F1 yeps)) else if r =? pyi + 1 then Some (fmul weight yeps) else None in
  match wy with
  | None => None
  | Some w =>
    let wx := if c =? pxi then Some (fmul w (fsub F1 xeps)) else if c =? pxi + 1 then Some (fmul w xeps) else None in
    match wx with
    | None => None
    | Some ww => if b =? hi mod 8 then Some (fsub ww (fmul ww heps)) else if b =? (hi + 1) mod 8 then Some (fmul ww heps) else None
    end
  end.
(** [pi] is the cell a coordinate falls in: pi <= v <= pi + 1, up to 2^-19 for
    the rounding of v - 1. *)
Definition cell_of (v : Z) (pi : Z) : Prop := pi * U <= v <= (pi + 1) * U + 2 ^ 130.
