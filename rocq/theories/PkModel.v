(** Refinement of the peaks of the SIFT detector: nx_sift_interp_peak_location,
    src/nx_sift_detector.c:412-488.

    Simplifications.  Real numbers.  What the 3 x 3 system of a pixel and scale gives
    (439-464: gradient, Hessian, nx_dmat3_sym_solve_single, the interpolated value) is a
    function [solve] of the pixel: the offsets in x, y, scale and the value, or nothing
    if the system is singular; that the pixel and its neighbours are read is kept. *)
From Coq Require Import Reals.
From Verif Require Import Base.
Local Open Scope Z_scope.

Record offsets := mkO { o_x : R; o_y : R; o_s : R; o_val : R }.
Section Peak.
Variables (w h : Z) (solve : Z -> Z -> option offsets).
Definition six_tenths : R := (6 / 10)%R.
(** 466-475. *)
Definition step (b : R) (x w : Z) : Z :=
  if Rlt_dec six_tenths b then if x <? w - 3 then 1 else if Rlt_dec b (- six_tenths) then if x >? 3 then -1 else 0 else 0
  else if Rlt_dec b (- six_tenths) then if x >? 3 then -1 else 0 else 0.
(** 428-480: [n] more tries at (x, y).  Rows y-1 to y+1 and columns x-1 to x+1 are
    read. *)
Fixpoint refine (n : nat) (x y : Z) : res (option (Z * Z * offsets)) :=
  match n with
  | O => NoFuel
  | S n =>
    if (1 <=? x) && (x <=? w - 2) && (1 <=? y) && (y <=? h - 2) then
      match solve x y with
      | None => Ok None
      | Some b =>
        let dx := step (o_x b) x w in
        let dy := step (o_y b) y h in
        if (dx =? 0) && (dy =? 0) then Ok (Some (x, y, b))
        else match n with
             | O => Ok (Some (x + dx, y + dy, b))
             | S _ => refine n (x + dx) (y + dy)
             end
      end
    else UB
  end.
(** 412-488: scale, x and y given to nx_sift_compute_keys, and the value. *)
Definition interp_peak (peak_thr : R) (i x y : Z) : res (option (R * R * R * R)) :=
  let* r := refine 5 x y in
  match r with
  | None => Ok None
  | Some (x, y, b) =>
    if Rlt_dec (3 / 2) (Rabs (o_x b)) then Ok None
    else if Rlt_dec (3 / 2) (Rabs (o_y b)) then Ok None
    else if Rlt_dec (3 / 2) (Rabs (o_s b)) then Ok None
    else if Rlt_dec (Rabs (o_val b)) peak_thr then Ok None
    else Ok (Some (IZR i + o_s b, IZR x + o_x b, IZR y + o_y b, o_val b)%R)
  end.
End Peak.
