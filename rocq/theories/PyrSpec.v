(** How the levels of a pyramid follow from each other. *)
From Verif Require Import Base Flt FilterSpec Img ImgModel ImgSpec.
Local Open Scope Z_scope.

(** ** Blurs of the fine pyramid, in any arithmetic *)
Section Blurs.
Variable T : Type.
Variables (sigma_g mul : T -> T -> T) (positive : T -> bool) (one half init : T) (sig : Z -> T) (steps : Z).
(** The scale of octave [o]. *)
Fixpoint half_pow (o : nat) : T := match o with O => one | S o => mul (half_pow o) half end.
(** The blur asked for level [i] > 0, in pixels of the image it is made from: a first
    level of an octave is made from the octave before. *)
Definition wanted (i : Z) : T := mul (sig i) (half_pow (Z.to_nat (if i mod steps =? 0 then i / steps - 1 else i / steps))).
(** The blur of level [i] in its own pixels. *)
Definition reached (i : Z) : T :=
  if i =? 0 then (if positive (sigma_g init (sig 0)) then sig 0 else init)
  else if i mod steps =? 0 then mul (wanted i) half else wanted i.
(** What is added between levels i - 1 and i. *)
Definition added (i : Z) : T := sigma_g (reached (i - 1)) (wanted i).
End Blurs.

(** ** Images *)
(** 0.5, and sqrt(d^2 - c^2) in single precision: what must be added to a blur of [c]
    to get one of [d]. *)
Definition HALF : flt := FF (2 ^ 148).
Definition lacking (sqrt_f : flt -> flt) (c d : flt) : flt := sqrt_f (fsub (fmul d d) (fmul c c)).
(** [src] smoothed by a Gaussian of sigma [s], cf. C120. *)
Definition gauss (junk : nat -> Z) (bufj : nat -> flt) (kernel : flt -> res (list flt)) (s : flt) (src : image Z) : res (image Z) :=
  match kernel s with Ok k => smooth_uc junk bufj src k k | _ => Fatal end.
(** Antialiased halving, first along the rows and then along the columns. *)
Definition aa_half (w h : Z) (s : Z -> Z -> Z) (x y : Z) : Z := five_tap h (fun j => five_tap w (fun i => s i j) (2 * x) / 25) (2 * y) / 25.
