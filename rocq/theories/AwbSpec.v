(** What the background of a warped image means; positions are as in WarpSpec. *)
From Verif Require Import Base BaseLemmas Flt FltErr Gray Img WarpSpec.
Local Open Scope Z_scope.

(** Background: less than one pixel from the origin or outside there, or not more
    than one pixel before the last one, or beyond. *)
Definition in_border (n X : Z) : Prop := X < U \/ (n - 2) * U <= X.
Definition background (src : image Z) (X Y : Z) : Prop := in_border (i_w src) X \/ in_border (i_h src) Y.
(** Positions in the border are moved to the outermost pixel on their side. *)
Definition to_edge (n X : Z) : Z := if X <? U then 0 else if (n - 2) * U <=? X then (n - 1) * U else X.
(** The new value [b] of a pixel with value [old] that comes from the position X, Y. *)
Definition filled (value : Z -> Prop) (src : image Z) (X Y old b : Z) : Prop :=
  (background src X Y -> value b) /\ (~ background src X Y -> b = old).
Definition edge_value (src : image Z) (X Y b : Z) : Prop :=
  near b (value_at (last_again (i_w src)) (last_again (i_h src)) src (to_edge (i_w src) X) (to_edge (i_h src) Y)).
(** Resampling: interpolated inside, left alone away from there, else some byte. *)
Definition resampled (src : image Z) (X Y old b : Z) : Prop :=
  (inside src X Y -> near b (value_at plain plain src X Y)) /\ (away (i_w src) X \/ away (i_h src) Y -> b = old) /\ (b = old \/ 0 <= b <= 255).
