(** What the Harris detector properties say. *)
From Verif Require Import Base Gray Img Flt HarrisModel.
Local Open Scope Z_scope.

Definition P0 : flt := F0.
(** A corner: at least two pixels away from the border, score above the
    threshold and above that of all 8 neighbours. *)
Definition harris_corner (s : image flt) (t : flt) (x y : Z) : Prop :=
  2 <= x < i_w s - 2 /\ 2 <= y < i_h s - 2 /\ f_lt t (pix P0 s x y) = true /\
  forall dx dy, -1 <= dx <= 1 -> -1 <= dy <= 1 -> (dx, dy) <> (0, 0) -> f_lt (pix P0 s (x + dx) (y + dy)) (pix P0 s x y) = true.
(** Raster order. *)
Definition before (a b : hkey) : Prop := h_y a < h_y b \/ (h_y a = h_y b /\ h_x a < h_x b).
Definition key_fields (s : image flt) (k : hkey) : Prop :=
  h_xs k = of_int (h_x k) /\ h_ys k = of_int (h_y k) /\ h_level k = 0 /\ h_scale k = F1 /\ h_sigma k = F1 /\
  h_score k = pix P0 s (h_x k) (h_y k) /\ h_ori k = F0.

