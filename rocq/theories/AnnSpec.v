(** What the properties of annotated images say. *)
From Verif Require Import Base Img PnmModel PnmSpec.
Local Open Scope Z_scope.

(** Channel [c] of pixel (x, y) shown in colour: gray pixels are opaque. *)
Definition shown (u : uimg) (x y c : Z) : N :=
  match u_type u with GRAY => if c =? 3 then 255%N else sample u x y 0 | RGBA => sample u x y c end.
(** [v] shows [a] with [b] on its right, and nothing (transparent black) elsewhere. *)
Definition side_by_side (v a b : uimg) : Prop :=
  sized v RGBA (u_w a + u_w b) (Z.max (u_h a) (u_h b)) /\
  (forall x y c, in_uimg a x y -> 0 <= c < 4 -> sample v x y c = shown a x y c) /\
  (forall x y c, in_uimg b x y -> 0 <= c < 4 -> sample v (u_w a + x) y c = shown b x y c) /\
  (forall x y c, in_uimg v x y -> 0 <= c < 4 -> (x < u_w a -> u_h a <= y) -> (u_w a <= x -> u_h b <= y) -> sample v x y c = 0%N).
