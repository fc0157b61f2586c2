(** What the colour maps promise. *)
From Verif Require Import Base BaseLemmas Flt FltErr Gray Img PnmModel PnmSpec CmapData CmapModel.
Local Open Scope Z_scope.

(** The table of a map: its unit and its rows; gray has none. *)
Definition table (m : cmap) : option (Z * list (Z * Z * Z)) :=
  match m with
  | CGray => None
  | Viridis => Some (10 ^ 6, viridis_data) | Plasma => Some (10 ^ 6, plasma_data) | Magma => Some (10 ^ 6, magma_data)
  | Cubehelix => Some (10 ^ 18, cubehelix_data)
  end.
Definition red (t : Z * Z * Z) : Z := fst (fst t).
Definition green (t : Z * Z * Z) : Z := snd (fst t).
Definition blue (t : Z * Z * Z) : Z := snd t.
(** [c] is 255 * p / q rounded down, except for 1/256. *)
Definition near255 (c p q : Z) : Prop := 0 <= c <= 255 /\ 256 * (c * q) <= 256 * (255 * p) + q /\ 256 * (255 * p) < 256 * ((c + 1) * q) + q.
(** The piecewise linear function through the rows, times U; the position is in
    units of 1/U rows. *)
Definition between (rows : list (Z * Z * Z)) (ch : Z * Z * Z -> Z) (P : Z) : Z :=
  let row k := ch (nth (Z.to_nat k) rows (0, 0, 0)) in
  (U - P mod U) * row (P / U) + (P mod U) * row (P / U + 1).
Definition colour_at (d : Z) (rows : list (Z * Z * Z)) (P : Z) (c : Z * Z * Z) : Prop :=
  near255 (red c) (between rows red P) (U * d) /\ near255 (green c) (between rows green P) (U * d) /\ near255 (blue c) (between rows blue P) (U * d).
(** [c] is the colour of the value num / den. *)
Definition coloured (m : cmap) (num den : Z) (c : Z * Z * Z) : Prop :=
  match table m with
  | None => near255 (red c) num den /\ green c = red c /\ blue c = red c
  | Some (d, rows) =>
    let n := Z.of_nat (length rows) in
    exists P, 0 <= P <= (n - 1) * U /\ Z.abs (P * den - (n - 1) * num * U) <= 130 * n * W * den /\ colour_at d rows P c
  end.
(** The colour of a pixel of a colour image. *)
Definition colour_of (u : uimg) (x y : Z) : Z * Z * Z := (Z.of_N (sample u x y 0), Z.of_N (sample u x y 1), Z.of_N (sample u x y 2)).
