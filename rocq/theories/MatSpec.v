(** What the matrix functions are expected to do, without reference to the model. *)
From Verif Require Import Base.

(** Element (r, c) of a matrix with column stride [ld] stored column by column. *)
Definition elem {D} (A : list D) (ld r c : nat) : option D := nth_error A (c * ld + r).

(** [B] holds the transpose of the m x n matrix [A]; elements after the matrix
    are untouched. *)
Definition transposed {D} (m n : nat) (A B : list D) : Prop :=
  length B = length A /\
  (forall r c, r < m -> c < n -> elem B n c r = elem A m r c) /\
  (forall k, m * n <= k -> nth_error B k = nth_error A k).

(** The text up to the first NUL byte. *)
Fixpoint before_nul (l : list N) : list N :=
  match l with [] => [] | c :: l' => if (c =? 0)%N then [] else c :: before_nul l' end.

(** The numbers strtod finds one after the other at the start of a text. *)
Inductive numbers {D} (strtod : list N -> D * nat) : list N -> list D -> Prop :=
| numbers_end t : snd (strtod t) = 0 -> numbers strtod t []
| numbers_more t d k ds : strtod t = (d, k) -> 0 < k -> numbers strtod (skipn k t) ds -> numbers strtod t (d :: ds).

(** Text of a matrix: one line per row, elements separated by blanks. *)
Fixpoint row_text {D} (fmt : D -> list N) (row : list D) : list N :=
  match row with
  | [] => []
  | [d] => fmt d ++ [10%N]
  | d :: row' => fmt d ++ 32%N :: row_text fmt row'
  end.

(** A printed number is read back: [strtod] skips one blank before the number
    and stops at the blank or newline after it, and finds no number in an empty
    rest of a line.  [fmt d] contains neither NUL nor newline. *)
Definition reads_back {D} (fmt : D -> list N) (strtod : list N -> D * nat) : Prop :=
  (forall d c rest, c = 10%N \/ c = 32%N -> strtod (fmt d ++ c :: rest) = (d, length (fmt d))) /\
  (forall d c rest, c = 10%N \/ c = 32%N -> strtod (32%N :: fmt d ++ c :: rest) = (d, S (length (fmt d)))) /\
  snd (strtod [10%N]) = 0 /\
  (forall d, fmt d <> [] /\ ~ In 0%N (fmt d) /\ ~ In 10%N (fmt d)).

(** The rows of an m x n matrix stored column by column. *)
Definition is_rows {D} (m n : nat) (A : list D) (rows : list (list D)) : Prop :=
  length rows = m /\
  (forall row, In row rows -> length row = n) /\
  (forall r c row, nth_error rows r = Some row -> c < n -> nth_error row c = elem A m r c).

(** Sum of products in the order of the indices, starting from [zero]. *)
Fixpoint dot {D} (add mul : D -> D -> D) (v : D) (xs ys : list D) : D :=
  match xs, ys with
  | x :: xs', y :: ys' => dot add mul (add v (mul x y)) xs' ys'
  | _, _ => v
  end.

(** Row r of a matrix with k columns, and column c of a matrix with k rows. *)
Definition is_row {D} (A : list D) (ld r k : nat) (xs : list D) : Prop :=
  length xs = k /\ forall j, j < k -> nth_error xs j = elem A ld r j.
Definition is_col {D} (B : list D) (ld c k : nat) (ys : list D) : Prop :=
  length ys = k /\ forall j, j < k -> nth_error ys j = elem B ld j c.
