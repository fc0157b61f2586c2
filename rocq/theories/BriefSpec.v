(** What the BRIEF properties say. *)
From Verif Require Import Base Gray FastModel BriefModel.
Local Open Scope Z_scope.

(** ** Distance *)
(** The bits of a descriptor. *)
Definition bits (d : list N) : list bool := flat_map (fun o => map (fun k => N.testbit o (N.of_nat k)) (seq 0 8)) d.
(** In how many places two bit strings differ. *)
Definition differences (a b : list bool) : Z := Z.of_nat (length (filter (fun '(p, q) => xorb p q) (combine a b))).
Definition hamming (d0 d1 : list N) : Z := differences (bits d0) (bits d1).

(** ** Test pairs *)
(** Test number [k] compares the pixels at (x0, y0) and (x1, y1). *)
Definition tx0 (offs : list Z) (k : nat) : Z := nth (4 * k) offs 0.
Definition ty0 (offs : list Z) (k : nat) : Z := nth (4 * k + 1) offs 0.
Definition tx1 (offs : list Z) (k : nat) : Z := nth (4 * k + 2) offs 0.
Definition ty1 (offs : list Z) (k : nat) : Z := nth (4 * k + 3) offs 0.
(** [a] to [b] is the smallest interval with all the values of [f] and [g] at
    the first [m] tests. *)
Definition span (m : nat) (f g : nat -> Z) (a b : Z) : Prop :=
  (forall k, (k < m)%nat -> a <= f k <= b /\ a <= g k <= b) /\
  (exists k, (k < m)%nat /\ (f k = a \/ g k = a)) /\ (exists k, (k < m)%nat /\ (f k = b \/ g k = b)).
Definition limits_of (m : nat) (offs : list Z) (l : Z * Z * Z * Z) : Prop :=
  let '(xmin, xmax, ymin, ymax) := l in span m (tx0 offs) (tx1 offs) xmin xmax /\ span m (ty0 offs) (ty1 offs) ymin ymax.
(** An extractor as the library's functions leave it. *)
Record brief_ok (b : brief) (offs : list Z) : Prop := {
  bo_offs : b_offsets b = Some offs;
  bo_pos : 0 < b_octets b;
  bo_max : b_octets b * 32 <= INT_MAX;
  bo_len : b_octets b * 32 <= Z.of_nat (length offs);
  bo_lim : limits_of (Z.to_nat (b_octets b * 8)) offs (b_limits b);
  bo_int : forall i, (i < 4 * Z.to_nat (b_octets b * 8))%nat -> - INT_MAX <= nth i offs 0 <= INT_MAX }.
(** What holds of any extractor between calls: its array is large enough. *)
Definition brief_inv (b : brief) : Prop :=
  match b_offsets b with None => b_octets b = 0 | Some offs => b_octets b * 32 <= Z.of_nat (length offs) end.

(** ** Sampling *)
(** The point lies in the image. *)
Definition in_image (g : gray) (x y : Z) : Prop := 0 <= x < g_w g /\ 0 <= y < g_h g.
(** The two pixels that test [k] looks at for a keypoint at (x, y) at scale [s]. *)
Definition test_points (s : fscale) (offs : list Z) (x y : Z) (k : nat) (x0 y0 x1 y1 : Z) : Prop :=
  sample (x + tx0 offs k) s = Ok x0 /\ sample (y + ty0 offs k) s = Ok y0 /\
  sample (x + tx1 offs k) s = Ok x1 /\ sample (y + ty1 offs k) s = Ok y1.
(** Bit [k] of a descriptor: the most significant bit of an octet comes first. *)
Definition desc_bit (d : list N) (k : nat) : bool := N.testbit (nth (k / 8) d 0%N) (N.of_nat (7 - k mod 8)).
