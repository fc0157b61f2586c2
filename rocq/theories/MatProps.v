(** Properties C96-C98: dense matrices. *)
From Verif Require Import Base BitsModel StrModel StrSpec MatModel MatSpec MatProofs MatIo.

Local Open Scope nat_scope.

(** C96: transposing in place.  [raw] is the uninitialised storage of the bit
    array the function allocates. *)
Theorem C96_transpose : forall D raw m n (A : list D),
  0 < m -> 0 < n -> (Z.of_nat m * Z.of_nat n <= INT_MAX)%Z -> m * n <= length A ->
  bytes_ok raw -> N.of_nat (length raw) = nx_bit_array_n_bytes (N.of_nat (m * n)) ->
  exists B, nx_dmat_transpose raw (Z.of_nat m) (Z.of_nat n) A = Ok B /\ transposed m n A B.
Proof. intros D. exact (@transpose_ok D). Qed.
Print Assumptions C96_transpose.

(** With more than INT_MAX elements the size computation overflows. *)
Theorem C96_large_refuted : forall D raw (A : list D), nx_dmat_transpose raw 65536 65536 A = UB.
Proof. reflexivity. Qed.
Print Assumptions C96_large_refuted.

Example C96_example :
  N.of_nat (length [77%N]) = nx_bit_array_n_bytes (N.of_nat (2 * 3)) /\
  nx_dmat_transpose [77%N] 2 3 [11; 21; 12; 22; 13; 23; 99] = Ok [11; 12; 13; 21; 22; 23; 99].
Proof. split; reflexivity. Qed.

(** C97: a text is read line by line; every line must hold the same number of
    numbers, and an empty text or one without numbers gives no matrix. *)
Theorem C97_read : forall D junk (junkd : nat -> D) raw strtod st rows,
  (forall t, snd (strtod t) <= length t) ->
  (forall k, bytes_ok (raw k) /\ length (raw k) = k) ->
  Forall2 (fun l row => numbers strtod (before_nul l) row) (lines st) rows ->
  Forall (fun l => (N.of_nat (length l) < 2 ^ 30 - 1)%N) (lines st) ->
  (Z.of_nat (length rows) <= INT_MAX)%Z -> (Z.of_nat (length (concat rows)) <= INT_MAX)%Z ->
  match rows with
  | [] => nx_dmat_xread junk junkd raw strtod (S (length (lines st))) st = Ok None
  | row0 :: _ =>
    (Forall (fun row => row = []) rows -> nx_dmat_xread junk junkd raw strtod (S (length (lines st))) st = Ok None) /\
    (~ Forall (fun row => length row = length row0) rows -> nx_dmat_xread junk junkd raw strtod (S (length (lines st))) st = Fatal) /\
    (row0 <> [] -> Forall (fun row => length row = length row0) rows ->
      exists A, nx_dmat_xread junk junkd raw strtod (S (length (lines st))) st = Ok (Some (Z.of_nat (length rows), Z.of_nat (length row0), A)) /\
        is_rows (length rows) (length row0) A rows)
  end.
Proof. intros D. exact (@xread_ok D). Qed.
Print Assumptions C97_read.

(** The text written is one line per row. *)
Theorem C97_write : forall D (fmt : D -> list N) m n A rows,
  0 < n -> m * n <= length A -> (Z.of_nat m * Z.of_nat n <= INT_MAX)%Z -> is_rows m n A rows ->
  nx_dmat_xwrite fmt (Z.of_nat m) (Z.of_nat n) A = Ok (concat (map (row_text fmt) rows)).
Proof. intros D. exact (@xwrite_ok D). Qed.
Print Assumptions C97_write.

(** What was written is read back with the same shape and elements. *)
Theorem C97_round_trip : forall D junk (junkd : nat -> D) raw fmt strtod m n A,
  (forall t, snd (strtod t) <= length t) -> reads_back fmt strtod ->
  (forall k, bytes_ok (raw k) /\ length (raw k) = k) ->
  0 < m -> 0 < n -> m * n <= length A -> (Z.of_nat m * Z.of_nat n <= INT_MAX)%Z ->
  (forall row, length row = n -> (forall d, In d row -> In d A) -> (N.of_nat (length (row_text fmt row)) < 2 ^ 30 - 1)%N) ->
  exists st B, nx_dmat_xwrite fmt (Z.of_nat m) (Z.of_nat n) A = Ok st /\
    nx_dmat_xread junk junkd raw strtod (S m) st = Ok (Some (Z.of_nat m, Z.of_nat n, B)) /\
    (forall r c, r < m -> c < n -> elem B m r c = elem A m r c).
Proof. intros D. exact (@round_trip D). Qed.
Print Assumptions C97_round_trip.

(** A one-digit text of booleans meets the contract of the text functions. *)
Definition ex_fmt (b : bool) : list N := [if b then 49%N else 48%N].
Definition ex_digit (t : list N) : bool * nat :=
  match t with c :: _ => if (c =? 48)%N then (false, 1) else if (c =? 49)%N then (true, 1) else (false, 0) | [] => (false, 0) end.
Definition ex_strtod (t : list N) : bool * nat :=
  match t with
  | c :: t' => if (c =? 32)%N then let '(d, k) := ex_digit t' in (d, if k =? 0 then 0 else S k) else ex_digit t
  | [] => (false, 0)
  end.
Example C97_example :
  reads_back ex_fmt ex_strtod /\ (forall t, snd (ex_strtod t) <= length t) /\
  nx_dmat_xwrite ex_fmt 2 3 [true; false; false; false; true; true] = Ok [49; 32; 48; 32; 49; 10; 48; 32; 48; 32; 49; 10]%N /\
  nx_dmat_xread (fun _ => 7%N) (fun _ => true) (repeat 3%N) ex_strtod 3 [49; 32; 48; 32; 49; 10; 48; 32; 48; 32; 49; 10]%N
    = Ok (Some (2%Z, 3%Z, [true; false; false; false; true; true; true; true; true])) /\
  nx_dmat_xread (fun _ => 7%N) (fun _ => true) (repeat 3%N) ex_strtod 3 [49; 32; 48; 10; 48; 10]%N = Fatal.
Proof.
  split; [|split; [|vm_compute; auto]].
  - repeat split; try (intros d c rest [-> | ->]; destruct d; reflexivity); try discriminate;
      destruct d; cbn; intros [H|[]]; discriminate.
  - assert (E : forall t, snd (ex_digit t) <= length t).
    { intros [|c t]; cbn; auto. destruct (c =? 48)%N; cbn; [lia|]. destruct (c =? 49)%N; cbn; lia. }
    intros [|c t]; auto. unfold ex_strtod. destruct (c =? 32)%N; [|apply E].
    specialize (E t). destruct (ex_digit t) as [d k]. cbn [snd] in *. destruct (k =? 0); cbn; lia.
Qed.

(** C98: the product, for any arithmetic: each element is the sum of products
    accumulated in index order; nothing else is written. *)
Theorem C98_product : forall D zero add mul m n k (A : list D) ldA B ldB C ldC,
  m <= ldC ->
  (forall r j, r < m -> j < k -> j * ldA + r < length A /\ (Z.of_nat (j * ldA + r) <= INT_MAX)%Z) ->
  (forall j c, j < k -> c < n -> c * ldB + j < length B /\ (Z.of_nat (c * ldB + j) <= INT_MAX)%Z) ->
  (forall r c, r < m -> c < n -> c * ldC + r < length C /\ (Z.of_nat (c * ldC + r) <= INT_MAX)%Z) ->
  exists C', nx_dmat_mul zero add mul (Z.of_nat m) (Z.of_nat n) (Z.of_nat k) A (Z.of_nat ldA) B (Z.of_nat ldB) C (Z.of_nat ldC) = Ok C' /\
    length C' = length C /\
    (forall r c xs ys, r < m -> c < n -> is_row A ldA r k xs -> is_col B ldB c k ys -> elem C' ldC r c = Some (dot add mul zero xs ys)) /\
    (forall i, (forall r c, r < m -> c < n -> i <> c * ldC + r) -> nth_error C' i = nth_error C i).
Proof. intros D. exact (@mul_ok D). Qed.
Print Assumptions C98_product.

Theorem C98_fill : forall D m n ld (A : list D) v,
  m <= ld -> (Z.of_nat n * Z.of_nat ld <= INT_MAX)%Z ->
  (forall r c, r < m -> c < n -> c * ld + r < length A) ->
  exists B, nx_dmat_set (Z.of_nat m) (Z.of_nat n) A (Z.of_nat ld) v = Ok B /\ length B = length A /\
    (forall r c, r < m -> c < n -> elem B ld r c = Some v) /\
    (forall k, (forall r c, r < m -> c < n -> k <> c * ld + r) -> nth_error B k = nth_error A k).
Proof. intros D. exact (@set_ok D). Qed.
Print Assumptions C98_fill.

(** (1 2; 3 4) (5; 6) with column stride 3 for the left factor and the result. *)
Example C98_example :
  nx_dmat_mul 0%Z Z.add Z.mul 2 1 2 [1; 3; 9; 2; 4; 9]%Z 3 [5; 6]%Z 2 [7; 7; 7]%Z 3 = Ok [17; 39; 7]%Z /\
  nx_dmat_set 2 2 [9; 9; 9; 9; 9; 9] 3 0 = Ok [0; 0; 9; 0; 0; 9].
Proof. split; reflexivity. Qed.
