(** Dense column-major matrices: include/virg/nexus/nx_mat.h and src/nx_mat.c.
    The element type [D] (double) is arbitrary: moving, printing and reading
    elements does not depend on their arithmetic, and the product is given for
    any addition and multiplication. *)
From Verif Require Import Base BitsModel StrModel.

Local Open Scope N_scope.

(** The counting loop [for (int i = 0; i < n; ++i)]. *)
Definition upto (n : Z) : list Z := map Z.of_nat (seq 0 (Z.to_nat n)).

(** The offset c * ld + r of an element, computed in int. *)
Definition at_col (c ld r : Z) : res Z := let* p := chk_int (c * ld) in chk_int (p + r).

(** nx_dmat_set, nx_mat.h:63-71 with nx_dvec_set, nx_vec.h:72-80; the pointer
    A + i*ldA is formed before the inner loop. *)
Definition nx_dmat_set {D} (m n : Z) (A : list D) (ldA : Z) (value : D) : res (list D) :=
  if (ldA <? m)%Z then Fatal else
  for_each (fun i A =>
    let* o := chk_int (i * ldA) in
    if (m <? 0)%Z then Fatal else
    for_each (fun j A => zset A (o + j)%Z value) (upto m) A) (upto n) A.

(** nx_dmat_mul, nx_mat.h:73-87.  C does not overlap A or B. *)
Definition nx_dmat_mul {D} (zero : D) (add mul : D -> D -> D) (m n k : Z) (A : list D) (ldA : Z)
  (B : list D) (ldB : Z) (C : list D) (ldC : Z) : res (list D) :=
  for_each (fun c C =>
    for_each (fun r C =>
      let* o := at_col c ldC r in
      let* C := zset C o zero in
      for_each (fun j C =>
        let* p := at_col j ldA r in
        let* a := zget A p in
        let* q := at_col c ldB j in
        let* b := zget B q in
        let* v := zget C o in
        zset C o (add v (mul a b))) (upto k) C) (upto m) C) (upto n) C.

(** The do-while of nx_dmat_transpose, nx_mat.h:110-119; size_t arithmetic
    wraps at 64 bits. *)
Fixpoint move_cycle {D} (fuel : nat) (n q start idx0 idx1 : N) (t0 : D) (A : list D) (moved : list N)
  : res (list D * list N) :=
  match fuel with
  | O => NoFuel
  | S fuel' =>
    let* t1 := aget A (N.to_nat idx1) in
    let* A := aset A (N.to_nat idx1) t0 in
    let* moved := nx_bit_array_set moved idx0 true in
    let idx0' := idx1 in
    let idx1' := wrap 64 (idx1 * n) mod (q - 1) in
    if idx0' =? start then Ok (A, moved) else move_cycle fuel' n q start idx0' idx1' t1 A moved
  end.

(** nx_dmat_transpose, nx_mat.h:89-124.  [raw] is the uninitialised storage
    nx_bit_array_new returns; m * n is an int product; the loop over i runs
    from 1 to q - 2. *)
Definition nx_dmat_transpose {D} (raw : list N) (m n : Z) (A : list D) : res (list D) :=
  if (m <=? 0)%Z then Fatal else if (n <=? 0)%Z then Fatal else
  let* p := chk_int (m * n) in
  let q := Z.to_N p in
  let nn := Z.to_N n in
  let* moved := nx_bit_array_set_zero q raw in
  let* r := for_each (fun i s =>
      let '(A, moved) := s in
      let* b := nx_bit_array_get moved i in
      if b =? 0 then
        let idx1 := wrap 64 (i * nn) mod (q - 1) in
        if i =? idx1 then Ok (A, moved)
        else let* t0 := aget A (N.to_nat i) in move_cycle (N.to_nat q) nn q i i idx1 t0 A moved
      else Ok (A, moved))
    (map N.of_nat (seq 1 (N.to_nat (q - 1) - 1))) (A, moved) in
  Ok (fst r).

(** nx_dmat_xwrite, nx_mat.c:32-49: [fmt d] is the text fprintf prints for "%.17g". *)
Definition nx_dmat_xwrite {D} (fmt : D -> list N) (m n : Z) (A : list D) : res (list N) :=
  if (m <? 0)%Z then Fatal else if (n <? 0)%Z then Fatal else
  for_each (fun r out =>
    for_each (fun c out =>
      let* o := at_col c m r in
      let* e := zget A o in
      Ok (out ++ fmt e ++ (if (c =? n - 1)%Z then [10] else [32]))) (upto n) out) (upto m) [].

(** nx_xrealloc of the array of numbers, src/nx_alloc.c: added elements are
    uninitialised. *)
Definition drealloc {D} (junk : nat -> D) (A : list D) (n : nat) : list D :=
  firstn n A ++ map junk (seq (length A) (n - length A)).

(** The numbers of one line, nx_mat.c:72-86.  [strtod t] is the value and the
    number of bytes strtod takes from the C string [t] (0: no number); sz and
    cap count elements, cap being the length of the array. *)
Fixpoint parse_line {D} (junk : nat -> D) (strtod : list N -> D * nat) (fuel : nat) (t : list N)
  (A : list D) (sz : nat) (ml : Z) : res (list D * nat * Z) :=
  match fuel with
  | O => NoFuel
  | S fuel' =>
    let '(d, k) := strtod t in
    if (k =? 0)%nat then Ok (A, sz, ml)
    else if (length t <? k)%nat then UB
    else
      let* ml := chk_int (ml + 1) in
      let A := if (length A <=? sz)%nat then drealloc junk A (2 * length A) else A in
      let* A := aset A sz d in
      parse_line junk strtod fuel' (skipn k t) A (S sz) ml
  end.

(** The loop over lines, nx_mat.c:66-100; m and n are *m and *n. *)
Fixpoint read_rows {D} (junk : nat -> N) (junkd : nat -> D) (strtod : list N -> D * nat) (fuel : nat)
  (line st : list N) (A : list D) (sz : nat) (m n : Z) : res (list D * Z * Z) :=
  match fuel with
  | O => NoFuel
  | S fuel' =>
    let* r := nx_getline junk line st in
    let '(line, n_read, st) := r in
    if (n_read <=? 0)%Z then Ok (A, m, n)
    else
      let* t := cstr line in
      let* r := parse_line junkd strtod (S (length t)) t A sz 0 in
      let '(A, sz, ml) := r in
      if (n =? 0)%Z then read_rows junk junkd strtod fuel' line st A sz ml 1
      else if negb (m =? ml)%Z then Fatal
      else let* n := chk_int (n + 1) in read_rows junk junkd strtod fuel' line st A sz m n
  end.

(** nx_dmat_xread, nx_mat.c:51-113: [None] for NULL, otherwise the
    number of rows, of columns and the array.  Initially 9 elements and a line
    of 256 bytes are allocated; [raw k] is the storage of a bit array of k bytes. *)
Definition nx_dmat_xread {D} (junk : nat -> N) (junkd : nat -> D) (raw : nat -> list N) (strtod : list N -> D * nat)
  (fuel : nat) (st : list N) : res (option (Z * Z * list D)) :=
  let* r := read_rows junk junkd strtod fuel (map junk (seq 0 256)) st (map junkd (seq 0 9)) 0 0 0 in
  let '(A, m, n) := r in
  if ((m =? 0) || (n =? 0))%Z then Ok None
  else
    let* A := nx_dmat_transpose (raw (N.to_nat (nx_bit_array_n_bytes (Z.to_N (m * n))))) m n A in
    Ok (Some (n, m, A)).
