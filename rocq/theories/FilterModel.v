(** Model of src/nx_filter.c (everything but the Gaussian values), over any
    arithmetic; the code uses the floats of Flt.v.

    Index arithmetic is done in Z: all indices are smaller than the length of
    the buffer, which nx_filter_buffer_alloc computes as an int. *)
From Verif Require Import Base BaseLemmas Gray Flt.
Local Open Scope Z_scope.

Inductive border_mode := BZero | BRepeat | BMirror.

(** nx_filter_buffer_alloc, 253-264: the number of elements. *)
Definition buffer_len (n n_border : Z) : res Z := let* b := chk_int (2 * n_border) in chk_int (n + b).
(** nx_kernel_size_gaussian, 48-54: [n] is the truncated product. *)
Definition kernel_size (n : Z) : res Z :=
  let* n := (if Z.rem n 2 =? 0 then chk_int (n + 1) else Ok n) in Ok (Z.max n 3).

Section Filter.
Context {A : Type}.
Variables (zero : A) (add sub mul : A -> A -> A) (divz : A -> Z -> A).

(** fill_buffer_border, 133-158. *)
Definition fill_border (n : Z) (buf : list A) (nb : Z) (mode : border_mode) : res (list A) :=
  match mode with
  | BZero =>
    let* buf := for_each (fun i buf => zset buf i zero) (zrange 0 nb) buf in
    for_each (fun i buf => zset buf (n + nb + i) zero) (zrange 0 nb) buf
  | BRepeat =>
    let* b := zget buf nb in
    let* buf := for_each (fun i buf => zset buf i b) (zrange 0 nb) buf in
    let* b := zget buf (nb + n - 1) in
    for_each (fun i buf => zset buf (nb + n + i) b) (zrange 0 nb) buf
  | BMirror =>
    let* buf := for_each (fun i buf => let* v := zget buf (2 * nb - i) in zset buf i v) (zrange 0 nb) buf in
    for_each (fun i buf => let* v := zget buf (nb + n - i - 2) in zset buf (nb + n + i) v) (zrange 0 nb) buf
  end.
(** nx_filter_copy_to_buffer1_uc, 170-179, nx_filter_copy_to_buffer_uc, 192-201,
    nx_filter_copy_to_buffer1, 213-221, nx_filter_copy_to_buffer, 234-243: the
    data pointer is [data + off]; the versions without a stride have stride 1;
    [conv] is the conversion of a sample to float. *)
Definition copy_to_buffer {B} (conv : B -> A) (n : Z) (buf : list A) (data : list B) (off stride nb : Z) (mode : border_mode) : res (list A) :=
  if n <=? 1 then Fatal
  else
    let* buf := for_each (fun i buf => let* v := zget data (off + i * stride) in zset buf (nb + i) (conv v)) (zrange 0 n) buf in
    fill_border n buf nb mode.

(** nx_convolve_sym, 98-113. *)
Definition conv_step (data kernel : list A) (n_k i : Z) : res A :=
  let c := i + n_k - 1 in
  let* k0 := zget kernel 0 in
  let* d0 := zget data c in
  for_each (fun k sum =>
    let* kk := zget kernel k in
    let* dm := zget data (c - k) in
    let* dp := zget data (c + k) in
    Ok (add sum (mul kk (add dm dp)))) (zrange 1 n_k) (mul k0 d0).
Definition convolve_sym (n : Z) (data : list A) (n_k : Z) (kernel : list A) : res (list A) :=
  if (n <=? 1) || (n_k <=? 1) then Fatal
  else for_each (fun i data => let* sum := conv_step data kernel n_k i in zset data i sum) (zrange 0 n) data.

(** nx_convolve_box, 115-131. *)
Definition convolve_box (n : Z) (data : list A) (n_r : Z) : res (list A) :=
  if (n <=? 1) || (n_r <? 1) then Fatal
  else
    let* prev := zget data 0 in
    let* data := for_each (fun i data =>
      let* a := zget data 0 in
      let* b := zget data (i + n_r) in
      zset data 0 (add a b)) (zrange (- n_r + 1) (n_r + 1)) data in
    let* (data, _) := for_each (fun i '(data, prev) =>
      let* di := zget data i in
      let* a := zget data (i - 1) in
      let* b := zget data (i + 2 * n_r) in
      let* data := zset data i (add (sub a prev) b) in
      Ok (data, di)) (zrange 1 n) (data, prev) in
    for_each (fun i data => let* a := zget data i in zset data i (divz a (2 * n_r + 1))) (zrange 0 n) data.
End Filter.
