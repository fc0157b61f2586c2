(** Model of nx_kernel_sym_gaussian, src/nx_filter.c:71-87, and of smoothing with it. *)
From Verif Require Import Base BaseLemmas Gray Flt FilterModel Img ImgModel.
Local Open Scope Z_scope.

(** [kv i] is kernel_value_sym_gaussian(i, sigma) = exp(-i^2 / (2 sigma^2)), 56-59,
    rounded to float; [kernel] is the array to be filled. *)
Definition kernel_sym_gaussian (kv : Z -> flt) (n_k : Z) (kernel : list flt) : res (list flt) :=
  if n_k <=? 1 then Fatal
  else
    let* kernel := zset kernel 0 (kv 0) in
    let* (kernel, sum) := for_each (fun i '(kernel, sum) =>
      let* kernel := zset kernel i (kv i) in
      let* k := zget kernel i in
      Ok (kernel, fadd sum (fmul (of_int 2) k))) (zrange 1 n_k) (kernel, kv 0) in
    for_each (fun i kernel => let* k := zget kernel i in zset kernel i (fdiv k sum)) (zrange 0 n_k) kernel.
(** nx_image_smooth, src/nx_image.c:946-1053, with dest == src and an own buffer:
    the rows and then the columns are filtered in place. *)
Definition smooth_self {A} (conv : A -> flt) (store : flt -> res A) (bufj : nat -> flt) (img : image A) (kx ky : list flt) : res (image A) :=
  let nkx := Z.of_nat (length kx) in
  let nky := Z.of_nat (length ky) in
  let* l := buffer_len (Z.max (i_w img) (i_h img)) (Z.max (nkx - 1) (nky - 1)) in
  let buf := map bufj (seq 0 (Z.to_nat l)) in
  let* (img, buf) := row_filter conv store (fun b => convolve_sym fadd fmul (i_w img) b nkx kx) (nkx - 1) None img buf in
  let* (img, _) := col_filter conv store (fun b => convolve_sym fadd fmul (i_h img) b nky ky) (nky - 1) None img buf in Ok img.
Definition smooth_self_uc : (nat -> flt) -> image Z -> list flt -> list flt -> res (image Z) := smooth_self of_int to_uc.
