(** Model of the single precision vectors of include/virg/nexus/nx_vec.h and of
    the last stage of the SIFT descriptor, src/nx_sift_detector.c:278-294.
    Floats are those of Flt.v: every operation rounds to single precision (no
    contraction to fused operations, no excess precision).  NX_ASSERT_PTR is
    left out (the vectors exist) and n is the length of the list. *)
From Verif Require Import Base Flt.
Local Open Scope Z_scope.

(** sqrtf, correctly rounded to 24 bits (IEEE 754 requires it).  A value n units
    has the root sqrt (n * U) units; [e] drops all but 24 bits of it.  A root of
    a float is never half way between two floats. *)
Definition fsqrt (a : flt) : flt :=
  match a with
  | FF n =>
      if n =? 0 then FF 0 else if n <? 0 then FNaN else
      let m := n * U in
      let e := Z.log2 m / 2 - 23 in
      let q := Z.sqrt (m / 4 ^ e) in
      FF ((if (2 * q + 1) ^ 2 * 4 ^ e <? 4 * m then q + 1 else q) * 2 ^ e)
  | FInf false => FInf false
  | _ => FNaN
  end.

(** nx_svec_norm_sq, nx_vec.h:117-127. *)
Definition nx_svec_norm_sq (v : list flt) : flt := fold_left (fun s x => fadd s (fmul x x)) v F0.
(** nx_svec_norm, nx_vec.h:130-136. *)
Definition nx_svec_norm (v : list flt) : flt := fsqrt (nx_svec_norm_sq v).
(** nx_svec_to_unit, nx_vec.h:138-154: the norm that is returned and the new
    contents; the warning is left out. *)
Definition nx_svec_to_unit (v : list flt) : flt * list flt :=
  let nrm := nx_svec_norm v in
  (nrm, if negb (f_eq nrm F0) then map (fun x => fdiv x nrm) v else v).

(** nx_svec_max_idx, nx_vec.h:156-170, from index i on. *)
Fixpoint svec_max_idx_from (v : list flt) (i max_idx : Z) (max_val : flt) : Z :=
  match v with
  | [] => max_idx
  | x :: v => if f_gt x max_val then svec_max_idx_from v (i + 1) i x else svec_max_idx_from v (i + 1) max_idx max_val
  end.
Definition nx_svec_max_idx (v : list flt) : Z := svec_max_idx_from v 0 (-1) (fneg FMAX).
(** nx_svec_max_val, nx_vec.h:172-184. *)
Definition nx_svec_max_val (v : list flt) : flt := fold_left (fun m x => if f_gt x m then x else m) v (fneg FMAX).
(** nx_ivec_max_idx, nx_vec.h:209-223, from index i on. *)
Fixpoint ivec_max_idx_from (v : list Z) (i max_idx max_val : Z) : Z :=
  match v with
  | [] => max_idx
  | x :: v => if x >? max_val then ivec_max_idx_from v (i + 1) i x else ivec_max_idx_from v (i + 1) max_idx max_val
  end.
Definition nx_ivec_max_idx (v : list Z) : Z := ivec_max_idx_from v 0 (-1) INT_MIN.

(** 0.2f is 13421773 * 2^-26. *)
Definition F02 : flt := FF (13421773 * 2 ^ 123).
(** nx_sift_detector.c:286-288. *)
Definition cap (v : list flt) : list flt := map (fun x => if f_gt x F02 then F02 else x) v.
(** nx_sift_detector.c:291-292; the value is stored as an unsigned char. *)
Definition quantize (x : flt) : res Z :=
  let* i := to_int (fmul (of_int 512) x) in
  Ok ((if 255 <? i then 255 else i) mod 256).
Fixpoint quantize_all (v : list flt) : res (list Z) :=
  match v with
  | [] => Ok []
  | x :: v => let* b := quantize x in let* bs := quantize_all v in Ok (b :: bs)
  end.
(** nx_sift_compute_descriptor, nx_sift_detector.c:278-293, from the histogram
    left by nx_sift_compute_fdescriptor (SiftDogModel.v). *)
Definition nx_sift_finish (fdesc : list flt) : res (list Z) :=
  let fdesc := snd (nx_svec_to_unit fdesc) in
  let fdesc := cap fdesc in
  let fdesc := snd (nx_svec_to_unit fdesc) in
  quantize_all fdesc.
