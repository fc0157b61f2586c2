(** Model of src/nx_gaussian_sampler.c: samples of a normal distribution by the
    polar method over the uniform sampler.  The single and double precision
    functions are the same code over two types of numbers, so the model takes the
    arithmetic as a record; the logarithm and the square root of the C library are
    two of its fields. *)
From Verif Require Import Base BaseLemmas Flt SfmtModel.
Local Open Scope Z_scope.

(** [conv] is the implicit conversion of a float to the type of the variables. *)
Record arith (D : Type) := Arith {
  conv : flt -> D;
  mul : D -> D -> D;
  add : D -> D -> D;
  sub : D -> D -> D;
  div : D -> D -> D;
  ge : D -> D -> bool;
  log : D -> D;
  sqrt : D -> D;
  c1 : D;   (* 1.0 *)
  c2 : D;   (* 2.0 *)
  cm2 : D   (* -2.0 *)
}.
Arguments conv {D}. Arguments mul {D}. Arguments add {D}. Arguments sub {D}. Arguments div {D}. Arguments ge {D}.
Arguments log {D}. Arguments sqrt {D}. Arguments c1 {D}. Arguments c2 {D}. Arguments cm2 {D}.

Section Gauss.
Context {D : Type}.
Variable A : arith D.
Variables mean sigma : D.
(** nx_uniform_sampler_sample_s, nx_uniform_sampler.c:114-117. *)
Definition sample_s (s : sfmt) : res (D * sfmt) :=
  let* (v, s) := sfmt_genrand_uint32 s in Ok (conv A (real2_s v), s).
(** The do-while loop, 123-131, 140-148, 171-179 and 188-196. *)
Fixpoint draw (fuel : nat) (s : sfmt) : res (D * D * D * sfmt) :=
  match fuel with
  | O => NoFuel
  | S fuel =>
    let* (u1, s) := sample_s s in
    let* (u2, s) := sample_s s in
    let v1 := sub A (mul A (c2 A) u1) (c1 A) in
    let v2 := sub A (mul A (c2 A) u2) (c1 A) in
    let q := add A (mul A v1 v1) (mul A v2 v2) in
    if ge A q (c1 A) then draw fuel s else Ok (v1, v2, q, s)
  end.
(** sigma * sqrt(-2 * log(s) / s), 133, 150, 181 and 198. *)
Definition common (q : D) : D := mul A sigma (sqrt A (div A (mul A (cm2 A) (log A q)) q)).
(** The for loop, 120-138 and 168-186; [i] is the counter, which is also the
    offset of s_ptr. *)
Fixpoint pairs_loop (turns fuel : nat) (n : Z) (i : Z) (out : list D) (s : sfmt) : res (Z * list D * sfmt) :=
  match turns with
  | O => NoFuel
  | S turns =>
    let* n1 := chk_int (n - 1) in
    if i <? n1 then
      let* (v1, v2, q, s) := draw fuel s in
      let c := common q in
      let* out := zset out i (add A (mul A c v1) mean) in
      let* out := zset out (i + 1) (add A (mul A c v2) mean) in
      let* i := chk_int (i + 2) in
      pairs_loop turns fuel n i out s
    else Ok (i, out, s)
  end.
(** nx_gaussian_sampler_sample_s, 111-152, and nx_gaussian_sampler_sample_d,
    154-200; both draw single precision uniform values. *)
Definition gaussian_sample (turns fuel : nat) (n : Z) (samples : list D) (s : sfmt) : res (list D * sfmt) :=
  let* (i, out, s) := pairs_loop turns fuel n 0 samples s in
  if i <? n then
    let* (v1, v2, q, s) := draw fuel s in
    let* out := zset out i (add A (mul A (common q) v1) mean) in
    Ok (out, s)
  else Ok (out, s).
End Gauss.

(** nx_gaussian_sampler_new_with_seed, 69-74: a new uniform sampler, seeded. *)
Definition nx_gaussian_sampler_new_with_seed (seed : N) : sfmt := sfmt_init_gen_rand seed.
(** A history of requests on one sampler: count, array, mean and sigma. *)
Record request (D : Type) := Request { r_n : Z; r_buf : list D; r_mean : D; r_sigma : D }.
Arguments r_n {D}. Arguments r_buf {D}. Arguments r_mean {D}. Arguments r_sigma {D}.
Fixpoint requests {D} (A : arith D) (turns fuel : nat) (rs : list (request D)) (s : sfmt) : res (list (list D) * sfmt) :=
  match rs with
  | [] => Ok ([], s)
  | r :: rs' =>
    let* (o, s) := gaussian_sample A (r_mean r) (r_sigma r) turns fuel (r_n r) (r_buf r) s in
    let* (l, s) := requests A turns fuel rs' s in Ok (o :: l, s)
  end.
