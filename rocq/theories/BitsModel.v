(** Model of include/virg/nexus/nx_bit_ops.h and src/nx_bit_ops.c. *)
From Verif Require Import Base.
Local Open Scope N_scope.

(** C unsigned arithmetic: results are reduced modulo 2^w. *)
Definition wrap (w : N) (x : N) : N := x mod 2 ^ w.
Definition uadd (w : N) (x y : N) : N := wrap w (x + y).

(** Left shift of an unsigned w-bit value; undefined for amounts >= w
    (C11 6.5.7p3). *)
Definition ushl (w x n : N) : res N :=
  if n <? w then Ok (wrap w (N.shiftl x n)) else UB.
Definition ushr (w x n : N) : res N :=
  if n <? w then Ok (N.shiftr x n) else UB.

(** src/nx_bit_ops.c:31-37, TWO32/TWO64: (uintw_t)0x1 << c.  The constant
    shift amounts 0..5 and 1,2,4,..,32 are all legal. *)
Definition two (w c : N) : N := wrap w (N.shiftl 1 c).
(** src/nx_bit_ops.c:32 and 36, MASK32/MASK64. *)
Definition mask (w c : N) : N := (2 ^ w - 1) / uadd w (two w (two w c)) 1.
(** src/nx_bit_ops.c:33 and 37, COUNT32/COUNT64. *)
Definition count_step (w : N) (x c : N) : N :=
  uadd w (N.land x (mask w c)) (N.land (N.shiftr x (two w c)) (mask w c)).

(** src/nx_bit_ops.c:39-47.  The return conversion to int is exact: the
    value is at most 32. *)
Definition nx_bit_count32 (x : N) : N :=
  let x := count_step 32 x 0 in
  let x := count_step 32 x 1 in
  let x := count_step 32 x 2 in
  let x := count_step 32 x 3 in
  let x := count_step 32 x 4 in
  x.

(** src/nx_bit_ops.c:49-58. *)
Definition nx_bit_count64 (x : N) : N :=
  let x := count_step 64 x 0 in
  let x := count_step 64 x 1 in
  let x := count_step 64 x 2 in
  let x := count_step 64 x 3 in
  let x := count_step 64 x 4 in
  let x := count_step 64 x 5 in
  x.

(** include/virg/nexus/nx_bit_ops.h:40-43 (w = 32) and 45-48 (w = 64):
    (x >> n) | (x << (w - n)).  [n] is a uint8_t; w - n is computed in int, so
    for n > w the amount is negative, which is as undefined as an amount that
    is too large. *)
Definition nx_rotr (w x n : N) : res N :=
  let* r := ushr w x n in
  let* l := (if n <=? w then ushl w x (w - n) else UB) in
  Ok (N.lor r l).
Definition nx_rotr32 := nx_rotr 32.
Definition nx_rotr64 := nx_rotr 64.

Definition to_u8 (x : N) : N := x mod 256.

(** include/virg/nexus/nx_bit_ops.h:50-55. *)
Definition nx_split_big_endian32 (x : N) : list N :=
  [ to_u8 (N.shiftr x 24); to_u8 (N.shiftr x 16);
    to_u8 (N.shiftr x 8); to_u8 x ].

(** include/virg/nexus/nx_bit_ops.h:57-66. *)
Definition nx_split_big_endian64 (x : N) : list N :=
  [ to_u8 (N.shiftr x 56); to_u8 (N.shiftr x 48);
    to_u8 (N.shiftr x 40); to_u8 (N.shiftr x 32);
    to_u8 (N.shiftr x 24); to_u8 (N.shiftr x 16);
    to_u8 (N.shiftr x 8); to_u8 x ].

(** include/virg/nexus/nx_bit_ops.h:68-73.  Each cast operand is below 2^8,
    so the shifts stay below 2^32. *)
Definition nx_compose_big_endian32 (b0 b1 b2 b3 : N) : N :=
  N.lor (N.lor (N.lor (wrap 32 (N.shiftl b0 24)) (wrap 32 (N.shiftl b1 16)))
               (wrap 32 (N.shiftl b2 8))) b3.

(** include/virg/nexus/nx_bit_ops.h:75-78, number of allocated bytes; size_t
    addition wraps. The allocator itself (nx_xmalloc, src/nx_alloc.c) returns
    uninitialised storage of that size. *)
Definition nx_bit_array_n_bytes (n_bits : N) : N := uadd 64 n_bits 7 / 8.

(** include/virg/nexus/nx_bit_ops.h:80-83: memset of n_bytes bytes. *)
Definition nx_bit_array_set_zero (n_bits : N) (bv : list N) : res (list N) :=
  let n := N.to_nat (nx_bit_array_n_bytes n_bits) in
  if (n <=? length bv)%nat then Ok (repeat 0 n ++ skipn n bv) else UB.

(** include/virg/nexus/nx_bit_ops.h:85-92.  The mask operand is promoted to
    int, complemented and truncated to uint8_t on store: the complement of
    1<<k restricted to 8 bits is [255 - 2^k]. *)
Definition nx_bit_array_set (bits : list N) (idx : N) (value : bool) : res (list N) :=
  let byte_offset := N.to_nat (idx / 8) in
  let bit_offset := N.land idx 7 in
  let* b := aget bits byte_offset in
  let m := N.shiftl 1 bit_offset in
  aset bits byte_offset
       (if value then to_u8 (N.lor b m) else to_u8 (N.land b (N.lxor 255 m))).

(** include/virg/nexus/nx_bit_ops.h:94-98: the result is the masked byte, a C
    truth value that need not be 1. *)
Definition nx_bit_array_get (bits : list N) (idx : N) : res N :=
  let byte_offset := N.to_nat (idx / 8) in
  let bit_offset := N.land idx 7 in
  let* b := aget bits byte_offset in
  Ok (N.land b (N.shiftl 1 bit_offset)).

(** Driver: a caller issuing a sequence of nx_bit_array_set calls. *)
Definition run_sets (bits : list N) (ops : list (N * bool)) : res (list N) :=
  for_each (fun op b => nx_bit_array_set b (fst op) (snd op)) ops bits.
