(** Model of the uniform sampler, src/nx_uniform_sampler.c, and of the generator
    under it, src/SFMT (SFMT.c, SFMT.h, SFMT-common.h, SFMT-params19937.h).
    The build defines none of HAVE_SSE2, HAVE_ALTIVEC, HAVE_NEON, ONLY64 and
    BIG_ENDIAN64 (CMakeLists.txt), so the portable C code for a little endian
    machine is what is modelled.  assert is modelled as active ([Fatal]). *)
From Verif Require Import Base BaseLemmas Flt.
Local Open Scope N_scope.

(** union W128_T, SFMT.h:119-122: four 32-bit words. *)
Inductive w128 := W (u0 u1 u2 u3 : N).
(** uint32_t and uint64_t arithmetic. *)
Definition m32 (x : N) : N := x mod 2 ^ 32.
Definition m64 (x : N) : N := x mod 2 ^ 64.

(** SFMT-params.h, SFMT-params19937.h:25-41. *)
Definition SFMT_N : nat := 156.
Definition SFMT_N32 : nat := 624.
Definition SFMT_N64 : nat := 312.
Definition SFMT_POS1 : nat := 122.
Definition SL1 : N := 18.
Definition SL2 : N := 1.
Definition SR1 : N := 11.
Definition SR2 : N := 1.
Definition MSK1 : N := 3758096367.  (* 0xdfffffef *)
Definition MSK2 : N := 3724462975.  (* 0xddfecb7f *)
Definition MSK3 : N := 3220897791.  (* 0xbffaffff *)
Definition MSK4 : N := 3221225462.  (* 0xbffffff6 *)
Definition PARITY : list N := [1; 0; 0; 331998852].  (* 0x13c9e684 *)

(** rshift128, SFMT-common.h:93-106 (the branch without ONLY64). *)
Definition rshift128 (x : w128) (shift : N) : w128 :=
  let '(W a0 a1 a2 a3) := x in
  let th := N.lor (N.shiftl a3 32) a2 in
  let tl := N.lor (N.shiftl a1 32) a0 in
  let oh := N.shiftr th (shift * 8) in
  let ol := N.shiftr tl (shift * 8) in
  let ol := N.lor ol (m64 (N.shiftl th (64 - shift * 8))) in
  W (m32 ol) (m32 (N.shiftr ol 32)) (m32 oh) (m32 (N.shiftr oh 32)).
(** lshift128, SFMT-common.h:132-145. *)
Definition lshift128 (x : w128) (shift : N) : w128 :=
  let '(W a0 a1 a2 a3) := x in
  let th := N.lor (N.shiftl a3 32) a2 in
  let tl := N.lor (N.shiftl a1 32) a0 in
  let oh := m64 (N.shiftl th (shift * 8)) in
  let ol := m64 (N.shiftl tl (shift * 8)) in
  let oh := N.lor oh (N.shiftr tl (64 - shift * 8)) in
  W (m32 ol) (m32 (N.shiftr ol 32)) (m32 oh) (m32 (N.shiftr oh 32)).
(** One word of do_recursion: a ^ x ^ ((b >> SR1) & MSK) ^ y ^ (d << SL1). *)
Definition mix (a x b msk y d : N) : N :=
  N.lxor (N.lxor (N.lxor (N.lxor a x) (N.land (N.shiftr b SR1) msk)) y) (m32 (N.shiftl d SL1)).
(** do_recursion, SFMT-common.h:176-192.  The result may be stored over [a]:
    word i of [a] is read only for word i of the result, after [x] and [y]
    have been computed. *)
Definition do_recursion (a b c d : w128) : w128 :=
  let '(W x0 x1 x2 x3) := lshift128 a SL2 in
  let '(W y0 y1 y2 y3) := rshift128 c SR2 in
  let '(W a0 a1 a2 a3) := a in
  let '(W b0 b1 b2 b3) := b in
  let '(W d0 d1 d2 d3) := d in
  W (mix a0 x0 b0 MSK1 y0 d0) (mix a1 x1 b1 MSK2 y1 d1) (mix a2 x2 b2 MSK3 y2 d2) (mix a3 x3 b3 MSK4 y3 d3).

(** struct SFMT_T, SFMT.h:131-136. *)
Record sfmt := Sfmt { s_state : list w128; s_idx : nat }.

(** The view of 128-bit words as 32-bit words: &state[0].u[0]. *)
Fixpoint flat (l : list w128) : list N :=
  match l with [] => [] | W a b c d :: t => a :: b :: c :: d :: flat t end.
Fixpoint group4 (l : list N) : list w128 :=
  match l with a :: b :: c :: d :: t => W a b c d :: group4 t | _ => [] end.

(** sfmt_gen_rand_all, SFMT.c:255-272.  [r1] and [r2] are the indices the two
    pointers point at; [off] picks the second operand. *)
Definition all_step (off : nat -> nat) (i : nat) (s : list w128 * nat * nat) : res (list w128 * nat * nat) :=
  let '(st, r1, r2) := s in
  let* a := aget st i in
  let* b := aget st (off i) in
  let* c := aget st r1 in
  let* d := aget st r2 in
  let* st := aset st i (do_recursion a b c d) in
  Ok (st, r2, i).
Definition sfmt_gen_rand_all (st : list w128) : res (list w128) :=
  let* s := for_each (all_step (fun i => i + SFMT_POS1)%nat) (seq 0 (SFMT_N - SFMT_POS1)) (st, SFMT_N - 2, SFMT_N - 1)%nat in
  let* s := for_each (all_step (fun i => i + SFMT_POS1 - SFMT_N)%nat) (seq (SFMT_N - SFMT_POS1) SFMT_POS1) s in
  Ok (fst (fst s)).

(** gen_rand_array, SFMT.c:120-153.  A pointer is into the state or into the
    array. *)
Inductive ptr := PSt (i : nat) | PAr (i : nat).
Definition pget (st ar : list w128) (p : ptr) : res w128 := match p with PSt i => aget st i | PAr i => aget ar i end.
Definition arr_step (st : list w128) (pa pb : nat -> ptr) (i : nat) (s : list w128 * ptr * ptr) : res (list w128 * ptr * ptr) :=
  let '(ar, r1, r2) := s in
  let* a := pget st ar (pa i) in
  let* b := pget st ar (pb i) in
  let* c := pget st ar r1 in
  let* d := pget st ar r2 in
  let* ar := aset ar i (do_recursion a b c d) in
  Ok (ar, r2, PAr i).
(** 149-152: the last loop, which copies what it makes to state[j].  The
    pointers are into the array here and the state is no longer read. *)
Definition last_step (size : nat) (i : nat) (s : list w128 * ptr * ptr * list w128 * nat) : res (list w128 * ptr * ptr * list w128 * nat) :=
  let '(ar, r1, r2, st, j) := s in
  let* s' := arr_step st (fun i => PAr (i - SFMT_N)) (fun i => PAr (i + SFMT_POS1 - SFMT_N)) i (ar, r1, r2) in
  let '(ar, r1, r2) := s' in
  let* v := aget ar i in
  let* st := aset st j v in
  Ok (ar, r1, r2, st, S j).
Definition gen_rand_array (st ar : list w128) (size : nat) : res (list w128 * list w128) :=
  let* s := for_each (arr_step st PSt (fun i => PSt (i + SFMT_POS1))) (seq 0 (SFMT_N - SFMT_POS1)) (ar, PSt (SFMT_N - 2), PSt (SFMT_N - 1)) in
  let* s := for_each (arr_step st PSt (fun i => PAr (i + SFMT_POS1 - SFMT_N))) (seq (SFMT_N - SFMT_POS1) SFMT_POS1) s in
  (* 141-146: for (; i < size - SFMT_N; i++) *)
  let* s := for_each (arr_step st (fun i => PAr (i - SFMT_N)) (fun i => PAr (i + SFMT_POS1 - SFMT_N)))
                     (seq SFMT_N (size - SFMT_N - SFMT_N)) s in
  let '(ar, r1, r2) := s in
  (* 147-149: for (j = 0; j < 2 * SFMT_N - size; j++) *)
  let* st := for_each (fun j st => let* v := aget ar (j + size - SFMT_N) in aset st j v) (seq 0 (2 * SFMT_N - size)) st in
  let i0 := Nat.max SFMT_N (size - SFMT_N) in
  let* s := for_each (last_step size) (seq i0 (size - i0)) (ar, r1, r2, st, (2 * SFMT_N - size)%nat) in
  let '(ar, _, _, st, _) := s in
  Ok (ar, st).

(** sfmt_init_gen_rand, SFMT.c:377-391: words 1 to SFMT_N32 - 1 of the state. *)
Fixpoint seed_words (n : nat) (i prev : N) : list N :=
  match n with
  | O => []
  | S n' => let w := m32 (1812433253 * (N.lxor prev (N.shiftr prev 30)) + i) in w :: seed_words n' (i + 1) w
  end.
(** period_certification, SFMT.c:197-229. *)
Definition inner_product (us : list N) : N := fold_left N.lxor (map (fun p => N.land (fst p) (snd p)) (combine us PARITY)) 0.
Definition fold_bits (x : N) : N := fold_left (fun x i => N.lxor x (N.shiftr x i)) [16; 8; 4; 2; 1] x.
(** 219-226: the lowest set bit of a parity word is flipped. *)
Fixpoint flip_low (j : nat) (work u p : N) : option N :=
  match j with
  | O => None
  | S j' => if N.land work p =? 0 then flip_low j' (m32 (N.shiftl work 1)) u p else Some (N.lxor u work)
  end.
Fixpoint flip_first (us ps : list N) : list N :=
  match us, ps with
  | u :: us', p :: ps' => match flip_low 32 1 u p with Some u' => u' :: us' | None => u :: flip_first us' ps' end
  | _, _ => us
  end.
Definition period_certification (us : list N) : list N :=
  if N.land (fold_bits (inner_product (firstn 4 us))) 1 =? 1 then us else flip_first (firstn 4 us) PARITY ++ skipn 4 us.
Definition sfmt_init_gen_rand (seed : N) : sfmt :=
  Sfmt (group4 (period_certification (seed :: seed_words (SFMT_N32 - 1) 1 seed))) SFMT_N32.

(** sfmt_genrand_uint32, SFMT.h:158-168. *)
Definition refill (s : sfmt) : res sfmt :=
  if (SFMT_N32 <=? s_idx s)%nat then let* st := sfmt_gen_rand_all (s_state s) in Ok (Sfmt st 0) else Ok s.
Definition sfmt_genrand_uint32 (s : sfmt) : res (N * sfmt) :=
  let* s := refill s in
  let* r := aget (flat (s_state s)) (s_idx s) in
  Ok (r, Sfmt (s_state s) (S (s_idx s))).
(** sfmt_genrand_uint64, SFMT.h:178-201: psfmt64[idx / 2] is words 2*(idx/2)
    (low) and 2*(idx/2) + 1 (high). *)
Definition sfmt_genrand_uint64 (s : sfmt) : res (N * sfmt) :=
  if negb (s_idx s mod 2 =? 0)%nat then Fatal else
  let* s := refill s in
  let* lo := aget (flat (s_state s)) (2 * (s_idx s / 2)) in
  let* hi := aget (flat (s_state s)) (2 * (s_idx s / 2) + 1) in
  Ok (lo + 2 ^ 32 * hi, Sfmt (s_state s) (2 + s_idx s)).
(** sfmt_fill_array32, SFMT.c:303-310, and sfmt_fill_array64, SFMT.c:337-348.
    [buf] is the caller's array as 32-bit words; [per] is the number of
    elements in a 128-bit word, [mini] the least size. *)
Definition fill_array (per mini : Z) (s : sfmt) (buf : list N) (size : Z) : res (list N * sfmt) :=
  if negb (s_idx s =? SFMT_N32)%nat then Fatal
  else if negb (Z.rem size per =? 0)%Z then Fatal
  else if (size <? mini)%Z then Fatal
  else
    let ar := group4 buf in
    let* (ar', st') := gen_rand_array (s_state s) ar (Z.to_nat (Z.quot size per)) in
    Ok (flat ar' ++ skipn (4 * length ar) buf, Sfmt st' SFMT_N32).
Definition sfmt_fill_array32 := fill_array 4 (Z.of_nat SFMT_N32).
Definition sfmt_fill_array64 := fill_array 2 (Z.of_nat SFMT_N64).
(** sfmt_genrand_real2, SFMT.h:237-251: v / 2^32, exact as a double, then
    converted to float by nx_uniform_sampler_sample_s, nx_uniform_sampler.c:114-117. *)
Definition real2_s (v : N) : flt := mkf (Z.of_N v * 2 ^ 117) 1.
(** sfmt_to_res53, SFMT.h:277-280: (v >> 11) / 2^53, exact as a double; the
    model keeps the numerator. *)
Definition to_res53 (v : N) : N := N.shiftr v 11.
(** sfmt_genrand_res53_mix, SFMT.h:313-320; SFMT.h:302-305. *)
Definition sfmt_genrand_res53_mix (s : sfmt) : res (N * sfmt) :=
  let* (x, s) := sfmt_genrand_uint32 s in
  let* (y, s) := sfmt_genrand_uint32 s in
  Ok (to_res53 (N.lor x (N.shiftl y 32)), s).

(** * The sampler, nx_uniform_sampler.c *)
(** The calls on one sampler: sample32, sample64, sample_s, sample_d (89-92,
    94-97, 114-117, 119-122), fill32 and fill64 (99-107; [buf] is the array
    given, as 32-bit words) and init_seed (84-87). *)
Inductive op := OSample32 | OSample64 | OSampleS | OSampleD | OFill32 (n : Z) (buf : list N) | OFill64 (n : Z) (buf : list N) | OSeed (seed : N).
(** What a call gives back; the double is its numerator over 2^53; a filled
    array is given as its 32-bit words. *)
Inductive answer := AInt (v : N) | AFloat (f : flt) | ADouble (num : N) | AWords (l : list N) | ANone.
Definition call (o : op) (s : sfmt) : res (answer * sfmt) :=
  match o with
  | OSample32 => let* (v, s) := sfmt_genrand_uint32 s in Ok (AInt v, s)
  | OSample64 => let* (v, s) := sfmt_genrand_uint64 s in Ok (AInt v, s)
  | OSampleS => let* (v, s) := sfmt_genrand_uint32 s in Ok (AFloat (real2_s v), s)
  | OSampleD => let* (v, s) := sfmt_genrand_res53_mix s in Ok (ADouble v, s)
  | OFill32 n buf => let* (l, s) := sfmt_fill_array32 s buf n in Ok (AWords l, s)
  | OFill64 n buf => let* (l, s) := sfmt_fill_array64 s buf n in Ok (AWords l, s)
  | OSeed seed => Ok (ANone, sfmt_init_gen_rand seed)
  end.
Fixpoint calls (os : list op) (s : sfmt) : res (list answer * sfmt) :=
  match os with
  | [] => Ok ([], s)
  | o :: os' => let* (a, s) := call o s in let* (l, s) := calls os' s in Ok (a :: l, s)
  end.
(** nx_uniform_sampler_new_with_seed, 63-69. *)
Definition nx_uniform_sampler_new_with_seed (seed : N) : sfmt := sfmt_init_gen_rand seed.
