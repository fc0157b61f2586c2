(** SHA-256 as defined by FIPS 180-4, written from the standard without
    reference to the C code.  Constants are computed from their definition:
    fractional parts of square / cube roots of the first primes. *)
From Verif Require Import Base.
Local Open Scope N_scope.

(** *** 4.2.2 and 5.3.3 constants *)
Fixpoint has_divisor (fuel : nat) (d n : N) : bool :=
  match fuel with
  | O => false
  | S f => if n <=? d then false else if n mod d =? 0 then true else has_divisor f (d + 1) n
  end.
Definition prime (n : N) : bool := (2 <=? n) && negb (has_divisor (N.to_nat n) 2 n).
Definition first_primes (count : nat) : list N :=
  firstn count (filter prime (map N.of_nat (seq 2 400))).
(** Largest r < 2^b with r^e <= x. *)
Fixpoint iroot (b : nat) (e x r : N) : N :=
  match b with
  | O => r
  | S b' => let r' := r + 2 ^ N.of_nat b' in
            iroot b' e x (if r' ^ e <=? x then r' else r)
  end.
(** First 32 bits of the fractional part of the square/cube root of p. *)
Definition frac_sqrt (p : N) : N := iroot 40 2 (p * 2 ^ 64) 0 mod 2 ^ 32.
Definition frac_cbrt (p : N) : N := iroot 40 3 (p * 2 ^ 96) 0 mod 2 ^ 32.
Definition fips_H0 : list N := map frac_sqrt (first_primes 8).
Definition fips_K : list N := map frac_cbrt (first_primes 64).

(** *** 3.2 and 4.1.2 operations on 32-bit words *)
Definition plus (x y : N) : N := (x + y) mod 2 ^ 32.
Definition SHR (n x : N) : N := x / 2 ^ n.
Definition ROTR (n x : N) : N := x / 2 ^ n + (x mod 2 ^ n) * 2 ^ (32 - n).
Definition compl (x : N) : N := 2 ^ 32 - 1 - x.
Definition Ch (x y z : N) : N := N.lxor (N.land x y) (N.land (compl x) z).
Definition Maj (x y z : N) : N := N.lxor (N.land x y) (N.lxor (N.land x z) (N.land y z)).
Definition Sigma0 (x : N) : N := N.lxor (ROTR 2 x) (N.lxor (ROTR 13 x) (ROTR 22 x)).
Definition Sigma1 (x : N) : N := N.lxor (ROTR 6 x) (N.lxor (ROTR 11 x) (ROTR 25 x)).
Definition sigma0 (x : N) : N := N.lxor (ROTR 7 x) (N.lxor (ROTR 18 x) (SHR 3 x)).
Definition sigma1 (x : N) : N := N.lxor (ROTR 17 x) (N.lxor (ROTR 19 x) (SHR 10 x)).

(** *** 5.1.1 padding: append a one bit, the fewest zero bits and the 64-bit
    big-endian bit length so that the total is a multiple of 512 bits. *)
Definition zero_bytes (len : nat) : nat := Z.to_nat ((55 - Z.of_nat len) mod 64).
Definition be64 (x : N) : list N :=
  map (fun i => (x / 256 ^ (7 - N.of_nat i)) mod 256) (seq 0 8).
Definition pad (msg : list N) : list N :=
  msg ++ [0x80] ++ repeat 0 (zero_bytes (length msg)) ++ be64 (8 * N.of_nat (length msg)).

(** *** 6.2.2 computation *)
Definition word (l : list N) (t : nat) : N :=
  nth (4 * t) l 0 * 2 ^ 24 + nth (4 * t + 1) l 0 * 2 ^ 16
  + nth (4 * t + 2) l 0 * 2 ^ 8 + nth (4 * t + 3) l 0.
(** [schedule n] is [W_0 .. W_{15+n}]. *)
Fixpoint schedule (block : list N) (n : nat) : list N :=
  match n with
  | O => map (word block) (seq 0 16)
  | S m => let W := schedule block m in
           let w i := nth (16 + m - i) W 0 in
           W ++ [plus (plus (sigma1 (w 2)) (w 7)) (plus (sigma0 (w 15)) (w 16))]%nat
  end.
Definition round (s : list N) (kw : N * N) : list N :=
  match s with
  | [a; b; c; d; e; f; g; h] =>
      let T1 := plus (plus (plus (plus h (Sigma1 e)) (Ch e f g)) (fst kw)) (snd kw) in
      let T2 := plus (Sigma0 a) (Maj a b c) in
      [plus T1 T2; a; b; c; plus d T1; e; f; g]
  | _ => s
  end.
Definition compress (H : list N) (block : list N) : list N :=
  map (fun p => plus (fst p) (snd p))
      (combine H (fold_left round (combine fips_K (schedule block 48)) H)).
Fixpoint blocks (n : nat) (l : list N) : list (list N) :=
  match n with
  | O => []
  | S m => firstn 64 l :: blocks m (skipn 64 l)
  end.
Definition be32 (x : N) : list N :=
  map (fun i => (x / 256 ^ (3 - N.of_nat i)) mod 256) (seq 0 4).
Definition sha256 (msg : list N) : list N :=
  flat_map be32 (fold_left compress (blocks (length (pad msg) / 64) (pad msg)) fips_H0).

(** Specification: consecutive slices of a byte string. *)
Fixpoint slices (l : list N) (reqs : list nat) : list (list N) :=
  match reqs with
  | [] => []
  | n :: t => firstn n l :: slices (skipn n l) t
  end.

