(** The SFMT-19937 generator (Saito and Matsumoto) as a sequence of 128-bit
    numbers, bit by bit, and what a sampler on top of it must answer. *)
From Verif Require Import Base BaseLemmas Flt SfmtModel.
Local Open Scope N_scope.

(** The mask applied to the second operand, bit k of 128. *)
Definition mask_bit (k : N) : bool :=
  N.testbit (nth (N.to_nat (k / 32)) [0xdfffffef; 0xddfecb7f; 0xbffaffff; 0xbffffff6] 0) (k mod 32).
(** r = a ^ (a <<128 8) ^ ((b >>32 11) & MASK) ^ (c >>128 8) ^ (d <<32 18), where
    >>128 and <<128 shift the whole number and >>32 and <<32 each of its four
    32-bit lanes. *)
Definition sfmt_next (a b c d r : N) : Prop :=
  forall k, N.testbit r k =
    (k <? 128) &&
    (xorb (xorb (xorb (xorb (N.testbit a k) ((8 <=? k) && N.testbit a (k - 8)))
                      ((k mod 32 <? 21) && mask_bit k && N.testbit b (k + 11)))
                ((k <? 120) && N.testbit c (k + 8)))
          ((18 <=? k mod 32) && N.testbit d (k - 18))).
Definition recurrence (x : nat -> N) : Prop :=
  forall n, sfmt_next (x n) (x (n + 122)%nat) (x (n + 154)%nat) (x (n + 155)%nat) (x (n + 156)%nat).

(** The 624 words made from a seed. *)
Fixpoint init_word (seed : N) (i : nat) : N :=
  match i with
  | O => seed
  | S j => (1812433253 * (N.lxor (init_word seed j) (init_word seed j / 2 ^ 30)) + N.of_nat (S j)) mod 2 ^ 32
  end.
Definition init_block (seed : N) (i : nat) : N :=
  init_word seed (4 * i) + 2 ^ 32 * init_word seed (4 * i + 1) + 2 ^ 64 * init_word seed (4 * i + 2) + 2 ^ 96 * init_word seed (4 * i + 3).
(** The period certification: the sum modulo 2 of the bits of the first block
    selected by the parity vector must be 1. *)
Definition parity_vector : N := 0x13c9e684 * 2 ^ 96 + 1.
Fixpoint parity (n : nat) (x : N) : bool :=
  match n with O => false | S m => xorb (N.testbit x (N.of_nat m)) (parity m x) end.
Definition certified (x0 : N) : Prop := parity 128 (N.land x0 parity_vector) = true.
(** The sequence of a seed: the first 156 blocks are the words made from it,
    except that bit 0 is flipped when that makes it certified. *)
Definition seeded (seed : N) (x : nat -> N) : Prop :=
  certified (x 0%nat) /\
  (x 0%nat = init_block seed 0 \/ x 0%nat = N.lxor (init_block seed 0) 1 /\ ~ certified (init_block seed 0)) /\
  (forall i, (1 <= i < 156)%nat -> x i = init_block seed i) /\
  recurrence x.
(** The output: the 32-bit words of blocks 156, 157, ..., lowest first. *)
Definition word (x : nat -> N) (k : nat) : N := x (156 + k / 4)%nat / 2 ^ (32 * N.of_nat (k mod 4)) mod 2 ^ 32.
Definition words (x : nat -> N) (k n : nat) : list N := map (word x) (seq k n).

(** What the calls must answer when [k] words of the sequence have been used, the
    last [j] of them one by one since the sampler was seeded or an array was
    filled; [None]: the call is refused.  [X] gives the sequence of a seed. *)
Section Serve.
Variable X : N -> nat -> N.
Definition serve1 (o : op) (seed : N) (k j : nat) : option (answer * N * nat * nat) :=
  let w := word (X seed) in
  match o with
  | OSample32 => Some (AInt (w k), seed, k + 1, j + 1)%nat
  | OSampleS => Some (AFloat (real2_s (w k)), seed, k + 1, j + 1)%nat
  | OSampleD => Some (ADouble ((w k + 2 ^ 32 * w (k + 1)%nat) / 2 ^ 11), seed, k + 2, j + 2)%nat
  | OSample64 => if (k mod 2 =? 0)%nat then Some (AInt (w k + 2 ^ 32 * w (k + 1)%nat), seed, k + 2, j + 2)%nat else None
  | OFill32 n _ =>
      if (j mod 624 =? 0)%nat && (n mod 4 =? 0)%Z && (624 <=? n)%Z
      then Some (AWords (words (X seed) k (Z.to_nat n)), seed, k + Z.to_nat n, 0)%nat else None
  | OFill64 n _ =>
      if (j mod 624 =? 0)%nat && (n mod 2 =? 0)%Z && (312 <=? n)%Z
      then Some (AWords (words (X seed) k (2 * Z.to_nat n)), seed, k + 2 * Z.to_nat n, 0)%nat else None
  | OSeed seed' => Some (ANone, seed', O, O)
  end.
Fixpoint serve (os : list op) (seed : N) (k j : nat) : option (list answer) :=
  match os with
  | [] => Some []
  | o :: os' =>
    match serve1 o seed k j with
    | Some (a, seed', k', j') => match serve os' seed' k' j' with Some l => Some (a :: l) | None => None end
    | None => None
    end
  end.
End Serve.
(** Calls a program can make: seeds of 32 bits, arrays of the size stated. *)
Definition proper (o : op) : Prop :=
  match o with
  | OFill32 n buf => Z.of_nat (length buf) = Z.max 0 n
  | OFill64 n buf => Z.of_nat (length buf) = (2 * Z.max 0 n)%Z
  | OSeed seed => seed < 2 ^ 32
  | _ => True
  end.
