(** Property theorems C01-C04 (bit operations). *)
From Verif Require Import Base BitsModel BitsSpec BitsProofs.
Local Open Scope N_scope.

(** C01 *)
Theorem C01_bit_count32_exact : forall x, x < 2 ^ 32 -> nx_bit_count32 x = ones 32 x.
Proof. exact bit_count32_ones. Qed.
Print Assumptions C01_bit_count32_exact.

Theorem C01_bit_count64_exact : forall x, x < 2 ^ 64 -> nx_bit_count64 x = ones 64 x.
Proof. exact bit_count64_ones. Qed.
Print Assumptions C01_bit_count64_exact.

Example C01_example : 0xDEADBEEF < 2 ^ 32 /\ nx_bit_count32 0xDEADBEEF = 24 /\ ones 32 0xDEADBEEF = 24
  /\ nx_bit_count64 0xFFFFFFFFFFFFFFFF = 64.
Proof. vm_compute. auto. Qed.

(** C02: [raw] is the uninitialised storage nx_bit_array_new returned. *)
Theorem C02_bit_array_history : forall n raw ops k,
  n < 2 ^ 64 - 7 -> bytes_ok raw -> N.of_nat (length raw) = nx_bit_array_n_bytes n ->
  Forall (fun op => fst op < n) ops -> k < n ->
  exists z b v, nx_bit_array_set_zero n raw = Ok z /\ run_sets z ops = Ok b /\
    length b = length raw /\
    nx_bit_array_get b k = Ok v /\ (v <> 0 <-> bits_after (fun _ => false) ops k = true).
Proof. exact bit_array_history. Qed.
Print Assumptions C02_bit_array_history.

Example C02_example :
  let raw := [170; 85] in let ops := [(3, true); (9, true); (3, false); (10, true)] in
  N.of_nat (length raw) = nx_bit_array_n_bytes 11 /\
  bind (bind (nx_bit_array_set_zero 11 raw) (fun z => run_sets z ops)) (fun b => nx_bit_array_get b 9) = Ok 2 /\
  bind (bind (nx_bit_array_set_zero 11 raw) (fun z => run_sets z ops)) (fun b => nx_bit_array_get b 3) = Ok 0.
Proof. vm_compute. auto. Qed.

(** C03 *)
Theorem C03_compose_split32 : forall x, x < 2 ^ 32 ->
  exists b0 b1 b2 b3, nx_split_big_endian32 x = [b0; b1; b2; b3] /\
    nx_compose_big_endian32 b0 b1 b2 b3 = x.
Proof.
  intros x Hx. do 4 eexists. split; [reflexivity|].
  rewrite compose32_value by (apply N.mod_lt; discriminate).
  change [to_u8 (N.shiftr x 24); to_u8 (N.shiftr x 16); to_u8 (N.shiftr x 8); to_u8 x]
    with (nx_split_big_endian32 x).
  rewrite split32_digits, be_value_digits. apply N.mod_small. exact Hx.
Qed.
Print Assumptions C03_compose_split32.

Theorem C03_split_compose32 : forall b0 b1 b2 b3,
  b0 < 256 -> b1 < 256 -> b2 < 256 -> b3 < 256 ->
  nx_split_big_endian32 (nx_compose_big_endian32 b0 b1 b2 b3) = [b0; b1; b2; b3].
Proof.
  intros b0 b1 b2 b3 H0 H1 H2 H3.
  rewrite compose32_value by auto. rewrite split32_digits. exact (digits256_value b0 b1 b2 b3 H0 H1 H2 H3).
Qed.
Print Assumptions C03_split_compose32.

Theorem C03_split32_digits : forall x, nx_split_big_endian32 x = digits256 4 x.
Proof. exact split32_digits. Qed.
Theorem C03_split64_digits : forall x, nx_split_big_endian64 x = digits256 8 x.
Proof. exact split64_digits. Qed.
Print Assumptions C03_split64_digits.
Theorem C03_split64_value : forall x, x < 2 ^ 64 -> be_value 0 (nx_split_big_endian64 x) = x.
Proof. intros x Hx. rewrite split64_digits, be_value_digits. apply N.mod_small. exact Hx. Qed.
Print Assumptions C03_split64_value.

Example C03_example : nx_split_big_endian32 0x01020304 = [1; 2; 3; 4] /\
  nx_split_big_endian64 0x0102030405060708 = [1; 2; 3; 4; 5; 6; 7; 8].
Proof. vm_compute. auto. Qed.

(** C04 *)
Theorem C04_rotr32_rotates : forall x n, 0 < n -> n < 32 -> x < 2 ^ 32 ->
  exists r, nx_rotr32 x n = Ok r /\ is_rotr 32 n x r.
Proof. exact (rotr_spec 32). Qed.
Print Assumptions C04_rotr32_rotates.
Theorem C04_rotr64_rotates : forall x n, 0 < n -> n < 64 -> x < 2 ^ 64 ->
  exists r, nx_rotr64 x n = Ok r /\ is_rotr 64 n x r.
Proof. exact (rotr_spec 64). Qed.
Print Assumptions C04_rotr64_rotates.
Theorem C04_rotations_add : forall w n m x y r, 0 < w ->
  is_rotr w n x y -> is_rotr w m y r -> is_rotr w (n + m) x r.
Proof. exact is_rotr_add. Qed.
Print Assumptions C04_rotations_add.
(** The contract excludes the identity rotation: the code shifts by the word
    width there. *)
Theorem C04_rotr_zero_refuted : forall x, nx_rotr32 x 0 = UB /\ nx_rotr64 x 0 = UB.
Proof. intros x. split; apply rotr_ub; auto. Qed.
Print Assumptions C04_rotr_zero_refuted.
Theorem C04_rotr_full_undefined : forall x n, 32 <= n -> nx_rotr32 x n = UB.
Proof. intros x n H. apply rotr_ub; auto. Qed.
Example C04_example : nx_rotr32 0x80000001 1 = Ok 0xC0000000.
Proof. vm_compute. reflexivity. Qed.
