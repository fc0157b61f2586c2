(** Little-endian byte images of integers, as fwrite/fread see them on the
    modelled platform (LP64, little-endian). *)
From Verif Require Import Base BaseLemmas.
Local Open Scope N_scope.

Fixpoint le_encode (n : nat) (x : N) : list N :=
  match n with O => [] | S m => x mod 256 :: le_encode m (x / 256) end.
Fixpoint le_decode (l : list N) : N :=
  match l with [] => 0 | b :: t => b + 256 * le_decode t end.

(** size_t and int images. *)
Definition size_bytes (x : N) : list N := le_encode 8 x.
Definition int_bytes (z : Z) : list N := le_encode 4 (Z.to_N (z mod 2 ^ 32)).
Definition int_of_bytes (l : list N) : Z :=
  let v := Z.of_N (le_decode l) in if (v <? 2 ^ 31)%Z then v else (v - 2 ^ 32)%Z.

(** fread of [n] bytes: the bytes obtained (fewer at end of file) and the rest
    of the stream. *)
Definition take {A} (n : nat) (l : list A) : list A * list A := (firstn n l, skipn n l).

Lemma le_encode_length n x : length (le_encode n x) = n.
Proof. revert x; induction n; intros; simpl; auto. Qed.

Lemma le_encode_bytes n x : bytes_ok (le_encode n x).
Proof.
  revert x; induction n as [|n IH]; intros x; cbn [le_encode]; constructor; [|apply IH].
  apply N.mod_lt. discriminate.
Qed.

Lemma le_decode_encode n x : x < 256 ^ N.of_nat n -> le_decode (le_encode n x) = x.
Proof.
  revert x; induction n as [|n IH]; intros x H.
  - cbn in *. lia.
  - cbn [le_encode le_decode]. rewrite IH.
    + pose proof (N.div_mod x 256 ltac:(discriminate)). lia.
    + apply N.div_lt_upper_bound; [discriminate|]. rewrite Nat2N.inj_succ, N.pow_succ_r' in H. exact H.
Qed.

Lemma le_decode_bound l : bytes_ok l -> le_decode l < 256 ^ N.of_nat (length l).
Proof.
  induction 1 as [|b t Hb Ht IH]; [reflexivity|].
  cbn [le_decode length]. rewrite Nat2N.inj_succ, N.pow_succ_r'. unfold byte_ok in Hb. nia.
Qed.

Lemma size_bytes_decode x : x < 2 ^ 64 -> le_decode (size_bytes x) = x.
Proof. intros H. apply le_decode_encode. exact H. Qed.

Lemma int_bytes_decode z : (INT_MIN <= z <= INT_MAX)%Z -> int_of_bytes (int_bytes z) = z.
Proof.
  unfold INT_MIN, INT_MAX, int_of_bytes, int_bytes. intros H.
  pose proof (Z.mod_pos_bound z (2 ^ 32) ltac:(lia)) as Hm.
  rewrite le_decode_encode.
  - rewrite Z2N.id by lia.
    destruct (Z.ltb_spec (z mod 2 ^ 32) (2 ^ 31)) as [Hl|Hl].
    + destruct (Z.lt_ge_cases z 0).
      * rewrite <- (Z_mod_plus_full z 1) in *. rewrite Z.mod_small in * by lia. lia.
      * rewrite Z.mod_small in * by lia. lia.
    + destruct (Z.lt_ge_cases z 0).
      * rewrite <- (Z_mod_plus_full z 1) in *. rewrite Z.mod_small in * by lia. lia.
      * rewrite Z.mod_small in * by lia. lia.
  - change (256 ^ N.of_nat 4) with (Z.to_N (2 ^ 32)). apply Z2N.inj_lt; lia.
Qed.

Lemma int_bytes_length z : length (int_bytes z) = 4%nat.
Proof. apply le_encode_length. Qed.
Lemma size_bytes_length z : length (size_bytes z) = 8%nat.
Proof. apply le_encode_length. Qed.
