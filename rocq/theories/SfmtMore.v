(** What the answers of a sampler look like, and the sequence never dies out. *)
From Verif Require Import Base BaseLemmas Flt SfmtModel SfmtSpec SfmtProofs SfmtArray SfmtServe SfmtCalls SfmtFloat.
Local Open Scope N_scope.

Definition in_range (a : answer) : Prop :=
  match a with
  | AInt n => n < 2 ^ 64
  | AFloat f => exists m, f = FF m /\ (0 <= m <= U)%Z
  | ADouble n => n < 2 ^ 53
  | AWords l => Forall (fun v => v < 2 ^ 32) l
  | ANone => True
  end.
Lemma word_small x k : word x k < 2 ^ 32.
Proof. unfold word. apply N.mod_lt. discriminate. Qed.
Lemma words_small x k n : Forall (fun v => v < 2 ^ 32) (words x k n).
Proof. apply Forall_forall. intros v I. apply in_map_iff in I as (i & <- & _). apply word_small. Qed.
Lemma two_words a b : a < 2 ^ 32 -> b < 2 ^ 32 -> a + 2 ^ 32 * b < 2 ^ 64.
Proof. intros A B. change (2 ^ 64) with (2 ^ 32 * 2 ^ 32). set (q := 2 ^ 32) in *. clearbody q. nia. Qed.
Lemma serve_range X os : forall seed k j l, serve X os seed k j = Some l -> Forall in_range l.
Proof.
  induction os as [|o os IH]; intros seed k j l E; cbn [serve] in E; [injection E as <-; constructor|].
  destruct (serve1 X o seed k j) as [[[[a seed'] k'] j']|] eqn:E1; [|discriminate].
  destruct (serve X os seed' k' j') as [l'|] eqn:E2; [|discriminate]. injection E as <-. constructor; [|eapply IH; exact E2].
  pose proof (word_small (X seed) k) as W0. pose proof (word_small (X seed) (k + 1)) as W1.
  destruct o; cbn [serve1] in E1.
  - injection E1 as <- _ _ _. unfold in_range. eapply N.lt_trans; [exact W0|reflexivity].
  - destruct (k mod 2 =? 0)%nat; [|discriminate]. injection E1 as <- _ _ _. apply two_words; assumption.
  - injection E1 as <- _ _ _. destruct (real2_s_rnd _ W0) as [E R]. eexists. split; [exact E|exact R].
  - injection E1 as <- _ _ _. unfold in_range. apply N.div_lt_upper_bound; [discriminate|]. change (2 ^ 11 * 2 ^ 53) with (2 ^ 64). apply two_words; assumption.
  - destruct (_ && _); [|discriminate]. injection E1 as <- _ _ _. apply words_small.
  - destruct (_ && _); [|discriminate]. injection E1 as <- _ _ _. apply words_small.
  - injection E1 as <- _ _ _. exact I.
Qed.
(** Going back one step from zeros gives zero. *)
Lemma next_zero a : sfmt_next a 0 0 0 0 -> forall k, k < 128 -> N.testbit a k = false.
Proof.
  intros H k. induction k as [k IH] using (well_founded_induction N.lt_wf_0). intro K. specialize (H k). rewrite !N.bits_0, !andb_false_r, !xorb_false_r in H.
  destruct (N.ltb_spec k 128); [|lia]. cbn [andb] in H. destruct (N.leb_spec 8 k).
  - cbn [andb] in H. rewrite (IH (k - 8)) in H by lia. rewrite xorb_false_r in H. symmetry. exact H.
  - cbn [andb] in H. rewrite xorb_false_r in H. symmetry. exact H.
Qed.
Lemma back_zero x n : recurrence x -> (forall m, x m < 2 ^ 128) -> (forall i, (i < 156)%nat -> x (n + i)%nat = 0) -> forall i, (i < 156)%nat -> x i = 0.
Proof.
  intros R B. induction n as [|n IH]; intro Z; [exact Z|]. apply IH. intros i I. destruct i as [|i].
  - rewrite Nat.add_0_r. specialize (R n). pose proof (Z 121%nat ltac:(lia)) as Z1. pose proof (Z 153%nat ltac:(lia)) as Z2. pose proof (Z 154%nat ltac:(lia)) as Z3. pose proof (Z 155%nat ltac:(lia)) as Z4.
    replace (S n + 121)%nat with (n + 122)%nat in Z1 by lia. replace (S n + 153)%nat with (n + 154)%nat in Z2 by lia. replace (S n + 154)%nat with (n + 155)%nat in Z3 by lia. replace (S n + 155)%nat with (n + 156)%nat in Z4 by lia.
    rewrite Z1, Z2, Z3, Z4 in R. apply N.bits_inj_0. intro k. destruct (N.lt_ge_cases k 128) as [K|K]; [apply (next_zero _ R _ K)|].
    destruct (N.eq_dec (x n) 0) as [->|NZ]; [apply N.bits_0|]. apply N.bits_above_log2. apply N.log2_lt_pow2; [lia|]. eapply N.lt_le_trans; [apply B|]. apply N.pow_le_mono_r; lia.
  - replace (n + S i)%nat with (S n + i)%nat by lia. apply Z. lia.
Qed.
Lemma seeded_lt seed x : seed < 2 ^ 32 -> seeded seed x -> forall n, x n < 2 ^ 128.
Proof.
  intros S0 SX n. rewrite (seeded_unique seed x (the_seq seed) SX (the_seq_seeded seed S0)). destruct (init_state_ok seed S0) as (L & _).
  pose proof (seq_wf _ L (init_state_wf seed S0) n) as W. unfold the_seq. apply lt_bits. intros k K. apply num_high; assumption.
Qed.
Lemma words_zero x q : x q < 2 ^ 128 -> (156 <= q)%nat -> (forall r, (r < 4)%nat -> word x (4 * (q - 156) + r) = 0) -> x q = 0.
Proof.
  intros B Q H. apply N.bits_inj_0. intro k. destruct (N.lt_ge_cases k 128) as [K|K].
  - pose proof (N.div_mod k 32 ltac:(lia)) as D. pose proof (N.mod_lt k 32 ltac:(lia)) as M. assert (K4 : k / 32 < 4) by (apply N.div_lt_upper_bound; lia).
    specialize (H (N.to_nat (k / 32)) ltac:(lia)). unfold word in H.
    replace ((4 * (q - 156) + N.to_nat (k / 32)) / 4)%nat with (q - 156)%nat in H by (rewrite Nat.mul_comm, Nat.div_add_l, Nat.div_small by lia; lia).
    replace ((4 * (q - 156) + N.to_nat (k / 32)) mod 4)%nat with (N.to_nat (k / 32)) in H by (rewrite Nat.mul_comm, Nat.add_comm, Nat.mod_add, Nat.mod_small by lia; reflexivity).
    replace (156 + (q - 156))%nat with q in H by lia. rewrite N2Nat.id in H.
    assert (T : N.testbit ((x q / 2 ^ (32 * (k / 32))) mod 2 ^ 32) (k mod 32) = N.testbit (x q) k).
    { rewrite N.mod_pow2_bits_low by lia. rewrite N.div_pow2_bits. f_equal. lia. }
    rewrite <- T, H. apply N.bits_0.
  - destruct (N.eq_dec (x q) 0) as [->|NZ]; [apply N.bits_0|]. apply N.bits_above_log2. apply N.log2_lt_pow2; [lia|]. eapply N.lt_le_trans; [exact B|]. apply N.pow_le_mono_r; lia.
Qed.
Lemma never_zero seed x : seed < 2 ^ 32 -> seeded seed x -> forall n, ~ forall j, (j < 624)%nat -> word x (4 * n + j) = 0.
Proof.
  intros S0 SX n Z. pose proof (seeded_lt seed x S0 SX) as B. destruct SX as (C & _ & _ & R).
  assert (X0 : x 0%nat = 0).
  { apply (back_zero x (156 + n) R B); [|lia]. intros i I. apply words_zero; [apply B|lia|]. intros r RR.
    replace (4 * (156 + n + i - 156) + r)%nat with (4 * n + (4 * i + r))%nat by lia. apply Z. lia. }
  rewrite X0 in C. unfold certified in C. rewrite N.land_0_l in C. clear -C. discriminate.
Qed.
