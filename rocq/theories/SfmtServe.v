(** The initial state and the sampler's answers. *)
From Coq Require Import Ring.
From Verif Require Import Base BaseLemmas Flt BitsProofs SfmtModel SfmtSpec SfmtProofs SfmtArray.
Local Open Scope N_scope.

(** * Lanes and lists *)
Lemma num_lane w i : wf w -> (i < 4)%nat -> num w / 2 ^ (32 * N.of_nat i) mod 2 ^ 32 = lane w i.
Proof.
  intros H I. apply N.bits_inj. intro r. destruct (N.lt_ge_cases r 32) as [R|R].
  - rewrite N.mod_pow2_bits_low, N.div_pow2_bits by exact R. rewrite N.add_comm. apply lane_bit; assumption.
  - rewrite N.mod_pow2_bits_high by exact R. symmetry. apply (testbit_high _ 32); [apply lane_lt; exact H|exact R].
Qed.
Lemma flat_nth l q r w : nth_error l q = Some w -> (r < 4)%nat -> nth_error (flat l) (4 * q + r) = Some (lane w r).
Proof.
  revert q. induction l as [|[a b c d] l IH]; intros q H R; [destruct q; discriminate|]. destruct q as [|q].
  - cbn in H. injection H as <-. cbn [flat]. do 4 (destruct r as [|r]; [reflexivity|]). lia.
  - cbn [flat]. replace (4 * S q + r)%nat with (S (S (S (S (4 * q + r))))) by lia. apply IH; assumption.
Qed.
Lemma flat_length l : length (flat l) = (4 * length l)%nat.
Proof. induction l as [|[a b c d] l IH]; cbn [flat length]; lia. Qed.
Lemma group4_length l m : length l = (4 * m)%nat -> length (group4 l) = m.
Proof.
  revert m. induction l as [l IH] using (well_founded_induction (Wf_nat.well_founded_ltof _ (@length N))). intros m E.
  destruct m as [|m].
  - destruct l; [reflexivity|discriminate].
  - do 4 (destruct l as [|? l]; [cbn in E; lia|]). cbn [group4 length]. f_equal. apply IH; [unfold Wf_nat.ltof; cbn [length]; lia|]. cbn [length] in E. lia.
Qed.
Lemma group4_nth l m i a b c d : length l = (4 * m)%nat -> (i < m)%nat ->
  nth_error l (4 * i) = Some a -> nth_error l (4 * i + 1) = Some b -> nth_error l (4 * i + 2) = Some c -> nth_error l (4 * i + 3) = Some d ->
  nth_error (group4 l) i = Some (W a b c d).
Proof.
  revert l m. induction i as [|i IH]; intros l m E I A B C D; (destruct m as [|m]; [lia|]); do 4 (destruct l as [|? l]; [cbn in E; lia|]).
  - cbn in A, B, C, D. injection A as ->. injection B as ->. injection C as ->. injection D as ->. reflexivity.
  - cbn [group4 nth_error]. apply (IH l m); [cbn [length] in E; lia|lia| | | |].
    + replace (4 * S i)%nat with (S (S (S (S (4 * i))))) in A by lia. exact A.
    + replace (4 * S i + 1)%nat with (S (S (S (S (4 * i + 1))))) in B by lia. exact B.
    + replace (4 * S i + 2)%nat with (S (S (S (S (4 * i + 2))))) in C by lia. exact C.
    + replace (4 * S i + 3)%nat with (S (S (S (S (4 * i + 3))))) in D by lia. exact D.
Qed.

(** * Parity *)
Lemma parity_ext n x y : (forall k, k < N.of_nat n -> N.testbit x k = N.testbit y k) -> parity n x = parity n y.
Proof. induction n as [|n IH]; intro H; [reflexivity|]. cbn [parity]. rewrite H by lia. f_equal. apply IH. intros k K. apply H. lia. Qed.
Lemma parity_lxor n x y : parity n (N.lxor x y) = xorb (parity n x) (parity n y).
Proof. induction n as [|n IH]; [reflexivity|]. cbn [parity]. rewrite N.lxor_spec, IH. destruct (N.testbit x _), (N.testbit y _), (parity n x), (parity n y); reflexivity. Qed.
Lemma parity_cat n m x : parity (n + m) x = xorb (parity n x) (parity m (N.shiftr x (N.of_nat n))).
Proof.
  induction m as [|m IH]; [rewrite Nat.add_0_r; cbn [parity]; rewrite xorb_false_r; reflexivity|]. rewrite Nat.add_succ_r. cbn [parity]. rewrite IH, N.shiftr_spec'.
  replace (N.of_nat m + N.of_nat n) with (N.of_nat (n + m)) by lia. destruct (N.testbit x _), (parity n x), (parity m _); reflexivity.
Qed.
Lemma fold_bits_parity x : N.testbit (fold_bits x) 0 = parity 32 x.
Proof.
  unfold fold_bits. cbn [fold_left]. repeat (rewrite N.lxor_spec || rewrite N.shiftr_spec').
  cbn [parity N.of_nat Pos.of_succ_nat Pos.succ N.add Pos.add Pos.add_carry]. ring.
Qed.

(** * The initial state *)
Lemma init_word_lt seed i : seed < 2 ^ 32 -> init_word seed i < 2 ^ 32.
Proof. intro H. destruct i; [exact H|]. cbn [init_word]. apply N.mod_lt. discriminate. Qed.
Lemma seed_words_length n i p : length (seed_words n i p) = n.
Proof. revert i p. induction n as [|n IH]; intros; [reflexivity|]. cbn [seed_words length]. f_equal. apply IH. Qed.
Lemma seed_words_nth seed n a j : (j < n)%nat ->
  nth_error (seed_words n (N.of_nat (S a)) (init_word seed a)) j = Some (init_word seed (S a + j)).
Proof.
  revert a j. induction n as [|n IH]; intros a j J; [lia|]. cbn [seed_words].
  assert (E : m32 (1812433253 * N.lxor (init_word seed a) (N.shiftr (init_word seed a) 30) + N.of_nat (S a)) = init_word seed (S a)).
  { unfold m32. rewrite N.shiftr_div_pow2. reflexivity. }
  rewrite E. destruct j as [|j]; [rewrite Nat.add_0_r; reflexivity|]. cbn [nth_error]. replace (N.of_nat (S a) + 1) with (N.of_nat (S (S a))) by lia.
  rewrite IH by lia. do 2 f_equal. lia.
Qed.
Definition raw_words (seed : N) : list N := seed :: seed_words (SFMT_N32 - 1) 1 seed.
Lemma raw_length seed : length (raw_words seed) = 624%nat.
Proof. unfold raw_words. cbn [length]. rewrite seed_words_length. reflexivity. Qed.
Lemma raw_nth seed i : (i < 624)%nat -> nth_error (raw_words seed) i = Some (init_word seed i).
Proof.
  intro I. unfold raw_words. destruct i as [|i]; [reflexivity|]. cbn [nth_error]. apply (seed_words_nth seed _ 0 i). unfold SFMT_N32. lia.
Qed.
Definition init_w (seed : N) (i : nat) : w128 :=
  W (init_word seed (4 * i)) (init_word seed (4 * i + 1)) (init_word seed (4 * i + 2)) (init_word seed (4 * i + 3)).
Lemma init_w_wf seed i : seed < 2 ^ 32 -> wf (init_w seed i).
Proof. intro H. repeat split; apply init_word_lt; exact H. Qed.
Lemma init_w_num seed i : num (init_w seed i) = init_block seed i.
Proof. reflexivity. Qed.
(** The certification. *)
Definition flip0 (w : w128) : w128 := let '(W a b c d) := w in W (N.lxor a 1) b c d.
Lemma flip0_wf w : wf w -> wf (flip0 w).
Proof. destruct w. intros (A & B & C & D). repeat split; try assumption. apply lxor_lt; [exact A|reflexivity]. Qed.
Lemma flip0_num w : wf w -> num (flip0 w) = N.lxor (num w) 1.
Proof.
  intro H. pose proof (flip0_wf w H) as H'. destruct w as [a b c d]. cbn [flip0] in *. apply N.bits_inj. intro k. rewrite N.lxor_spec, !num_bit by assumption.
  assert (B1 : 1 <= k -> N.testbit 1 k = false) by (intro; apply (testbit_high 1 1); [reflexivity|assumption]).
  destruct (N.ltb_spec k 32); [apply N.lxor_spec|]. rewrite B1, xorb_false_r by lia. reflexivity.
Qed.
Lemma certified_words a b c d : wf (W a b c d) -> certified (num (W a b c d)) <-> N.testbit (fold_bits (inner_product [a; b; c; d])) 0 = true.
Proof.
  intro H. unfold certified. rewrite fold_bits_parity. cut (parity 128 (N.land (num (W a b c d)) parity_vector) = parity 32 (inner_product [a; b; c; d])); [intros ->; reflexivity|].
  change parity_vector with (num (W 1 0 0 331998852)). set (P := W 1 0 0 331998852). assert (HP : wf P) by (repeat split; reflexivity).
  set (w := W a b c d) in *. change 128%nat with (32 + (32 + (32 + 32)))%nat. rewrite !parity_cat. rewrite !N.shiftr_shiftr. change (N.of_nat 32) with 32. change (32 + 32) with 64. change (64 + 32) with 96.
  assert (L : forall i, (i < 4)%nat -> parity 32 (N.shiftr (N.land (num w) (num P)) (32 * N.of_nat i)) = parity 32 (N.land (lane w i) (lane P i))).
  { intros i I. apply parity_ext. intros k K. rewrite N.shiftr_spec', !N.land_spec, (N.add_comm k), !lane_bit by (assumption || lia). reflexivity. }
  pose proof (L 0%nat ltac:(lia)) as L0. pose proof (L 1%nat ltac:(lia)) as L1. pose proof (L 2%nat ltac:(lia)) as L2. pose proof (L 3%nat ltac:(lia)) as L3.
  change (32 * N.of_nat 0) with 0 in L0. change (32 * N.of_nat 1) with 32 in L1. change (32 * N.of_nat 2) with 64 in L2. change (32 * N.of_nat 3) with 96 in L3.
  rewrite N.shiftr_0_r in L0. rewrite L0, L1, L2, L3. unfold inner_product, PARITY. cbn [combine map fold_left fst snd]. rewrite !parity_lxor. cbn [lane nth w P].
  replace (parity 32 0) with false by reflexivity. ring.
Qed.
Lemma certified_flip w : wf w -> ~ certified (num w) -> certified (num (flip0 w)).
Proof.
  intros H N. rewrite flip0_num by exact H. unfold certified in *.
  assert (E : N.land (N.lxor (num w) 1) parity_vector = N.lxor (N.land (num w) parity_vector) (N.land 1 parity_vector)).
  { apply N.bits_inj. intro k. rewrite N.lxor_spec, !N.land_spec, N.lxor_spec. destruct (N.testbit (num w) k), (N.testbit 1 k), (N.testbit parity_vector k); reflexivity. }
  rewrite E, parity_lxor. apply not_true_is_false in N. rewrite N. reflexivity.
Qed.
(** The state made from a seed. *)
Definition init_state (seed : N) : list w128 := s_state (sfmt_init_gen_rand seed).
Lemma land1 x : (N.land x 1 =? 1) = N.testbit x 0.
Proof. destruct x as [|[p|p|]]; reflexivity. Qed.
Lemma init_state_ok seed : seed < 2 ^ 32 ->
  length (init_state seed) = 156%nat /\
  (forall i, (1 <= i < 156)%nat -> nth_error (init_state seed) i = Some (init_w seed i)) /\
  exists w, nth_error (init_state seed) 0 = Some w /\ wf w /\ certified (num w) /\
    (w = init_w seed 0 \/ w = flip0 (init_w seed 0) /\ ~ certified (num (init_w seed 0))).
Proof.
  intro S0. pose proof (init_w_wf seed 0 S0) as W0'. unfold init_state, sfmt_init_gen_rand. cbn [s_state]. fold (raw_words seed).
  set (ws := raw_words seed). pose proof (raw_length seed) as L. fold ws in L.
  assert (NT : forall i, (i < 624)%nat -> nth_error ws i = Some (init_word seed i)) by (intros; apply raw_nth; assumption). clearbody ws.
  destruct ws as [|a [|b [|c [|d t]]]]; try discriminate.
  pose proof (NT 0%nat ltac:(lia)) as A. pose proof (NT 1%nat ltac:(lia)) as B. pose proof (NT 2%nat ltac:(lia)) as C. pose proof (NT 3%nat ltac:(lia)) as D.
  cbn [nth_error] in A, B, C, D. injection A as A. injection B as B. injection C as C. injection D as D.
  assert (EW : W a b c d = init_w seed 0) by (unfold init_w; rewrite A, B, C, D; reflexivity).
  assert (PC : period_certification (a :: b :: c :: d :: t) = (if N.testbit (fold_bits (inner_product [a; b; c; d])) 0 then a else N.lxor a 1) :: b :: c :: d :: t).
  { unfold period_certification. cbn [firstn skipn]. rewrite land1. destruct (N.testbit _ 0); reflexivity. }
  rewrite PC. set (a' := if N.testbit _ 0 then a else N.lxor a 1).
  assert (NT' : forall i, (1 <= i < 624)%nat -> nth_error (a' :: b :: c :: d :: t) i = Some (init_word seed i)) by (intros i I; destruct i; [lia|apply (NT (S i)); lia]).
  split; [apply (group4_length _ 156); exact L|]. split.
  - intros i I. unfold init_w. apply (group4_nth _ 156); [exact L|lia|..]; apply NT'; lia.
  - exists (W a' b c d). split; [reflexivity|]. rewrite <- EW in W0' |- *. pose proof (certified_words a b c d W0') as CW. unfold a'. destruct (N.testbit _ 0).
    + split; [exact W0'|]. split; [apply CW; reflexivity|]. left. reflexivity.
    + assert (NC : ~ certified (num (W a b c d))) by (intro H; apply CW in H; discriminate). split; [apply (flip0_wf _ W0')|]. split; [apply (certified_flip _ W0' NC)|]. right. split; [reflexivity|exact NC].
Qed.
Lemma init_state_wf seed : seed < 2 ^ 32 -> Forall wf (init_state seed).
Proof.
  intro S0. destruct (init_state_ok seed S0) as (L & NT & w & N0 & W0 & _). apply Forall_forall. intros x IN. apply In_nth_error in IN as [i E].
  assert (I : (i < 156)%nat) by (rewrite <- L; apply nth_error_Some; congruence). destruct i as [|i]; [congruence|]. rewrite NT in E by lia. injection E as <-. apply init_w_wf. exact S0.
Qed.
(** The sequence of a seed exists and is the one the code keeps. *)
Definition the_seq (seed : N) (n : nat) : N := num (seq_of (init_state seed) n).
Lemma the_seq_seeded seed : seed < 2 ^ 32 -> seeded seed (the_seq seed).
Proof.
  intro S0. destruct (init_state_ok seed S0) as (L & NT & w & N0 & Ww & CW & OR). pose proof (seq_holds _ L) as [_ H]. pose proof (seq_wf _ L (init_state_wf _ S0)) as WF.
  assert (E0 : seq_of (init_state seed) 0 = w) by (specialize (H 0%nat ltac:(lia)); rewrite N0 in H; injection H as H; symmetry; exact H).
  unfold seeded, the_seq. rewrite E0. split; [exact CW|]. split; [|split].
  - destruct OR as [->|(-> & NC)]; [left; reflexivity|right]. rewrite flip0_num by (apply init_w_wf; exact S0). split; [reflexivity|exact NC].
  - intros i I. specialize (H i ltac:(lia)). rewrite NT in H by lia. change (0 + i)%nat with i in H. injection H as <-. reflexivity.
  - intro n. rewrite (seq_follows _ L). apply recursion_ok; apply WF.
Qed.
Lemma next_unique a b c d r r' : sfmt_next a b c d r -> sfmt_next a b c d r' -> r = r'.
Proof. intros H H'. apply N.bits_inj. intro k. rewrite (H k), (H' k). reflexivity. Qed.
Lemma seeded_unique seed x y : seeded seed x -> seeded seed y -> forall n, x n = y n.
Proof.
  intros (CX & OX & IX & RX) (CY & OY & IY & RY) n. induction n as [n IH] using lt_wf_ind. destruct (Nat.lt_ge_cases n 156) as [N|N].
  - destruct n as [|n]; [|rewrite IX, IY by lia; reflexivity].
    destruct OX as [EX|[EX NX]], OY as [EY|[EY NY]]; try congruence.
  - replace n with (n - 156 + 156)%nat by lia. apply (next_unique _ _ _ _ _ _ (RX (n - 156)%nat)). rewrite !IH by lia. apply RY.
Qed.
