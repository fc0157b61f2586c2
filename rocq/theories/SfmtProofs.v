(** Proofs about the generator: the recursion, block generation, arrays. *)
From Verif Require Import Base BaseLemmas Flt BitsProofs SfmtModel SfmtSpec.
Local Open Scope N_scope.

(** * Bits *)
Definition num (w : w128) : N := let '(W a b c d) := w in a + 2 ^ 32 * b + 2 ^ 64 * c + 2 ^ 96 * d.
Definition lane (w : w128) (i : nat) : N := let '(W a b c d) := w in nth i [a; b; c; d] 0.
Definition wf (w : w128) : Prop := let '(W a b c d) := w in a < 2 ^ 32 /\ b < 2 ^ 32 /\ c < 2 ^ 32 /\ d < 2 ^ 32.

Lemma lt_bits x n : (forall k, n <= k -> N.testbit x k = false) -> x < 2 ^ n.
Proof.
  intro H. destruct (N.lt_ge_cases x (2 ^ n)) as [L|L]; [exact L|]. exfalso.
  assert (P : 0 < x) by (pose proof (N.pow_nonzero 2 n ltac:(lia)); lia).
  pose proof (N.log2_le_mono _ _ L) as M. rewrite N.log2_pow2 in M by lia.
  specialize (H (N.log2 x) M). rewrite N.bit_log2 in H by lia. discriminate.
Qed.
Lemma m32_bit x k : N.testbit (m32 x) k = (k <? 32) && N.testbit x k.
Proof. unfold m32. destruct (N.ltb_spec k 32); cbn [andb]; [apply N.mod_pow2_bits_low; lia|apply N.mod_pow2_bits_high; lia]. Qed.
Lemma m64_bit x k : N.testbit (m64 x) k = (k <? 64) && N.testbit x k.
Proof. unfold m64. destruct (N.ltb_spec k 64); cbn [andb]; [apply N.mod_pow2_bits_low; lia|apply N.mod_pow2_bits_high; lia]. Qed.
Lemma shl_bit x n k : N.testbit (N.shiftl x n) k = (n <=? k) && N.testbit x (k - n).
Proof. destruct (N.leb_spec n k); cbn [andb]; [apply N.shiftl_spec_high'; lia|apply N.shiftl_spec_low; lia]. Qed.
Lemma m32_lt x : m32 x < 2 ^ 32.
Proof. apply N.mod_lt. discriminate. Qed.
(** A number cut in 32-bit words. *)
Lemma cat_bit a b k : a < 2 ^ 32 -> N.testbit (a + 2 ^ 32 * b) k = if k <? 32 then N.testbit a k else N.testbit b (k - 32).
Proof.
  intro A. assert (E : a = (a + 2 ^ 32 * b) mod 2 ^ 32) by (rewrite (N.mul_comm _ b), N.mod_add, N.mod_small by (assumption || discriminate); reflexivity).
  assert (F : b = (a + 2 ^ 32 * b) / 2 ^ 32) by (rewrite (N.mul_comm _ b), N.div_add, N.div_small by (assumption || discriminate); reflexivity).
  set (z := a + 2 ^ 32 * b) in *. destruct (N.ltb_spec k 32).
  - rewrite E. symmetry. apply N.mod_pow2_bits_low. lia.
  - rewrite F, N.div_pow2_bits. f_equal. lia.
Qed.
Lemma num_eq a b c d : num (W a b c d) = a + 2 ^ 32 * (b + 2 ^ 32 * (c + 2 ^ 32 * d)).
Proof. unfold num. lia. Qed.
Lemma num_bit a b c d k : wf (W a b c d) ->
  N.testbit (num (W a b c d)) k =
  if k <? 32 then N.testbit a k else if k <? 64 then N.testbit b (k - 32) else if k <? 96 then N.testbit c (k - 64) else N.testbit d (k - 96).
Proof.
  intros (A & B & C & D). rewrite num_eq, !cat_bit by assumption.
  destruct (N.ltb_spec k 32); [reflexivity|].
  replace (k - 32 <? 32) with (k <? 64) by (destruct (N.ltb_spec k 64), (N.ltb_spec (k - 32) 32); lia).
  destruct (N.ltb_spec k 64); [reflexivity|].
  replace (k - 32 - 32 <? 32) with (k <? 96) by (destruct (N.ltb_spec k 96), (N.ltb_spec (k - 32 - 32) 32); lia).
  destruct (N.ltb_spec k 96); f_equal; lia.
Qed.
Lemma lor_bit hi lo k : lo < 2 ^ 32 -> N.testbit (N.lor (N.shiftl hi 32) lo) k = if k <? 32 then N.testbit lo k else N.testbit hi (k - 32).
Proof.
  intro L. rewrite N.lor_spec, shl_bit. destruct (N.ltb_spec k 32), (N.leb_spec 32 k); try (exfalso; lia); cbn [andb orb]; [reflexivity|].
  rewrite (testbit_high lo 32 k L) by lia. apply orb_false_r.
Qed.
Lemma lane_lt w i : wf w -> lane w i < 2 ^ 32.
Proof. destruct w as [a b c d]. intros (A & B & C & D). unfold lane. do 4 (destruct i as [|i]; [assumption|]). destruct i; reflexivity. Qed.
(** Bit 32i + r of a block is bit r of lane i. *)
Lemma lane_bit w i r : wf w -> (i < 4)%nat -> r < 32 -> N.testbit (num w) (32 * N.of_nat i + r) = N.testbit (lane w i) r.
Proof.
  destruct w as [a b c d]. intros H I R. rewrite num_bit by exact H. unfold lane.
  do 4 (destruct i as [|i]; [cbn [nth]; repeat match goal with |- context [if ?x <? ?y then _ else _] => destruct (N.ltb_spec x y); try (exfalso; lia) end; f_equal; lia|]). lia.
Qed.
Lemma num_high w k : wf w -> 128 <= k -> N.testbit (num w) k = false.
Proof.
  destruct w as [a b c d]. intros H K. rewrite num_bit by exact H. destruct H as (_ & _ & _ & D).
  repeat match goal with |- context [if ?x <? ?y then _ else _] => destruct (N.ltb_spec x y); try (exfalso; lia) end. apply (testbit_high d 32); [exact D|lia].
Qed.

(** The shifts. *)
Lemma lshift_wf w s : wf (lshift128 w s).
Proof. destruct w. cbn [lshift128 wf]. auto using m32_lt. Qed.
Lemma rshift_wf w s : wf (rshift128 w s).
Proof. destruct w. cbn [rshift128 wf]. auto using m32_lt. Qed.
Ltac bits := repeat first [ rewrite m32_bit | rewrite m64_bit | rewrite N.shiftr_spec' | rewrite shl_bit | rewrite N.lor_spec ].
Ltac ifs := repeat match goal with
  | |- context [?x <? ?y] => destruct (N.ltb_spec x y); try (exfalso; lia)
  | |- context [?x <=? ?y] => destruct (N.leb_spec x y); try (exfalso; lia)
  end; cbn [andb orb].
Lemma lshift_bit w i r : wf w -> (i < 4)%nat -> r < 32 ->
  let k := 32 * N.of_nat i + r in
  N.testbit (lane (lshift128 w SL2) i) r = (8 <=? k) && N.testbit (num w) (k - 8).
Proof.
  intros H I R k. destruct w as [a b c d]. rewrite num_bit by exact H. destruct H as (A & B & C & D).
  unfold lshift128, SL2. change (1 * 8) with 8. change (64 - 8) with 56. unfold lane.
  assert (T : forall hi lo t, lo < 2 ^ 32 -> hi < 2 ^ 32 -> N.testbit (N.lor (N.shiftl hi 32) lo) t = if t <? 32 then N.testbit lo t else if t <? 64 then N.testbit hi (t - 32) else false).
  { intros hi lo t LO HI. rewrite lor_bit by exact LO. destruct (N.ltb_spec t 32); [reflexivity|]. destruct (N.ltb_spec t 64); [reflexivity|]. apply (testbit_high hi 32); [exact HI|lia]. }
  set (th := N.lor (N.shiftl d 32) c). set (tl := N.lor (N.shiftl b 32) a).
  assert (TH : forall t, N.testbit th t = if t <? 32 then N.testbit c t else if t <? 64 then N.testbit d (t - 32) else false) by (intro t; apply T; assumption).
  assert (TL : forall t, N.testbit tl t = if t <? 32 then N.testbit a t else if t <? 64 then N.testbit b (t - 32) else false) by (intro t; apply T; assumption).
  clearbody th tl. unfold k.
  do 4 (destruct i as [|i]; [cbn [nth]; bits; rewrite ?TH, ?TL; change (N.of_nat 0) with 0; ifs; rewrite ?orb_false_r; try reflexivity; f_equal; lia|]). lia.
Qed.
Lemma rshift_bit w i r : wf w -> (i < 4)%nat -> r < 32 ->
  let k := 32 * N.of_nat i + r in
  N.testbit (lane (rshift128 w SR2) i) r = (k <? 120) && N.testbit (num w) (k + 8).
Proof.
  intros H I R k. destruct w as [a b c d]. rewrite num_bit by exact H. destruct H as (A & B & C & D).
  unfold rshift128, SR2. change (1 * 8) with 8. change (64 - 8) with 56. unfold lane.
  assert (T : forall hi lo t, lo < 2 ^ 32 -> hi < 2 ^ 32 -> N.testbit (N.lor (N.shiftl hi 32) lo) t = if t <? 32 then N.testbit lo t else if t <? 64 then N.testbit hi (t - 32) else false).
  { intros hi lo t LO HI. rewrite lor_bit by exact LO. destruct (N.ltb_spec t 32); [reflexivity|]. destruct (N.ltb_spec t 64); [reflexivity|]. apply (testbit_high hi 32); [exact HI|lia]. }
  set (th := N.lor (N.shiftl d 32) c). set (tl := N.lor (N.shiftl b 32) a).
  assert (TH : forall t, N.testbit th t = if t <? 32 then N.testbit c t else if t <? 64 then N.testbit d (t - 32) else false) by (intro t; apply T; assumption).
  assert (TL : forall t, N.testbit tl t = if t <? 32 then N.testbit a t else if t <? 64 then N.testbit b (t - 32) else false) by (intro t; apply T; assumption).
  clearbody th tl. unfold k.
  do 4 (destruct i as [|i]; [cbn [nth]; bits; rewrite ?TH, ?TL; change (N.of_nat 0) with 0; ifs; rewrite ?orb_false_r; try reflexivity; f_equal; lia|]). lia.
Qed.

(** * The recursion *)
Lemma land_lt a b n : b < 2 ^ n -> N.land a b < 2 ^ n.
Proof. intro B. apply lt_bits. intros k K. rewrite N.land_spec, (testbit_high b n k B K). apply andb_false_r. Qed.
Lemma lxor_lt a b n : a < 2 ^ n -> b < 2 ^ n -> N.lxor a b < 2 ^ n.
Proof. intros A B. apply lt_bits. intros k K. rewrite N.lxor_spec, (testbit_high a n k A K), (testbit_high b n k B K). reflexivity. Qed.
Lemma mix_lt a x b msk y d : a < 2 ^ 32 -> x < 2 ^ 32 -> msk < 2 ^ 32 -> y < 2 ^ 32 -> mix a x b msk y d < 2 ^ 32.
Proof. intros. unfold mix. auto 10 using lxor_lt, land_lt, m32_lt. Qed.
Lemma recursion_wf a b c d : wf a -> wf (do_recursion a b c d).
Proof.
  intro A. pose proof (lshift_wf a SL2) as L. pose proof (rshift_wf c SR2) as R. unfold do_recursion.
  destruct (lshift128 a SL2) as [x0 x1 x2 x3], (rshift128 c SR2) as [y0 y1 y2 y3], a as [a0 a1 a2 a3], b as [b0 b1 b2 b3], d as [d0 d1 d2 d3].
  destruct A as (A0 & A1 & A2 & A3), L as (L0 & L1 & L2 & L3), R as (R0 & R1 & R2 & R3).
  repeat split; apply mix_lt; try assumption; reflexivity.
Qed.
Lemma mix_bit a x b msk y d r : r < 32 ->
  N.testbit (mix a x b msk y d) r =
  xorb (xorb (xorb (xorb (N.testbit a r) (N.testbit x r)) (N.testbit b (r + 11) && N.testbit msk r)) (N.testbit y r)) ((18 <=? r) && N.testbit d (r - 18)).
Proof.
  intro R. unfold mix. rewrite !N.lxor_spec, N.land_spec, N.shiftr_spec', m32_bit, shl_bit. unfold SR1, SL1.
  destruct (N.ltb_spec r 32); [|lia]. reflexivity.
Qed.
Lemma recursion_lane a b c d i : (i < 4)%nat ->
  lane (do_recursion a b c d) i = mix (lane a i) (lane (lshift128 a SL2) i) (lane b i) (nth i [MSK1; MSK2; MSK3; MSK4] 0) (lane (rshift128 c SR2) i) (lane d i).
Proof.
  intro I. unfold do_recursion.
  destruct (lshift128 a SL2) as [x0 x1 x2 x3], (rshift128 c SR2) as [y0 y1 y2 y3], a as [a0 a1 a2 a3], b as [b0 b1 b2 b3], d as [d0 d1 d2 d3].
  do 4 (destruct i as [|i]; [reflexivity|]). lia.
Qed.
Lemma recursion_ok a b c d : wf a -> wf b -> wf c -> wf d -> sfmt_next (num a) (num b) (num c) (num d) (num (do_recursion a b c d)).
Proof.
  intros A B C D k. pose proof (recursion_wf a b c d A) as Wf. destruct (N.ltb_spec k 128) as [K|K]; cbn [andb]; [|apply num_high; assumption].
  set (i := N.to_nat (k / 32)). set (r := k mod 32).
  assert (R : r < 32) by (apply N.mod_lt; discriminate).
  assert (I : (i < 4)%nat) by (unfold i; assert (k / 32 < 4) by (apply N.div_lt_upper_bound; lia); lia).
  assert (E : k = 32 * N.of_nat i + r) by (unfold i; rewrite N2Nat.id; unfold r; apply N.div_mod; discriminate).
  rewrite E at 1. rewrite (lane_bit _ i r Wf I R), recursion_lane by exact I. rewrite mix_bit by exact R.
  rewrite lshift_bit, rshift_bit by assumption. cbv zeta. rewrite <- E.
  rewrite <- (lane_bit a i r A I R), <- E.
  f_equal; [f_equal; f_equal|].
  - (* the masked operand *)
    unfold mask_bit. fold i r. destruct (N.ltb_spec r 21) as [LR|LR]; cbn [andb].
    + rewrite andb_comm. f_equal. replace (k + 11) with (32 * N.of_nat i + (r + 11)) by lia. rewrite (lane_bit b i (r + 11) B I) by lia. reflexivity.
    + rewrite (testbit_high (lane b i) 32) by (try apply lane_lt; try assumption; lia). reflexivity.
  - destruct (N.leb_spec 18 r); cbn [andb]; [|reflexivity].
    replace (k - 18) with (32 * N.of_nat i + (r - 18)) by lia. rewrite (lane_bit d i (r - 18) D I) by lia. reflexivity.
Qed.

(** * Loops *)
Lemma for_seq {S} (f : nat -> S -> res S) (P : nat -> S -> Prop) a n s :
  P a s -> (forall i s, (a <= i < a + n)%nat -> P i s -> exists s', f i s = Ok s' /\ P (i + 1)%nat s') ->
  exists s', for_each f (seq a n) s = Ok s' /\ P (a + n)%nat s'.
Proof.
  revert a s. induction n as [|n IH]; intros a s H F.
  - exists s. split; [reflexivity|]. rewrite Nat.add_0_r. exact H.
  - destruct (F a s ltac:(lia) H) as (s1 & E & H1). cbn [seq for_each]. rewrite E. cbn [bind].
    destruct (IH (Datatypes.S a) s1) as (s2 & E2 & H2); [rewrite Nat.add_1_r in H1; exact H1|intros; apply F; [lia|assumption]|].
    exists s2. split; [exact E2|]. replace (a + Datatypes.S n)%nat with (Datatypes.S a + n)%nat by lia. exact H2.
Qed.
(** The sequence of blocks. *)
Definition follows (V : nat -> w128) : Prop :=
  forall n, V (n + 156)%nat = do_recursion (V n) (V (n + 122)%nat) (V (n + 154)%nat) (V (n + 155)%nat).
Definition holds (V : nat -> w128) (b : nat) (st : list w128) : Prop :=
  length st = 156%nat /\ forall i, (i < 156)%nat -> nth_error st i = Some (V (b + i)%nat).
Lemma follows_shift V b : follows V -> follows (fun n => V (b + n)%nat).
Proof. intros F n. rewrite !Nat.add_assoc. apply F. Qed.

Lemma aget_at {A} (l : list A) i a : nth_error l i = Some a -> aget l i = Ok a.
Proof. apply aget_ok. Qed.
Section All.
Variable V : nat -> w128.
Hypothesis F : follows V.
Definition all_inv (i : nat) (s : list w128 * nat * nat) : Prop :=
  let '(st, r1, r2) := s in
  length st = 156%nat /\
  (forall j, (j < i)%nat -> nth_error st j = Some (V (156 + j)%nat)) /\
  (forall j, (i <= j < 156)%nat -> nth_error st j = Some (V j)) /\
  r1 = (if i <? 2 then 154 + i else i - 2)%nat /\ r2 = (if i <? 1 then 155 else i - 1)%nat.
Lemma all_step_ok off i s : (i < 156)%nat -> all_inv i s ->
  (off i = i + 122 /\ i < 34 \/ off i = i + 122 - 156 /\ 34 <= i)%nat ->
  exists s', all_step off i s = Ok s' /\ all_inv (i + 1)%nat s'.
Proof.
  intros I H O. destruct s as [[st r1] r2]. destruct H as (L & DN & UP & E1 & E2). unfold all_step.
  rewrite (aget_at st i (V i)) by (apply UP; lia). cbn [bind].
  rewrite (aget_at st (off i) (V (i + 122)%nat)).
  2:{ destruct O as [[-> O]|[-> O]]; [apply UP; lia|]. replace (i + 122)%nat with (156 + (i + 122 - 156))%nat at 2 by lia. apply DN. lia. }
  cbn [bind]. rewrite (aget_at st r1 (V (i + 154)%nat)).
  2:{ subst r1. destruct (Nat.ltb_spec i 2); [rewrite (Nat.add_comm i); apply UP; lia|]. replace (i + 154)%nat with (156 + (i - 2))%nat by lia. apply DN. lia. }
  cbn [bind]. rewrite (aget_at st r2 (V (i + 155)%nat)).
  2:{ subst r2. destruct (Nat.ltb_spec i 1); [replace i with 0%nat by lia; apply UP; lia|]. replace (i + 155)%nat with (156 + (i - 1))%nat by lia. apply DN. lia. }
  cbn [bind]. rewrite aset_lt by lia. cbn [bind]. eexists. split; [reflexivity|]. rewrite <- F. unfold all_inv. repeat split.
  - rewrite lset_length. exact L.
  - intros j J. destruct (Nat.eq_dec j i) as [->|NE].
    + rewrite nth_error_lset_eq by lia. do 2 f_equal. lia.
    + rewrite nth_error_lset_neq by lia. apply DN. lia.
  - intros j J. rewrite nth_error_lset_neq by lia. apply UP. lia.
  - subst r2. destruct (Nat.ltb_spec i 1), (Nat.ltb_spec (i + 1) 2); lia.
  - destruct (Nat.ltb_spec (i + 1) 1); lia.
Qed.
Lemma gen_rand_all_ok st : holds V 0 st -> exists st', sfmt_gen_rand_all st = Ok st' /\ holds V 156 st'.
Proof.
  intros (L & H). unfold sfmt_gen_rand_all.
  destruct (for_seq (all_step (fun i => i + SFMT_POS1)%nat) all_inv 0 (SFMT_N - SFMT_POS1) (st, SFMT_N - 2, SFMT_N - 1)%nat) as (s1 & E1 & I1).
  { repeat split; [exact L|lia|]. intros j J. apply H. lia. }
  { intros i s I P. apply all_step_ok; [unfold SFMT_N, SFMT_POS1 in I; lia|exact P|]. left. unfold SFMT_N, SFMT_POS1 in *. lia. }
  rewrite E1. cbn [bind].
  destruct (for_seq (all_step (fun i => i + SFMT_POS1 - SFMT_N)%nat) all_inv (SFMT_N - SFMT_POS1) SFMT_POS1 s1) as (s2 & E2 & I2).
  { exact I1. }
  { intros i s I P. apply all_step_ok; [unfold SFMT_N, SFMT_POS1 in I; lia|exact P|]. right. unfold SFMT_N, SFMT_POS1 in *. lia. }
  rewrite E2. cbn [bind]. destruct s2 as [[st' r1] r2]. destruct I2 as (L2 & DN & _). exists st'. split; [reflexivity|]. split; [exact L2|].
  intros i I. apply DN. exact I.
Qed.
End All.
