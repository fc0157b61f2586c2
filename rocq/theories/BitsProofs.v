(** Proofs about the bit operations. *)
From Verif Require Import Base BaseLemmas BitsModel BitsSpec.
Local Open Scope N_scope.
Local Arguments N.add : simpl never.
Local Arguments N.mul : simpl never.
Local Arguments N.pow : simpl never.
Local Arguments N.modulo : simpl never.
Local Arguments N.div : simpl never.
Local Arguments N.land : simpl never.
Local Arguments N.shiftr : simpl never.
Local Arguments N.shiftl : simpl never.
Local Arguments N.of_nat : simpl never.

(** ** Words as little-endian sequences of fields *)

Lemma pow2_pos n : 0 < 2 ^ n.
Proof. apply N.neq_0_lt_0. apply N.pow_nonzero. lia. Qed.

Lemma testbit_high a k i : a < 2 ^ k -> k <= i -> N.testbit a i = false.
Proof.
  intros Ha Hi. destruct (N.eq_dec a 0) as [->|Hn]; [apply N.bits_0|].
  apply N.bits_above_log2. apply N.log2_lt_pow2; try lia.
  eapply N.lt_le_trans; [exact Ha|]. apply N.pow_le_mono_r; lia.
Qed.

Lemma testbit_cat a b k i : a < 2 ^ k ->
  N.testbit (a + 2 ^ k * b) i = if i <? k then N.testbit a i else N.testbit b (i - k).
Proof.
  intros Ha. rewrite (N.mul_comm (2 ^ k) b), <- N.shiftl_mul_pow2.
  assert (N.land a (N.shiftl b k) = 0) as Hd.
  { apply N.bits_inj. intros j. rewrite N.land_spec, N.bits_0.
    destruct (N.ltb_spec j k).
    - rewrite N.shiftl_spec_low by lia. apply andb_false_r.
    - rewrite (testbit_high a k j) by auto. reflexivity. }
  rewrite (N.add_nocarry_lxor _ _ Hd), N.lxor_spec.
  destruct (N.ltb_spec i k).
  - rewrite N.shiftl_spec_low by lia. apply xorb_false_r.
  - rewrite (testbit_high a k i) by auto.
    rewrite N.shiftl_spec_high' by lia. apply xorb_false_l.
Qed.

Lemma land_cat a b c d k : a < 2 ^ k -> c < 2 ^ k ->
  N.land (a + 2 ^ k * b) (c + 2 ^ k * d) = N.land a c + 2 ^ k * N.land b d.
Proof.
  intros Ha Hc.
  assert (N.land a c < 2 ^ k) as Hac.
  { eapply N.le_lt_trans; [|exact Ha].
    apply N.ldiff_le.
    apply N.bits_inj. intros i. rewrite N.ldiff_spec, N.land_spec, N.bits_0.
    destruct (N.testbit a i); simpl; auto. apply andb_false_r. }
  apply N.bits_inj. intros i. rewrite N.land_spec, !testbit_cat by auto.
  destruct (i <? k); rewrite N.land_spec; reflexivity.
Qed.

Lemma shiftr_cat a b k : a < 2 ^ k -> N.shiftr (a + 2 ^ k * b) k = b.
Proof.
  intros Ha. rewrite N.shiftr_div_pow2, (N.mul_comm (2 ^ k)), N.div_add
    by (apply N.pow_nonzero; lia).
  rewrite N.div_small by auto. lia.
Qed.

(** [cat w fs]: the number whose [w]-bit fields are [fs]. *)
Fixpoint cat (w : N) (fs : list N) : N :=
  match fs with [] => 0 | f :: t => f + 2 ^ w * cat w t end.

Fixpoint pairs (fs : list N) : list N :=
  match fs with a :: b :: t => (a + b) :: pairs t | _ => fs end.
Fixpoint evens (fs : list N) : list N :=
  match fs with a :: _ :: t => a :: evens t | _ => fs end.
Fixpoint odds (fs : list N) : list N :=
  match fs with _ :: b :: t => b :: odds t | _ => [] end.

Definition sumN (l : list N) : N := fold_right N.add 0 l.

Lemma cat_lt w fs : Forall (fun f => f < 2 ^ w) fs -> cat w fs < 2 ^ (w * N.of_nat (length fs)).
Proof.
  induction 1 as [|f t Hf Ht IH]; simpl cat; cbn [length].
  - rewrite N.mul_0_r. cbn. lia.
  - rewrite Nat2N.inj_succ. replace (w * N.succ (N.of_nat (length t))) with (w + w * N.of_nat (length t)) by lia.
    rewrite N.pow_add_r. nia.
Qed.

(** The masks split a word of 2m fields into even and odd fields. *)
Lemma even_fields w m fs : length fs = (2 * m)%nat -> Forall (fun f => f < 2 ^ w) fs ->
  N.land (cat w fs) (cat (2 * w) (repeat (2 ^ w - 1) m)) = cat (2 * w) (evens fs).
Proof.
  revert fs; induction m as [|m IH]; intros fs Hl Hf.
  - destruct fs; [reflexivity|discriminate].
  - destruct fs as [|a [|b t]]; try (simpl in Hl; lia).
    inversion Hf as [|? ? Ha Hf']; subst. inversion Hf' as [|? ? Hb Ht]; subst.
    cbn [cat repeat evens].
    replace (a + 2 ^ w * (b + 2 ^ w * cat w t)) with
      ((a + 2 ^ w * b) + 2 ^ (2 * w) * cat w t)
      by (replace (2 * w) with (w + w) by lia; rewrite N.pow_add_r; nia).
    pose proof (pow2_pos w) as Hp.
    rewrite land_cat.
    + rewrite IH by (simpl in Hl; try lia; auto). f_equal.
      replace (2 ^ w - 1) with ((2 ^ w - 1) + 2 ^ w * 0) by lia.
      rewrite land_cat by lia. rewrite N.land_0_r.
      replace (2 ^ w - 1) with (N.ones w) by (rewrite N.ones_equiv; lia).
      rewrite N.land_ones, N.mod_small by auto. lia.
    + replace (2 * w) with (w + w) by lia; rewrite N.pow_add_r; nia.
    + replace (2 * w) with (w + w) by lia; rewrite N.pow_add_r; nia.
Qed.

Lemma evens_app0 fs w m : length fs = (2 * m)%nat -> Forall (fun f => f < 2 ^ w) fs ->
  N.land (N.shiftr (cat w fs) w) (cat (2 * w) (repeat (2 ^ w - 1) m)) = cat (2 * w) (odds fs).
Proof.
  intros Hl Hf. destruct fs as [|a t].
  - destruct m; [|simpl in Hl; lia]. simpl. rewrite N.land_0_r. reflexivity.
  - inversion Hf as [|? ? Ha Ht]; subst. cbn [cat]. rewrite shiftr_cat by auto.
    assert (cat w t = cat w (t ++ [0])) as ->.
    { clear. induction t as [|x t IH]; simpl; [lia|congruence]. }
    rewrite even_fields.
    + f_equal. simpl in Hl. clear -Hl. revert m a Hl.
      induction t as [t IH] using (well_founded_induction (Wf_nat.well_founded_ltof _ (@length N))).
      intros m a Hl. destruct t as [|b [|c t]].
      * simpl in Hl; lia.
      * reflexivity.
      * cbn [app evens odds]. f_equal. cbn [length] in Hl.
        apply (IH t) with (m := (m - 1)%nat) (a := c); [unfold Wf_nat.ltof; simpl; lia|lia].
    + rewrite app_length. simpl in *. lia.
    + apply Forall_app; split; auto. constructor; auto. apply pow2_pos.
Qed.

Lemma evens_odds_sum fs w m : length fs = (2 * m)%nat ->
  cat (2 * w) (evens fs) + cat (2 * w) (odds fs) = cat (2 * w) (pairs fs).
Proof.
  revert fs; induction m as [|m IH]; intros fs Hl.
  - destruct fs; [reflexivity|discriminate].
  - destruct fs as [|a [|b t]]; try (simpl in Hl; lia).
    cbn [evens odds pairs cat]. rewrite <- IH by (simpl in Hl; lia). lia.
Qed.

Lemma pairs_sum fs : sumN (pairs fs) = sumN fs.
Proof.
  induction fs as [fs IH] using (well_founded_induction (Wf_nat.well_founded_ltof _ (@length N))).
  destruct fs as [|a [|b t]]; try reflexivity.
  cbn [pairs sumN fold_right]. fold (sumN (pairs t)) (sumN t).
  rewrite IH by (unfold Wf_nat.ltof; simpl; lia). lia.
Qed.

Lemma pairs_length fs m : length fs = (2 * m)%nat -> length (pairs fs) = m.
Proof.
  revert fs; induction m as [|m IH]; intros fs Hl.
  - destruct fs; [reflexivity|discriminate].
  - destruct fs as [|a [|b t]]; try (simpl in Hl; lia).
    cbn [pairs length]. rewrite IH; auto. simpl in Hl; lia.
Qed.

Lemma pairs_bound fs m B : length fs = (2 * m)%nat -> Forall (fun f => f <= B) fs ->
  Forall (fun f => f <= 2 * B) (pairs fs).
Proof.
  revert fs; induction m as [|m IH]; intros fs Hl Hf.
  - destruct fs; [constructor|discriminate].
  - destruct fs as [|a [|b t]]; try (simpl in Hl; lia).
    inversion Hf as [|? ? Ha Hf']; subst. inversion Hf' as [|? ? Hb Ht]; subst.
    cbn [pairs]. constructor; [lia|]. apply IH; auto. simpl in Hl; lia.
Qed.

(** One COUNT step turns a word of [2m] fields of width [w] with values at
    most [B] into a word of [m] fields of width [2w], adding neighbours. *)
Lemma count_step_fields W c w m fs B :
  two W c = w -> mask W c = cat (2 * w) (repeat (2 ^ w - 1) m) ->
  2 * w * N.of_nat m = W ->
  length fs = (2 * m)%nat -> Forall (fun f => f <= B) fs ->
  B < 2 ^ w -> 2 * B < 2 ^ (2 * w) ->
  count_step W (cat w fs) c = cat (2 * w) (pairs fs).
Proof.
  intros Htwo Hmask HW Hl HB HBw HB2.
  assert (Forall (fun f => f < 2 ^ w) fs) as Hf
    by (eapply Forall_impl; [|exact HB]; cbn; intros; lia).
  unfold count_step. rewrite Htwo, Hmask, even_fields, evens_app0 by auto.
  unfold uadd, wrap. rewrite (evens_odds_sum fs w m) by auto.
  apply N.mod_small. rewrite <- HW, <- (pairs_length fs m Hl).
  apply cat_lt. eapply Forall_impl; [|apply (pairs_bound fs m B); auto].
  cbn; intros; lia.
Qed.

(** Bits of a word as one-bit fields. *)
Definition bit_fields (W : nat) (x : N) : list N :=
  map (fun i => N.b2n (N.testbit x (N.of_nat i))) (seq 0 W).

Lemma bit_fields_length W x : length (bit_fields W x) = W.
Proof. unfold bit_fields. rewrite map_length, seq_length. reflexivity. Qed.

Lemma bit_fields_bound W x : Forall (fun f => f <= 1) (bit_fields W x).
Proof.
  unfold bit_fields. apply Forall_forall. intros f Hf. apply in_map_iff in Hf.
  destruct Hf as [i [<- _]]. destruct (N.testbit x _); simpl; lia.
Qed.

Lemma cat_bits_aux x W : forall s, x < 2 ^ N.of_nat (s + W) ->
  cat 1 (map (fun i => N.b2n (N.testbit x (N.of_nat i))) (seq s W)) = N.shiftr x (N.of_nat s).
Proof.
  induction W as [|W IH]; intros s Hx; cbn [seq map cat].
  - rewrite N.shiftr_div_pow2, N.div_small; auto.
    replace (s + 0)%nat with s in Hx by lia. exact Hx.
  - rewrite IH by (replace (S s + W)%nat with (s + S W)%nat by lia; exact Hx).
    rewrite Nat2N.inj_succ, <- N.add_1_r, <- N.shiftr_shiftr, N.pow_1_r.
    replace (N.testbit x (N.of_nat s)) with (N.testbit (N.shiftr x (N.of_nat s)) 0)
      by (rewrite N.shiftr_spec'; f_equal; lia).
    set (y := N.shiftr x (N.of_nat s)).
    rewrite N.bit0_odd, N.shiftr_div_pow2, N.pow_1_r.
    pose proof (N.div2_odd y) as H. rewrite N.div2_div in H. lia.
Qed.

Lemma cat_bits W x : x < 2 ^ N.of_nat W -> cat 1 (bit_fields W x) = x.
Proof.
  intros Hx. unfold bit_fields. rewrite cat_bits_aux by (simpl; exact Hx).
  change (N.of_nat 0) with 0. apply N.shiftr_0_r.
Qed.

Lemma sum_bits W x : sumN (bit_fields W x) = ones W x.
Proof.
  unfold bit_fields, ones. induction (seq 0 W) as [|i l IH]; [reflexivity|].
  cbn [map sumN fold_right filter]. fold (sumN (map (fun i => N.b2n (N.testbit x (N.of_nat i))) l)).
  rewrite IH. destruct (N.testbit x (N.of_nat i)); cbn [length N.b2n]; lia.
Qed.

Lemma cat_single w a : cat w [a] = a.
Proof. cbn [cat]. lia. Qed.

Ltac count_one k W c w m B :=
  rewrite (count_step_fields W c w m _ B);
  [ change (2 * w) with k | vm_compute; reflexivity | vm_compute; reflexivity
  | reflexivity | | | reflexivity | reflexivity ].

Theorem bit_count32_ones x : x < 2 ^ 32 -> nx_bit_count32 x = ones 32 x.
Proof.
  intros Hx. rewrite <- sum_bits. unfold nx_bit_count32. cbv zeta.
  rewrite <- (cat_bits 32 x) at 1 by exact Hx.
  pose proof (bit_fields_length 32 x) as L0. pose proof (bit_fields_bound 32 x) as B0.
  set (f0 := bit_fields 32 x) in *.
  pose proof (pairs_length f0 16 L0) as L1. pose proof (pairs_bound f0 16 1 L0 B0) as B1.
  rewrite (count_step_fields 32 0 1 16 f0 1) by (try reflexivity; auto).
  rewrite <- (pairs_sum f0). set (f1 := pairs f0) in *.
  pose proof (pairs_length f1 8 L1) as L2. pose proof (pairs_bound f1 8 _ L1 B1) as B2.
  rewrite (count_step_fields 32 1 (2 * 1) 8 f1 (2 * 1)) by (try reflexivity; auto).
  rewrite <- (pairs_sum f1). set (f2 := pairs f1) in *.
  pose proof (pairs_length f2 4 L2) as L3. pose proof (pairs_bound f2 4 _ L2 B2) as B3.
  rewrite (count_step_fields 32 2 (2 * (2 * 1)) 4 f2 (2 * (2 * 1))) by (try reflexivity; auto).
  rewrite <- (pairs_sum f2). set (f3 := pairs f2) in *.
  pose proof (pairs_length f3 2 L3) as L4. pose proof (pairs_bound f3 2 _ L3 B3) as B4.
  rewrite (count_step_fields 32 3 (2 * (2 * (2 * 1))) 2 f3 (2 * (2 * (2 * 1)))) by (try reflexivity; auto).
  rewrite <- (pairs_sum f3). set (f4 := pairs f3) in *.
  pose proof (pairs_length f4 1 L4) as L5.
  rewrite (count_step_fields 32 4 (2 * (2 * (2 * (2 * 1)))) 1 f4 (2 * (2 * (2 * (2 * 1))))) by (try reflexivity; auto).
  rewrite <- (pairs_sum f4). destruct (pairs f4) as [|a [|b t]]; try discriminate.
  rewrite cat_single. cbn [sumN fold_right]. lia.
Qed.

Theorem bit_count64_ones x : x < 2 ^ 64 -> nx_bit_count64 x = ones 64 x.
Proof.
  intros Hx. rewrite <- sum_bits. unfold nx_bit_count64. cbv zeta.
  rewrite <- (cat_bits 64 x) at 1 by exact Hx.
  pose proof (bit_fields_length 64 x) as L0. pose proof (bit_fields_bound 64 x) as B0.
  set (f0 := bit_fields 64 x) in *.
  pose proof (pairs_length f0 32 L0) as L1. pose proof (pairs_bound f0 32 1 L0 B0) as B1.
  rewrite (count_step_fields 64 0 1 32 f0 1) by (try reflexivity; auto).
  rewrite <- (pairs_sum f0). set (f1 := pairs f0) in *.
  pose proof (pairs_length f1 16 L1) as L2. pose proof (pairs_bound f1 16 _ L1 B1) as B2.
  rewrite (count_step_fields 64 1 (2 * 1) 16 f1 (2 * 1)) by (try reflexivity; auto).
  rewrite <- (pairs_sum f1). set (f2 := pairs f1) in *.
  pose proof (pairs_length f2 8 L2) as L3. pose proof (pairs_bound f2 8 _ L2 B2) as B3.
  rewrite (count_step_fields 64 2 (2 * (2 * 1)) 8 f2 (2 * (2 * 1))) by (try reflexivity; auto).
  rewrite <- (pairs_sum f2). set (f3 := pairs f2) in *.
  pose proof (pairs_length f3 4 L3) as L4. pose proof (pairs_bound f3 4 _ L3 B3) as B4.
  rewrite (count_step_fields 64 3 (2 * (2 * (2 * 1))) 4 f3 (2 * (2 * (2 * 1)))) by (try reflexivity; auto).
  rewrite <- (pairs_sum f3). set (f4 := pairs f3) in *.
  pose proof (pairs_length f4 2 L4) as L5. pose proof (pairs_bound f4 2 _ L4 B4) as B5.
  rewrite (count_step_fields 64 4 (2 * (2 * (2 * (2 * 1)))) 2 f4 (2 * (2 * (2 * (2 * 1))))) by (try reflexivity; auto).
  rewrite <- (pairs_sum f4). set (f5 := pairs f4) in *.
  pose proof (pairs_length f5 1 L5) as L6.
  rewrite (count_step_fields 64 5 (2 * (2 * (2 * (2 * (2 * 1))))) 1 f5 (2 * (2 * (2 * (2 * (2 * 1)))))) by (try reflexivity; auto).
  rewrite <- (pairs_sum f5). destruct (pairs f5) as [|a [|b t]]; try discriminate.
  rewrite cat_single. cbn [sumN fold_right]. lia.
Qed.

(** ** Rotation *)

Lemma rotr_spec w x n : 0 < n -> n < w -> x < 2 ^ w ->
  exists r, nx_rotr w x n = Ok r /\ is_rotr w n x r.
Proof.
  intros Hn Hw Hx. unfold nx_rotr, ushr, ushl.
  replace (n <? w) with true by lia. cbn [bind].
  replace (n <=? w) with true by lia.
  replace (w - n <? w) with true by lia. cbn [bind].
  eexists; split; [reflexivity|]. unfold wrap.
  assert (forall i, N.testbit (N.lor (N.shiftr x n) (N.shiftl x (w - n) mod 2 ^ w)) i =
                    if i <? w then N.testbit x ((i + n) mod w) else false) as Hb.
  { intros i. rewrite N.lor_spec, N.shiftr_spec'.
    destruct (N.ltb_spec i w) as [Hi|Hi].
    - rewrite N.mod_pow2_bits_low by auto.
      destruct (N.ltb_spec i (w - n)).
      + rewrite N.shiftl_spec_low by auto. rewrite orb_false_r. f_equal.
        rewrite N.mod_small; lia.
      + rewrite (testbit_high x w (i + n)) by (auto; lia). cbn [orb].
        rewrite N.shiftl_spec_high' by auto. f_equal.
        replace (i + n) with (i - (w - n) + 1 * w) by lia.
        rewrite N.mod_add by lia. symmetry. apply N.mod_small. lia.
    - rewrite N.mod_pow2_bits_high by auto. rewrite orb_false_r.
      apply (testbit_high x w); auto; lia. }
  split.
  - apply N.lt_nge. intros Hge.
    set (r := N.lor (N.shiftr x n) (N.shiftl x (w - n) mod 2 ^ w)) in *.
    assert (r <> 0) as Hr by (pose proof (pow2_pos w); lia).
    pose proof (N.bit_log2 r Hr) as Ht. rewrite Hb in Ht.
    replace (N.log2 r <? w) with false in Ht; [discriminate|].
    symmetry. apply N.ltb_ge. apply N.log2_le_pow2; lia.
  - intros i Hi. rewrite Hb. replace (i <? w) with true by lia. reflexivity.
Qed.

Lemma is_rotr_unique w n x r r' : is_rotr w n x r -> is_rotr w n x r' -> r = r'.
Proof.
  intros [Hr Hb] [Hr' Hb']. apply N.bits_inj. intros i.
  destruct (N.ltb_spec i w).
  - rewrite Hb, Hb' by auto. reflexivity.
  - rewrite (testbit_high r w i), (testbit_high r' w i) by auto. reflexivity.
Qed.

Lemma rotr_ub w x n : n = 0 \/ w <= n -> nx_rotr w x n = UB.
Proof.
  intros H. unfold nx_rotr, ushr, ushl.
  destruct (N.ltb_spec n w); [|reflexivity]. cbn [bind].
  destruct H as [->|H]; [|lia]. replace (0 <=? w) with true by lia.
  replace (w - 0 <? w) with false by lia. reflexivity.
Qed.

Lemma is_rotr_add w n m x y r : 0 < w -> is_rotr w n x y -> is_rotr w m y r -> is_rotr w (n + m) x r.
Proof.
  intros Hw [_ H1] [Hr H2]. split; auto. intros i Hi.
  rewrite H2 by auto. rewrite H1 by (apply N.mod_lt; lia). f_equal.
  rewrite N.add_mod_idemp_l by lia. f_equal. lia.
Qed.

(** ** Big-endian codecs *)

Lemma shiftr_digit x k : N.shiftr x (8 * k) = x / 256 ^ k.
Proof. rewrite N.shiftr_div_pow2. rewrite N.pow_mul_r. reflexivity. Qed.

Lemma split32_digits x : nx_split_big_endian32 x = digits256 4 x.
Proof.
  unfold nx_split_big_endian32, to_u8. cbn [digits256].
  change (N.shiftr x 24) with (N.shiftr x (8 * 3)).
  change (N.shiftr x 16) with (N.shiftr x (8 * 2)).
  change (N.shiftr x 8) with (N.shiftr x (8 * 1)).
  rewrite !shiftr_digit.
  change (N.of_nat 3) with 3. change (N.of_nat 2) with 2.
  change (N.of_nat 1) with 1. change (N.of_nat 0) with 0.
  rewrite N.pow_0_r, N.div_1_r. reflexivity.
Qed.

Lemma split64_digits x : nx_split_big_endian64 x = digits256 8 x.
Proof.
  unfold nx_split_big_endian64, to_u8. cbn [digits256].
  change (N.shiftr x 56) with (N.shiftr x (8 * 7)).
  change (N.shiftr x 48) with (N.shiftr x (8 * 6)).
  change (N.shiftr x 40) with (N.shiftr x (8 * 5)).
  change (N.shiftr x 32) with (N.shiftr x (8 * 4)).
  change (N.shiftr x 24) with (N.shiftr x (8 * 3)).
  change (N.shiftr x 16) with (N.shiftr x (8 * 2)).
  change (N.shiftr x 8) with (N.shiftr x (8 * 1)).
  rewrite !shiftr_digit.
  change (N.of_nat 7) with 7. change (N.of_nat 6) with 6.
  change (N.of_nat 5) with 5. change (N.of_nat 4) with 4.
  change (N.of_nat 3) with 3. change (N.of_nat 2) with 2.
  change (N.of_nat 1) with 1. change (N.of_nat 0) with 0.
  rewrite N.pow_0_r, N.div_1_r. reflexivity.
Qed.

Lemma be_value_app acc l1 l2 : be_value acc (l1 ++ l2) = be_value (be_value acc l1) l2.
Proof. revert acc; induction l1; simpl; auto. Qed.

Lemma be_value_digits k x : forall acc, be_value acc (digits256 k x) = acc * 256 ^ N.of_nat k + x mod 256 ^ N.of_nat k.
Proof.
  induction k as [|k IH]; intros acc; cbn [digits256 be_value].
  - change (N.of_nat 0) with 0. rewrite N.pow_0_r, N.mod_1_r. lia.
  - rewrite IH. rewrite Nat2N.inj_succ, N.pow_succ_r'.
    set (m := 256 ^ N.of_nat k).
    assert (m <> 0) by (apply N.pow_nonzero; lia).
    rewrite (N.mul_comm 256 m), N.mod_mul_r by lia. nia.
Qed.

Lemma lor_add_disj a b k : a < 2 ^ k -> N.lor (N.shiftl b k) a = b * 2 ^ k + a.
Proof.
  intros Ha. rewrite <- N.lxor_lor, <- N.add_nocarry_lxor, N.shiftl_mul_pow2; auto;
  apply N.bits_inj; intros i; rewrite N.land_spec, N.bits_0;
  (destruct (N.ltb_spec i k);
   [rewrite N.shiftl_spec_low by lia; reflexivity
   |rewrite (testbit_high a k i) by auto; apply andb_false_r]).
Qed.

Lemma compose32_value b0 b1 b2 b3 : b0 < 256 -> b1 < 256 -> b2 < 256 -> b3 < 256 ->
  nx_compose_big_endian32 b0 b1 b2 b3 = be_value 0 [b0; b1; b2; b3].
Proof.
  intros H0 H1 H2 H3. unfold nx_compose_big_endian32, wrap.
  rewrite !N.shiftl_mul_pow2.
  change (2 ^ 24) with 16777216. change (2 ^ 16) with 65536. change (2 ^ 8) with 256.
  change (2 ^ 32) with 4294967296.
  rewrite !N.mod_small by lia.
  assert (N.lor (b0 * 16777216) (b1 * 65536) = b0 * 16777216 + b1 * 65536) as ->.
  { replace (b0 * 16777216) with (N.shiftl b0 24) by (rewrite N.shiftl_mul_pow2; reflexivity).
    rewrite lor_add_disj by (change (2 ^ 24) with 16777216; lia).
    rewrite N.shiftl_mul_pow2. reflexivity. }
  assert (N.lor (b0 * 16777216 + b1 * 65536) (b2 * 256) = b0 * 16777216 + b1 * 65536 + b2 * 256) as ->.
  { replace (b0 * 16777216 + b1 * 65536) with (N.shiftl (b0 * 256 + b1) 16)
      by (rewrite N.shiftl_mul_pow2; change (2 ^ 16) with 65536; lia).
    rewrite lor_add_disj by (change (2 ^ 16) with 65536; lia).
    rewrite ?N.shiftl_mul_pow2. change (2 ^ 16) with 65536. lia. }
  replace (b0 * 16777216 + b1 * 65536 + b2 * 256) with (N.shiftl (b0 * 65536 + b1 * 256 + b2) 8)
      by (rewrite N.shiftl_mul_pow2; change (2 ^ 8) with 256; lia).
  rewrite lor_add_disj by (change (2 ^ 8) with 256; lia).
  change (2 ^ 8) with 256. cbn [be_value]. lia.
Qed.

Lemma digits256_value x0 x1 x2 x3 : x0 < 256 -> x1 < 256 -> x2 < 256 -> x3 < 256 ->
  digits256 4 (be_value 0 [x0; x1; x2; x3]) = [x0; x1; x2; x3].
Proof.
  intros H0 H1 H2 H3. cbn [digits256 be_value].
  change (N.of_nat 3) with 3. change (N.of_nat 2) with 2.
  change (N.of_nat 1) with 1. change (N.of_nat 0) with 0.
  change (256 ^ 3) with 16777216. change (256 ^ 2) with 65536. change (256 ^ 1) with 256.
  change (256 ^ 0) with 1.
  assert (forall q r d, r < d -> (r + q * d) / d = q) as Hd
    by (intros; rewrite N.div_add, N.div_small; lia).
  assert (forall q r, r < 256 -> (r + q * 256) mod 256 = r) as Hm
    by (intros; rewrite N.mod_add, N.mod_small; lia).
  repeat f_equal.
  - replace ((((0 * 256 + x0) * 256 + x1) * 256 + x2) * 256 + x3)
      with ((x1 * 65536 + x2 * 256 + x3) + x0 * 16777216) by lia.
    rewrite Hd by lia. apply N.mod_small; auto.
  - replace ((((0 * 256 + x0) * 256 + x1) * 256 + x2) * 256 + x3)
      with ((x2 * 256 + x3) + (x1 + x0 * 256) * 65536) by lia.
    rewrite Hd by lia. apply Hm; auto.
  - replace ((((0 * 256 + x0) * 256 + x1) * 256 + x2) * 256 + x3)
      with (x3 + (x2 + (x1 + x0 * 256) * 256) * 256) by lia.
    rewrite Hd by lia. apply Hm; auto.
  - rewrite N.div_1_r.
    replace ((((0 * 256 + x0) * 256 + x1) * 256 + x2) * 256 + x3)
      with (x3 + (((0 * 256 + x0) * 256 + x1) * 256 + x2) * 256) by lia.
    apply Hm; auto.
Qed.

(** ** Bit arrays *)

Lemma land7 idx : N.land idx 7 = idx mod 8.
Proof. change 7 with (N.ones 3). rewrite N.land_ones. reflexivity. Qed.

Lemma land_bit_nonzero b k : (N.land b (N.shiftl 1 k) =? 0) = negb (N.testbit b k).
Proof.
  rewrite N.shiftl_1_l.
  destruct (N.testbit b k) eqn:E; cbn [negb].
  - apply N.eqb_neq. intros H.
    assert (N.testbit (N.land b (2 ^ k)) k = false) as H1 by (rewrite H; apply N.bits_0).
    rewrite N.land_spec, E, N.pow2_bits_true in H1. discriminate.
  - apply N.eqb_eq. apply N.bits_inj. intros i.
    rewrite N.land_spec, N.bits_0, N.pow2_bits_eqb.
    destruct (N.eqb_spec k i) as [<-|]; [rewrite E|rewrite andb_false_r]; reflexivity.
Qed.

Lemma set_bit_testbit b k v i : b < 256 -> k < 8 -> i < 8 ->
  N.testbit (if v : bool then to_u8 (N.lor b (N.shiftl 1 k))
             else to_u8 (N.land b (N.lxor 255 (N.shiftl 1 k)))) i =
  if i =? k then v else N.testbit b i.
Proof.
  intros Hb Hk Hi. rewrite N.shiftl_1_l. unfold to_u8. change 256 with (2 ^ 8).
  destruct v.
  - rewrite N.mod_pow2_bits_low, N.lor_spec, N.pow2_bits_eqb by auto.
    rewrite (N.eqb_sym i k).
    destruct (k =? i); [apply orb_true_r|apply orb_false_r].
  - rewrite N.mod_pow2_bits_low, N.land_spec, N.lxor_spec, N.pow2_bits_eqb by auto.
    change 255 with (N.ones 8). rewrite N.ones_spec_low by auto.
    rewrite (N.eqb_sym i k).
    destruct (k =? i); [apply andb_false_r|apply andb_true_r].
Qed.

(** Representation of an abstract bit array of [n] bits. *)
Definition bits_rep (n : N) (bits : list N) (m : N -> bool) : Prop :=
  bytes_ok bits /\ n <= 8 * N.of_nat (length bits) /\
  forall k, k < n -> N.testbit (nth (N.to_nat (k / 8)) bits 0) (k mod 8) = m k.

Lemma idx_lt k n L : k < n -> n <= 8 * N.of_nat L -> (N.to_nat (k / 8) < L)%nat.
Proof.
  intros H1 H2. assert (k / 8 < N.of_nat L); [|lia].
  apply N.div_lt_upper_bound; lia.
Qed.

Lemma nth_byte_ok l i : bytes_ok l -> nth i l 0 < 256.
Proof.
  intros H. destruct (Nat.ltb_spec i (length l)).
  - unfold bytes_ok in H. rewrite Forall_forall in H. apply H, nth_In. auto.
  - rewrite nth_overflow by auto. lia.
Qed.

Lemma bits_get n bits m k : bits_rep n bits m -> k < n ->
  exists v, nx_bit_array_get bits k = Ok v /\ (v =? 0) = negb (m k).
Proof.
  intros [Hb [Hl Hm]] Hk. unfold nx_bit_array_get.
  rewrite (aget_lt _ _ 0) by (eapply idx_lt; eauto). cbn [bind].
  eexists; split; [reflexivity|].
  rewrite land_bit_nonzero, land7, Hm by auto. reflexivity.
Qed.

Lemma lset_bytes_ok l i v : bytes_ok l -> v < 256 -> bytes_ok (lset l i v).
Proof.
  intros H Hv. revert i; induction H as [|h t Hh Ht IH]; intros i; simpl; [constructor|].
  destruct i; constructor; auto. apply IH.
Qed.

Lemma bits_set n bits m k v : bits_rep n bits m -> k < n ->
  exists bits', nx_bit_array_set bits k v = Ok bits' /\
    length bits' = length bits /\
    bits_rep n bits' (bits_store m (k, v)).
Proof.
  intros [Hb [Hl Hm]] Hk. unfold nx_bit_array_set.
  pose proof (idx_lt k n (length bits) Hk Hl) as Hi.
  rewrite (aget_lt _ _ 0) by auto. cbn [bind]. rewrite aset_lt by auto.
  eexists; split; [reflexivity|]. rewrite lset_length. split; [reflexivity|].
  rewrite land7.
  assert (forall i, i mod 8 < 8) as Hm8 by (intros; apply N.mod_lt; lia).
  split; [|split].
  - apply lset_bytes_ok; auto. destruct v; apply N.mod_lt; lia.
  - rewrite lset_length; auto.
  - intros j Hj. rewrite nth_lset. unfold bits_store; cbn [fst snd].
    replace (N.to_nat (k / 8) <? length bits)%nat with true
      by (symmetry; apply Nat.ltb_lt; auto). rewrite andb_true_r.
    destruct (Nat.eqb_spec (N.to_nat (k / 8)) (N.to_nat (j / 8))) as [E|E].
    + rewrite set_bit_testbit by (auto using nth_byte_ok).
      replace (j mod 8 =? k mod 8) with (j =? k).
      * destruct (j =? k); auto. rewrite E. apply Hm; auto.
      * apply N2Nat.inj in E.
        pose proof (N.div_mod j 8). pose proof (N.div_mod k 8).
        destruct (N.eqb_spec j k); destruct (N.eqb_spec (j mod 8) (k mod 8)); auto; subst; try congruence; lia.
    + replace (j =? k) with false; [apply Hm; auto|].
      symmetry; apply N.eqb_neq. intros ->. congruence.
Qed.

Lemma bits_zero n bits : (n < 2 ^ 64 - 7) -> bytes_ok bits -> N.of_nat (length bits) = nx_bit_array_n_bytes n ->
  exists bits', nx_bit_array_set_zero n bits = Ok bits' /\ length bits' = length bits /\
    bits_rep n bits' (fun _ => false).
Proof.
  intros Hn Hb Hl. unfold nx_bit_array_set_zero.
  rewrite <- Hl, Nat2N.id, Nat.leb_refl, skipn_all, app_nil_r.
  eexists; split; [reflexivity|]. rewrite repeat_length. split; [reflexivity|].
  split; [|split].
  - apply Forall_forall. intros x Hx. apply repeat_spec in Hx. subst. unfold byte_ok; lia.
  - rewrite repeat_length, Hl. unfold nx_bit_array_n_bytes, uadd, wrap.
    rewrite N.mod_small by lia.
    pose proof (N.div_mod (n + 7) 8). pose proof (N.mod_lt (n + 7) 8). lia.
  - intros k Hk. destruct (Nat.ltb_spec (N.to_nat (k / 8)) (length bits)).
    + replace (nth (N.to_nat (k / 8)) (repeat 0 (length bits)) 0) with 0; [apply N.bits_0|].
      symmetry. apply repeat_spec with (n := length bits). apply nth_In. rewrite repeat_length. auto.
    + rewrite nth_overflow by (rewrite repeat_length; auto). apply N.bits_0.
Qed.

Lemma run_sets_rep n ops : forall bits m, bits_rep n bits m ->
  Forall (fun op => fst op < n) ops ->
  exists bits', run_sets bits ops = Ok bits' /\ length bits' = length bits /\
    bits_rep n bits' (bits_after m ops).
Proof.
  induction ops as [|[k v] ops IH]; intros bits m Hr Hops.
  - exists bits; repeat split; auto; apply Hr.
  - inversion Hops as [|? ? Hk Hops']; subst. cbn [fst] in Hk.
    destruct (bits_set n bits m k v Hr Hk) as [b1 [E1 [L1 R1]]].
    destruct (IH b1 _ R1 Hops') as [b2 [E2 [L2 R2]]].
    exists b2. unfold run_sets in *. cbn [for_each fst snd]. rewrite E1. cbn [bind].
    repeat split; auto; try congruence; apply R2.
Qed.

Theorem bit_array_history n raw ops k :
  n < 2 ^ 64 - 7 -> bytes_ok raw -> N.of_nat (length raw) = nx_bit_array_n_bytes n ->
  Forall (fun op => fst op < n) ops -> k < n ->
  exists z b v, nx_bit_array_set_zero n raw = Ok z /\ run_sets z ops = Ok b /\
    length b = length raw /\
    nx_bit_array_get b k = Ok v /\ (v <> 0 <-> bits_after (fun _ => false) ops k = true).
Proof.
  intros Hn Hb Hl Hops Hk.
  destruct (bits_zero n raw Hn Hb Hl) as [z [Ez [Lz Rz]]].
  destruct (run_sets_rep n ops z _ Rz Hops) as [b [Eb [Lb Rb]]].
  destruct (bits_get n b _ k Rb Hk) as [v [Ev Hv]].
  exists z, b, v. repeat split; auto; try congruence.
  - intros H. apply N.eqb_neq in H. rewrite H in Hv. destruct (bits_after _ _ _); auto; discriminate.
  - intros H. rewrite H in Hv. apply N.eqb_neq. exact Hv.
Qed.
