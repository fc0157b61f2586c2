(** Proofs about the adaptation of the threshold. *)
From Verif Require Import Base BaseLemmas Gray Img Flt PnmProofs HarrisModel HarrisSpec HdetModel HdetSpec.
Local Open Scope Z_scope.

(** * Exact comparisons *)
Lemma mul_near c m n p q : 0 < q -> 0 < n -> 0 <= c -> 0 <= m -> q * n = p * m -> 0 < p -> n < 2 ^ 24 -> 2 ^ 25 * Z.abs (c * q - p * U) < p * U -> rnd (c * (m * U)) U = n * U.
Proof.
  intros Q N C M E P NB H. pose proof (Z.log2_spec n N) as [L1 L2]. set (e := Z.log2 n) in *. assert (E0 : 0 <= e) by apply Z.log2_nonneg.
  assert (E23 : e <= 23). { apply Z.lt_succ_r, (Z.pow_lt_mono_r_iff 2); [lia|lia|]. eapply Z.le_lt_trans; [exact L1|exact NB]. }
    assert (NU : n * U = (n * 2 ^ (23 - e)) * 2 ^ (126 + e)). { unfold U. rewrite <- Z.mul_assoc, <- Z.pow_add_r by lia. do 2 f_equal. lia. }
    assert (D : 2 ^ 25 * Z.abs (c * m - n * U) < n * U).
    { assert (2 ^ 25 * Z.abs (c * m - n * U) * q < n * U * q); [|nia]. rewrite <- Z.mul_assoc. rewrite <- (Z.abs_eq q) at 1 by lia. rewrite <- Z.abs_mul. replace ((c * m - n * U) * q) with ((c * q - p * U) * m) by nia.
      rewrite Z.abs_mul, (Z.abs_eq m) by lia. assert (0 < m) by nia. nia. }
    rewrite NU in *. assert (A : 2 ^ 23 <= n * 2 ^ (23 - e) < 2 ^ 24).
    { split; [replace (2 ^ 23) with (2 ^ e * 2 ^ (23 - e)) by (rewrite <- Z.pow_add_r by lia; f_equal; lia)|replace (2 ^ 24) with (2 ^ (Z.succ e) * 2 ^ (23 - e)) by (rewrite <- Z.pow_add_r by lia; f_equal; lia)].
      - apply Z.mul_le_mono_nonneg_r; [apply Z.pow_nonneg; lia|exact L1].
      - apply Z.mul_lt_mono_pos_r; [apply Z.pow_pos_nonneg; lia|exact L2]. }
    assert (PK : 0 < 2 ^ (126 + e)) by (apply Z.pow_pos_nonneg; lia). set (a := n * 2 ^ (23 - e)) in *. set (k := 126 + e) in *. 
    assert (DU : Z.abs (c * (m * U) - a * 2 ^ k * U) = Z.abs (c * m - a * 2 ^ k) * U).
    { replace (c * (m * U) - a * 2 ^ k * U) with ((c * m - a * 2 ^ k) * U) by ring. rewrite Z.abs_mul, (Z.abs_eq U) by (pose proof U_pos; lia). reflexivity. }
    change (2 ^ 23) with 8388608 in *. change (2 ^ 24) with 16777216 in *. change (2 ^ 25) with 33554432 in *.
    apply rnd_near; [pose proof U_pos; nia|apply U_pos|unfold k; lia|exact A| | |unfold k; lia]; rewrite DU.
    + rewrite Z.mul_assoc. apply Z.mul_lt_mono_pos_r; [apply U_pos|]. set (t := 2 ^ k) in *. clearbody a t. nia.
    + intro A8. rewrite Z.mul_assoc. apply Z.mul_lt_mono_pos_r; [apply U_pos|]. set (t := 2 ^ k) in *. clearbody a t. nia.
Qed.
(** A literal close to p/q times an int compares with an int as p/q does. *)
Lemma cmp_exact c n m p q : lit p q = FF c -> 0 <= c -> 0 < q <= 100 -> 0 < p -> 0 <= n <= 2 ^ 16 -> 0 < m -> p * m <= 2 ^ 22 -> 2 ^ 25 * Z.abs (c * q - p * U) < p * U ->
  f_gt (of_int n) (fmul (lit p q) (of_int m)) = (p * m <? q * n) /\ f_lt (of_int n) (fmul (lit p q) (of_int m)) = (q * n <? p * m).
Proof.
  intros EL C Q P N M PM H. rewrite EL. change (2 ^ 16) with 65536 in *. change (2 ^ 22) with 4194304 in *. change (2 ^ 25) with 33554432 in *.
  assert (MB : m <= 4194304) by nia.
  rewrite !of_int_exact by (unfold small24; change (2 ^ 24) with 16777216; lia). unfold fmul, f_gt, f_lt.
  assert (UP : 0 < U) by apply U_pos.
  assert (B : c * q <= 2 * p * U) by lia.
  rewrite mkf_pos; [|nia|exact UP|].
  2:{ replace (c * (m * U)) with (c * m * U) by ring. apply Z.mul_le_mono_nonneg_r; [lia|]. apply Z.le_trans with (8388608 * U); [|unfold U; vm_compute; discriminate]. assert (c * m * q <= 2 * (p * m) * U) by nia. assert (c * m <= 2 * (p * m) * U) by nia. nia. }
  destruct (Z.lt_total (q * n) (p * m)) as [L|[E|G]].
  - (* larger *)
    assert (R : (128 * n + 1) * 2 ^ 142 <= rnd (c * (m * U)) U).
    { apply rnd_ge; [nia|lia|lia|change (2 ^ 24) with 16777216; lia|]. replace (c * (m * U)) with (c * m * U) by ring. apply Z.mul_le_mono_nonneg_r; [lia|].
      assert (U = 128 * 2 ^ 142) as EU by reflexivity. set (v := 2 ^ 142) in *. assert (0 < v) by reflexivity. clearbody v. rewrite EU in *. clear EL EU UP.
      assert (X : 33554432 * (p * (128 * v) - c * q) < p * (128 * v)) by lia.
      assert (Y : 33554432 * ((128 * n + 1) * v * q) <= 33554432 * (c * m * q)); [|nia].
      assert (Z1 : 33554432 * (c * m * q) >= m * (p * (128 * v)) * 33554431) by nia.
      assert (Z2 : (128 * n + 1) * q <= 128 * (p * m) - 28) by nia.
      assert (Z3 : 33554432 * ((128 * (p * m) - 28) * v) <= m * (p * (128 * v)) * 33554431); [|nia].
      set (w := p * m) in *. replace (m * (p * (128 * v)) * 33554431) with (128 * w * 33554431 * v) by (unfold w; ring). clearbody w. nia. }
    replace (n * U) with (128 * n * 2 ^ 142) by (unfold U; change (2 ^ 149) with (128 * 2 ^ 142); ring). assert (0 < 2 ^ 142) by reflexivity. set (v := 2 ^ 142) in *. clearbody v. set (r := rnd _ _) in *. clearbody r.
    split; [transitivity false; [apply Z.ltb_ge; nia|symmetry; apply Z.ltb_ge; lia]|transitivity true; [apply Z.ltb_lt; nia|symmetry; apply Z.ltb_lt; lia]].
  - rewrite (mul_near c m n p q) by (change (2 ^ 24) with 16777216; nia). rewrite E, !Z.ltb_irrefl. auto.
  - assert (R : rnd (c * (m * U)) U <= (128 * n - 1) * 2 ^ 142).
    { assert (1 <= n) by nia. apply rnd_le; [nia|lia|lia|change (2 ^ 24) with 16777216; lia|]. replace (c * (m * U)) with (c * m * U) by ring. apply Z.mul_le_mono_nonneg_r; [lia|].
      assert (U = 128 * 2 ^ 142) as EU by reflexivity. set (v := 2 ^ 142) in *. assert (0 < v) by reflexivity. clearbody v. rewrite EU in *. clear EL EU UP.
      assert (X : 33554432 * (c * q - p * (128 * v)) < p * (128 * v)) by lia.
      assert (Y : 33554432 * (c * m * q) <= 33554432 * ((128 * n - 1) * v * q)); [|nia].
      assert (Z1 : 33554432 * (c * m * q) <= m * (p * (128 * v)) * 33554433) by nia.
      assert (Z2 : 128 * (p * m) + 28 <= (128 * n - 1) * q) by nia.
      assert (Z3 : m * (p * (128 * v)) * 33554433 <= 33554432 * ((128 * (p * m) + 28) * v)); [|nia].
      set (w := p * m) in *. replace (m * (p * (128 * v)) * 33554433) with (128 * w * 33554433 * v) by (unfold w; ring). clearbody w. nia. }
    replace (n * U) with (128 * n * 2 ^ 142) by (unfold U; change (2 ^ 149) with (128 * 2 ^ 142); ring). assert (0 < 2 ^ 142) by reflexivity. set (v := 2 ^ 142) in *. clearbody v. set (r := rnd _ _) in *. clearbody r.
    split; [transitivity true; [apply Z.ltb_lt; nia|symmetry; apply Z.ltb_lt; lia]|transitivity false; [apply Z.ltb_ge; nia|symmetry; apply Z.ltb_ge; lia]].
Qed.

Lemma rnd_scale p d k : 0 <= p -> 0 < d -> 0 < k -> rnd (p * k) (d * k) = rnd p d.
Proof. intros P D K. apply Z.le_antisymm; apply rnd_mono; nia. Qed.
Lemma lit_val p q : 0 <= p <= 2 ^ 24 -> 0 < q -> lit p q = FF (rnd (p * U) q).
Proof.
  intros P Q. unfold lit. pose proof U_pos. apply mkf_pos; [nia|exact Q|]. apply Z.le_trans with (2 ^ 24 * U); [nia|]. apply Z.le_trans with (2 ^ 276); [vm_compute; discriminate|]. assert (0 < 2 ^ 276) by reflexivity. nia.
Qed.
Lemma lit_percent p q : 0 <= p <= 2 ^ 24 -> 0 < q -> (q | 100) -> lit p q = percent_float (p * (100 / q)).
Proof.
  intros P Q [k K]. assert (0 < k) by nia. replace (100 / q) with k by (rewrite K, Z.div_mul; lia). unfold percent_float, lit, mkf. pose proof U_pos.
  rewrite !Z.abs_eq by nia. replace (p * k * U) with (p * U * k) by ring. replace 100 with (q * k) by lia. rewrite rnd_scale by nia.
  destruct (_ <? _); [|f_equal; apply Bool.eq_true_iff_eq; rewrite !Z.ltb_lt; nia]. do 2 f_equal. rewrite !Z.sgn_mul, (Z.sgn_pos k) by lia. lia.
Qed.
Lemma mul_one t : threshold_ok t -> fmul t F1 = t.
Proof.
  intros (a & e & A & E & ->). unfold F1, fmul, mkf. assert (0 < 2 ^ e) by (apply Z.pow_pos_nonneg; lia). pose proof U_pos as UP. rewrite Z.abs_eq by nia. rewrite rnd_exact by lia.
  destruct (Z.ltb_spec (a * 2 ^ e) (2 ^ 277)) as [_|N].
  - f_equal. destruct (Z.eq_dec a 0) as [->|]; [reflexivity|]. rewrite Z.sgn_pos by nia. lia.
  - exfalso. assert (2 ^ e <= 2 ^ 253) by (apply Z.pow_le_mono_r; lia). assert (2 ^ 277 = 2 ^ 24 * 2 ^ 253) as E2 by (rewrite <- Z.pow_add_r by lia; reflexivity). rewrite E2 in N. nia.
Qed.
(** The table, for counts that are not huge. *)
Lemma adapt_table t n max : threshold_ok t -> 0 <= n <= 2 ^ 16 -> 0 < max <= 2 ^ 15 -> adapt t n max = fmul t (percent_float (percent n max)).
Proof.
  intros T N M. assert (PM : forall p, 0 < p <= 100 -> p * max <= 2 ^ 22) by (intros p P; change (2 ^ 15) with 32768 in M; change (2 ^ 22) with 4194304; nia).
  unfold adapt, percent.
  assert (X : forall p q, 0 < p <= 99 -> 0 < q <= 100 -> (exists c, lit p q = FF c /\ 0 <= c /\ 2 ^ 25 * Z.abs (c * q - p * U) < p * U) ->
    f_gt (of_int n) (fmul (lit p q) (of_int max)) = (p * max <? q * n) /\ f_lt (of_int n) (fmul (lit p q) (of_int max)) = (q * n <? p * max)).
  { intros p q P Q (c & C1 & C2 & C3). apply (cmp_exact c); auto; try lia. apply PM. lia. }
  destruct (X 17 10) as [-> _]; [lia|lia|eexists; split; [vm_compute; reflexivity|split; vm_compute; [discriminate|reflexivity]]|].
  destruct (X 14 10) as [-> _]; [lia|lia|eexists; split; [vm_compute; reflexivity|split; vm_compute; [discriminate|reflexivity]]|].
  destruct (X 11 10) as [-> _]; [lia|lia|eexists; split; [vm_compute; reflexivity|split; vm_compute; [discriminate|reflexivity]]|].
  destruct (X 5 10) as [_ ->]; [lia|lia|eexists; split; [vm_compute; reflexivity|split; vm_compute; [discriminate|reflexivity]]|].
  destruct (X 9 10) as [_ ->]; [lia|lia|eexists; split; [vm_compute; reflexivity|split; vm_compute; [discriminate|reflexivity]]|].
  destruct (X 95 100) as [_ ->]; [lia|lia|eexists; split; [vm_compute; reflexivity|split; vm_compute; [discriminate|reflexivity]]|].
  destruct (X 99 100) as [_ ->]; [lia|lia|eexists; split; [vm_compute; reflexivity|split; vm_compute; [discriminate|reflexivity]]|].
  clear X PM. replace (10 * n <? 5 * max) with (2 * n <? max) by (apply Bool.eq_true_iff_eq; rewrite !Z.ltb_lt; lia). replace (100 * n <? 95 * max) with (20 * n <? 19 * max) by (apply Bool.eq_true_iff_eq; rewrite !Z.ltb_lt; lia).
  repeat match goal with |- (if ?c then _ else _) = _ => destruct c end; try (apply f_equal; rewrite lit_percent; [reflexivity|lia|lia|solve [exists 100; reflexivity|exists 10; reflexivity|exists 1; reflexivity]]).
  symmetry. replace (percent_float 100) with F1; [now apply mul_one|]. pose proof (lit_percent 1 1 ltac:(lia) ltac:(lia) ltac:(now exists 100)) as E. change (1 * (100 / 1)) with 100 in E. rewrite <- E, lit_val by lia. unfold F1. apply f_equal. symmetry. apply (rnd_exact 1 149 1); lia.
Qed.

(** * Any counts *)
Definition fp (n max : Z) : Z * Z :=
  if f_gt (of_int n) (fmul (lit 17 10) (of_int max)) then (4, 1)
  else if f_gt (of_int n) (fmul (lit 14 10) (of_int max)) then (19, 10)
  else if f_gt (of_int n) (fmul (lit 11 10) (of_int max)) then (12, 10)
  else if max <? n then (102, 100)
  else if f_lt (of_int n) (fmul (lit 5 10) (of_int max)) then (25, 100)
  else if f_lt (of_int n) (fmul (lit 9 10) (of_int max)) then (6, 10)
  else if f_lt (of_int n) (fmul (lit 95 100) (of_int max)) then (9, 10)
  else if f_lt (of_int n) (fmul (lit 99 100) (of_int max)) then (97, 100)
  else (1, 1).
Lemma lit_one : lit 1 1 = F1.
Proof. rewrite lit_val by lia. unfold F1. apply f_equal. apply (rnd_exact 1 149 1); lia. Qed.
Lemma adapt_fp t n max : threshold_ok t -> adapt t n max = fmul t (lit (fst (fp n max)) (snd (fp n max))).
Proof.
  intro T. unfold adapt, fp. repeat match goal with |- (if ?c then _ else _) = _ => destruct c; [reflexivity|] end. cbn [fst snd]. rewrite lit_one. symmetry. now apply mul_one.
Qed.
Lemma fp_ok n max : 0 <= fst (fp n max) <= 2 ^ 24 /\ 0 < snd (fp n max).
Proof. unfold fp. repeat match goal with |- context [if ?c then _ else _] => destruct c end; cbn [fst snd]; lia. Qed.
Lemma mkf_le p p' d : 0 <= p <= p' -> 0 < d -> f_le (mkf p d) (mkf p' d).
Proof.
  intros P D. unfold mkf. rewrite !Z.abs_eq by lia. assert (R : rnd p d <= rnd p' d) by (apply rnd_mono; nia). assert (R0 : 0 <= rnd p d) by (apply rnd_nonneg; lia).
  destruct (Z.ltb_spec (rnd p d) (2 ^ 277)), (Z.ltb_spec (rnd p' d) (2 ^ 277)); cbn [f_le]; try lia.
Qed.
Lemma lit_le p q p' q' : 0 <= p <= 2 ^ 24 -> 0 < q -> 0 <= p' <= 2 ^ 24 -> 0 < q' -> p * q' <= p' * q -> exists c c', lit p q = FF c /\ lit p' q' = FF c' /\ 0 <= c <= c'.
Proof.
  intros P Q P' Q' L. rewrite !lit_val by lia. do 2 eexists. split; [reflexivity|]. split; [reflexivity|]. pose proof U_pos. split; [apply rnd_nonneg; nia|]. apply rnd_mono; nia.
Qed.
Lemma mul_lit_le t p q p' q' : threshold_ok t -> 0 <= p <= 2 ^ 24 -> 0 < q -> 0 <= p' <= 2 ^ 24 -> 0 < q' -> p * q' <= p' * q -> f_le (fmul t (lit p q)) (fmul t (lit p' q')).
Proof.
  intros (a & e & A & E & ->) P Q P' Q' L. destruct (lit_le p q p' q') as (c & c' & -> & -> & C); auto. cbn [fmul]. assert (0 < 2 ^ e) by (apply Z.pow_pos_nonneg; lia). apply mkf_le; [|apply U_pos]. set (m := a * 2 ^ e). assert (0 <= m) by (unfold m; nia). clearbody m. nia.
Qed.
Lemma of_int_val n : 0 <= n <= INT_MAX -> exists v, of_int n = FF v /\ v = rnd (n * U) 1 /\ 0 <= v.
Proof.
  intro N. pose proof U_pos. exists (rnd (n * U) 1). split; [|split; [reflexivity|apply rnd_nonneg; nia]]. unfold of_int. apply mkf_pos; [nia|lia|]. rewrite Z.mul_1_r. apply Z.le_trans with (2 ^ 31 * U); [change INT_MAX with (2 ^ 31 - 1) in N; nia|vm_compute; discriminate].
Qed.
Lemma of_int_le n m : 0 <= n <= m -> m <= INT_MAX -> exists v w, of_int n = FF v /\ of_int m = FF w /\ 0 <= v <= w.
Proof.
  intros N M. destruct (of_int_val n) as (v & V1 & V2 & V3); [lia|]. destruct (of_int_val m) as (w & W1 & W2 & W3); [lia|]. exists v, w. split; [exact V1|]. split; [exact W1|]. split; [exact V3|]. rewrite V2, W2. pose proof U_pos. apply rnd_mono; nia.
Qed.
Lemma gt_up n m X : 0 <= n <= m -> m <= INT_MAX -> f_gt (of_int n) X = true -> f_gt (of_int m) X = true.
Proof.
  intros N M H. destruct (of_int_le n m N M) as (v & w & V & W & L). rewrite V in H. rewrite W. unfold f_gt, f_lt in *. destruct X; auto. apply Z.ltb_lt in H. apply Z.ltb_lt. lia.
Qed.
Lemma lt_down n m X : 0 <= n <= m -> m <= INT_MAX -> f_lt (of_int m) X = true -> f_lt (of_int n) X = true.
Proof.
  intros N M H. destruct (of_int_le n m N M) as (v & w & V & W & L). rewrite W in H. rewrite V. unfold f_lt in *. destruct X; auto. apply Z.ltb_lt in H. apply Z.ltb_lt. lia.
Qed.
Lemma fp_mono n m max : 0 <= n <= m -> m <= INT_MAX -> fst (fp n max) * snd (fp m max) <= fst (fp m max) * snd (fp n max).
Proof.
  intros N M. assert (G4 : (max <? n) = true -> (max <? m) = true) by (rewrite !Z.ltb_lt; lia). unfold fp.
  pose proof (gt_up n m (fmul (lit 17 10) (of_int max)) N M) as G1. pose proof (gt_up n m (fmul (lit 14 10) (of_int max)) N M) as G2. pose proof (gt_up n m (fmul (lit 11 10) (of_int max)) N M) as G3.
  pose proof (lt_down n m (fmul (lit 5 10) (of_int max)) N M) as D1. pose proof (lt_down n m (fmul (lit 9 10) (of_int max)) N M) as D2. pose proof (lt_down n m (fmul (lit 95 100) (of_int max)) N M) as D3. pose proof (lt_down n m (fmul (lit 99 100) (of_int max)) N M) as D4.
  revert G1 G2 G3 G4 D1 D2 D3 D4. clear N M.
  generalize (f_gt (of_int n) (fmul (lit 17 10) (of_int max))), (f_gt (of_int m) (fmul (lit 17 10) (of_int max))), (f_gt (of_int n) (fmul (lit 14 10) (of_int max))), (f_gt (of_int m) (fmul (lit 14 10) (of_int max))),
    (f_gt (of_int n) (fmul (lit 11 10) (of_int max))), (f_gt (of_int m) (fmul (lit 11 10) (of_int max))), (max <? n), (max <? m), (f_lt (of_int n) (fmul (lit 5 10) (of_int max))), (f_lt (of_int m) (fmul (lit 5 10) (of_int max))),
    (f_lt (of_int n) (fmul (lit 9 10) (of_int max))), (f_lt (of_int m) (fmul (lit 9 10) (of_int max))), (f_lt (of_int n) (fmul (lit 95 100) (of_int max))), (f_lt (of_int m) (fmul (lit 95 100) (of_int max))),
    (f_lt (of_int n) (fmul (lit 99 100) (of_int max))), (f_lt (of_int m) (fmul (lit 99 100) (of_int max))).
  intros a1 b1 a2 b2 a3 b3 a4 b4 a5 b5 a6 b6 a7 b7 a8 b8 G1 G2 G3 G4 D1 D2 D3 D4.
  repeat match goal with
  | |- context [if ?c then _ else _] => destruct c; cbn [fst snd]; try (apply Z.leb_le; reflexivity); try (specialize (G1 eq_refl); discriminate); try (specialize (G2 eq_refl); discriminate); try (specialize (G3 eq_refl); discriminate); try (specialize (G4 eq_refl); discriminate);
      try (specialize (D1 eq_refl); discriminate); try (specialize (D2 eq_refl); discriminate); try (specialize (D3 eq_refl); discriminate); try (specialize (D4 eq_refl); discriminate)
  end.
Qed.
(** A representable number times a factor below or above one. *)
Lemma of_int_rep n : 0 <= n <= INT_MAX -> threshold_ok (of_int n).
Proof.
  intro N. destruct (of_int_val n N) as (v & E & V & V0). rewrite E. pose proof U_pos as UP.
  destruct (rnd_exp (n * U) 1) as (S0 & PS & SU & SL); [nia|lia|]. cbv zeta in *. unfold rnd in V. set (s := Z.max _ _) in *.
  assert (SB : s <= 158).
  { assert (n * U / 1 < 2 ^ 181) by (rewrite Z.div_1_r; apply Z.lt_le_trans with (2 ^ 31 * U); [change INT_MAX with (2 ^ 31 - 1) in N; nia|vm_compute; discriminate]).
    destruct (Z.le_gt_cases (n * U / 1) 0) as [L|L]; [unfold s; rewrite Z.log2_nonpos by exact L; lia|]. apply Z.log2_lt_pow2 in H; [|exact L]. unfold s. lia. }
  assert (R : 0 <= rhe (n * U) (1 * 2 ^ s) <= 2 ^ 24). { split; [apply rhe_bound; nia|]. apply rhe_le; nia. }
  set (r := rhe _ _) in *. destruct (Z.eq_dec r (2 ^ 24)) as [ER|NR].
  - exists (2 ^ 23), (s + 1). split; [split; reflexivity || lia|]. split; [lia|]. f_equal. rewrite V, ER, Z.pow_add_r by lia. change (2 ^ 24) with (2 ^ 23 * 2 ^ 1). ring.
  - exists r, s. split; [lia|]. split; [lia|]. now f_equal.
Qed.
Lemma f_le_refl t : threshold_ok t -> f_le t t.
Proof. intros (a & e & _ & _ & ->). cbn. lia. Qed.
Lemma mul_up t p q : threshold_ok t -> 0 < q <= p -> p <= 2 ^ 24 -> f_le t (fmul t (lit p q)).
Proof. intros T Q P. rewrite <- (mul_one t T) at 1. rewrite <- lit_one. apply mul_lit_le; auto; lia. Qed.
Lemma mul_down t p q : threshold_ok t -> 0 <= p <= q -> 0 < q -> p <= 2 ^ 24 -> f_le (fmul t (lit p q)) t.
Proof. intros T Q P B. rewrite <- (mul_one t T) at 2. rewrite <- lit_one. apply mul_lit_le; auto; lia. Qed.
Lemma mul_comm a b : fmul a b = fmul b a.
Proof. destruct a, b; cbn; auto; [now rewrite Z.mul_comm|now rewrite Bool.xorb_comm|now rewrite Bool.xorb_comm|now rewrite Bool.xorb_comm]. Qed.
Lemma not_gt n max p q : 0 <= n <= max -> max <= INT_MAX -> 0 < q <= p -> p <= 2 ^ 24 -> f_gt (of_int n) (fmul (lit p q) (of_int max)) = false.
Proof.
  intros N M Q P. destruct (of_int_le n max N M) as (v & w & V & W & L). pose proof (mul_up (of_int max) p q (of_int_rep max ltac:(lia)) Q P) as H.
  rewrite mul_comm. rewrite V. rewrite W in *. unfold f_gt, f_lt. destruct (fmul (FF w) (lit p q)) as [k|s|]; cbn [f_le] in H; [apply Z.ltb_ge; lia|now subst s|reflexivity].
Qed.
Lemma not_lt n max p q : 0 <= max <= n -> n <= INT_MAX -> 0 <= p <= q -> 0 < q -> p <= 2 ^ 24 -> f_lt (of_int n) (fmul (lit p q) (of_int max)) = false.
Proof.
  intros N M Q P B. destruct (of_int_le max n N M) as (v & w & V & W & L). pose proof (mul_down (of_int max) p q (of_int_rep max ltac:(lia)) Q P B) as H.
  rewrite mul_comm. rewrite W. rewrite V in *. unfold f_lt. destruct (fmul (FF v) (lit p q)) as [k|s|]; cbn [f_le] in H; [apply Z.ltb_ge; lia|now subst s|reflexivity].
Qed.
Lemma fp_same max : 0 <= max <= INT_MAX -> fp max max = (1, 1).
Proof.
  intro M. unfold fp. rewrite !not_gt by lia. rewrite Z.ltb_irrefl. rewrite !not_lt by lia. reflexivity.
Qed.
Lemma adapt_same t max : threshold_ok t -> 0 <= max <= INT_MAX -> adapt t max max = t.
Proof. intros T M. rewrite adapt_fp, fp_same by auto. cbn [fst snd]. rewrite lit_one. now apply mul_one. Qed.
Lemma adapt_mono t n m max : threshold_ok t -> 0 <= n <= m -> m <= INT_MAX -> f_le (adapt t n max) (adapt t m max).
Proof. intros T N M. rewrite !adapt_fp by exact T. destruct (fp_ok n max) as [P1 Q1], (fp_ok m max) as [P2 Q2]. exact (mul_lit_le t _ _ _ _ T P1 Q1 P2 Q2 (fp_mono n m max N M)). Qed.

(** * No way back from zero *)
Lemma zero_stays n max : adapt F0 n max = F0.
Proof.
  assert (T : threshold_ok F0) by (exists 0, 0; split; [lia|]; split; [lia|]; reflexivity). rewrite adapt_fp by exact T. destruct (fp_ok n max) as [P Q]. rewrite lit_val by auto. unfold F0, fmul. rewrite Z.mul_0_l. unfold mkf. cbn [Z.abs]. rewrite rnd_zero by apply U_pos. reflexivity.
Qed.
Lemma none_quarter t max : threshold_ok t -> 0 < max <= INT_MAX -> adapt t 0 max = fmul t (lit 25 100).
Proof.
  intros T M. unfold adapt. rewrite !not_gt by lia. replace (max <? 0) with false by (symmetry; apply Z.ltb_ge; lia).
  replace (f_lt (of_int 0) (fmul (lit 5 10) (of_int max))) with true; [reflexivity|]. symmetry.
  destruct (of_int_le 1 max) as (v & w & V & W & L); [lia|lia|]. rewrite (of_int_exact 1) in V by (unfold small24; lia). assert (VU : 1 * U = v) by congruence. rewrite W, lit_val by lia. rewrite (of_int_exact 0) by (unfold small24; lia).
  assert (R : 1 * 2 ^ 148 <= rnd (5 * U) 10) by (apply rnd_ge; [pose proof U_pos; lia|lia|lia|lia|vm_compute; discriminate]).
  unfold fmul, mkf. pose proof U_pos as UP. set (c := rnd (5 * U) 10) in *. assert (C0 : 0 < c * w) by (assert (0 < 2 ^ 148) by reflexivity; nia). rewrite Z.abs_eq, Z.sgn_pos by lia.
  assert (R2 : 1 * 2 ^ 148 <= rnd (c * w) U) by (apply rnd_ge; [lia|lia|lia|lia|apply Z.mul_le_mono_nonneg; [discriminate|exact R|lia|lia]]). assert (P148 : 0 < 2 ^ 148) by reflexivity. set (r := rnd (c * w) U) in *. clearbody r. replace (c * w <? 0) with false by (symmetry; apply Z.ltb_ge; lia). clear - R2 P148.
  set (b := 2 ^ 148) in *. clearbody b. destruct (r <? 2 ^ 277); [|reflexivity]. unfold f_lt. apply Z.ltb_lt. lia.
Qed.
Lemma quarter_val : lit 25 100 = FF (2 ^ 147).
Proof. rewrite lit_val by lia. apply f_equal. replace (25 * U) with (1 * 2 ^ 147 * 100) by (unfold U; change (2 ^ 149) with (4 * 2 ^ 147); ring). rewrite rnd_exact by lia. lia. Qed.
Lemma quarter_less a e : 0 < a < 2 ^ 24 -> 0 <= e <= 253 -> exists a' e', 0 <= a' < 2 ^ 24 /\ 0 <= e' <= 253 /\ fmul (FF (a * 2 ^ e)) (lit 25 100) = FF (a' * 2 ^ e') /\ a' * 2 ^ e' < a * 2 ^ e.
Proof.
  intros A E. rewrite quarter_val. unfold fmul. assert (UE : U = 4 * 2 ^ 147) by reflexivity.
  destruct (Z.le_gt_cases 2 e) as [L|L].
  - exists a, (e - 2). split; [lia|]. split; [lia|]. assert (EE : 2 ^ e = 2 ^ (e - 2) * 4) by (change 4 with (2 ^ 2); rewrite <- Z.pow_add_r by lia; f_equal; lia). assert (0 < 2 ^ (e - 2)) by (apply Z.pow_pos_nonneg; lia). split; [|nia].
    replace (a * 2 ^ e * 2 ^ 147) with (a * 2 ^ (e - 2) * U) by (rewrite UE, EE; ring). apply mkf_exact_d; [unfold small24; lia|lia|apply U_pos].
  - assert (e = 0 \/ e = 1) as EE by lia. set (m := a * 2 ^ e). assert (MB : 0 < m <= 2 * (2 ^ 24 - 1)) by (unfold m; destruct EE as [->| ->]; cbn [Z.pow Z.pow_pos Pos.iter]; lia). clearbody m. clear EE L.
    assert (PU : 0 < 2 ^ 147) by reflexivity. 
    assert (R : rnd (m * 2 ^ 147) U <= (m + 3) / 4 * 2 ^ 0).
    { apply rnd_le; [nia|apply U_pos|lia| |]. { change (2 ^ 24) with 16777216 in *. pose proof (Z.div_pos (m + 3) 4 ltac:(lia) ltac:(lia)). pose proof (Z.div_le_upper_bound (m + 3) 4 16777216 ltac:(lia) ltac:(lia)). lia. }
      rewrite UE. pose proof (Z.div_mod (m + 3) 4 ltac:(lia)) as D. pose proof (Z.mod_pos_bound (m + 3) 4 ltac:(lia)). set (q := (m + 3) / 4) in *. change (2 ^ 0) with 1. set (v := 2 ^ 147) in *. clearbody v q. nia. }
    assert (R0 : 0 <= rnd (m * 2 ^ 147) U) by (apply rnd_nonneg; [nia|apply U_pos]). change (2 ^ 0) with 1 in R. rewrite Z.mul_1_r in R.
    assert (RL : rnd (m * 2 ^ 147) U < m).
    { destruct (Z.eq_dec m 1) as [->|]; [reflexivity|]. eapply Z.le_lt_trans; [exact R|]. apply Z.div_lt_upper_bound; lia. }
    exists (rnd (m * 2 ^ 147) U), 0. change (2 ^ 0) with 1. rewrite Z.mul_1_r. split; [|split; [lia|split; [|exact RL]]].
    + split; [exact R0|]. eapply Z.le_lt_trans; [exact R|]. apply Z.div_lt_upper_bound; change (2 ^ 24) with 16777216 in *; lia.
    + unfold mkf. rewrite Z.abs_eq, Z.sgn_pos by nia. rewrite Z.mul_1_l. destruct (Z.ltb_spec (rnd (m * 2 ^ 147) U) (2 ^ 277)) as [_|N]; [reflexivity|]. exfalso. assert (2 ^ 26 <= 2 ^ 277) by (apply Z.pow_le_mono_r; lia). change (2 ^ 26) with 67108864 in *. change (2 ^ 24) with 16777216 in *. lia.
Qed.
Lemma starve_nat v : forall a e, v = Z.to_nat (a * 2 ^ e) -> 0 <= a < 2 ^ 24 -> 0 <= e <= 253 -> forall max, 0 < max <= INT_MAX ->
  exists k, fold_left (fun t n => adapt t n max) (repeat 0 k) (FF (a * 2 ^ e)) = F0.
Proof.
  induction v as [v IH] using (well_founded_induction Wf_nat.lt_wf). intros a e V A E max M.
  destruct (Z.eq_dec a 0) as [->|NZ]; [exists 0%nat; reflexivity|].
  destruct (quarter_less a e) as (a' & e' & A' & E' & Q & L); [lia|lia|]. assert (0 < 2 ^ e') by (apply Z.pow_pos_nonneg; lia).
  destruct (IH (Z.to_nat (a' * 2 ^ e'))) with (a := a') (e := e') (max := max) as (k & K); auto.
  { rewrite V. clear - A' L H NZ A E. apply Z2Nat.inj_lt; [apply Z.mul_nonneg_nonneg; lia| |exact L]. apply Z.mul_nonneg_nonneg; [lia|apply Z.pow_nonneg; lia]. }
  exists (S k). cbn [repeat fold_left]. rewrite none_quarter by (auto; exists a, e; auto). rewrite Q. exact K.
Qed.
