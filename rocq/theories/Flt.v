(** Single precision floats: IEEE 754 binary32 with rounding to nearest even.
    Every finite float is an integer multiple of 2^-149, so a finite float is
    kept as that integer.  The sign of zero is not kept (it can only be seen by
    dividing by it or copying the sign, which the modelled code does not do). *)
From Verif Require Import Base BaseLemmas.
Local Open Scope Z_scope.

Inductive flt := FF (n : Z) | FInf (neg : bool) | FNaN.
(** 1.0f in units of 2^-149. *)
Definition U : Z := 2 ^ 149.
(** p / d rounded to the nearest integer, ties to even; 0 <= p, 0 < d. *)
Definition rhe (p d : Z) : Z :=
  let q := p / d in
  let r := p mod d in
  if (d <? 2 * r) || ((2 * r =? d) && Z.odd q) then q + 1 else q.
(** p / d rounded to 24 significant bits (to an integer when below 2^24). *)
Definition rnd (p d : Z) : Z :=
  let s := Z.max 0 (Z.log2 (p / d) - 23) in
  rhe p (d * 2 ^ s) * 2 ^ s.
(** The float nearest to p / d units. *)
Definition mkf (p d : Z) : flt :=
  let m := rnd (Z.abs p) d in
  if m <? 2 ^ 277 then FF (Z.sgn p * m) else FInf (p <? 0).

Definition fneg (a : flt) : flt := match a with FF n => FF (- n) | FInf s => FInf (negb s) | FNaN => FNaN end.
Definition fadd (a b : flt) : flt :=
  match a, b with
  | FF x, FF y => mkf (x + y) 1
  | FF _, FInf s => FInf s
  | FInf s, FF _ => FInf s
  | FInf s, FInf t => if Bool.eqb s t then FInf s else FNaN
  | _, _ => FNaN
  end.
Definition fsub (a b : flt) : flt := fadd a (fneg b).
Definition fmul (a b : flt) : flt :=
  match a, b with
  | FF x, FF y => mkf (x * y) U
  | FF x, FInf s => if x =? 0 then FNaN else FInf (xorb (x <? 0) s)
  | FInf s, FF y => if y =? 0 then FNaN else FInf (xorb s (y <? 0))
  | FInf s, FInf t => FInf (xorb s t)
  | _, _ => FNaN
  end.
Definition fdiv (a b : flt) : flt :=
  match a, b with
  | FF x, FF y => if y =? 0 then (if x =? 0 then FNaN else FInf (x <? 0)) else mkf (x * U * Z.sgn y) (Z.abs y)
  | FF _, FInf _ => FF 0
  | FInf s, FF y => FInf (xorb s (y <? 0))
  | _, _ => FNaN
  end.
Definition fabs (a : flt) : flt := match a with FF n => FF (Z.abs n) | FInf _ => FInf false | FNaN => FNaN end.
(** a < b; false when either is a NaN. *)
Definition f_lt (a b : flt) : bool :=
  match a, b with
  | FF x, FF y => x <? y
  | FF _, FInf s => negb s
  | FInf s, FF _ => s
  | FInf s, FInf t => s && negb t
  | _, _ => false
  end.
Definition f_gt (a b : flt) : bool := f_lt b a.
Definition f_eq (a b : flt) : bool :=
  match a, b with FF x, FF y => x =? y | FInf s, FInf t => Bool.eqb s t | _, _ => false end.
(** Conversions with int; out of range is undefined. *)
Definition of_int (z : Z) : flt := mkf (z * U) 1.
Definition to_int (a : flt) : res Z := match a with FF n => chk_int (Z.quot n U) | _ => UB end.
Definition F0 : flt := FF 0.
Definition F1 : flt := FF U.
Definition FMAX : flt := FF ((2 ^ 24 - 1) * 2 ^ 253).

(** * Rounding *)
Lemma U_pos : 0 < U.
Proof. reflexivity. Qed.
Lemma rhe_bound p d : 0 <= p -> 0 < d -> 0 <= rhe p d /\ 2 * p - d <= 2 * (rhe p d * d) <= 2 * p + d.
Proof.
  intros P D. unfold rhe. pose proof (Z.div_mod p d ltac:(lia)) as E. pose proof (Z.mod_pos_bound p d D) as R.
  pose proof (Z.div_pos p d P D). set (q := p / d) in *. set (r := p mod d) in *. clearbody q r.
  destruct (Z.ltb_spec d (2 * r)); cbn [orb]; [split; nia|]. destruct (Z.eqb_spec (2 * r) d); cbn [andb]; [destruct (Z.odd q)|]; split; nia.
Qed.
(** The rounding of p/d is at most n when p/d is at most n; at least n when at least n. *)
Lemma rhe_le p d n : 0 <= p -> 0 < d -> p <= n * d -> rhe p d <= n.
Proof.
  intros P D L. unfold rhe. pose proof (Z.div_mod p d ltac:(lia)) as E. pose proof (Z.mod_pos_bound p d D) as R.
  set (q := p / d) in *. set (r := p mod d) in *. clearbody q r. assert (q <= n) by nia. assert (q = n -> r = 0) by nia.
  destruct (Z.ltb_spec d (2 * r)); cbn [orb]; [lia|]. destruct (Z.eqb_spec (2 * r) d); cbn [andb]; [destruct (Z.odd q)|]; lia.
Qed.
Lemma rhe_ge p d n : 0 <= p -> 0 < d -> n * d <= p -> n <= rhe p d.
Proof.
  intros P D L. unfold rhe. pose proof (Z.div_mod p d ltac:(lia)) as E. pose proof (Z.mod_pos_bound p d D) as R.
  set (q := p / d) in *. set (r := p mod d) in *. clearbody q r. assert (n <= q) by nia.
  destruct (_ || _); lia.
Qed.
Lemma rhe_exact n d : 0 <= n -> 0 < d -> rhe (n * d) d = n.
Proof. intros N D. apply Z.le_antisymm; [apply rhe_le|apply rhe_ge]; nia. Qed.
Lemma rhe_mono p d p' d' : 0 <= p -> 0 < d -> 0 <= p' -> 0 < d' -> p * d' <= p' * d -> rhe p d <= rhe p' d'.
Proof.
  intros P D P' D' L. unfold rhe.
  pose proof (Z.div_mod p d ltac:(lia)) as E. pose proof (Z.mod_pos_bound p d D) as R.
  pose proof (Z.div_mod p' d' ltac:(lia)) as E'. pose proof (Z.mod_pos_bound p' d' D') as R'.
  set (q := p / d) in *. set (r := p mod d) in *. set (q' := p' / d') in *. set (r' := p' mod d') in *. clearbody q r q' r'.
  assert (DD : 0 < d * d') by nia.
  assert (Q : q <= q').
  { assert (A1 : q * (d * d') <= p * d') by nia. assert (A2 : p' * d < (q' + 1) * (d * d')) by nia. assert (q < q' + 1) by nia. lia. }
  assert (q = q' \/ q + 1 <= q') as [EQ|LT] by lia.
  - subst q'. assert (RR : r * d' <= r' * d) by nia.
    destruct (Z.ltb_spec d (2 * r)), (Z.ltb_spec d' (2 * r')), (Z.eqb_spec (2 * r) d), (Z.eqb_spec (2 * r') d'), (Z.odd q); cbn [andb orb]; try lia; exfalso; nia.
  - destruct (_ || _), (_ || _); lia.
Qed.
Lemma rnd_nonneg p d : 0 <= p -> 0 < d -> 0 <= rnd p d.
Proof.
  intros P D. unfold rnd. set (s := Z.max _ _). assert (0 < 2 ^ s) by (apply Z.pow_pos_nonneg; lia).
  destruct (rhe_bound p (d * 2 ^ s)); nia.
Qed.
(** The exponent. *)
Lemma rnd_exp p d : 0 <= p -> 0 < d -> let s := Z.max 0 (Z.log2 (p / d) - 23) in
  0 <= s /\ 0 < 2 ^ s /\ p < 2 ^ 24 * (d * 2 ^ s) /\ (0 < s -> 2 ^ 23 * (d * 2 ^ s) <= p).
Proof.
  intros P D s. assert (SE : s = Z.max 0 (Z.log2 (p / d) - 23)) by reflexivity. clearbody s. assert (S0 : 0 <= s) by lia. split; [exact S0|]. assert (PS : 0 < 2 ^ s) by (apply Z.pow_pos_nonneg; lia). split; [exact PS|].
  pose proof (Z.div_mod p d ltac:(lia)) as E. pose proof (Z.mod_pos_bound p d D) as R. pose proof (Z.div_pos p d P D) as Q0.
  set (q := p / d) in *. set (r := p mod d) in *.
  assert (QL : q < 2 ^ 24 * 2 ^ s).
  { destruct (Z.eq_dec q 0) as [->|NZ]; [nia|]. pose proof (Z.log2_spec q ltac:(lia)) as [_ L].
    rewrite <- Z.pow_add_r by lia. eapply Z.lt_le_trans; [exact L|]. apply Z.pow_le_mono_r; lia. }
  assert (QG : 0 < s -> 2 ^ 23 * 2 ^ s <= q).
  { intro SP. assert (0 < q). { destruct (Z.eq_dec q 0) as [Z0|NZ]; [|lia]. rewrite Z0 in SE. cbn in SE. lia. }
    pose proof (Z.log2_spec q ltac:(lia)) as [L _]. rewrite <- Z.pow_add_r by lia. replace (23 + s) with (Z.log2 q) by lia. exact L. }
  set (t := 2 ^ s) in *. clearbody q r t. change (2 ^ 24) with 16777216 in *. change (2 ^ 23) with 8388608 in *. split; [nia|]. intro SP. specialize (QG SP). nia.
Qed.
(** A number with at most 24 bits is not changed, and none is passed over. *)
Lemma rnd_le p d a k : 0 <= p -> 0 < d -> 0 <= k -> 0 <= a <= 2 ^ 24 -> p <= a * 2 ^ k * d -> rnd p d <= a * 2 ^ k.
Proof.
  intros P D K A L. destruct (rnd_exp p d P D) as (S0 & PS & SU & SL). cbv zeta in *. unfold rnd. set (s := Z.max _ _) in *.
  assert (PK : 0 < 2 ^ k) by (apply Z.pow_pos_nonneg; lia).
  destruct (Z.le_gt_cases s k) as [SK|SK].
  - replace k with (k - s + s) in L |- * by lia. rewrite Z.pow_add_r, Z.mul_assoc in L |- * by lia. apply Z.mul_le_mono_nonneg_r; [lia|].
    apply rhe_le; [lia|nia|]. set (c := a * 2 ^ (k - s)) in *. nia.
  - (* the exponent is larger than k: p/d would be at least 2^23 * 2^s >= 2^24 * 2^k *)
    specialize (SL ltac:(lia)). assert (2 ^ (k + 1) <= 2 ^ s) by (apply Z.pow_le_mono_r; lia). rewrite Z.pow_add_r in H by lia. change (2 ^ 1) with 2 in H.
    assert (T : 2 ^ 23 * 2 ^ s <= a * 2 ^ k) by (set (t := 2 ^ s) in *; set (u := 2 ^ k) in *; clearbody t u; apply (Z.mul_le_mono_pos_r _ _ d); [lia|]; rewrite <- Z.mul_assoc, (Z.mul_comm t d); lia).
    assert (R : rhe p (d * 2 ^ s) <= 2 ^ 23).
    { apply rhe_le; [lia|nia|]. set (t := 2 ^ s) in *. set (u := 2 ^ k) in *. clearbody t u. change (2 ^ 24) with 16777216 in *. change (2 ^ 23) with 8388608 in *. assert (AU : a * u <= 8388608 * t) by nia. assert (a * u * d <= 8388608 * t * d) by (apply Z.mul_le_mono_nonneg_r; lia). lia. }
    nia.
Qed.
Lemma rnd_ge p d a k : 0 <= p -> 0 < d -> 0 <= k -> 0 <= a <= 2 ^ 24 -> a * 2 ^ k * d <= p -> a * 2 ^ k <= rnd p d.
Proof.
  intros P D K A L. destruct (rnd_exp p d P D) as (S0 & PS & SU & SL). cbv zeta in *. unfold rnd. set (s := Z.max _ _) in *.
  assert (PK : 0 < 2 ^ k) by (apply Z.pow_pos_nonneg; lia).
  destruct (Z.le_gt_cases s k) as [SK|SK].
  - replace k with (k - s + s) in L |- * by lia. rewrite Z.pow_add_r, Z.mul_assoc in L |- * by lia. apply Z.mul_le_mono_nonneg_r; [lia|].
    apply rhe_ge; [lia|nia|]. set (c := a * 2 ^ (k - s)) in *. nia.
  - specialize (SL ltac:(lia)). assert (2 ^ (k + 1) <= 2 ^ s) by (apply Z.pow_le_mono_r; lia). rewrite Z.pow_add_r in H by lia. change (2 ^ 1) with 2 in H.
    assert (R : 2 ^ 23 <= rhe p (d * 2 ^ s)) by (apply rhe_ge; [lia|nia|exact SL]).
    set (t := 2 ^ s) in *. set (u := 2 ^ k) in *. clearbody t u. change (2 ^ 24) with 16777216 in *. change (2 ^ 23) with 8388608 in *. nia.
Qed.
Lemma rnd_exact a k d : 0 <= a <= 2 ^ 24 -> 0 <= k -> 0 < d -> rnd (a * 2 ^ k * d) d = a * 2 ^ k.
Proof.
  intros A K D. assert (PK : 0 < 2 ^ k) by (apply Z.pow_pos_nonneg; lia). apply Z.le_antisymm; [apply rnd_le|apply rnd_ge]; nia.
Qed.
Lemma rnd_mono p d p' d' : 0 <= p -> 0 < d -> 0 <= p' -> 0 < d' -> p * d' <= p' * d -> rnd p d <= rnd p' d'.
Proof.
  intros P D P' D' L.
  destruct (rnd_exp p d P D) as (S0 & PS & SU & SL). destruct (rnd_exp p' d' P' D') as (S0' & PS' & SU' & SL'). cbv zeta in *.
  unfold rnd. set (s := Z.max 0 (Z.log2 (p / d) - 23)) in *. set (s' := Z.max 0 (Z.log2 (p' / d') - 23)) in *.
  assert (Q : p / d <= p' / d').
  { apply Z.div_le_lower_bound; [lia|]. pose proof (Z.mul_div_le p d D). nia. }
  assert (SS : s <= s') by (pose proof (Z.log2_le_mono _ _ Q); lia).
  assert (s = s' \/ s < s') as [E|LT] by lia.
  - rewrite <- E in *. apply Z.mul_le_mono_nonneg_r; [lia|]. apply rhe_mono; try nia.
  - specialize (SL' ltac:(lia)).
    assert (A : rhe p (d * 2 ^ s) <= 2 ^ 24) by (apply rhe_le; [lia|nia|lia]).
    assert (B : 2 ^ 23 <= rhe p' (d' * 2 ^ s')) by (apply rhe_ge; [lia|nia|exact SL']).
    assert (2 ^ (s + 1) <= 2 ^ s') by (apply Z.pow_le_mono_r; lia). rewrite Z.pow_add_r in H by lia. change (2 ^ 1) with 2 in H.
    set (t := 2 ^ s) in *. set (u := 2 ^ s') in *. clearbody t u. change (2 ^ 24) with 16777216 in *. change (2 ^ 23) with 8388608 in *. nia.
Qed.
Lemma rnd_zero d : 0 < d -> rnd 0 d = 0.
Proof. intro D. apply (rnd_exact 0 0 d); lia. Qed.

(** Integers of at most 24 bits are exact. *)
(** Closer than half a unit of the last of 24 bits (a quarter below a power of two). *)
Lemma rnd_near p d a k : 0 <= p -> 0 < d -> 0 <= k -> 2 ^ 23 <= a < 2 ^ 24 -> 2 * Z.abs (p - a * 2 ^ k * d) < 2 ^ k * d -> (a = 2 ^ 23 -> 4 * Z.abs (p - a * 2 ^ k * d) < 2 ^ k * d) ->
  0 < k -> rnd p d = a * 2 ^ k.
Proof.
  intros P D K A H Q K1. destruct (rnd_exp p d P D) as (S0 & PS & SU & SL). cbv zeta in *. unfold rnd. set (s := Z.max _ _) in *.
  assert (PK : 0 < 2 ^ k) by (apply Z.pow_pos_nonneg; lia).
  assert (PD : 0 < 2 ^ k * d) by nia. change (2 ^ 24) with 16777216 in *. change (2 ^ 23) with 8388608 in *.
  assert (s = k \/ s = k - 1 \/ k + 1 <= s \/ s <= k - 2) as [E|[E|[E|E]]] by lia.
  - rewrite E in *. destruct (rhe_bound p (d * 2 ^ k) P ltac:(nia)) as [R0 R]. replace (rhe p (d * 2 ^ k)) with a; [reflexivity|]. set (r := rhe _ _) in *. clearbody r.
    set (t := 2 ^ k * d) in *. replace (d * 2 ^ k) with t in R by (unfold t; ring). replace (a * 2 ^ k * d) with (a * t) in H by (unfold t; ring). clearbody t. nia.
  - assert (EK : 2 ^ k = 2 * 2 ^ s) by (rewrite E; rewrite <- Z.pow_succ_r by lia; f_equal; lia). set (t := 2 ^ s * d) in *. assert (T0 : 0 < t) by (unfold t; nia).
    replace (a * 2 ^ k * d) with (2 * a * t) in H, Q by (unfold t; rewrite EK; ring). replace (2 ^ k * d) with (2 * t) in H, Q by (unfold t; rewrite EK; ring). replace (d * 2 ^ s) with t in * by (unfold t; ring).
    assert (A0 : a = 8388608) by nia. specialize (Q A0). destruct (rhe_bound p t P T0) as [R0 R]. assert (RE : rhe p t = 2 * a) by nia. rewrite RE, EK. ring.
  - exfalso. specialize (SL ltac:(lia)). assert (2 ^ (k + 1) <= 2 ^ s) by (apply Z.pow_le_mono_r; lia). rewrite Z.pow_add_r in H0 by lia. change (2 ^ 1) with 2 in H0.
    set (t := 2 ^ k * d) in *. replace (a * 2 ^ k * d) with (a * t) in H by (unfold t; ring). assert (2 * t <= d * 2 ^ s) by (unfold t; nia). clearbody t. nia.
  - exfalso. assert (2 ^ s * 2 ^ 2 <= 2 ^ k) by (rewrite <- Z.pow_add_r by lia; apply Z.pow_le_mono_r; lia). change (2 ^ 2) with 4 in H0.
    set (t := 2 ^ k * d) in *. replace (a * 2 ^ k * d) with (a * t) in H by (unfold t; ring). assert (4 * (d * 2 ^ s) <= t) by (unfold t; nia). clearbody t. nia.
Qed.
Definition small24 (z : Z) : Prop := - 2 ^ 24 <= z <= 2 ^ 24.
Lemma mkf_exact_d a k d : small24 a -> 0 <= k <= 252 -> 0 < d -> mkf (a * 2 ^ k * d) d = FF (a * 2 ^ k).
Proof.
  intros A K D. unfold mkf. assert (PK : 0 < 2 ^ k) by (apply Z.pow_pos_nonneg; lia).
  rewrite !Z.abs_mul, (Z.abs_eq (2 ^ k)), (Z.abs_eq d) by lia. rewrite rnd_exact by (unfold small24 in A; lia).
  assert (2 ^ k <= 2 ^ 252) by (apply Z.pow_le_mono_r; lia).
  destruct (Z.ltb_spec (Z.abs a * 2 ^ k) (2 ^ 277)) as [L|L].
  - rewrite !Z.sgn_mul, (Z.sgn_pos (2 ^ k)), (Z.sgn_pos d), !Z.mul_1_r by lia. f_equal. rewrite Z.mul_assoc, (Z.mul_comm (Z.sgn a)), Z.abs_sgn. reflexivity.
  - exfalso. unfold small24 in A. assert (Z.abs a * 2 ^ k <= 2 ^ 24 * 2 ^ 252) by nia. rewrite <- Z.pow_add_r in H0 by lia. change (24 + 252) with 276 in H0.
    assert (2 ^ 276 < 2 ^ 277) by (apply Z.pow_lt_mono_r; lia). lia.
Qed.
Lemma mkf_exact a k : small24 a -> 0 <= k <= 252 -> mkf (a * 2 ^ k) 1 = FF (a * 2 ^ k).
Proof. intros A K. rewrite <- (Z.mul_1_r (a * 2 ^ k)) at 1. apply mkf_exact_d; lia || assumption. Qed.
Lemma of_int_exact z : small24 z -> of_int z = FF (z * U).
Proof. intro H. unfold of_int, U. apply mkf_exact; [exact H|lia]. Qed.
Lemma fadd_int a b : small24 a -> small24 b -> small24 (a + b) -> fadd (of_int a) (of_int b) = of_int (a + b).
Proof. intros A B C. rewrite !of_int_exact by assumption. unfold fadd. rewrite <- Z.mul_add_distr_r. unfold U. apply mkf_exact; [exact C|lia]. Qed.
Lemma fsub_int a b : small24 a -> small24 b -> small24 (a - b) -> fsub (of_int a) (of_int b) = of_int (a - b).
Proof.
  intros A B C. rewrite !of_int_exact by assumption. unfold fsub, fadd, fneg. rewrite <- Z.mul_opp_l, <- Z.mul_add_distr_r. fold (a - b). unfold U. apply mkf_exact; [exact C|lia].
Qed.
Lemma fmul_int a b : small24 a -> small24 b -> small24 (a * b) -> fmul (of_int a) (of_int b) = of_int (a * b).
Proof.
  intros A B C. rewrite !of_int_exact by assumption. unfold fmul. pose proof U_pos.
  replace (a * U * (b * U)) with (a * b * U * U) by ring. unfold U at 1 3. apply mkf_exact_d; [exact C|lia|exact H].
Qed.
Lemma to_int_of_int z : small24 z -> to_int (of_int z) = Ok z.
Proof.
  intro H. rewrite of_int_exact by exact H. cbn [to_int]. rewrite Z.quot_mul by (pose proof U_pos; lia). unfold chk_int, in_int, small24 in *.
  replace (_ && _) with true; [reflexivity|]. symmetry. change (2 ^ 24) with 16777216 in H. apply Bool.andb_true_iff. split; apply Z.leb_le; [transitivity (-16777216); [|lia]|transitivity 16777216; [lia|]]; vm_compute; discriminate.
Qed.
Lemma f_lt_irrefl a : f_lt a a = false.
Proof. destruct a as [x|[]|]; cbn; auto. apply Z.ltb_irrefl. Qed.
Lemma f_lt_asym a b : f_lt a b = true -> f_lt b a = false.
Proof. destruct a as [x|[]|], b as [y|[]|]; cbn; try congruence. intro H. apply Z.ltb_lt in H. apply Z.ltb_ge. lia. Qed.
Lemma f_lt_trans a b c : f_lt a b = true -> f_lt b c = true -> f_lt a c = true.
Proof. destruct a as [x|[]|], b as [y|[]|], c as [z|[]|]; cbn; try congruence. rewrite !Z.ltb_lt. lia. Qed.
(** Dividing integers: the truncated quotient is exact. *)
Lemma fdiv_floor n d : 0 <= n <= 255 * d -> 0 < d <= 2 ^ 16 -> exists m, fdiv (of_int n) (of_int d) = FF m /\ 0 <= m /\ Z.quot m U = n / d.
Proof.
  intros N D. change (2 ^ 16) with 65536 in D. assert (small24 n /\ small24 d) as [SN SD] by (unfold small24; change (2 ^ 24) with 16777216; lia).
  rewrite !of_int_exact by assumption. unfold fdiv. pose proof U_pos as UP. destruct (Z.eqb_spec (d * U) 0); [nia|].
  rewrite Z.sgn_pos, Z.mul_1_r, (Z.abs_eq (d * U)) by nia. unfold mkf. rewrite Z.abs_eq by nia. set (q := n / d).
  assert (QD : q * d <= n < (q + 1) * d) by (unfold q; pose proof (Z.div_mod n d ltac:(lia)); pose proof (Z.mod_pos_bound n d ltac:(lia)); nia).
  assert (Q : 0 <= q <= 255) by nia.
  assert (LO : q * U <= rnd (n * U * U) (d * U)).
  { unfold U at 1. apply rnd_ge; [nia|nia|lia|change (2 ^ 24) with 16777216; lia|]. fold U. assert (q * d * (U * U) <= n * (U * U)) by (apply Z.mul_le_mono_nonneg_r; nia). nia. }
  set (V := 2 ^ 133). assert (VP : 0 < V) by reflexivity. assert (UV : U = 65536 * V) by reflexivity.
  assert (HI : rnd (n * U * U) (d * U) <= ((q + 1) * 65536 - 1) * V).
  { unfold V. apply rnd_le; [nia|nia|lia|change (2 ^ 24) with 16777216; lia|]. fold V.
    assert (n * 65536 <= ((q + 1) * 65536 - 1) * d) by nia. assert (n * 65536 * (V * U) <= ((q + 1) * 65536 - 1) * d * (V * U)) by (apply Z.mul_le_mono_nonneg_r; nia).
    replace (n * U * U) with (n * 65536 * (V * U)) by (rewrite UV; ring). lia. }
  assert (ZN : n = 0 -> rnd (n * U * U) (d * U) = 0) by (intros ->; apply rnd_zero; nia).
  set (m := rnd (n * U * U) (d * U)) in *. clearbody m.
  assert (M277 : m < 2 ^ 277).
  { assert (m < 256 * U) by nia. assert (256 * U < 2 ^ 277) by reflexivity. lia. }
  destruct (Z.ltb_spec m (2 ^ 277)); [|lia]. assert (SM : Z.sgn (n * U * U) * m = m).
  { destruct (Z.eq_dec n 0) as [->|NZ]; [|rewrite Z.sgn_pos by nia; lia]. rewrite ZN by reflexivity. reflexivity. }
  exists m. rewrite SM. split; [reflexivity|]. split; [nia|]. rewrite Z.quot_div_nonneg by nia. symmetry. apply Z.div_unique with (r := m - q * U); nia.
Qed.
