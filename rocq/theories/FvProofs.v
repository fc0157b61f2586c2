From Coq Require Import Lia.
From Verif Require Import Base BaseLemmas Flt FltErr FvModel FvSpec.
Local Open Scope Z_scope.

(** * Representable magnitudes *)
Definition rep (m : Z) : Prop := exists a k, 0 <= a <= 2 ^ 24 /\ 0 <= k /\ m = a * 2 ^ k.
Lemma rep_0 : rep 0.
Proof. exists 0, 0. repeat split; try lia. Qed.
Lemma rnd_rep p d : 0 <= p -> 0 < d -> rep (rnd p d).
Proof.
  intros P D. destruct (rnd_exp p d P D) as (S0 & PS & SU & SL). cbv zeta in *. unfold rnd. set (s := Z.max _ _) in *.
  exists (rhe p (d * 2 ^ s)), s. repeat split; try lia.
  - apply rhe_bound; nia.
  - apply rhe_le; nia.
Qed.
Lemma rep_nonneg m : rep m -> 0 <= m.
Proof. intros (a & k & A & K & ->). assert (0 < 2 ^ k) by (apply Z.pow_pos_nonneg; lia). nia. Qed.
Lemma rnd_ge_rep p d m : 0 <= p -> 0 < d -> rep m -> m * d <= p -> m <= rnd p d.
Proof. intros P D (a & k & A & K & ->) L. apply rnd_ge; lia. Qed.
(** Rounding commutes with powers of two above the subnormals. *)
Lemma rnd_scale p d j : 0 <= p -> 0 < d -> 0 <= j -> p = 0 \/ 2 ^ 23 * d <= p -> rnd (2 ^ j * p) d = 2 ^ j * rnd p d.
Proof.
  intros P D J C. assert (J0 : 0 < 2 ^ j) by (apply Z.pow_pos_nonneg; lia).
  destruct C as [->|C]; [rewrite Z.mul_0_r, rnd_zero by exact D; ring|].
  unfold rnd.
  assert (Q : 2 ^ 23 <= p / d) by (apply Z.div_le_lower_bound; lia).
  assert (L : 23 <= Z.log2 (p / d)) by (apply (Z.log2_le_mono (2 ^ 23)) in Q; exact Q).
  assert (E : Z.log2 (2 ^ j * p / d) = j + Z.log2 (p / d)).
  { apply Z.log2_unique; [lia|]. pose proof (Z.log2_spec (p / d) ltac:(lia)) as [A B].
    replace (Z.succ (j + Z.log2 (p / d))) with (j + Z.succ (Z.log2 (p / d))) by lia. rewrite !Z.pow_add_r by lia. split.
    - apply Z.div_le_lower_bound; [lia|]. pose proof (Z.mul_div_le p d D) as M. clear L Q C. set (t := 2 ^ Z.log2 _) in *. clearbody t. set (g := 2 ^ j) in *. clearbody g. replace (d * (g * t)) with (g * (d * t)) by ring. apply Z.mul_le_mono_nonneg_l; [lia|]. nia.
    - apply Z.div_lt_upper_bound; [lia|]. pose proof (Z.mul_succ_div_gt p d D) as M. clear L Q C. set (t := 2 ^ Z.succ _) in *. clearbody t. set (g := 2 ^ j) in *. clearbody g. replace (d * (g * t)) with (g * (d * t)) by ring. apply Z.mul_lt_mono_pos_l; [lia|]. nia. }
  rewrite E. rewrite (Z.max_r 0 (j + _ - 23)), (Z.max_r 0 (_ - 23)) by lia.
  replace (j + Z.log2 (p / d) - 23) with (j + (Z.log2 (p / d) - 23)) by lia. set (s := Z.log2 (p / d) - 23) in *.
  rewrite Z.pow_add_r by lia. replace (d * (2 ^ j * 2 ^ s)) with (2 ^ j * (d * 2 ^ s)) by ring.
  assert (S0 : 0 < d * 2 ^ s) by (assert (0 < 2 ^ s) by (apply Z.pow_pos_nonneg; lia); nia).
  assert (R : rhe (2 ^ j * p) (2 ^ j * (d * 2 ^ s)) = rhe p (d * 2 ^ s)).
  { set (g := 2 ^ j) in *. clearbody g. set (b := d * 2 ^ s) in *. clearbody b. clear - P J0 S0. apply Z.le_antisymm; apply rhe_mono; try nia. }
  rewrite R. ring.
Qed.

(** * Square roots *)
Lemma fsqrt_parts n : 0 < n -> let m := n * U in let e := Z.log2 m / 2 - 23 in exists q r,
  fsqrt (FF n) = FF (r * 2 ^ e) /\ 0 <= e /\ 2 ^ 23 <= q < 2 ^ 24 /\ (r = q \/ r = q + 1) /\ q ^ 2 * 4 ^ e <= m < (q + 1) ^ 2 * 4 ^ e.
Proof.
  intros N m e. assert (M : U <= m) by (unfold m; pose proof U_pos; set (u := U) in *; clearbody u; nia).
  assert (L : 149 <= Z.log2 m) by (apply Z.log2_le_mono in M; exact M).
  assert (E0 : 0 <= e) by (unfold e; pose proof (Z.div_le_mono 149 (Z.log2 m) 2 ltac:(lia) L) as H; change (149 / 2) with 74 in H; lia).
  exists (Z.sqrt (m / 4 ^ e)). eexists. split; [|split; [exact E0|]].
  - cbn [fsqrt]. destruct (Z.eqb_spec n 0) as [Z0|_]; [lia|]. destruct (Z.ltb_spec n 0) as [Z0|_]; [lia|].
    fold m. cbv zeta. fold e. reflexivity.
  - assert (P4 : 0 < 4 ^ e) by (apply Z.pow_pos_nonneg; lia).
    assert (E4 : forall x, 4 ^ (e) * 2 ^ x = 2 ^ (2 * e) * 2 ^ x) by (intro x; rewrite Z.pow_mul_r by lia; reflexivity).
    pose proof (Z.log2_spec m ltac:(unfold m in *; pose proof U_pos; nia)) as [LA LB].
    pose proof (Z.div_mod (Z.log2 m) 2 ltac:(lia)) as DM. pose proof (Z.mod_pos_bound (Z.log2 m) 2 ltac:(lia)) as MB.
    set (h := m / 4 ^ e) in *.
    assert (HL : 2 ^ 46 <= h).
    { apply Z.div_le_lower_bound; [lia|]. rewrite E4, <- Z.pow_add_r by lia. apply Z.le_trans with (2 := LA). apply Z.pow_le_mono_r; unfold e; lia. }
    assert (HU : h < 2 ^ 48).
    { apply Z.div_lt_upper_bound; [lia|]. rewrite E4, <- Z.pow_add_r by lia. apply Z.lt_le_trans with (1 := LB). apply Z.pow_le_mono_r; unfold e; lia. }
    assert (H0 : 0 <= h) by lia.
    pose proof (Z.sqrt_spec h H0) as [SA SB]. set (q := Z.sqrt h) in *.
    assert (Q0 : 0 <= q) by apply Z.sqrt_nonneg.
    split; [|split].
    + change (2 ^ 46) with (8388608 * 8388608) in HL. change (2 ^ 48) with (16777216 * 16777216) in HU. change (2 ^ 23) with 8388608. change (2 ^ 24) with 16777216. nia.
    + destruct (Z.ltb_spec ((2 * q + 1) ^ 2 * 4 ^ e) (4 * m)); [right|left]; reflexivity.
    + pose proof (Z.mul_div_le m (4 ^ e) P4) as DA. pose proof (Z.mul_succ_div_gt m (4 ^ e) P4) as DB. fold h in DA, DB.
      rewrite !Z.pow_2_r. unfold Z.succ in *. split; [nia|]. assert (h + 1 <= (q + 1) * (q + 1)) by lia. nia.
Qed.
Lemma fsqrt_pos n : 0 < n -> exists r, fsqrt (FF n) = FF r /\ 0 < r /\ n * U <= 4 * (r * r) /\ r * r <= 4 * (n * U).
Proof.
  intro N. destruct (fsqrt_parts n N) as (q & r & E & E0 & Q & R & B). cbv zeta in *. set (e := _ - 23) in *.
  assert (P : 0 < 2 ^ e) by (apply Z.pow_pos_nonneg; lia).
  assert (P4 : 4 ^ e = 2 ^ e * 2 ^ e) by (change 4 with (2 * 2); apply Z.pow_mul_l).
  exists (r * 2 ^ e). split; [exact E|]. change (2 ^ 23) with 8388608 in Q. rewrite P4, !Z.pow_2_r in B. set (t := 2 ^ e) in *. clearbody t.
  set (m := n * U) in *. clearbody m.
  assert (0 < r) by lia. assert (T : 0 < t * t) by nia. set (tt := t * t) in *.
  replace (r * t * (r * t)) with (r * r * tt) by (unfold tt; ring). clearbody tt.
  split; [nia|]. clear E. split.
  - assert ((q + 1) * (q + 1) <= 4 * (r * r)) by nia. assert ((q + 1) * (q + 1) * tt <= 4 * (r * r) * tt) by (apply Z.mul_le_mono_nonneg_r; lia). lia.
  - assert (r * r <= 4 * (q * q)) by nia. assert (r * r * tt <= 4 * (q * q) * tt) by (apply Z.mul_le_mono_nonneg_r; lia). lia.
Qed.
Lemma fsqrt_0 n : 0 <= n -> fsqrt (FF n) = FF 0 -> n = 0.
Proof.
  intros N E. destruct (Z.eq_dec n 0) as [|NZ]; [assumption|]. destruct (fsqrt_pos n ltac:(lia)) as (r & E' & R & _). rewrite E in E'. injection E' as <-. lia.
Qed.
Lemma fsqrt_scale n j : 0 < n -> 0 <= j -> forall r, fsqrt (FF n) = FF r -> fsqrt (FF (4 ^ j * n)) = FF (2 ^ j * r).
Proof.
  intros N J r E. assert (P4 : 0 < 4 ^ j) by (apply Z.pow_pos_nonneg; lia).
  destruct (fsqrt_parts n N) as (_ & _ & _ & E0 & _). cbv zeta in E0.
  cbn [fsqrt] in *. destruct (Z.eqb_spec n 0) as [Z0|_]; [lia|]. destruct (Z.ltb_spec n 0) as [Z0|_]; [lia|].
  destruct (Z.eqb_spec (4 ^ j * n) 0) as [Z0|_]; [nia|]. destruct (Z.ltb_spec (4 ^ j * n) 0) as [Z0|_]; [nia|].
  cbv zeta in *. replace (4 ^ j * n * U) with (4 ^ j * (n * U)) by ring. assert (M : 0 < n * U) by (pose proof U_pos; nia). set (m := n * U) in *. clearbody m.
  assert (L : Z.log2 (4 ^ j * m) = j * 2 + Z.log2 m).
  { replace (4 ^ j) with (2 ^ (2 * j)) by (rewrite Z.pow_mul_r by lia; reflexivity). rewrite Z.mul_comm, Z.log2_mul_pow2 by lia. lia. }
  rewrite L, Z.div_add_l by lia. replace (j + Z.log2 m / 2 - 23) with (j + (Z.log2 m / 2 - 23)) by lia. set (e := Z.log2 m / 2 - 23) in *. clearbody e.
  rewrite !Z.pow_add_r, Z.div_mul_cancel_l by (try lia; assert (0 < 4 ^ e) by (apply Z.pow_pos_nonneg; lia); lia).
  set (q := Z.sqrt (m / 4 ^ e)) in *.
  replace ((2 * q + 1) ^ 2 * (4 ^ j * 4 ^ e) <? 4 * (4 ^ j * m)) with ((2 * q + 1) ^ 2 * 4 ^ e <? 4 * m).
  - injection E as <-. f_equal. set (b := if _ <? _ then _ else _). ring.
  - set (x := (2 * q + 1) ^ 2). destruct (Z.ltb_spec (x * 4 ^ e) (4 * m)), (Z.ltb_spec (x * (4 ^ j * 4 ^ e)) (4 * (4 ^ j * m))); try reflexivity; exfalso; nia.
Qed.

(** * The norm of finite vectors without negative entries *)
Lemma fmul_nonneg x y : 0 <= x -> 0 <= y -> fmul (FF x) (FF y) = FInf false \/ fmul (FF x) (FF y) = FF (rnd (x * y) U).
Proof.
  intros X Y. cbn [fmul]. unfold mkf. assert (0 <= x * y) by nia. rewrite Z.abs_eq by lia. destruct (Z.ltb_spec (rnd (x * y) U) (2 ^ 277)) as [L|L].
  - right. destruct (Z.eq_dec (x * y) 0) as [->|NZ]; [rewrite rnd_zero by exact U_pos; reflexivity|]. rewrite Z.sgn_pos by lia. f_equal. lia.
  - left. destruct (Z.ltb_spec (x * y) 0); [lia|reflexivity].
Qed.
Lemma fadd_nonneg x y : 0 <= x -> 0 <= y -> fadd (FF x) (FF y) = FInf false \/ fadd (FF x) (FF y) = FF (rnd (x + y) 1).
Proof.
  intros X Y. cbn [fadd]. unfold mkf. rewrite Z.abs_eq by lia. destruct (Z.ltb_spec (rnd (x + y) 1) (2 ^ 277)) as [L|L].
  - right. destruct (Z.eq_dec (x + y) 0) as [->|NZ]; [rewrite rnd_zero by lia; reflexivity|]. rewrite Z.sgn_pos by lia. f_equal. lia.
  - left. destruct (Z.ltb_spec (x + y) 0); [lia|reflexivity].
Qed.
Lemma fdiv_nonneg x y : 0 <= x -> 0 < y -> fdiv (FF x) (FF y) = FInf false \/ fdiv (FF x) (FF y) = FF (rnd (x * U) y).
Proof.
  intros X Y. cbn [fdiv]. destruct (Z.eqb_spec y 0) as [Z0|_]; [lia|]. rewrite Z.sgn_pos, Z.mul_1_r, (Z.abs_eq y) by lia. unfold mkf. pose proof U_pos as UP. set (u := U) in *. clearbody u. assert (0 <= x * u) by nia. rewrite Z.abs_eq by lia.
  destruct (Z.ltb_spec (rnd (x * u) y) (2 ^ 277)) as [L|L].
  - right. destruct (Z.eq_dec (x * u) 0) as [->|NZ]; [rewrite rnd_zero by exact Y; reflexivity|]. rewrite Z.sgn_pos by lia. f_equal. lia.
  - left. destruct (Z.ltb_spec (x * u) 0); [lia|reflexivity].
Qed.
Notation step := (fun s x => fadd s (fmul x x)).
Lemma sum_inf ns : Forall (fun n => 0 <= n) ns -> fold_left step (map FF ns) (FInf false) = FInf false.
Proof.
  induction 1 as [|n ns N _ IH]; [reflexivity|]. cbn [map fold_left].
  destruct (fmul_nonneg n n N N) as [E|E]; rewrite E; exact IH.
Qed.
Lemma sum_ok ns : Forall (fun n => 0 <= n) ns -> forall a, rep a -> fold_left step (map FF ns) (FF a) = FInf false \/
  exists q, fold_left step (map FF ns) (FF a) = FF q /\ rep q /\ a <= q /\ Forall (fun n => rnd (n * n) U <= q) ns.
Proof.
  induction 1 as [|n ns N NS IH]; intros a A; [right; exists a; repeat split; auto; lia|]. cbn [map fold_left].
  pose proof (rep_nonneg a A) as A0.
  destruct (fmul_nonneg n n N N) as [E|E]; rewrite E; [left; apply (sum_inf ns NS)|]. clear E.
  assert (R : rep (rnd (n * n) U)) by (apply rnd_rep; [nia|exact U_pos]). set (b := rnd (n * n) U) in *. pose proof (rep_nonneg b R) as B0.
  destruct (fadd_nonneg a b A0 B0) as [E|E]; rewrite E; [left; apply (sum_inf ns NS)|]. clear E.
  destruct (IH (rnd (a + b) 1)) as [I|(q & I & Q & AQ & F)]; [apply rnd_rep; lia|left; exact I|].
  right. exists q. split; [exact I|]. split; [exact Q|].
  pose proof (rnd_ge_rep (a + b) 1 a ltac:(lia) ltac:(lia) A ltac:(lia)). pose proof (rnd_ge_rep (a + b) 1 b ltac:(lia) ltac:(lia) R ltac:(lia)).
  split; [lia|]. constructor; [fold b; lia|exact F].
Qed.
(** What dividing by the norm gives. *)
Definition scaled_by (nrm : Z) (n : Z) : Z := rnd (n * U) nrm.
Lemma to_unit_cases ns : Forall (fun n => 0 <= n) ns -> 
  (nx_svec_to_unit (map FF ns) = (FInf false, map (fun _ => FF 0) ns)) \/
  (nx_svec_to_unit (map FF ns) = (FF 0, map FF ns)) \/
  (exists r, 0 < r /\ nx_svec_to_unit (map FF ns) = (FF r, map FF (map (scaled_by r) ns)) /\ Forall (fun n => n <= 3 * r) ns).
Proof.
  intro N. unfold nx_svec_to_unit, nx_svec_norm, nx_svec_norm_sq. destruct (sum_ok ns N 0 rep_0) as [E|(q & E & Q & _ & F)]; unfold F0; rewrite E.
  - left. cbn [fsqrt f_eq negb]. f_equal. rewrite map_map. reflexivity.
  - right. pose proof (rep_nonneg q Q) as Q0. destruct (Z.eq_dec q 0) as [->|NZ]; [left; reflexivity|right].
    destruct (fsqrt_pos q ltac:(lia)) as (r & S & R & L1 & L2). rewrite S. exists r. split; [exact R|].
    assert (B : Forall (fun n => n <= 3 * r) ns).
    { rewrite Forall_forall in *. intros n I. specialize (N n I). specialize (F n I). cbv beta in *.
      pose proof (rnd_err (n * n) U ltac:(nia) U_pos) as ER. pose proof U_pos as UP. set (b := rnd (n * n) U) in *.
      assert (b * U <= q * U) by (apply Z.mul_le_mono_nonneg_r; lia).
      set (u := q * U) in *. assert (U <= u) by (unfold u; set (v := U) in *; clearbody v; nia). set (bu := b * U) in *. clearbody u bu. set (v := U) in *. clearbody v.
      assert (n * n < 9 * (r * r)) by nia. nia. }
    split; [|exact B]. cbn [f_eq]. destruct (Z.eqb_spec r 0) as [Z0|_]; [lia|]. cbn [negb]. f_equal. rewrite !map_map. apply map_ext_in. intros n I.
    rewrite Forall_forall in N, B. specialize (N n I). specialize (B n I). cbv beta in *. unfold scaled_by.
    destruct (fdiv_nonneg n r N R) as [E'|E']; [exfalso|exact E'].
    cbn [fdiv] in E'. destruct (Z.eqb_spec r 0) as [Z0|_]; [lia|]. rewrite Z.sgn_pos, Z.mul_1_r, (Z.abs_eq r) in E' by lia. unfold mkf in E'. pose proof U_pos as UP.
    rewrite Z.abs_eq in E' by nia. assert (rnd (n * U) r <= 3 * U).
    { apply (rnd_le (n * U) r 3 149); [nia|exact R|lia|lia|]. fold U. set (v := U) in *. clearbody v. nia. }
    destruct (Z.ltb_spec (rnd (n * U) r) (2 ^ 277)) as [_|G]; [discriminate|]. assert (X : 3 * U < 2 ^ 277) by reflexivity. apply (Z.lt_irrefl (2 ^ 277)). eapply Z.le_lt_trans; [exact G|]. eapply Z.le_lt_trans; [exact H|exact X].
Qed.
Lemma scaled_nonneg r n : 0 < r -> 0 <= n -> 0 <= scaled_by r n.
Proof. intros R N. apply rnd_nonneg; [pose proof U_pos; nia|exact R]. Qed.
Lemma scaled_mono r n m : 0 < r -> 0 <= n <= m -> scaled_by r n <= scaled_by r m.
Proof. intros R N. pose proof U_pos. set (v := U) in *. apply rnd_mono; fold v; clearbody v; try nia. apply Z.mul_le_mono_nonneg_r; nia. Qed.
Lemma scaled_le r n c : 0 < r -> 0 <= n <= c * r -> 0 <= c <= 2 ^ 24 -> scaled_by r n <= c * U.
Proof. intros R N C. pose proof U_pos. apply (rnd_le (n * U) r c 149); [nia|exact R|lia|exact C|]; fold U; set (v := U) in *; clearbody v; nia. Qed.

(** * Quantization *)
Lemma quantize_ok n : 0 <= n <= 4 * U -> quantize (FF n) = Ok (Z.min 255 (rnd (512 * n) 1 / U)).
Proof.
  intro N. unfold quantize. rewrite of_int_exact by (split; vm_compute; discriminate).
  pose proof U_pos as UP. destruct (fmul_nonneg (512 * U) n ltac:(lia) ltac:(lia)) as [E|E].
  - exfalso. cbn [fmul] in E. unfold mkf in E. rewrite Z.abs_eq in E by nia.
    assert (L : rnd (512 * U * n) U <= 2048 * U) by (apply (rnd_le _ U 2048 149); [nia|exact UP|lia|lia|]; fold U; set (v := U) in *; clearbody v; nia).
    destruct (Z.ltb_spec (rnd (512 * U * n) U) (2 ^ 277)) as [_|G]; [discriminate|]. assert (X : 2048 * U < 2 ^ 277) by reflexivity. apply (Z.lt_irrefl (2 ^ 277)). eapply Z.le_lt_trans; [exact G|]. eapply Z.le_lt_trans; [exact L|exact X].
  - rewrite E. assert (R : rnd (512 * U * n) U = rnd (512 * n) 1) by (apply Z.le_antisymm; apply rnd_mono; try lia; set (v := U) in *; clearbody v; nia).
    rewrite R. clear E R. assert (R0 : 0 <= rnd (512 * n) 1) by (apply rnd_nonneg; lia).
    assert (R1 : rnd (512 * n) 1 <= 2048 * U) by (apply (rnd_le _ 1 2048 149); [lia|lia|lia|lia|]; fold U; lia).
    set (p := rnd (512 * n) 1) in *. clearbody p. cbn [to_int]. rewrite Z.quot_div_nonneg by lia.
    assert (D0 : 0 <= p / U) by (apply Z.div_pos; lia). assert (D1 : p / U <= 2048) by (apply Z.div_le_upper_bound; lia). set (i := p / U) in *. clearbody i.
    unfold chk_int, in_int, INT_MIN, INT_MAX. destruct (Z.leb_spec (-2147483648) i); [|lia]. destruct (Z.leb_spec i 2147483647); [|lia]. cbn [andb bind].
    f_equal. destruct (Z.ltb_spec 255 i); rewrite Z.mod_small; lia.
Qed.
Definition byte_of (n : Z) : Z := Z.min 255 (rnd (512 * n) 1 / U).
Lemma byte_range n : 0 <= n -> 0 <= byte_of n <= 255.
Proof. intro N. unfold byte_of. pose proof (rnd_nonneg (512 * n) 1 ltac:(lia) ltac:(lia)). pose proof (Z.div_pos _ U H U_pos). lia. Qed.
Lemma byte_mono n m : 0 <= n <= m -> byte_of n <= byte_of m.
Proof. intro N. unfold byte_of. pose proof (rnd_mono (512 * n) 1 (512 * m) 1 ltac:(lia) ltac:(lia) ltac:(lia) ltac:(lia) ltac:(lia)). pose proof (Z.div_le_mono _ _ U U_pos H). lia. Qed.
Lemma quantize_all_ok ns : Forall (fun n => 0 <= n <= 4 * U) ns -> quantize_all (map FF ns) = Ok (map byte_of ns).
Proof. induction 1 as [|n ns N _ IH]; [reflexivity|]. cbn [map quantize_all]. rewrite (quantize_ok n N), IH. reflexivity. Qed.
Definition capz (n : Z) : Z := Z.min n (13421773 * 2 ^ 123).
Lemma cap_ok ns : cap (map FF ns) = map FF (map capz ns).
Proof.
  unfold cap. rewrite !map_map. apply map_ext. intro n. unfold f_gt, F02, f_lt, capz. set (c := 13421773 * 2 ^ 123). clearbody c. destruct (Z.ltb_spec c n); f_equal; lia.
Qed.

(** The whole stage is an order preserving function applied to each entry. *)
Lemma finish_shape ns : Forall (fun n => 0 <= n) ns -> exists g, nx_sift_finish (map FF ns) = Ok (map g ns) /\ g 0 = 0 /\
  (forall n, 0 <= n -> 0 <= g n <= 255) /\ (forall n m, 0 <= n <= m -> g n <= g m).
Proof.
  intro N. pose proof U_pos as UP.
  assert (CP : 0 < 13421773 * 2 ^ 123 <= U) by (split; vm_compute; [reflexivity|discriminate]).
  (* the second half *)
  assert (T : forall h, h 0 = 0 -> (forall n, 0 <= n -> 0 <= h n) -> (forall n m, 0 <= n <= m -> h n <= h m) -> exists g,
    quantize_all (snd (nx_svec_to_unit (cap (map FF (map h ns))))) = Ok (map g ns) /\ g 0 = 0 /\ (forall n, 0 <= n -> 0 <= g n <= 255) /\ (forall n m, 0 <= n <= m -> g n <= g m)).
  { intros h H0 HP HM. rewrite cap_ok. set (c := 13421773 * 2 ^ 123) in *. rewrite (map_map h capz).
    assert (B : forall n, 0 <= n -> 0 <= capz (h n) <= U) by (intros n P; specialize (HP n P); unfold capz; fold c; lia).
    assert (B0 : capz (h 0) = 0) by (rewrite H0; unfold capz; fold c; lia).
    assert (BM : forall n m, 0 <= n <= m -> capz (h n) <= capz (h m)) by (intros n m P; specialize (HM n m P); unfold capz; lia).
    set (k := fun n => capz (h n)) in *.
    assert (KN : Forall (fun n => 0 <= n) (map k ns)) by (rewrite Forall_map; eapply Forall_impl; [|exact N]; intros n P; apply (B n P)).
    destruct (to_unit_cases _ KN) as [E|[E|(r & R & E & F)]]; rewrite E; cbn [snd].
    - exists (fun _ => 0). split; [|repeat split; lia]. rewrite map_map. clear. induction ns as [|n l IH]; [reflexivity|]. cbn [map quantize_all]. rewrite IH. reflexivity.
    - exists (fun n => byte_of (k n)). rewrite quantize_all_ok, map_map; [split; [reflexivity|]|].
      + split; [unfold k; rewrite B0; reflexivity|]. split; [intros n P; apply byte_range, (B n P)|]. intros n m P. apply byte_mono. split; [apply (B n); lia|apply (BM n m P)].
      + rewrite Forall_map. eapply Forall_impl; [|exact N]. intros n P. specialize (B n P). fold (k n) in B. lia.
    - exists (fun n => byte_of (scaled_by r (k n))). rewrite quantize_all_ok, !map_map; [split; [reflexivity|]|].
      + split; [unfold k; rewrite B0; unfold scaled_by; rewrite Z.mul_0_l, rnd_zero by exact R; reflexivity|].
        split; [intros n P; apply byte_range, scaled_nonneg; [exact R|apply (B n P)]|]. intros n m P. apply byte_mono. split; [apply scaled_nonneg; [exact R|apply (B n); lia]|].
        apply scaled_mono; [exact R|]. split; [apply (B n); lia|apply (BM n m P)].
      + rewrite !Forall_map in *. rewrite Forall_forall in *. intros n I. specialize (F n I). specialize (N n I). cbv beta in *. split; [apply scaled_nonneg; [exact R|apply (B n N)]|].
        assert (scaled_by r (k n) <= 3 * U) by (apply scaled_le; [exact R| |lia]; split; [apply (B n N)|exact F]). lia. }
  unfold nx_sift_finish. destruct (to_unit_cases ns N) as [E|[E|(r & R & E & F)]]; rewrite E; cbn [snd].
  - destruct (T (fun _ => 0)) as (g & G); [reflexivity|lia|lia|]. rewrite map_map in G. exists g. exact G.
  - destruct (T (fun n => n)) as (g & G); [reflexivity|lia|lia|]. rewrite map_id in G. exists g. exact G.
  - destruct (T (scaled_by r)) as (g & G); [unfold scaled_by; rewrite Z.mul_0_l; apply rnd_zero; exact R|intros n P; apply scaled_nonneg; assumption|intros n m P; apply scaled_mono; assumption|]. exists g. exact G.
Qed.

(** * Vectors of ordinary magnitudes *)
Definition sumz (a : Z) (ns : list Z) : Z := fold_left (fun a n => rnd (a + rnd (n * n) U) 1) ns a.
Lemma pow_split a b : 0 <= a -> 0 <= b -> 2 ^ (a + b) = 2 ^ a * 2 ^ b.
Proof. intros. apply Z.pow_add_r; assumption. Qed.
Lemma square_bounds n : 0 <= n <= 2 ^ 209 -> 0 <= rnd (n * n) U <= 2 ^ 269.
Proof.
  intro N. split; [apply rnd_nonneg; [nia|exact U_pos]|]. apply (rnd_le _ U 1 269); [nia|exact U_pos|lia|lia|].
  rewrite Z.mul_1_l. unfold U. rewrite <- Z.pow_add_r by lia. change (2 ^ (269 + 149)) with (2 ^ 209 * 2 ^ 209). apply Z.mul_le_mono_nonneg; lia.
Qed.
Lemma sum_finite ns : Forall (fun n => 0 <= n <= 2 ^ 209) ns -> forall a i, 0 <= i -> 0 <= a <= i * 2 ^ 269 -> i + Z.of_nat (length ns) <= 128 ->
  fold_left step (map FF ns) (FF a) = FF (sumz a ns) /\ 0 <= sumz a ns <= (i + Z.of_nat (length ns)) * 2 ^ 269.
Proof.
  induction 1 as [|n ns N NS IH]; intros a i I A L; [cbn [map fold_left sumz length]; rewrite Z.add_0_r; split; [reflexivity|exact A]|].
  cbn [map fold_left]. unfold sumz. cbn [fold_left]. fold (sumz (rnd (a + rnd (n * n) U) 1) ns).
  assert (LL : Z.of_nat (length (n :: ns)) = Z.of_nat (length ns) + 1) by (cbn [length]; lia). rewrite LL in *.
  pose proof (square_bounds n N) as B. assert (BIG : 2 ^ 269 < 2 ^ 277) by reflexivity.
  assert (M : fmul (FF n) (FF n) = FF (rnd (n * n) U)).
  { destruct (fmul_nonneg n n ltac:(lia) ltac:(lia)) as [E|E]; [|exact E]. exfalso. cbn [fmul] in E. unfold mkf in E. rewrite Z.abs_eq in E by nia. destruct (Z.ltb_spec (rnd (n * n) U) (2 ^ 277)); [discriminate|lia]. }
  rewrite M. set (b := rnd (n * n) U) in *. clearbody b.
  assert (R : 0 <= rnd (a + b) 1 <= (i + 1) * 2 ^ 269) by (split; [apply rnd_nonneg; lia|apply (rnd_le _ 1 (i + 1) 269); lia]).
  assert (S : fadd (FF a) (FF b) = FF (rnd (a + b) 1)).
  { destruct (fadd_nonneg a b ltac:(lia) ltac:(lia)) as [E|E]; [|exact E]. exfalso. cbn [fadd] in E. unfold mkf in E. rewrite Z.abs_eq in E by lia. destruct (Z.ltb_spec (rnd (a + b) 1) (2 ^ 277)) as [_|G]; [discriminate|].
    assert ((i + 1) * 2 ^ 269 <= 128 * 2 ^ 269) by (apply Z.mul_le_mono_nonneg_r; lia). assert (128 * 2 ^ 269 < 2 ^ 277) by reflexivity. lia. }
  rewrite S. destruct (IH (rnd (a + b) 1) (i + 1) ltac:(lia) R ltac:(lia)) as [E B']. split; [exact E|]. replace (i + (Z.of_nat (length ns) + 1)) with (i + 1 + Z.of_nat (length ns)) by lia. exact B'.
Qed.
Lemma square_big n : n = 0 \/ 2 ^ 87 <= n -> n * n = 0 \/ 2 ^ 25 * U <= n * n.
Proof. intros [->|N]; [left; reflexivity|right]. change (2 ^ 25 * U) with (2 ^ 87 * 2 ^ 87). apply Z.mul_le_mono_nonneg; lia. Qed.
Lemma rnd_big p d : 0 <= p -> 0 < d -> p = 0 \/ 2 ^ 23 * d <= p -> rnd p d = 0 \/ 2 ^ 23 <= rnd p d.
Proof. intros P D [->|L]; [left; apply rnd_zero; exact D|right]. apply (rnd_ge p d 1 23); lia. Qed.
Lemma sumz_scale ns j : 0 <= j -> Forall (fun n => n = 0 \/ 2 ^ 87 <= n) ns -> forall a, a = 0 \/ 2 ^ 23 <= a ->
  sumz (4 ^ j * a) (map (Z.mul (2 ^ j)) ns) = 4 ^ j * sumz a ns.
Proof.
  intro J. assert (J4 : 4 ^ j = 2 ^ (2 * j)) by (rewrite Z.pow_mul_r by lia; reflexivity). assert (J2 : 4 ^ j = 2 ^ j * 2 ^ j) by (change 4 with (2 * 2); apply Z.pow_mul_l).
  induction 1 as [|n ns N _ IH]; intros a A; [reflexivity|]. unfold sumz. cbn [map fold_left]. fold (sumz (rnd (4 ^ j * a + rnd (2 ^ j * n * (2 ^ j * n)) U) 1) (map (Z.mul (2 ^ j)) ns)). fold (sumz (rnd (a + rnd (n * n) U) 1) ns).
  assert (NN : 0 <= n) by (destruct N as [->|N]; [lia|]; assert (0 < 2 ^ 87) by reflexivity; lia).
  pose proof (square_big n N) as SB. assert (SB' : n * n = 0 \/ 2 ^ 23 * U <= n * n) by (destruct SB as [SB|SB]; [left; exact SB|right; assert (2 ^ 23 * U <= 2 ^ 25 * U) by (vm_compute; discriminate); lia]).
  replace (2 ^ j * n * (2 ^ j * n)) with (2 ^ (2 * j) * (n * n)) by (rewrite <- J4, J2; ring).
  rewrite (rnd_scale (n * n) U (2 * j)) by (try lia; try nia; try exact U_pos; exact SB'). rewrite <- J4, <- Z.mul_add_distr_l.
  pose proof (rnd_big (n * n) U ltac:(nia) U_pos SB') as RB. set (b := rnd (n * n) U) in *. clearbody b.
  change (2 ^ 23) with 8388608 in *.
  rewrite J4 at 1. rewrite (rnd_scale (a + b) 1 (2 * j)) by (try lia; change (2 ^ 23) with 8388608; lia). rewrite <- J4. apply IH.
  change 8388608 with (2 ^ 23). apply rnd_big; [lia|lia|]. change (2 ^ 23) with 8388608. lia.
Qed.
Lemma sumz_zero ns : Forall (fun n => n = 0 \/ 2 ^ 87 <= n) ns -> forall a, 0 <= a -> rep a -> a <= sumz a ns /\ (Exists (fun n => n <> 0) ns -> 0 < sumz a ns).
Proof.
  induction 1 as [|n ns N NS IH]; intros a A R; [split; [cbn; lia|intro H; inversion H]|]. unfold sumz. cbn [fold_left]. fold (sumz (rnd (a + rnd (n * n) U) 1) ns).
  assert (NN : 0 <= n * n) by nia.
  assert (B : 0 <= rnd (n * n) U) by (apply rnd_nonneg; [exact NN|exact U_pos]).
  assert (R' : rep (rnd (a + rnd (n * n) U) 1)) by (apply rnd_rep; lia).
  pose proof (rnd_ge_rep (a + rnd (n * n) U) 1 a ltac:(lia) ltac:(lia) R ltac:(lia)) as G.
  destruct (IH _ (rep_nonneg _ R') R') as [I1 I2]. split; [lia|]. intro H. inversion H as [? ? H1|? ? H1]; subst.
  - destruct N as [N|N]; [contradiction|]. pose proof (square_big n (or_intror N)) as [SB|SB]; [nia|].
    assert (L : 2 ^ 25 <= rnd (n * n) U) by (rewrite <- (Z.mul_1_l (2 ^ 25)); apply rnd_ge; try lia; exact U_pos).
    pose proof (rnd_ge_rep (a + rnd (n * n) U) 1 (rnd (n * n) U) ltac:(lia) ltac:(lia) (rnd_rep _ _ NN U_pos) ltac:(lia)). assert (0 < 2 ^ 25) by reflexivity. lia.
  - apply I2. exact H1.
Qed.
Lemma to_unit_sum ns : Forall (fun n => 0 <= n <= 2 ^ 209) ns -> Z.of_nat (length ns) <= 128 -> nx_svec_norm_sq (map FF ns) = FF (sumz 0 ns) /\ 0 <= sumz 0 ns.
Proof.
  intros N L. destruct (sum_finite ns N 0 0 ltac:(lia) ltac:(lia) ltac:(lia)) as [E B]. split; [exact E|]. lia.
Qed.
Lemma to_unit_parts ns : Forall (fun n => 0 <= n <= 2 ^ 209) ns -> Z.of_nat (length ns) <= 128 -> 0 < sumz 0 ns -> exists r, 0 < r /\
  fsqrt (FF (sumz 0 ns)) = FF r /\ nx_svec_to_unit (map FF ns) = (FF r, map FF (map (scaled_by r) ns)).
Proof.
  intros N L S. destruct (to_unit_sum ns N L) as [E _]. assert (N0 : Forall (fun n => 0 <= n) ns) by (eapply Forall_impl; [|exact N]; cbv beta; intros; lia).
  destruct (fsqrt_pos (sumz 0 ns) S) as (r & SE & R & _). exists r. split; [exact R|]. split; [exact SE|].
  destruct (to_unit_cases ns N0) as [C|[C|(r' & R' & C & _)]]; rewrite C; unfold nx_svec_to_unit, nx_svec_norm in C; rewrite E, SE in C; [discriminate| |].
  - assert (FF r = FF 0) by congruence. injection H as ->. lia.
  - assert (FF r = FF r') by congruence. injection H as ->. reflexivity.
Qed.
Lemma finish_scale ns k : 0 <= k -> length ns = 128%nat -> Forall (zero_or_between (-62) 60) ns -> Forall (fun n => zero_or_between (-62) 60 (2 ^ k * n)) ns ->
  nx_sift_finish (map FF (map (Z.mul (2 ^ k)) ns)) = nx_sift_finish (map FF ns).
Proof.
  intros K LEN A B. unfold zero_or_between in A, B. change (149 + -62) with 87 in A, B. change (149 + 60) with 209 in A, B.
  assert (P0 : 0 < 2 ^ 87) by reflexivity. assert (P1 : 0 <= 2 ^ 209) by (vm_compute; discriminate).
  assert (A1 : Forall (fun n => 0 <= n <= 2 ^ 209) ns) by (eapply Forall_impl; [|exact A]; cbv beta; intros; lia).
  assert (A2 : Forall (fun n => n = 0 \/ 2 ^ 87 <= n) ns) by (eapply Forall_impl; [|exact A]; cbv beta; intros; lia).
  assert (B1 : Forall (fun n => 0 <= n <= 2 ^ 209) (map (Z.mul (2 ^ k)) ns)) by (rewrite Forall_map; eapply Forall_impl; [|exact B]; cbv beta; intros; lia).
  assert (L1 : Z.of_nat (length ns) <= 128) by lia. assert (L2 : Z.of_nat (length (map (Z.mul (2 ^ k)) ns)) <= 128) by (rewrite map_length; lia).
  pose proof (sumz_scale ns k K A2 0 (or_introl eq_refl)) as S. rewrite Z.mul_0_r in S. assert (P4 : 0 < 4 ^ k) by (apply Z.pow_pos_nonneg; lia). assert (P2 : 0 < 2 ^ k) by (apply Z.pow_pos_nonneg; lia).
  assert (T : snd (nx_svec_to_unit (map FF (map (Z.mul (2 ^ k)) ns))) = snd (nx_svec_to_unit (map FF ns))).
  { destruct (Exists_dec (fun n => n <> 0) ns) as [X|X]; [intro x; destruct (Z.eq_dec x 0); [right|left]; lia| |].
    - destruct (sumz_zero ns A2 0 ltac:(lia) rep_0) as [_ SP]. specialize (SP X).
      destruct (to_unit_parts ns A1 L1 SP) as (r & R & SE & E). rewrite E. cbn [snd].
      destruct (to_unit_parts _ B1 L2) as (r' & R' & SE' & E'); [rewrite S; nia|]. rewrite E'. cbn [snd].
      rewrite S, (fsqrt_scale _ k SP K r SE) in SE'. injection SE' as <-. f_equal. rewrite map_map. apply map_ext_in. intros n I. rewrite Forall_forall in A1. specialize (A1 n I). cbv beta in A1.
      unfold scaled_by. pose proof U_pos as UP. set (u := U) in *. clearbody u. set (g := 2 ^ k) in *. clearbody g. clear - UP P2 R R' A1.
      assert (0 <= n * u) by nia. replace (g * n * u) with (g * (n * u)) by ring. set (x := n * u) in *. clearbody x. apply Z.le_antisymm; apply rnd_mono; nia.
    - replace (map (Z.mul (2 ^ k)) ns) with ns; [reflexivity|]. symmetry. rewrite <- (map_id ns) at 2. apply map_ext_in. intros n I. destruct (Z.eq_dec n 0) as [->|NZ]; [lia|]. exfalso. apply X. rewrite Exists_exists. exists n. split; assumption. }
  unfold nx_sift_finish. rewrite T. reflexivity.
Qed.

(** * Largest elements *)
Section MaxIdx.
Context {A : Type} (gt : A -> A -> bool).
Fixpoint gmax (v : list A) (i mi : Z) (mv : A) : Z :=
  match v with
  | [] => mi
  | x :: v => if gt x mv then gmax v (i + 1) i x else gmax v (i + 1) mi mv
  end.
Variable ok : A -> Prop.
Hypothesis gt_trans : forall a b c, ok a -> ok b -> ok c -> gt a b = true -> gt b c = true -> gt a c = true.
Hypothesis gt_neg : forall a b c, ok a -> ok b -> ok c -> gt a b = true -> gt c b = false -> gt a c = true.
Hypothesis gt_irr : forall a, ok a -> gt a a = false.
(** Either nothing beats the bound, or the answer is the first of the largest. *)
Lemma gmax_spec v : forall i mi mv, Forall ok v -> ok mv ->
  (gmax v i mi mv = mi /\ forall j y, nth_error v j = Some y -> gt y mv = false) \/
  (exists k x, gmax v i mi mv = i + Z.of_nat k /\ nth_error v k = Some x /\ gt x mv = true /\
    (forall j y, nth_error v j = Some y -> gt y x = false) /\ (forall j y, nth_error v j = Some y -> (j < k)%nat -> gt x y = true)).
Proof.
  induction v as [|a v IH]; intros i mi mv F M; cbn [gmax].
  - left. split; [reflexivity|]. intros [|j] y H; discriminate.
  - inversion F as [|? ? Fa Fv]; subst. destruct (gt a mv) eqn:G.
    + right. destruct (IH (i + 1) i a Fv Fa) as [[E N]|(k & x & E & X & GX & N & L)].
      * exists 0%nat, a. split; [lia|]. split; [reflexivity|]. split; [exact G|]. split.
        -- intros [|j] y H; [injection H as <-; apply gt_irr; exact Fa|exact (N j y H)].
        -- intros j y _ H; lia.
      * exists (S k), x. assert (Ox : ok x) by (rewrite Forall_forall in Fv; apply Fv; eapply nth_error_In; exact X).
        split; [lia|]. split; [exact X|]. split; [apply (gt_trans x a mv); assumption|]. split.
        -- intros [|j] y H; [|exact (N j y H)]. injection H as <-. destruct (gt a x) eqn:B; [|reflexivity]. rewrite <- (gt_irr x Ox). symmetry. apply (gt_trans x a x); assumption.
        -- intros [|j] y H J; [injection H as <-; exact GX|apply (L j y H); lia].
    + destruct (IH (i + 1) mi mv Fv M) as [[E N]|(k & x & E & X & GX & N & L)].
      * left. split; [exact E|]. intros [|j] y H; [injection H as <-; exact G|exact (N j y H)].
      * right. exists (S k), x. assert (Ox : ok x) by (rewrite Forall_forall in Fv; apply Fv; eapply nth_error_In; exact X).
        split; [lia|]. split; [exact X|]. split; [exact GX|]. assert (XA : gt x a = true) by (apply (gt_neg x mv a); assumption). split.
        -- intros [|j] y H; [|exact (N j y H)]. injection H as <-. destruct (gt a x) eqn:B; [|reflexivity]. rewrite <- (gt_irr x Ox). symmetry. apply (gt_trans x a x); assumption.
        -- intros [|j] y H J; [injection H as <-; exact XA|apply (L j y H); lia].
Qed.
End MaxIdx.
Lemma svec_gmax v i mi mv : svec_max_idx_from v i mi mv = gmax f_gt v i mi mv.
Proof. revert i mi mv. induction v as [|x v IH]; intros; [reflexivity|]. cbn. rewrite !IH. reflexivity. Qed.
Lemma ivec_gmax v i mi mv : ivec_max_idx_from v i mi mv = gmax Z.gtb v i mi mv.
Proof. revert i mi mv. induction v as [|x v IH]; intros; [reflexivity|]. cbn. rewrite !IH. reflexivity. Qed.
Lemma fgt_trans a b c : f_gt a b = true -> f_gt b c = true -> f_gt a c = true.
Proof. unfold f_gt. intros H1 H2. exact (f_lt_trans c b a H2 H1). Qed.
Lemma fgt_neg a b c : c <> FNaN -> f_gt a b = true -> f_gt c b = false -> f_gt a c = true.
Proof.
  unfold f_gt. destruct a as [x|[]|], b as [y|[]|], c as [z|[]|]; cbn; intros N H1 H2; try reflexivity; try discriminate; try congruence.
  destruct (Z.ltb_spec y x); [|discriminate]. destruct (Z.ltb_spec y z); [discriminate|]. apply Z.ltb_lt. lia.
Qed.
Lemma svec_max v : Forall (fun x => x <> FNaN) v ->
  (nx_svec_max_idx v = -1 /\ forall j y, nth_error v j = Some y -> f_gt y (fneg FMAX) = false) \/
  (exists k x, nx_svec_max_idx v = Z.of_nat k /\ nth_error v k = Some x /\ f_gt x (fneg FMAX) = true /\
    (forall j y, nth_error v j = Some y -> f_gt y x = false) /\ (forall j y, nth_error v j = Some y -> (j < k)%nat -> f_gt x y = true)).
Proof.
  intro F. unfold nx_svec_max_idx. rewrite svec_gmax.
  exact (gmax_spec f_gt (fun x => x <> FNaN) (fun a b c _ _ _ => fgt_trans a b c) (fun a b c _ _ N => fgt_neg a b c N) (fun a _ => f_lt_irrefl a) v 0 (-1) (fneg FMAX) F ltac:(discriminate)).
Qed.
Lemma ivec_max v :
  (nx_ivec_max_idx v = -1 /\ forall j y, nth_error v j = Some y -> (y >? INT_MIN) = false) \/
  (exists k x, nx_ivec_max_idx v = Z.of_nat k /\ nth_error v k = Some x /\ (x >? INT_MIN) = true /\
    (forall j y, nth_error v j = Some y -> (y >? x) = false) /\ (forall j y, nth_error v j = Some y -> (j < k)%nat -> (x >? y) = true)).
Proof.
  unfold nx_ivec_max_idx. rewrite ivec_gmax.
  apply (gmax_spec Z.gtb (fun _ => True)); try exact I.
  - intros a b c _ _ _ H1 H2. rewrite Z.gtb_lt in *. lia.
  - intros a b c _ _ _ H1 H2. rewrite Z.gtb_ltb in *. rewrite Z.ltb_lt in *. apply Z.ltb_ge in H2. lia.
  - intros a _. rewrite Z.gtb_ltb. apply Z.ltb_irrefl.
  - apply Forall_forall. intros; exact I.
Qed.
Lemma svec_max_val_spec v : Forall (fun x => x <> FNaN) v -> forall m, m <> FNaN ->
  let r := fold_left (fun m x => if f_gt x m then x else m) v m in
  (r = m \/ In r v) /\ f_gt m r = false /\ (forall y, In y v -> f_gt y r = false).
Proof.
  induction 1 as [|x v X V IH]; intros m M; cbv zeta; cbn [fold_left].
  - split; [left; reflexivity|]. split; [apply f_lt_irrefl|intros y []].
  - assert (N : (if f_gt x m then x else m) <> FNaN) by (destruct (f_gt x m); assumption).
    destruct (IH _ N) as (I1 & I2 & I3). set (r := fold_left _ v _) in *.
    assert (R : r <> FNaN) by (destruct I1 as [->|I1]; [exact N|]; rewrite Forall_forall in V; apply V; exact I1).
    destruct (f_gt x m) eqn:G.
    + split; [destruct I1 as [I1|I1]; [right; left; symmetry; exact I1|right; right; exact I1]|]. split.
      * destruct (f_gt m r) eqn:B; [|reflexivity]. exfalso. pose proof (fgt_trans x m r G B). congruence.
      * intros y [<-|Y]; [exact I2|exact (I3 y Y)].
    + split; [destruct I1 as [I1|I1]; [left; exact I1|right; right; exact I1]|]. split; [exact I2|]. intros y [<-|Y]; [|exact (I3 y Y)].
      destruct (f_gt x r) eqn:B; [|reflexivity]. exfalso. pose proof (fgt_neg x r m M B I2). congruence.
Qed.
