From Verif Require Import Base BaseLemmas Gray Flt FltErr FilterModel FilterSpec FilterProofs Img ImgModel ImgSpec ImgProofs ImgBox KernModel KernSpec.
Local Open Scope Z_scope.

(** Results of nonnegative operations. *)
Lemma mkf_nonneg p d : 0 <= p -> 0 < d -> p < 2 ^ 276 * d -> mkf p d = FF (rnd p d) /\ 0 <= rnd p d.
Proof.
  intros P D L. unfold mkf. rewrite (Z.abs_eq p) by lia. pose proof (rnd_nonneg p d P D) as R0. pose proof (rnd_lt p d P D L) as RL.
  destruct (Z.ltb_spec (rnd p d) (2 ^ 277)); [|lia]. split; [|exact R0]. f_equal.
  destruct (Z.eq_dec p 0) as [->|N]; [now rewrite rnd_zero|]. rewrite Z.sgn_pos by lia. lia.
Qed.

(** * The kernel *)
Notation E24 := 16777216.
Lemma E24_U : E24 * 4096 <= U.
Proof. discriminate. Qed.
Section Kernel.
Variables (kv : Z -> flt) (m : Z -> Z) (n : Z).
Hypothesis KV : forall i, 0 <= i < n -> kv i = FF (m i).
Hypothesis M0 : m 0 = U.
Hypothesis M1 : forall i, 0 <= i < n -> 0 <= m i <= U.
Hypothesis N : 2 <= n <= 4096.
Definition T_ (j : Z) : Z := U + 2 * zsum m 1 (Z.to_nat (j - 1)).
Lemma T_step j : 1 <= j -> T_ (j + 1) = T_ j + 2 * m j.
Proof. intro J. unfold T_. replace (Z.to_nat (j + 1 - 1)) with (S (Z.to_nat (j - 1))) by lia. cbn [zsum]. replace (1 + Z.of_nat (Z.to_nat (j - 1))) with j by lia. ring. Qed.
Lemma T_1 : T_ 1 = U.
Proof. unfold T_. change (Z.to_nat (1 - 1)) with O. cbn [zsum]. lia. Qed.
Lemma T_bound j : 1 <= j <= n -> U <= T_ j <= (2 * j - 1) * U.
Proof.
  intro J. assert (forall k, 1 + Z.of_nat k <= n -> 0 <= zsum m 1 k <= Z.of_nat k * U) as G.
  { induction k as [|k IH]; intro K; cbn [zsum]; [lia|]. pose proof (M1 (1 + Z.of_nat k) ltac:(lia)). specialize (IH ltac:(lia)). lia. }
  specialize (G (Z.to_nat (j - 1)) ltac:(lia)). unfold T_. rewrite Z2Nat.id in G by lia. lia.
Qed.
Lemma sum_step s j : 1 <= j < n -> 0 <= s -> E24 * Z.abs (s - T_ j) <= 4 * j * T_ j ->
  exists s', fadd (FF s) (fmul (of_int 2) (FF (m j))) = FF s' /\ 0 <= s' /\ E24 * Z.abs (s' - T_ (j + 1)) <= 4 * (j + 1) * T_ (j + 1).
Proof.
  intros J S0 B. pose proof (T_bound j ltac:(lia)) as TB. pose proof (T_bound (j + 1) ltac:(lia)) as TB'. pose proof (M1 j ltac:(lia)) as MJ. pose proof (T_step j ltac:(lia)) as TS.
  pose proof E24_U as EU. set (T := T_ j) in *. set (T' := T_ (j + 1)) in *. set (x := m j) in *. clearbody T T' x.
  rewrite of_int_exact by (unfold small24; lia). cbn [fmul].
  assert (U276 : 20000 * U < 2 ^ 276) by reflexivity.
  pose proof U_pos as UP.
  destruct (mkf_nonneg (2 * U * x) U) as [E1 R1]; [apply Z.mul_nonneg_nonneg; lia|exact UP| |].
  { rewrite (Z.mul_comm 2 U), <- Z.mul_assoc, (Z.mul_comm (2 ^ 276)). apply Z.mul_lt_mono_pos_l; [exact UP|]. lia. }
  rewrite E1. pose proof (rnd_err (2 * U * x) U ltac:(apply Z.mul_nonneg_nonneg; lia) UP) as ER1. set (t := rnd (2 * U * x) U) in *. clearbody t.
  assert (ER : E24 * Z.abs (t - 2 * x) <= 2 * x + E24).
  { apply (Z.mul_le_mono_pos_r _ _ U UP). replace (t * U - 2 * U * x) with ((t - 2 * x) * U) in ER1 by ring. rewrite Z.abs_mul, (Z.abs_eq U) in ER1 by lia. clear -ER1. lia. }
  clear ER1 E1. assert (J4 : 4 * j * T <= 16384 * T) by (apply Z.mul_le_mono_nonneg_r; lia).
  assert (sB : s <= 20000 * U - t).
  { assert (T <= 8192 * U). { apply Z.le_trans with (1 := proj2 TB). apply Z.mul_le_mono_nonneg_r; lia. }
    clear -B J4 H ER MJ S0 EU. lia. }
  cbn [fadd]. destruct (mkf_nonneg (s + t) 1) as [E2 R2]; [lia|lia|clear -sB U276; lia|].
  rewrite E2. pose proof (rnd_err (s + t) 1 ltac:(lia) ltac:(lia)) as ER2. set (s' := rnd (s + t) 1) in *. clearbody s'. rewrite !Z.mul_1_r in ER2.
  exists s'. split; [reflexivity|]. split; [exact R2|].
  assert (Q : 4 * (j + 1) * T' = 4 * j * T + 4 * j * (2 * x) + 4 * T') by (rewrite TS; ring). rewrite Q.
  assert (Q2 : 0 <= 4 * j * (2 * x)) by (apply Z.mul_nonneg_nonneg; lia).
  set (q1 := 4 * j * T) in *. set (q2 := 4 * j * (2 * x)) in *. clearbody q1 q2.
  clear -B ER ER2 TS TB TB' MJ S0 Q2 J4 EU. lia.
Qed.
Lemma kernel_ok kernel : Z.of_nat (length kernel) = n ->
  exists S k', kernel_sym_gaussian kv n kernel = Ok k' /\ length k' = length kernel /\ 0 <= S /\ E24 * Z.abs (S - T_ n) <= 4 * n * T_ n /\
    forall i, 0 <= i < n -> at_ F0 k' i = fdiv (FF (m i)) (FF S).
Proof.
  intro L. unfold kernel_sym_gaussian. destruct (Z.leb_spec n 1); [lia|].
  rewrite zset_lt' by lia. cbn [bind]. set (k0 := lset kernel _ _). assert (L0 : length k0 = length kernel) by apply lset_length.
  assert (V0 : at_ F0 k0 0 = kv 0) by (unfold at_, k0; rewrite nth_lset; destruct (Nat.ltb_spec (Z.to_nat 0) (length kernel)); [reflexivity|lia]).
  clearbody k0.
  assert (G : forall j, (1 <= j)%nat -> Z.of_nat j <= n -> exists k s,
    for_each (fun i '(kernel, sum) => let* kernel := zset kernel i (kv i) in let* k := zget kernel i in Ok (kernel, fadd sum (fmul (of_int 2) k))) (zrange 1 (Z.of_nat j)) (k0, kv 0) = Ok (k, FF s) /\
    length k = length kernel /\ (forall i, 0 <= i < Z.of_nat j -> at_ F0 k i = kv i) /\ 0 <= s /\ E24 * Z.abs (s - T_ (Z.of_nat j)) <= 4 * Z.of_nat j * T_ (Z.of_nat j)).
  { induction j as [|j IH]; intros J1 J2; [lia|]. destruct (Nat.eq_dec j 0) as [->|J0].
    - exists k0, U. split; [cbn [zrange]; cbn; rewrite KV, M0 by lia; reflexivity|]. split; [exact L0|]. split; [intros i I; replace i with 0 by lia; exact V0|].
      split; [pose proof U_pos; lia|]. change (Z.of_nat 1) with 1. rewrite T_1, Z.sub_diag. pose proof U_pos. cbn [Z.abs]. lia.
    - destruct IH as (k & s & E & LK & V & S0 & B); [lia|lia|]. replace (Z.of_nat (S j)) with (Z.of_nat j + 1) in * by lia.
      destruct (sum_step s (Z.of_nat j) ltac:(lia) S0 B) as (s' & E' & S0' & B').
      exists (lset k (Z.to_nat (Z.of_nat j)) (kv (Z.of_nat j))), s'. rewrite zrange_snoc, for_each_app, E by lia. cbn [bind for_each].
      rewrite zset_lt' by lia. cbn [bind]. rewrite (zget_lt _ _ F0) by (rewrite lset_length; lia). cbn [bind].
      assert (VJ : nth (Z.to_nat (Z.of_nat j)) (lset k (Z.to_nat (Z.of_nat j)) (kv (Z.of_nat j))) F0 = kv (Z.of_nat j)).
      { rewrite nth_lset, Nat.eqb_refl. destruct (Nat.ltb_spec (Z.to_nat (Z.of_nat j)) (length k)); [reflexivity|lia]. }
      split; [rewrite VJ, KV, E' by lia; reflexivity|]. split; [now rewrite lset_length|]. split; [|auto].
      intros i I. unfold at_. destruct (Z.eq_dec i (Z.of_nat j)) as [->|NE]; [exact VJ|]. rewrite nth_lset. destruct (Nat.eqb_spec (Z.to_nat (Z.of_nat j)) (Z.to_nat i)); [lia|]. apply V. lia. }
  destruct (G (Z.to_nat n)) as (k & s & E & LK & V & S0 & B); [lia|lia|]. rewrite Z2Nat.id in * by lia. rewrite E. cbn [bind].
  destruct (fill1 F0 (fun i l => let* k := zget l i in Ok (fdiv k (FF s))) (fun i => fdiv (FF (m i)) (FF s)) 0 n k) as (l' & E' & L' & V'); [lia|lia| |].
  { intros i l I LL VL. rewrite (zget_lt _ _ F0) by lia. cbn [bind]. rewrite VL by lia. replace ((0 <=? i) && (i <? 0 + i)) with false by lia. rewrite <- KV by lia. rewrite <- V by lia. reflexivity. }
  exists s, l'. split; [|split; [lia|]; split; [exact S0|]; split; [exact B|]].
  - rewrite <- E'. apply for_each_eq. intros i k1 _. destruct (zget k1 i); reflexivity.
  - intros i I. unfold at_. rewrite V' by lia. replace ((0 <=? i) && (i <? 0 + n)) with true by lia. now rewrite Z.sub_0_r.
Qed.
End Kernel.
Lemma norm_sum (m : Z -> Z) (k : Z -> Z) (s : Z) (n : Z) : 0 < s -> (forall i, 1 <= i < n -> E24 * Z.abs (k i * s - m i * U) <= m i * U + E24 * s) ->
  forall j, Z.of_nat j < n -> E24 * Z.abs (zsum k 1 j * s - zsum m 1 j * U) <= zsum m 1 j * U + E24 * Z.of_nat j * s.
Proof.
  intros S0 H. induction j as [|j IH]; intro J; cbn [zsum].
  - replace (0 * s - 0 * U) with 0 by ring. cbn [Z.abs]. lia.
  - specialize (IH ltac:(lia)). specialize (H (1 + Z.of_nat j) ltac:(lia)). set (a := zsum k 1 j) in *. set (b := zsum m 1 j) in *. set (c := k _) in *. set (d := m _) in *. clearbody a b c d.
    replace ((a + c) * s - (b + d) * U) with ((a * s - b * U) + (c * s - d * U)) by ring. replace (E24 * Z.of_nat (S j) * s) with (E24 * Z.of_nat j * s + E24 * s) by lia.
    rewrite Z.mul_add_distr_r. set (x := a * s - b * U) in *. set (y := c * s - d * U) in *. set (u := b * U) in *. set (v := d * U) in *. set (q := E24 * Z.of_nat j * s) in *. clearbody x y u v q. clear -IH H. lia.
Qed.
Lemma norm_final K T s n : 2 <= n <= 4096 -> U <= T -> E24 * Z.abs (s - T) <= 4 * n * T -> E24 * Z.abs (K * s - T * U) <= T * U + E24 * (2 * n) * s ->
  1000 * Z.abs (K - U) <= U.
Proof.
  intros N TU B H. assert (B' : E24 * Z.abs (s - T) <= 16384 * T) by (apply Z.le_trans with (1 := B); apply Z.mul_le_mono_nonneg_r; lia). clear B.
  pose proof E24_U as EU. assert (S0 : 0 < s) by lia.
  assert (H' : E24 * Z.abs (K * s - T * U) <= T * U + E24 * 8192 * s) by (apply Z.le_trans with (1 := H); apply Z.add_le_mono_l, Z.mul_le_mono_nonneg_r; lia). clear H.
  apply (Z.mul_le_mono_pos_r _ _ s S0). replace (1000 * Z.abs (K - U) * s) with (1000 * Z.abs ((K - U) * s)) by (rewrite Z.abs_mul, (Z.abs_eq s) by lia; ring).
  assert (QT : E24 * Z.abs (s * U - T * U) <= 16384 * (T * U)).
  { replace (s * U - T * U) with ((s - T) * U) by ring. rewrite Z.abs_mul, (Z.abs_eq U) by lia. rewrite !Z.mul_assoc. apply Z.mul_le_mono_nonneg_r; lia. }
  assert (QS : 2 ^ 30 * s <= s * U) by (rewrite (Z.mul_comm s U); apply Z.mul_le_mono_nonneg_r; [lia|discriminate]).
  replace ((K - U) * s) with (K * s - s * U) by ring. rewrite (Z.mul_comm U s).
  set (a := K * s) in *. set (b := T * U) in *. set (c := s * U) in *. clearbody a b c. change (2 ^ 30) with 1073741824 in QS. clear -H' QT QS S0. lia.
Qed.
Lemma kernel_normalised kv n kernel : bell kv n -> 2 <= n <= 4096 -> Z.of_nat (length kernel) = n ->
  exists k' k, kernel_sym_gaussian kv n kernel = Ok k' /\ length k' = length kernel /\ weights k' k /\ 1000 * Z.abs (total k (length k') - U) <= U /\
    forall i j, 0 <= i <= j -> j < n -> k j <= k i.
Proof.
  intros (m & KV & M0 & M1 & MM) N L. destruct (kernel_ok kv m n KV M0 M1 N kernel L) as (s & k' & E & LK & S0 & B & V).
  pose proof (T_bound kv m n KV M1 N n ltac:(lia)) as TB. pose proof U_pos as UP.
  assert (B' : E24 * Z.abs (s - T_ m n) <= 16384 * T_ m n) by (apply Z.le_trans with (1 := B); apply Z.mul_le_mono_nonneg_r; lia).
  assert (SU : U <= 2 * s) by (clear -B' TB UP; lia).
  assert (F : forall i, 0 <= i < n -> at_ F0 k' i = FF (rnd (m i * U) s) /\ 0 <= rnd (m i * U) s /\ E24 * Z.abs (rnd (m i * U) s * s - m i * U) <= m i * U + E24 * s).
  { intros i I. rewrite V by exact I. cbn [fdiv]. destruct (Z.eqb_spec s 0); [lia|]. rewrite Z.sgn_pos, Z.mul_1_r, Z.abs_eq by lia. pose proof (M1 i I) as MI.
    assert (P0 : 0 <= m i * U) by (apply Z.mul_nonneg_nonneg; lia).
    destruct (mkf_nonneg (m i * U) s P0 ltac:(lia)) as [E1 R1].
    { apply Z.le_lt_trans with (U * U); [apply Z.mul_le_mono_nonneg_r; lia|]. apply Z.lt_le_trans with (2 ^ 275 * U); [apply Z.mul_lt_mono_pos_r; [exact UP|reflexivity]|].
      replace (2 ^ 276) with (2 ^ 275 * 2) by reflexivity. rewrite <- Z.mul_assoc. apply Z.mul_le_mono_nonneg_l; [discriminate|exact SU]. }
    split; [exact E1|]. split; [exact R1|]. apply rnd_err; [exact P0|lia]. }
  exists k', (fun i => rnd (m i * U) s). split; [exact E|]. split; [exact LK|]. split; [|split].
  - intros i I. rewrite LK, L in I. destruct (F i I) as (F1 & F2 & _). auto.
  - unfold total. rewrite LK. assert (LN : (length kernel - 1)%nat = Z.to_nat (n - 1)) by lia. rewrite LN.
    apply (norm_final _ (T_ m n) s n); [lia|lia|exact B|]. unfold T_.
    pose proof (norm_sum m (fun i => rnd (m i * U) s) s n ltac:(lia) (fun i I => proj2 (proj2 (F i ltac:(lia)))) (Z.to_nat (n - 1)) ltac:(lia)) as NS.
    destruct (F 0 ltac:(lia)) as (_ & _ & F0'). rewrite M0 in F0'. rewrite M0. rewrite Z2Nat.id in NS by lia. set (a := zsum (fun i => _) 1 _) in *. set (b := zsum m 1 _) in *. set (c := rnd (U * U) s) in *. clearbody a b c.
    replace ((c + 2 * a) * s - (U + 2 * b) * U) with ((c * s - U * U) + 2 * (a * s - b * U)) by ring. replace ((U + 2 * b) * U) with (U * U + 2 * (b * U)) by ring.
    replace (E24 * (2 * n) * s) with (2 * (E24 * (n - 1) * s) + 2 * (E24 * s)) by ring.
    set (x := c * s - U * U) in *. set (y := a * s - b * U) in *. set (q := E24 * (n - 1) * s) in *. set (u := U * U) in *. set (v := b * U) in *. clearbody x y q u v. clear -F0' NS S0. lia.
  - intros i j IJ J. pose proof (M1 i ltac:(lia)). pose proof (M1 j ltac:(lia)). apply rnd_mono; try lia; try (apply Z.mul_nonneg_nonneg; lia).
    apply Z.mul_le_mono_nonneg_r; [lia|]. apply Z.mul_le_mono_nonneg_r; [lia|]. apply MM; lia.
Qed.

(** * Convolving bytes *)
Lemma UU276 : 256 * U * U < 2 ^ 276 * U.
Proof. apply Z.mul_lt_mono_pos_r; [exact U_pos|]. reflexivity. Qed.
Lemma fmul_pos x y : 0 <= x -> 0 <= y -> x * y <= 256 * U * U -> exists p, fmul (FF x) (FF y) = FF p /\ 0 <= p /\ Z.abs (p * U - x * y) <= 16640 * W * U.
Proof.
  intros X Y B. assert (P : 0 <= x * y) by (apply Z.mul_nonneg_nonneg; assumption).
  destruct (fmul_err x y 256) as (p & E & ER); [split; discriminate|rewrite Z.abs_eq; assumption|].
  destruct (mkf_nonneg (x * y) U P U_pos) as [E' R]; [pose proof UU276; lia|]. cbn [fmul] in E. rewrite E' in E. injection E as E. exists p. cbn [fmul]. rewrite E', E. rewrite E in R. auto.
Qed.
Lemma fadd_pos x y : 0 <= x -> 0 <= y -> x + y <= 256 * U -> exists p, fadd (FF x) (FF y) = FF p /\ 0 <= p /\ Z.abs (p - (x + y)) <= 16640 * W.
Proof.
  intros X Y B. destruct (fadd_err x y 256) as (p & E & ER); [split; discriminate|rewrite Z.abs_eq; lia|].
  destruct (mkf_nonneg (x + y) 1 ltac:(lia) ltac:(lia)) as [E' R]; [assert (256 * U < 2 ^ 276) by reflexivity; lia|]. cbn [fadd] in E. rewrite E' in E. injection E as E. exists p. cbn [fadd]. rewrite E', E. rewrite E in R. auto.
Qed.
Notation exact_conv := (conv_sum Z.add Z.mul).
Lemma exact_bounds k z c lo hi m : (forall i, 0 <= i <= Z.of_nat m -> 0 <= k i) -> (forall j, c - Z.of_nat m <= j <= c + Z.of_nat m -> lo <= z j <= hi) ->
  lo * (k 0 + 2 * zsum k 1 m) <= exact_conv k z c m <= hi * (k 0 + 2 * zsum k 1 m).
Proof.
  induction m as [|m IH]; intros K Z; cbn [conv_sum zsum].
  - pose proof (K 0 ltac:(lia)). pose proof (Z c ltac:(lia)). nia.
  - specialize (IH ltac:(intros; apply K; lia) ltac:(intros; apply Z; lia)). pose proof (K (Z.of_nat (S m)) ltac:(lia)) as K0. replace (1 + Z.of_nat m) with (Z.of_nat (S m)) by lia.
    pose proof (Z (c - Z.of_nat (S m)) ltac:(lia)) as Z1. pose proof (Z (c + Z.of_nat (S m)) ltac:(lia)) as Z2. set (x := k (Z.of_nat (S m))) in *. set (a := z (c - _)) in *. set (b := z (c + _)) in *. clearbody x a b.
    set (q := exact_conv k z c m) in *. clearbody q. set (u := zsum k 1 m) in *. clearbody u. set (k0 := k 0) in *. clearbody k0. clear K Z.
    replace (lo * (k0 + 2 * (u + x))) with (lo * (k0 + 2 * u) + x * (2 * lo)) by ring. replace (hi * (k0 + 2 * (u + x))) with (hi * (k0 + 2 * u) + x * (2 * hi)) by ring.
    assert (x * (2 * lo) <= x * (a + b) <= x * (2 * hi)) by (split; apply Z.mul_le_mono_nonneg_l; lia). lia.
Qed.
Lemma zsum_nonneg k m : (forall i, 1 <= i <= Z.of_nat m -> 0 <= k i) -> 0 <= zsum k 1 m.
Proof. induction m as [|m IH]; intro K; cbn [zsum]; [lia|]. specialize (IH ltac:(intros; apply K; lia)). specialize (K (1 + Z.of_nat m) ltac:(lia)). lia. Qed.
Lemma conv_bytes kf k s z c m : (forall i, 0 <= i <= Z.of_nat m -> kf i = FF (k i) /\ 0 <= k i) -> (forall j, s j = of_int (z j) /\ 0 <= z j <= 255) ->
  1000 * (k 0 + 2 * zsum k 1 m) <= 1001 * U -> Z.of_nat m < 4096 ->
  exists a, conv_sum fadd fmul kf s c m = FF a /\ 0 <= a /\ Z.abs (a - exact_conv k z c m) <= 33280 * W * (Z.of_nat m + 1).
Proof.
  intros K Z. pose proof W_pos as WP. pose proof U_W as UW. induction m as [|m IH]; intros TOT M; cbn [conv_sum].
  - destruct (K 0 ltac:(lia)) as [E0 K0]. destruct (Z c) as [ES Z0]. rewrite E0, ES, of_int_exact by (unfold small24; lia). cbn [zsum] in TOT. set (x := k 0) in *. set (y := z c) in *. clearbody x y.
    assert (B : x * y <= 256 * U) by (apply Z.le_trans with (x * 255); [apply Z.mul_le_mono_nonneg_l; lia|clear -TOT UW WP; lia]).
    destruct (fmul_pos x (y * U)) as (p & E & P & ER); [lia|apply Z.mul_nonneg_nonneg; [lia|discriminate]|rewrite Z.mul_assoc; apply Z.mul_le_mono_nonneg_r; [discriminate|exact B]|].
    exists p. split; [exact E|]. split; [exact P|]. replace (p * U - x * (y * U)) with ((p - x * y) * U) in ER by ring. rewrite Z.abs_mul, (Z.abs_eq U) in ER by discriminate. apply Z.mul_le_mono_pos_r in ER; [|exact U_pos]. cbn [Z.of_nat]. lia.
  - destruct (K (Z.of_nat (S m)) ltac:(lia)) as [E0 K0]. cbn [zsum] in TOT. replace (1 + Z.of_nat m) with (Z.of_nat (S m)) in TOT by lia.
    assert (ZS : 0 <= zsum k 1 m) by (apply zsum_nonneg; intros; apply K; lia). assert (KZ : 0 <= k 0) by (apply K; lia).
    destruct IH as (a & EA & A0 & ERA); [intros; apply K; lia|lia|lia|]. rewrite EA, E0. 
    assert (CB : exact_conv k z c m <= 255 * (k 0 + 2 * zsum k 1 m)) by (apply (exact_bounds k z c 0 255 m); intros; [apply K; lia|apply Z]).
    destruct (Z (c - Z.of_nat (S m))) as [-> Z1]. destruct (Z (c + Z.of_nat (S m))) as [-> Z2]. rewrite fadd_int by (unfold small24; lia). rewrite of_int_exact by (unfold small24; lia).
    set (x := k (Z.of_nat (S m))) in *. set (y := z (c - _) + z (c + _)) in *. assert (Y : 0 <= y <= 510) by (unfold y; lia). clearbody x y. set (q := exact_conv k z c m) in *. clearbody q. set (u := zsum k 1 m) in *. clearbody u. set (k0 := k 0) in *. clearbody k0.
    assert (XY : x * y <= x * 510) by (apply Z.mul_le_mono_nonneg_l; lia). assert (XY0 : 0 <= x * y) by (apply Z.mul_nonneg_nonneg; lia).
    assert (B : x * y <= 256 * U) by (clear -XY TOT UW WP ZS KZ; lia).
    destruct (fmul_pos x (y * U)) as (p & E & P & ER); [lia|apply Z.mul_nonneg_nonneg; [lia|discriminate]|rewrite Z.mul_assoc; apply Z.mul_le_mono_nonneg_r; [discriminate|exact B]|].
    replace (p * U - x * (y * U)) with ((p - x * y) * U) in ER by ring. rewrite Z.abs_mul, (Z.abs_eq U) in ER by discriminate. apply Z.mul_le_mono_pos_r in ER; [|exact U_pos]. rewrite E.
    assert (WM : W * (Z.of_nat m + 1) <= W * 4096) by (apply Z.mul_le_mono_nonneg_l; lia). rewrite <- !Z.mul_assoc in *. set (w := W * (Z.of_nat m + 1)) in *.
    set (xy := x * y) in *. clearbody xy.
    destruct (fadd_pos a p A0 P) as (r & E' & R & ER'); [clear -ERA ER CB TOT UW WP WM XY ZS KZ; clearbody w; lia|].
    exists r. split; [exact E'|]. split; [exact R|]. replace (W * (Z.of_nat (S m) + 1)) with (w + W) by (unfold w; lia). clearbody w. clear -ERA ER ER'. lia.
Qed.
