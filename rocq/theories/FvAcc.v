(** The bytes of a descriptor against their exact values. *)
From Coq Require Import Lia Reals Lra.
From Verif Require Import Base BaseLemmas Flt FltErr FvModel FvSpec FvProofs FvUnit.
Local Open Scope R_scope.

Definition within (e x y : R) : Prop := y * (1 - e) <= x <= y * (1 + e).
Lemma within_le e e' x y : 0 <= y -> e <= e' -> within e x y -> within e' x y.
Proof. unfold within. intros Y E [A B]. split; nra. Qed.
Lemma within_near x y : 0 <= y -> near 1 x y -> within (/ 8000000) x y.
Proof. unfold near. rewrite !pow_1. intros Y H. apply (within_le dl); [exact Y|pose proof dl_pos; lra|exact H]. Qed.
Lemma within_div e f x y p q : 0 <= e <= / 10 -> 0 <= f <= / 10 -> 0 <= y -> 0 < q -> within e x y -> within f p q -> within (e + 2 * f) (x / p) (y / q).
Proof.
  unfold within. intros E F Y Q [A B] [C D]. assert (P : 0 < p) by nra. split.
  - apply (Rmult_le_reg_r p); [exact P|]. replace (x / p * p) with x by (field; lra). apply Rle_trans with (2 := A).
    apply Rle_trans with (y / q * (1 - (e + 2 * f)) * (q * (1 + f))).
    + apply Rmult_le_compat_l; [apply Rmult_le_pos; [apply Rmult_le_pos; [lra|left; apply Rinv_0_lt_compat; exact Q]|lra]|exact D].
    + replace (y / q * (1 - (e + 2 * f)) * (q * (1 + f))) with (y * ((1 - (e + 2 * f)) * (1 + f))) by (field; lra). apply Rmult_le_compat_l; [exact Y|nra].
  - apply (Rmult_le_reg_r p); [exact P|]. replace (x / p * p) with x by (field; lra). apply Rle_trans with (1 := B).
    apply Rle_trans with (y / q * (1 + (e + 2 * f)) * (q * (1 - f))).
    + replace (y / q * (1 + (e + 2 * f)) * (q * (1 - f))) with (y * ((1 + (e + 2 * f)) * (1 - f))) by (field; lra). apply Rmult_le_compat_l; [exact Y|nra].
    + apply Rmult_le_compat_l; [apply Rmult_le_pos; [apply Rmult_le_pos; [lra|left; apply Rinv_0_lt_compat; exact Q]|lra]|exact C].
Qed.
Lemma within_sqrt e x y : 0 <= e <= 1 -> 0 <= y -> within e x y -> within e (sqrt x) (sqrt y).
Proof.
  unfold within. intros E Y [A B]. pose proof (sqrt_pos y) as SP. assert (SS : sqrt y * sqrt y = y) by (apply sqrt_sqrt; exact Y). split.
  - rewrite <- (sqrt_square (sqrt y * (1 - e))) by nra. apply sqrt_le_1_alt. nra.
  - rewrite <- (sqrt_square (sqrt y * (1 + e))) by nra. apply sqrt_le_1_alt. nra.
Qed.
Lemma within_min e x y c d : 0 <= e <= 1 -> within e x y -> within e c d -> within e (Rmin x c) (Rmin y d).
Proof.
  unfold within. intros E [A B] [C D]. unfold Rmin. destruct (Rle_dec x c), (Rle_dec y d); split; nra.
Qed.
Lemma within_scale c e x y : 0 <= c -> within e x y -> within e (c * x) (c * y).
Proof. unfold within. intros C [A B]. rewrite !Rmult_assoc. split; apply Rmult_le_compat_l; assumption. Qed.
Lemma within_trans e f x y z : 0 <= e <= / 10 -> 0 <= f <= / 10 -> 0 <= z -> within e x y -> within f y z -> within (e + 2 * f) x z.
Proof. unfold within. intros E F Z [A B] [C D]. split; nra. Qed.
Definition ssq (xs : list R) : R := fold_right (fun x s => x * x + s) 0 xs.
Lemma ssq_nonneg xs : 0 <= ssq xs.
Proof. induction xs as [|x xs IH]; cbn; [lra|]. fold (ssq xs). nra. Qed.
Lemma ssq_pos xs x : In x xs -> x <> 0 -> 0 < ssq xs.
Proof. induction xs as [|y xs IH]; intros I X; [contradiction|]. cbn. fold (ssq xs). pose proof (ssq_nonneg xs). destruct I as [->|I]; [nra|]. specialize (IH I X). nra. Qed.
Lemma rsum_ssq ns : rsum ns = ssq (map IZR ns).
Proof. induction ns as [|n ns IH]; [reflexivity|]. cbn. fold (rsum ns). rewrite IH. reflexivity. Qed.
Lemma within_ssq {T} e (f g : T -> R) l : 0 <= e <= / 10 -> Forall (fun t => 0 <= g t /\ within e (f t) (g t)) l -> within (3 * e) (ssq (map f l)) (ssq (map g l)).
Proof.
  intros E H. induction H as [|t l [G W] _ IH]; [cbn; unfold within; lra|]. cbn. fold (ssq (map f l)) (ssq (map g l)). unfold within in *. destruct W as [A B], IH as [C D].
  assert (f t * f t <= g t * g t * (1 + 3 * e)).
  { apply Rle_trans with (g t * (1 + e) * (g t * (1 + e))); [apply Rmult_le_compat; nra|]. replace (g t * (1 + e) * (g t * (1 + e))) with (g t * g t * ((1 + e) * (1 + e))) by ring. apply Rmult_le_compat_l; nra. }
  assert (g t * g t * (1 - 3 * e) <= f t * f t).
  { apply Rle_trans with (g t * (1 - e) * (g t * (1 - e))); [|apply Rmult_le_compat; nra]. replace (g t * (1 - e) * (g t * (1 - e))) with (g t * g t * ((1 - e) * (1 - e))) by ring. apply Rmult_le_compat_l; nra. }
  split; lra.
Qed.

(** The norm and the entries after dividing by it. *)
Lemma to_unit_within ns : (length ns <= 128)%nat -> Forall (zero_or_between (-40) 40) ns -> Exists (fun n => n <> 0%Z) ns -> exists r,
  (0 < r <= 2 ^ 197)%Z /\ nx_svec_to_unit (map FF ns) = (FF r, map FF (map (scaled_by r) ns)) /\ 0 < length_of (map IZR ns) /\
  within (/ 40000) (IZR r) (length_of (map IZR ns)) /\
  Forall (fun n => within (/ 15000) (IZR (scaled_by r n)) (IZR U * (IZR n / length_of (map IZR ns)))) ns.
Proof.
  intros L A X. destruct (to_unit_core ns L A X) as (r & R & E & SCN & T0 & B). exists r. split; [exact R|]. split; [exact E|].
  assert (R0 : 0 < IZR r) by (apply IZR_pos; lia). rewrite rsum_ssq in *. change (length_of (map IZR ns)) with (sqrt (ssq (map IZR ns))). set (S := ssq (map IZR ns)) in *.
  assert (S0 : 0 < sqrt S) by (apply sqrt_lt_R0; exact T0).
  assert (W : within (/ 40000) (IZR r) (sqrt S)).
  { rewrite <- (sqrt_square (IZR r)) by lra. apply within_sqrt; [lra|lra|]. unfold within. lra. }
  split; [exact S0|]. split; [exact W|]. rewrite Forall_forall in *. intros n I. specialize (SCN n I). specialize (A n I).
  assert (N0 : 0 <= IZR n).
  { apply IZR_le. destruct A as [->|[H _]]; [lia|]. assert (0 < 2 ^ (149 + -40))%Z by reflexivity. lia. }
  assert (U0 : 0 < IZR U) by (apply IZR_pos; exact U_pos).
  assert (Q : 0 <= IZR n * IZR U / IZR r) by (apply Rmult_le_pos; [nra|left; apply Rinv_0_lt_compat; exact R0]).
  apply within_near in SCN; [|exact Q].
  assert (D : within (2 * / 40000) (IZR U * (IZR n / IZR r)) (IZR U * (IZR n / sqrt S))).
  { apply within_scale; [lra|]. replace (2 * / 40000) with (0 + 2 * / 40000) by ring. apply within_div; [lra|lra|exact N0|exact S0| |exact W]. unfold within. lra. }
  replace (IZR n * IZR U / IZR r) with (IZR U * (IZR n / IZR r)) in SCN by (field; lra).
  assert (Q2 : 0 <= IZR U * (IZR n / sqrt S)) by (apply Rmult_le_pos; [lra|apply Rmult_le_pos; [exact N0|left; apply Rinv_0_lt_compat; exact S0]]).
  (* a tighter composition *)
  unfold within in *. split; nra.
Qed.
Lemma Rmin_scale c x y : 0 <= c -> c * Rmin x y = Rmin (c * x) (c * y).
Proof. intro C. unfold Rmin. destruct (Rle_dec x y), (Rle_dec (c * x) (c * y)); try reflexivity; nra. Qed.
Lemma IZR_min a b : IZR (Z.min a b) = Rmin (IZR a) (IZR b).
Proof.
  unfold Rmin. destruct (Rle_dec (IZR a) (IZR b)) as [H|H]; [rewrite Z.min_l; [reflexivity|apply le_IZR; exact H]|rewrite Z.min_r; [reflexivity|]].
  apply Rnot_le_lt, lt_IZR in H. lia.
Qed.
Lemma ssq_ge xs x : In x xs -> x * x <= ssq xs.
Proof. induction xs as [|y xs IH]; intros I; [contradiction|]. cbn. fold (ssq xs). pose proof (ssq_nonneg xs). destruct I as [->|I]; [lra|]. specialize (IH I). nra. Qed.
Lemma ssq_le xs c : 0 <= c -> Forall (fun x => 0 <= x <= c) xs -> ssq xs <= INR (length xs) * (c * c).
Proof.
  intros C. induction 1 as [|x xs X _ IH]; [cbn; lra|]. cbn [ssq fold_right length]. fold (ssq xs). rewrite S_INR. nra.
Qed.
Lemma ssq_scale c xs : ssq (map (Rmult c) xs) = c * c * ssq xs.
Proof. induction xs as [|x xs IH]; cbn; [ring|]. fold (ssq xs) (ssq (map (Rmult c) xs)). rewrite IH. ring. Qed.
Lemma byte_exact n : rep n -> byte_of n = Z.min 255 (512 * n / U).
Proof.
  intros (a & k & A & K & ->). unfold byte_of. replace (512 * (a * 2 ^ k))%Z with (a * 2 ^ (9 + k) * 1)%Z by (rewrite Z.pow_add_r by lia; change (2 ^ 9)%Z with 512%Z; ring).
  rewrite rnd_exact by lia. rewrite Z.mul_1_r. reflexivity.
Qed.

Lemma finish_ideal ns : (length ns <= 128)%nat -> Forall (zero_or_between (-15) 15) ns -> Exists (fun n => n <> 0%Z) ns -> exists g, nx_sift_finish (map FF ns) = Ok (map g ns) /\
  Forall (fun n => (g n <= 255)%Z /\ IZR (g n) <= ideal_cell ns n * (1 + / 1000) /\ (g n = 255%Z \/ ideal_cell ns n * (1 - / 1000) < IZR (g n) + 1)) ns.
Proof.
  intros L A X.
  assert (A40 : Forall (zero_or_between (-40) 40) ns).
  { eapply Forall_impl; [|exact A]. intros n [->|[H1 H2]]; [left; reflexivity|right]. change (149 + -15)%Z with 134%Z in H1. change (149 + 15)%Z with 164%Z in H2. change (149 + -40)%Z with 109%Z. change (149 + 40)%Z with 189%Z.
    assert (2 ^ 109 <= 2 ^ 134)%Z by (vm_compute; discriminate). assert (2 ^ 164 <= 2 ^ 189)%Z by (vm_compute; discriminate). lia. }
  assert (AN : Forall (fun n => 0 <= n <= 2 ^ 164)%Z ns).
  { eapply Forall_impl; [|exact A]. intros n [->|[H1 H2]]; [split; vm_compute; discriminate|]. assert (0 < 2 ^ (149 + -15))%Z by reflexivity. change (149 + 15)%Z with 164%Z in H2. lia. }
  destruct (to_unit_within ns L A40 X) as (r & [R _] & E & S0 & RW & MW). unfold nx_sift_finish. rewrite E. cbn [snd]. rewrite cap_ok.
  assert (R0 : 0 < IZR r) by (apply IZR_pos; exact R). assert (U0 : 0 < IZR U) by (apply IZR_pos; exact U_pos).
  set (NL := length_of (map IZR ns)) in *.
  (* the size of the norm *)
  assert (RB : (r <= 2 ^ 169)%Z).
  { apply le_IZR. assert (SL : ssq (map IZR ns) <= 128 * (IZR (2 ^ 164) * IZR (2 ^ 164))).
    { eapply Rle_trans; [apply (ssq_le _ (IZR (2 ^ 164)))|].
      - apply IZR_le. vm_compute. discriminate.
      - rewrite Forall_map. eapply Forall_impl; [|exact AN]. intros n [H1 H2]. split; apply IZR_le; assumption.
      - rewrite map_length. apply Rmult_le_compat_r; [assert (0 < IZR (2 ^ 164)) by (apply IZR_pos; reflexivity); nra|]. replace 128 with (INR 128) by (rewrite INR_IZR_INZ; reflexivity). apply le_INR. exact L. }
    assert (NLE : NL <= 16 * IZR (2 ^ 164)).
    { unfold NL, length_of. fold (ssq (map IZR ns)). assert (0 < IZR (2 ^ 164)) by (apply IZR_pos; reflexivity). rewrite <- (sqrt_square (16 * IZR (2 ^ 164))) by lra. apply sqrt_le_1_alt. nra. }
    assert (P : IZR (2 ^ 169) = 32 * IZR (2 ^ 164)) by (rewrite <- mult_IZR; apply f_equal; reflexivity). unfold within in RW. rewrite P. assert (0 < IZR (2 ^ 164)) by (apply IZR_pos; reflexivity). set (z := IZR (2 ^ 164)) in *. clearbody z. nra. }
  rewrite (map_map (scaled_by r) capz). set (k := fun n => capz (scaled_by r n)).
  assert (KB : Forall (fun n => zero_or_between (-40) 40 (k n) /\ (n <> 0%Z -> k n <> 0%Z)) ns).
  { rewrite Forall_forall in *. intros n I. specialize (A n I). change (149 + -15)%Z with 134%Z in A. destruct A as [->|[A _]].
    - assert (Z0 : k 0%Z = 0%Z) by (unfold k, scaled_by; rewrite Z.mul_0_l, rnd_zero by exact R; reflexivity). rewrite Z0. split; [left; reflexivity|congruence].
    - change (149 + -15)%Z with 134%Z in A. assert (SB : (2 ^ 110 <= scaled_by r n)%Z).
      { unfold scaled_by. rewrite <- (Z.mul_1_l (2 ^ 110)). assert (2 ^ 110 * r <= 2 ^ 110 * 2 ^ 169)%Z by (apply Z.mul_le_mono_nonneg_l; [vm_compute; discriminate|exact RB]).
        assert (2 ^ 110 * 2 ^ 169 <= 2 ^ 134 * U)%Z by (vm_compute; discriminate). assert (2 ^ 134 * U <= n * U)%Z by (apply Z.mul_le_mono_nonneg_r; [pose proof U_pos; lia|exact A]).
        assert (0 < 2 ^ 134 * U)%Z by reflexivity. apply rnd_ge; try lia. }
      assert (C1 : (2 ^ 109 <= 13421773 * 2 ^ 123)%Z) by (vm_compute; discriminate). assert (C2 : (13421773 * 2 ^ 123 <= 2 ^ 189)%Z) by (vm_compute; discriminate). assert (C3 : (2 ^ 109 <= 2 ^ 110)%Z) by (vm_compute; discriminate). assert (C4 : (0 < 2 ^ 109)%Z) by reflexivity.
      unfold zero_or_between. change (149 + -40)%Z with 109%Z. change (149 + 40)%Z with 189%Z. unfold k, capz. lia. }
  assert (KW : Forall (fun n => 0 <= IZR U * capped_share ns n /\ within (/ 15000) (IZR (k n)) (IZR U * capped_share ns n)) ns).
  { rewrite Forall_forall in *. intros n I. specialize (MW n I). specialize (AN n I). cbv beta in *. unfold k, capz, capped_share. fold NL. split.
    - apply Rmult_le_pos; [lra|]. apply Rmin_glb; [|lra]. apply Rmult_le_pos; [apply IZR_le; lia|left; apply Rinv_0_lt_compat; exact S0].
    - rewrite IZR_min, Rmin_scale by lra. apply within_min; [lra|exact MW|].
      assert (UE : IZR U = 67108864 * IZR (2 ^ 123)) by (rewrite <- mult_IZR; apply f_equal; reflexivity). rewrite UE, mult_IZR. assert (0 < IZR (2 ^ 123)) by (apply IZR_pos; reflexivity). set (z := IZR (2 ^ 123)) in *. clearbody z. unfold within. lra. }
  (* the second normalization *)
  assert (B2 : Forall (zero_or_between (-40) 40) (map k ns)) by (rewrite Forall_map; eapply Forall_impl; [|exact KB]; cbv beta; intros n H; apply H).
  assert (X2 : Exists (fun n => n <> 0%Z) (map k ns)).
  { rewrite Exists_exists in X |- *. destruct X as (n & I & NZ). exists (k n). split; [apply in_map; exact I|]. rewrite Forall_forall in KB. apply (KB n I). exact NZ. }
  destruct (to_unit_within (map k ns) ltac:(rewrite map_length; exact L) B2 X2) as (r2 & [R2 _] & E2 & S2 & _ & MW2). rewrite E2. cbn [snd].
  assert (KS : within (3 * / 15000) (length_of (map IZR (map k ns))) (IZR U * length_of (map (capped_share ns) ns))).
  { unfold length_of. fold (ssq (map IZR (map k ns))) (ssq (map (capped_share ns) ns)). replace (IZR U * sqrt (ssq (map (capped_share ns) ns))) with (sqrt (ssq (map (fun n => IZR U * capped_share ns n) ns))).
    - apply within_sqrt; [lra|apply ssq_nonneg|]. rewrite map_map. apply within_ssq; [lra|exact KW].
    - rewrite <- (map_map (capped_share ns) (Rmult (IZR U))), ssq_scale. rewrite sqrt_mult by (try apply ssq_nonneg; nra). rewrite sqrt_square by lra. reflexivity. }
  set (KL := length_of (map IZR (map k ns))) in *. set (SL := length_of (map (capped_share ns) ns)) in *.
  assert (SL0 : 0 < SL) by (unfold within in KS; assert (0 <= SL) by (unfold SL, length_of; apply sqrt_pos); nra).
  assert (KLE : Forall (fun n => 0 <= IZR (k n) <= KL) ns).
  { rewrite Forall_forall in *. intros n I. assert (K0 : 0 <= IZR (k n)).
    { apply IZR_le. unfold k, capz. specialize (AN n I). pose proof (scaled_nonneg r n R ltac:(lia)). assert (0 < 13421773 * 2 ^ 123)%Z by reflexivity. lia. }
    split; [exact K0|]. unfold KL, length_of. fold (ssq (map IZR (map k ns))). rewrite <- (sqrt_square (IZR (k n))) by exact K0. apply sqrt_le_1_alt. apply ssq_ge. rewrite map_map. apply (in_map (fun x => IZR (k x))). exact I. }
  (* each entry of the result *)
  assert (FW : Forall (fun n => (0 <= scaled_by r2 (k n) <= 4 * U)%Z /\ rep (scaled_by r2 (k n)) /\ 0 <= capped_share ns n / SL /\ within (/ 1000) (IZR (scaled_by r2 (k n))) (IZR U * (capped_share ns n / SL))) ns).
  { rewrite Forall_map in MW2. rewrite Forall_forall in *. intros n I. specialize (MW2 n I). specialize (KW n I). specialize (KLE n I). cbv beta in *. destruct KW as [KW0 KW]. destruct KLE as [K0 K1].
    assert (KZ : (0 <= k n)%Z) by (apply le_IZR; exact K0).
    assert (P : 0 <= IZR (k n) / KL <= 1).
    { split; [apply Rmult_le_pos; [exact K0|left; apply Rinv_0_lt_compat; exact S2]|]. apply (Rmult_le_reg_r KL); [exact S2|]. replace (IZR (k n) / KL * KL) with (IZR (k n)) by (field; lra). lra. }
    split; [split; [apply scaled_nonneg; assumption|]|].
    { apply le_IZR. rewrite mult_IZR. unfold within in MW2. set (q := IZR (k n) / KL) in *. set (m := IZR (scaled_by r2 (k n))) in *. set (u := IZR U) in *. clearbody q m u. nra. }
    split; [unfold scaled_by; apply rnd_rep; [pose proof U_pos; nia|exact R2]|].
    assert (SH : 0 <= capped_share ns n) by (set (x := capped_share ns n) in *; clearbody x; set (u := IZR U) in *; clearbody u; nra).
    split; [apply Rmult_le_pos; [exact SH|left; apply Rinv_0_lt_compat; exact SL0]|].
    assert (D : within (/ 15000 + 2 * (3 * / 15000)) (IZR (k n) / KL) (IZR U * capped_share ns n / (IZR U * SL))) by (apply within_div; [lra|lra|exact KW0|nra|exact KW|exact KS]).
    replace (IZR U * capped_share ns n / (IZR U * SL)) with (capped_share ns n / SL) in D by (field; lra).
    replace (/ 1000) with (/ 15000 + 2 * (/ 15000 + 2 * (3 * / 15000))) by field.
    apply (within_trans _ _ _ (IZR U * (IZR (k n) / KL))); [lra|lra| |exact MW2|apply within_scale; [lra|exact D]].
    apply Rmult_le_pos; [lra|]. apply Rmult_le_pos; [exact SH|left; apply Rinv_0_lt_compat; exact SL0]. }
  exists (fun n => byte_of (scaled_by r2 (k n))). split.
  - rewrite quantize_all_ok; [rewrite !map_map; reflexivity|]. rewrite !Forall_map. eapply Forall_impl; [|exact FW]. cbv beta. intros n H. apply H.
  - eapply Forall_impl; [|exact FW]. cbv beta. intros n (F1 & F2 & F3 & F4). rewrite (byte_exact _ F2). set (m := scaled_by r2 (k n)) in *. unfold ideal_cell. fold SL. set (q := capped_share ns n / SL) in *. clearbody m q.
    pose proof U_pos as UP. pose proof (Z.mul_div_le (512 * m) U UP) as D1. pose proof (Z.mul_succ_div_gt (512 * m) U UP) as D2. set (d := (512 * m / U)%Z) in *. clearbody d. unfold Z.succ in D2.
    apply IZR_le in D1. apply IZR_lt in D2. rewrite !mult_IZR in D1, D2. rewrite plus_IZR in D2. unfold within in F4. set (u := IZR U) in *. set (x := IZR m) in *. clearbody u x.
    assert (G1 : IZR d <= 512 * q * (1 + / 1000)) by (apply (Rmult_le_reg_l u); [exact U0|nra]).
    assert (G2 : 512 * q * (1 - / 1000) < IZR d + 1) by (apply (Rmult_lt_reg_l u); [exact U0|nra]).
    destruct (Z.le_gt_cases d 255) as [C|C].
    + rewrite Z.min_r by exact C. split; [exact C|]. split; [exact G1|right; exact G2].
    + rewrite Z.min_l by lia. split; [lia|]. split; [|left; reflexivity]. apply Rle_trans with (2 := G1). apply IZR_le. lia.
Qed.
