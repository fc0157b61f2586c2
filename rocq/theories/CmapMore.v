From Coq Require Import Lia.
From Verif Require Import Base BaseLemmas Flt FltErr Gray Img PnmModel PnmSpec CmapData CmapModel CmapSpec CmapProofs.
Local Open Scope Z_scope.

Lemma mkf_bound p d a k m : 0 <= p -> 0 < d -> 0 <= k -> 0 <= a <= 2 ^ 24 -> p <= a * 2 ^ k * d -> mkf p d = FF m -> 0 <= m <= a * 2 ^ k.
Proof.
  intros P D K A B E. unfold mkf in E. rewrite (Z.abs_eq p P) in E. pose proof (rnd_le p d a k P D K A B) as R. pose proof (rnd_nonneg p d P D) as N0. set (q := rnd p d) in *. clearbody q.
  destruct (q <? 2 ^ 277); [|discriminate]. injection E as <-. clear -P R N0. destruct (Z.sgn_spec p) as [[S1 S2]|[[S1 S2]|[S1 S2]]]; rewrite S2; lia.
Qed.
(** The position in the table. *)
Lemma position_ok n V : 2 <= n <= 1000 -> 0 <= V <= U -> exists X, fmul (of_int (n - 1)) (FF V) = FF X /\ 0 <= X <= (n - 1) * U /\ Z.abs (X - (n - 1) * V) <= 65 * n * W.
Proof.
  intros N V01. pose proof W_pos as WP. pose proof U_pos as UP. rewrite of_int_exact by (unfold small24; lia).
  assert (PB : 0 <= (n - 1) * U * V <= (n - 1) * U * U) by (split; [repeat apply Z.mul_nonneg_nonneg; lia|apply Z.mul_le_mono_nonneg_l; [apply Z.mul_nonneg_nonneg; lia|lia]]).
  destruct (fmul_err ((n - 1) * U) V (n - 1)) as (X & E & R); [lia|rewrite Z.abs_eq by (clear -PB; lia); apply PB|].
  exists X. split; [exact E|]. split.
  - change ((n - 1) * U) with ((n - 1) * 2 ^ 149). apply (mkf_bound ((n - 1) * U * V) U); [apply PB|exact UP|lia|lia|apply PB|exact E].
  - replace (X * U - (n - 1) * U * V) with ((X - (n - 1) * V) * U) in R by ring. rewrite Z.abs_mul, (Z.abs_eq U) in R by (clear -UP; lia). apply Z.mul_le_mono_pos_r in R; [|exact UP]. clear -R WP N. nia.
Qed.
Definition row_ok (d : Z) (t : Z * Z * Z) : Prop := 0 <= red t <= d /\ 0 <= green t <= d /\ 0 <= blue t <= d.
Definition row_okb (d : Z) (t : Z * Z * Z) : bool := ((0 <=? red t) && (red t <=? d)) && ((0 <=? green t) && (green t <=? d)) && ((0 <=? blue t) && (blue t <=? d)).
Lemma rows_ok d rows : forallb (row_okb d) rows = true -> Forall (row_ok d) rows.
Proof. intro H. rewrite forallb_forall in H. apply Forall_forall. intros t I. specialize (H t I). unfold row_okb, row_ok in *. lia. Qed.
Lemma table_ok m d rows : table m = Some (d, rows) -> 0 < d /\ Forall (row_ok d) rows /\ 2 <= Z.of_nat (length rows) <= 1000.
Proof.
  intro E. destruct m; inversion E; subst; (split; [reflexivity|]; split; [apply rows_ok; vm_compute; reflexivity|vm_compute; split; discriminate]).
Qed.
Lemma apply_table v m d rows : table m = Some (d, rows) -> color_map_apply v m =
  let* (r, g, b) := interpolate_color d rows v in let* r := to_uchar r in let* g := to_uchar g in let* b := to_uchar b in Ok (r, g, b).
Proof. intro E. destruct m; inversion E; reflexivity. Qed.

Lemma mix_bound d r a b : 0 < d -> 0 <= r < U -> 0 <= a <= d -> 0 <= b <= d -> 0 <= (U - r) * a + r * b <= U * d.
Proof.
  intros D R A B. assert (0 <= (U - r) * a <= (U - r) * d) by (split; [apply Z.mul_nonneg_nonneg; lia|apply Z.mul_le_mono_nonneg_l; lia]).
  assert (0 <= r * b <= r * d) by (split; [apply Z.mul_nonneg_nonneg; lia|apply Z.mul_le_mono_nonneg_l; lia]). rewrite Z.mul_sub_distr_r in *. lia.
Qed.
Lemma at_row d rows k : Forall (row_ok d) rows -> 0 <= k < Z.of_nat (length rows) -> zget rows k = Ok (nth (Z.to_nat k) rows (0, 0, 0)) /\ row_ok d (nth (Z.to_nat k) rows (0, 0, 0)).
Proof. intros F K. split; [apply zget_lt; exact K|]. rewrite Forall_forall in F. apply F. apply nth_In. lia. Qed.
Definition good (d : Z) (s q : Z) : Prop := 0 <= q <= U * d /\ Z.abs (s * d - q) <= 3200 * W * d.
Lemma interp_ok d rows V X : let n := Z.of_nat (length rows) in 0 < d -> Forall (row_ok d) rows -> 2 <= n <= 1000 ->
  fmul (of_int (n - 1)) (FF V) = FF X -> 0 <= X <= (n - 1) * U ->
  exists r g b, interpolate_color d rows (FF V) = Ok (FF r, FF g, FF b) /\
    good d r (between rows red X) /\ good d g (between rows green X) /\ good d b (between rows blue X).
Proof.
  cbv zeta. intros D F N EX XB. unfold interpolate_color. set (n := Z.of_nat (length rows)) in *. rewrite EX. pose proof W_pos as WP. pose proof U_pos as UP. pose proof U_W as UW.
  assert (QE : X ÷ U = X / U) by (apply Z.quot_div_nonneg; lia). pose proof (Z.div_mod X U ltac:(lia)) as DM. pose proof (Z.mod_pos_bound X U UP) as MB.
  assert (KB : 0 <= X / U <= n - 1) by (split; [apply Z.div_pos; lia|apply Z.div_le_upper_bound; [lia|rewrite Z.mul_comm; apply XB]]).
  unfold to_int. rewrite QE. pose proof int_rng as [I1 I2]. rewrite chk_int_in by (rewrite I1, I2; clear -KB N; lia). cbn [bind].
  rewrite of_int_exact by (unfold small24; clear -KB N; lia). unfold between. set (k := X / U) in *. set (r := X mod U) in *. clearbody k r.
  destruct (at_row d rows k F ltac:(fold n; clear -KB; lia)) as [G1 (R1 & R2 & R3)]. rewrite G1. set (row := nth (Z.to_nat k) rows (0, 0, 0)) in *. clearbody row. cbn [bind].
  destruct (Z.eqb_spec k (n - 1)) as [K|K].
  - assert (r = 0) as ->. { rewrite K in DM. clear -DM MB XB. rewrite (Z.mul_comm U) in DM. set (y := (n - 1) * U) in *. clearbody y. lia. }
    destruct row as [[ra ga] ba]. cbn [red green blue fst snd] in *.
    assert (G : forall a z, 0 <= a <= d -> exists s, dec d a = FF s /\ good d s ((U - 0) * a + 0 * z)).
    { intros a z A. destruct (dec_err d a D A) as (t & E & R). exists t. split; [exact E|]. split.
      - replace ((U - 0) * a + 0 * z) with (U * a) by ring. split; [apply Z.mul_nonneg_nonneg; lia|]. apply Z.mul_le_mono_nonneg_l; lia.
      - replace ((U - 0) * a + 0 * z) with (a * U) by ring. apply Z.le_trans with (1 := R). apply Z.mul_le_mono_nonneg_r; lia. }
    edestruct (G ra) as (s1 & E1 & H1); [exact R1|]. edestruct (G ga) as (s2 & E2 & H2); [exact R2|]. edestruct (G ba) as (s3 & E3 & H3); [exact R3|].
    rewrite E1, E2, E3. exists s1, s2, s3. split; [reflexivity|]. split; [exact H1|]. split; [exact H2|exact H3].
  - destruct (at_row d rows (k + 1) F ltac:(fold n; clear -KB K; lia)) as [G2 (T1 & T2 & T3)]. rewrite G2. set (row' := nth (Z.to_nat (k + 1)) rows (0, 0, 0)) in *. clearbody row'. cbn [bind].
    destruct (fsub_err X (k * U) 1 ltac:(lia)) as (u & -> & EU). { rewrite DM. replace (U * k + r - k * U) with r by ring. clear -MB. lia. }
    replace (X - k * U) with r in EU by (clear -DM; rewrite (Z.mul_comm k); lia). rewrite Z.mul_1_r in EU.
    destruct row as [[ra ga] ba], row' as [[rb gb] bb]. cbn [red green blue fst snd] in *.
    destruct (blend_err d u r ra rb D MB EU R1 T1) as (s1 & -> & E1). destruct (blend_err d u r ga gb D MB EU R2 T2) as (s2 & -> & E2). destruct (blend_err d u r ba bb D MB EU R3 T3) as (s3 & -> & E3).
    exists s1, s2, s3. split; [reflexivity|]. split; [|split]; (split; [apply mix_bound; auto|assumption]).
Qed.
Lemma colour_at_ok m d rows V X : table m = Some (d, rows) -> fmul (of_int (Z.of_nat (length rows) - 1)) (FF V) = FF X -> 0 <= X <= (Z.of_nat (length rows) - 1) * U ->
  exists c, color_map_apply (FF V) m = Ok c /\ colour_at d rows X c.
Proof.
  intros T EX XB. destruct (table_ok m d rows T) as (D & F & N). rewrite (apply_table _ _ _ _ T).
  destruct (interp_ok d rows V X D F N EX XB) as (r & g & b & -> & [Q1 G1] & [Q2 G2] & [Q3 G3]). cbn [bind].
  destruct (uchar_ok d r _ D Q1 G1) as (c1 & -> & C1). destruct (uchar_ok d g _ D Q2 G2) as (c2 & -> & C2). destruct (uchar_ok d b _ D Q3 G3) as (c3 & -> & C3). cbn [bind].
  exists (c1, c2, c3). split; [reflexivity|]. split; [exact C1|]. split; [exact C2|exact C3].
Qed.
Lemma gray_ok V : 0 <= V <= U -> exists c, color_map_apply (FF V) CGray = Ok (c, c, c) /\ near255 c V U.
Proof.
  intro B. pose proof W_pos as WP. destruct (uchar_ok 1 V V) as (c & E & C); [lia|lia|rewrite Z.mul_1_r; clear -WP; lia|]. rewrite Z.mul_1_r in C. exists c. split; [|exact C].
  unfold color_map_apply. cbn [bind]. rewrite E. reflexivity.
Qed.
Lemma apply_ok m V : 0 <= V <= U -> exists c, color_map_apply (FF V) m = Ok c /\ coloured m V U c.
Proof.
  intro B. unfold coloured. destruct (table m) as [[d rows]|] eqn:T.
  - destruct (table_ok m d rows T) as (D & F & N). destruct (position_ok _ V N B) as (X & EX & XB & XE). destruct (colour_at_ok m d rows V X T EX XB) as (c & E & C).
    exists c. split; [exact E|]. exists X. split; [exact XB|]. split; [|exact C]. set (n := Z.of_nat (length rows)) in *. replace (X * U - (n - 1) * V * U) with ((X - (n - 1) * V) * U) by ring.
    pose proof U_pos as UP. pose proof W_pos as WP. rewrite Z.abs_mul, (Z.abs_eq U) by (clear -UP; lia). apply Z.mul_le_mono_nonneg_r; [clear -UP; lia|]. assert (0 <= n * W) by (apply Z.mul_nonneg_nonneg; lia). rewrite <- Z.mul_assoc in *. lia.
  - assert (m = CGray) as -> by (destruct m; [reflexivity|discriminate..]). destruct (gray_ok V B) as (c & E & C). exists (c, c, c). split; [exact E|]. split; [exact C|]. split; reflexivity.
Qed.
