From Verif Require Import Base BaseLemmas Gray Flt FltErr FilterModel FilterSpec FilterProofs Img ImgModel ImgSpec ImgProofs ImgBox KernModel KernSpec KernProofs.
Local Open Scope Z_scope.

Lemma smooth_self_ok {A} (d : A) (conv : A -> flt) (store : flt -> res A) (v1 v2 : Z * Z -> A) bufj src kx ky : image_ok src -> 1 < i_w src -> 1 < i_h src ->
  (2 <= length kx)%nat -> (2 <= length ky)%nat -> Z.max (i_w src) (i_h src) + 2 * Z.max (Z.of_nat (length kx) - 1) (Z.of_nat (length ky) - 1) <= INT_MAX ->
  (forall x y, in_img src x y -> store (smoothed kx (i_w src) (fun x => conv (pix d src x y)) x) = Ok (v1 (x, y))) ->
  (forall x y, in_img src x y -> store (smoothed ky (i_h src) (fun y => conv (v1 (x, y))) y) = Ok (v2 (x, y))) ->
  exists g, smooth_self conv store bufj src kx ky = Ok g /\ same_shape g src /\ image_ok g /\ forall x y, in_img g x y -> pix d g x y = v2 (x, y).
Proof.
  intros G W H KX KY IM H1 H2. unfold smooth_self. pose proof (size_bound src G) as SB. cbv zeta.
  rewrite buf_len_ok by lia. cbn [bind]. set (buf := map bufj _).
  assert (LB : Z.of_nat (length buf) = Z.max (i_w src) (i_h src) + 2 * Z.max (Z.of_nat (length kx) - 1) (Z.of_nat (length ky) - 1)) by (unfold buf; rewrite map_length, seq_length; lia). clearbody buf.
  destruct (row_filter_ok d conv store (fun b => convolve_sym fadd fmul (i_w src) b (Z.of_nat (length kx)) kx) (Z.of_nat (length kx) - 1) v1 (length buf) None src buf) as (g1 & b1 & E1 & S1 & O1 & L1 & V1); auto; try lia.
  { intros y s b Y S Lb B. destruct (smooth_line kx (i_w src) s b) as (b' & E1 & L1 & V1); auto; try lia. exists b'. split; [exact E1|]. split; [lia|].
    intros x X. rewrite V1 by exact X. rewrite (smoothed_ext kx (i_w src) s (fun x => conv (pix d src x y))); [apply H1; split; auto|lia|exact S]. }
  rewrite E1. cbn [bind]. pose proof S1 as (SW & SH & SS).
  destruct (col_filter_ok d conv store (fun b => convolve_sym fadd fmul (i_h g1) b (Z.of_nat (length ky)) ky) (Z.of_nat (length ky) - 1) v2 (length buf) None g1 b1) as (g2 & b2 & E2 & S2 & O2 & L2 & V2); auto; try lia.
  { intros x s b X S Lb B. destruct (smooth_line ky (i_h g1) s b) as (b' & Eb & Lb' & Vb); auto; try lia. exists b'. split; [exact Eb|]. split; [lia|].
    intros y Y. rewrite Vb by exact Y. replace (i_h g1) with (i_h src) in * by congruence. rewrite (smoothed_ext ky (i_h src) s (fun y => conv (v1 (x, y)))); [apply H2; split; lia|lia|].
    intros i I. rewrite S by exact I. rewrite V1 by (split; lia). reflexivity. }
  rewrite E2. cbn [bind]. exists g2. split; [reflexivity|]. split; [eapply same_shape_trans; [exact S2|exact S1]|]. split; [exact O2|].
  intros x y I. rewrite V2; [reflexivity|]. now apply (same_shape_in _ _ _ _ S2) in I.
Qed.

(** One line of bytes. *)
Definition level (f : flt) : Z := match f with FF a => Z.quot a U | _ => 0 end.
Lemma line_byte kernel k n z c lo hi : weights kernel k -> 1000 * Z.abs (total k (length kernel) - U) <= U -> (1 <= length kernel)%nat -> Z.of_nat (length kernel) <= 4096 -> 0 < n ->
  0 <= lo -> hi <= 255 -> (forall i, 0 <= i < n -> lo <= z i <= hi) ->
  let q := level (smoothed kernel n (fun i => of_int (z i)) c) in
  to_uc (smoothed kernel n (fun i => of_int (z i)) c) = Ok q /\ Z.max 0 (lo - 1) <= q <= hi /\ near_floor q (mean_at k (length kernel - 1) n z c).
Proof.
  intros K T L1 L2 N LO HI B. cbv zeta. unfold smoothed, mean_at. set (r := (length kernel - 1)%nat) in *. pose proof U_W as UW. pose proof W_pos as WP. unfold total in T. fold r in T.
  assert (BC : forall j, lo <= z (clamped n j) <= hi) by (intro j; apply B; unfold clamped; lia).
  destruct (conv_bytes (at_ F0 kernel) k (fun j => of_int (z (clamped n j))) (fun j => z (clamped n j)) c r) as (a & E & A0 & ER).
  - intros i I. apply K. unfold r in I. lia.
  - intro j. split; [reflexivity|]. specialize (BC j). lia.
  - clear -T. lia.
  - unfold r. lia.
  - pose proof (exact_bounds k (fun j => z (clamped n j)) c lo hi r) as EB.
    assert (EB' : lo * (k 0 + 2 * zsum k 1 r) <= conv_sum Z.add Z.mul k (fun j => z (clamped n j)) c r <= hi * (k 0 + 2 * zsum k 1 r)).
    { apply EB; [intros i I; apply K; unfold r in I; lia|intros; apply BC]. } clear EB. rewrite E. cbn [level].
    set (C := conv_sum Z.add Z.mul _ _ _ _) in *. clearbody C. set (t := k 0 + 2 * zsum k 1 r) in *. clearbody t.
    assert (WM : 33280 * W * (Z.of_nat r + 1) <= 33280 * W * 4096) by (apply Z.mul_le_mono_nonneg_l; unfold r; lia). set (e := 33280 * W * (Z.of_nat r + 1)) in *. clearbody e.
    assert (LH : lo <= hi) by (specialize (BC 0); lia).
    assert (T1 : lo * (1000 * t) >= lo * (999 * U)) by (apply Z.le_ge, Z.mul_le_mono_nonneg_l; lia). assert (T2 : hi * (1000 * t) <= hi * (1001 * U)) by (apply Z.mul_le_mono_nonneg_l; lia).
    set (lt := lo * t) in *. set (ht := hi * t) in *. replace (lo * (1000 * t)) with (1000 * lt) in T1 by (unfold lt; ring). replace (hi * (1000 * t)) with (1000 * ht) in T2 by (unfold ht; ring). clearbody lt ht.
    assert (QD : Z.quot a U = a / U) by (apply Z.quot_div_nonneg; pose proof U_pos; lia). rewrite QD. pose proof (Z.div_mod a U ltac:(discriminate)) as DM. pose proof (Z.mod_pos_bound a U U_pos) as MB. set (q := a / U) in *. set (md := a mod U) in *. clearbody q md.
    assert (Q0 : 0 <= q) by (clear -A0 DM MB; apply Z.lt_succ_r, (Z.mul_lt_mono_pos_l U); [exact U_pos|lia]).
    assert (Q1 : q <= hi).
    { apply Z.lt_succ_r. apply (Z.mul_lt_mono_pos_r U); [exact U_pos|]. assert (HU : hi * U <= 255 * U) by (apply Z.mul_le_mono_nonneg_r; [discriminate|exact HI]). clear -DM MB T2 EB' ER WM UW WP HU. lia. }
    assert (Q2 : lo - 1 <= q).
    { apply Z.lt_succ_r. apply (Z.mul_lt_mono_pos_r U); [exact U_pos|]. assert (HU : lo * U <= 255 * U) by (apply Z.mul_le_mono_nonneg_r; [discriminate|lia]). clear -DM MB T1 EB' ER WM UW WP HU. lia. }
    split.
    + unfold to_uc, to_int. rewrite QD,  chk_int_in by (pose proof int_rng; lia). cbn [bind]. destruct (Z.leb_spec 0 q), (Z.leb_spec q 255); try lia. reflexivity.
    + split; [lia|]. unfold near_floor. clear -DM MB ER WM UW WP. lia.
Qed.

(** Both passes. *)
Section Two.
Variables (kx ky : list flt) (wx wy : Z -> Z) (src : image Z) (lo hi : Z).
Hypothesis WX : weights kx wx.
Hypothesis WY : weights ky wy.
Hypothesis TX : 1000 * Z.abs (total wx (length kx) - U) <= U.
Hypothesis TY : 1000 * Z.abs (total wy (length ky) - U) <= U.
Hypothesis LX : (2 <= length kx)%nat /\ Z.of_nat (length kx) <= 4096.
Hypothesis LY : (2 <= length ky)%nat /\ Z.of_nat (length ky) <= 4096.
Hypothesis G : image_ok src.
Hypothesis SW : 1 < i_w src.
Hypothesis SH : 1 < i_h src.
Hypothesis LO : 0 <= lo.
Hypothesis HI : hi <= 255.
Hypothesis B : forall x y, in_img src x y -> lo <= pix 0 src x y <= hi.
Definition mid (x y : Z) : Z := level (smoothed kx (i_w src) (fun i => of_int (pix 0 src i y)) x).
Definition fin (x y : Z) : Z := level (smoothed ky (i_h src) (fun j => of_int (mid x j)) y).
Lemma mid_ok x y : in_img src x y -> to_uc (smoothed kx (i_w src) (fun i => of_int (pix 0 src i y)) x) = Ok (mid x y) /\ Z.max 0 (lo - 1) <= mid x y <= hi /\
  near_floor (mid x y) (mean_at wx (length kx - 1) (i_w src) (fun i => pix 0 src i y) x).
Proof. intros [X Y]. apply (line_byte kx wx (i_w src) (fun i => pix 0 src i y) x lo hi); auto; try lia. intros i I. apply B. split; auto. Qed.
Lemma fin_ok x y : in_img src x y -> to_uc (smoothed ky (i_h src) (fun j => of_int (mid x j)) y) = Ok (fin x y) /\ Z.max 0 (lo - 2) <= fin x y <= hi /\
  near_floor (fin x y) (mean_at wy (length ky - 1) (i_h src) (fun j => mid x j) y).
Proof.
  intros [X Y]. destruct (line_byte ky wy (i_h src) (fun j => mid x j) y (Z.max 0 (lo - 1)) hi) as (A & C & D); auto; try lia.
  - intros j J. apply mid_ok. split; auto.
  - split; [exact A|]. split; [fold (fin x y) in C; lia|exact D].
Qed.
End Two.
