(** Where the pixel operations leave the image, and two facts about floats. *)
From Verif Require Import Base BaseLemmas Gray Img Flt FilterModel FilterSpec ImgModel ImgSpec ImgProofs ImgNorm ImgBox ImgScale.
Local Open Scope Z_scope.

Lemma zget_neg {A} (l : list A) i : i < 0 -> zget l i = UB.
Proof. intro I. unfold zget. destruct (Z.ltb_spec i 0); [reflexivity|lia]. Qed.
Lemma zget_past {A} (l : list A) i : Z.of_nat (length l) <= i -> zget l i = UB.
Proof. intro I. unfold zget. destruct (Z.ltb_spec i 0); [reflexivity|]. unfold aget. rewrite (proj2 (nth_error_None _ _)) by lia. reflexivity. Qed.
Lemma iget_before {A} (g : image A) x y v : y * i_stride g + x < 0 -> iget g x y <> Ok v.
Proof. intros I E. unfold iget in E. apply bind_ok in E as (r & R & E). unfold chk_int in R. destruct (in_int _); [|discriminate]. injection R as <-. rewrite zget_neg in E by exact I. discriminate. Qed.
Lemma iget_past {A} (g : image A) x y v : Z.of_nat (length (i_data g)) <= y * i_stride g + x -> iget g x y <> Ok v.
Proof. intros I E. unfold iget in E. apply bind_ok in E as (r & R & E). unfold chk_int in R. destruct (in_int _); [|discriminate]. injection R as <-. rewrite zget_past in E by exact I. discriminate. Qed.
Lemma iput_empty {A} (g g' : image A) x y v : i_data g = [] -> iput g x y v <> Ok g'.
Proof.
  intros D E. unfold iput in E. apply bind_ok in E as (r & R & E). apply bind_ok in E as (l & L & E). rewrite D in L. unfold zset in L. destruct (_ <? 0); [discriminate|]. unfold aset in L.
  destruct (Z.to_nat (r + x)); cbn in L; discriminate.
Qed.

(** Doubling an empty image reads in front of its memory or in memory that is
    not there. *)
Lemma upsample_empty {A} avg2 avg4 (junk : nat -> A) src g : image_ok src -> i_w src = 0 \/ i_h src = 0 -> upsample avg2 avg4 junk src <> Ok g.
Proof.
  intros G D E. pose proof (io_w src G) as W. pose proof (io_h src G) as H. pose proof (io_len src G) as L. unfold upsample in E.
  apply bind_ok in E as (dw & _ & E). apply bind_ok in E as (dh & _ & E). apply bind_ok in E as (d0 & _ & E). apply bind_ok in E as (d1 & E1 & E). cbv zeta in E. apply bind_ok in E as (d2 & E2 & E).
  apply bind_ok in E as (a & EA & E). destruct (Z.eq_dec (i_h src) 0) as [H0|H0].
  - destruct (Z.eq_dec (i_stride src) 0) as [S0|S0]; [revert EA; apply iget_before; lia|].
    destruct (Z.eq_dec (i_w src) 0) as [W0|W0]; [revert EA; apply iget_before; nia|].
    revert EA; apply iget_before; nia.
  - destruct D as [W0|]; [|lia]. destruct (Z.eq_dec (i_h src) 1) as [H1|H1]; [revert EA; apply iget_before; nia|].
    apply for_each_ok_in with (x := 0) in E1 as (t & t' & E1); [|apply zrange_in; lia]. apply bind_ok in E1 as (t1 & _ & E1). apply bind_ok in E1 as (b & EB & _). revert EB. apply iget_before. nia.
Qed.
(** Antialiased halving of fewer than four columns or rows. *)
Lemma new_zero {A} (junk : nat -> A) w h g : img_new junk w h = Ok g -> i_w g = w /\ i_h g = h /\ (w = 0 \/ h = 0 -> i_data g = []).
Proof.
  unfold img_new. destruct (_ || _); [discriminate|]. intro E. apply bind_ok in E as (n & N & E). unfold chk_int in N. destruct (in_int _); [|discriminate]. injection N as <-. injection E as <-. cbn.
  split; [reflexivity|]. split; [reflexivity|]. intro Z0. replace (w * h) with 0 by nia. replace (h * w) with 0 by nia. reflexivity.
Qed.
Lemma aa_x_narrow {A} first mid last last_odd (junk : nat -> A) src g : image_ok src -> i_w src < 4 -> 1 <= i_h src -> aa_x first mid last last_odd junk src <> Ok g.
Proof.
  intros G W4 H1 E. pose proof (io_w src G) as W. unfold aa_x in E. apply bind_ok in E as (d0 & N & E). apply new_zero in N as (NW & NH & N0). rewrite Z.quot_div_nonneg in * by lia. cbv zeta in E.
  rewrite NH in E. replace (zrange 0 (i_h src)) with (0 :: zrange 1 (i_h src)) in E by (symmetry; apply zrange_cons; lia). cbn [for_each] in E. apply bind_ok in E as (d1 & E & _).
  apply bind_ok in E as (s2 & _ & E). apply bind_ok in E as (s1 & _ & E). apply bind_ok in E as (s0 & _ & E). apply bind_ok in E as (v & _ & E). apply bind_ok in E as (d2 & P & E).
  destruct (Z_lt_le_dec (i_w src) 2) as [L|L]; [revert P; apply iput_empty, N0; left; Z.div_mod_to_equations; lia|].
  assert (i_w d0 = 1) as W1 by (rewrite NW; Z.div_mod_to_equations; lia). rewrite W1 in E. apply bind_ok in E as (d3 & _ & E). change (2 * 1) with 2 in E.
  destruct (2 =? i_w src); apply bind_ok in E as (a & EA & _); revert EA; apply iget_before; lia.
Qed.
Lemma aa_y_short {A} first mid last last_odd (junk : nat -> A) src g : image_ok src -> i_h src < 4 -> 1 <= i_w src -> aa_y first mid last last_odd junk src <> Ok g.
Proof.
  intros G H4 W1 E. pose proof (io_w src G) as W. pose proof (io_h src G) as H. unfold aa_y in E. apply bind_ok in E as (d0 & N & E). apply new_zero in N as (NW & NH & N0). rewrite Z.quot_div_nonneg in * by lia. cbv zeta in E.
  rewrite NW in E. replace (zrange 0 (i_w src)) with (0 :: zrange 1 (i_w src)) in E by (symmetry; apply zrange_cons; lia). cbn [for_each] in E. apply bind_ok in E as (d1 & E & _).
  apply bind_ok in E as (s2 & _ & E). apply bind_ok in E as (s1 & _ & E). apply bind_ok in E as (s0 & _ & E). apply bind_ok in E as (v & _ & E). apply bind_ok in E as (d2 & P & E).
  destruct (Z_lt_le_dec (i_h src) 2) as [L|L]; [revert P; apply iput_empty, N0; right; Z.div_mod_to_equations; lia|].
  assert (i_h d0 = 1) as H1 by (rewrite NH; Z.div_mod_to_equations; lia). rewrite H1 in E. apply bind_ok in E as (d3 & _ & E). change (2 * 1) with 2 in E.
  destruct (2 =? i_h src); apply bind_ok in E as (a & EA & _); revert EA; apply iget_before; nia.
Qed.
(** Derivatives of a single gap-free column, and of a single row. *)
Lemma deriv_x_one {A} edge inner junk (src : image A) g : image_ok src -> i_w src = 1 -> i_stride src = 1 -> 1 <= i_h src -> deriv_x edge inner junk src <> Ok g.
Proof.
  intros G W S H E. pose proof (io_len src G) as L. unfold deriv_x in E. cbv zeta in E. apply bind_ok in E as (d0 & _ & E).
  apply for_each_ok_in with (x := i_h src - 1) in E as (t & t' & E); [|apply zrange_in; lia]. apply bind_ok in E as (b & EB & _). revert EB. apply iget_past. nia.
Qed.
Lemma deriv_y_one {A} edge inner (src : image A) g : image_ok src -> i_h src = 1 -> 1 <= i_w src -> deriv_y edge inner src <> Ok g.
Proof.
  intros G H W E. pose proof (io_len src G) as L. unfold deriv_y in E. cbv zeta in E. apply bind_ok in E as (d0 & _ & E). apply bind_ok in E as (d1 & E & _).
  apply for_each_ok_in with (x := 0) in E as (t & t' & E); [|apply zrange_in; lia]. apply bind_ok in E as (b & EB & _). revert EB. apply iget_past. nia.
Qed.

(** Clamped floats. *)
Definition unit_or_nan (f : flt) : Prop := f = FNaN \/ exists n, f = FF n /\ 0 <= n <= U.
Lemma clamp01_range f : unit_or_nan (clamp01 f_lt F0 F1 f).
Proof.
  pose proof U_pos as UP. unfold unit_or_nan, clamp01. destruct f as [n|b|].
  - unfold F0, F1, f_lt. destruct (Z.ltb_spec n 0); [right; exists 0; split; [reflexivity|lia]|].
    destruct (Z.ltb_spec U n); [right; exists U; split; [reflexivity|lia]|]. right. exists n. split; [reflexivity|lia].
  - destruct b; cbn [f_lt F0 F1]; right; [exists 0|exists U]; (split; [reflexivity|lia]).
  - left. reflexivity.
Qed.
Lemma normalize_float img symmetric : image_ok img -> exists img', normalize_f32 img symmetric = Ok img' /\ same_shape img' img /\ image_ok img' /\
  forall x y, in_img img x y -> unit_or_nan (pix F0 img' x y).
Proof.
  intro G. unfold normalize_f32, normalize. rewrite (min_max_fold f_lt fneg FMAX F0) by exact G. destruct (fold_left _ _ _) as [vmin vmax]. cbn [bind]. destruct (if f_eq vmax vmin then _ else _) as [a y0].
  destruct (axpy_clamp_ok F0 img (fun u => fadd (fmul a u) y0) (clamp01 f_lt F0 F1) G) as (img' & E & S & O & V). exists img'. split; [exact E|]. split; [exact S|]. split; [exact O|].
  intros x y I. rewrite V by exact I. apply clamp01_range.
Qed.
(** a * u + y0 with integers. *)
Lemma axpy_int a y0 u : small24 a -> 0 <= u <= 255 -> 255 * Z.abs a <= 2 ^ 24 -> small24 y0 -> 255 * Z.abs a + Z.abs y0 <= 2 ^ 24 ->
  to_int (fadd (fmul (of_int a) (of_int u)) (of_int y0)) = Ok (a * u + y0).
Proof.
  unfold small24. change (2 ^ 24) with 16777216. intros A B C D E. assert (Z.abs (a * u) <= 255 * Z.abs a) by (rewrite Z.abs_mul; nia).
  rewrite fmul_int by (unfold small24; change (2 ^ 24) with 16777216; lia). rewrite fadd_int by (unfold small24; change (2 ^ 24) with 16777216; lia).
  apply to_int_of_int. unfold small24. change (2 ^ 24) with 16777216. lia.
Qed.
(** Bytes as fractions of 255. *)
Definition byte_frac (u : Z) : flt := fdiv (of_int u) F255.
Definition frac_ok (u : Z) : bool :=
  match byte_frac u with FF n => (0 <=? n) && (n <=? U) | _ => false end &&
  f_lt (byte_frac (u - 1)) (byte_frac u) &&
  match to_int (fmul (byte_frac u) F255) with Ok v => v =? u | _ => false end.
Lemma fracs_ok : forallb frac_ok (zrange 0 256) = true.
Proof. vm_compute. reflexivity. Qed.
Lemma byte_frac_ok u : 0 <= u <= 255 -> (exists n, byte_frac u = FF n /\ 0 <= n <= U) /\ f_lt (byte_frac (u - 1)) (byte_frac u) = true /\ to_int (fmul (byte_frac u) F255) = Ok u.
Proof.
  intro B. assert (I : In u (zrange 0 256)) by (apply zrange_in; lia). pose proof (proj1 (forallb_forall _ _) fracs_ok u I) as F. unfold frac_ok in F. apply Bool.andb_true_iff in F as [F F3]. apply Bool.andb_true_iff in F as [F1 F2].
  split; [|split; [exact F2|]].
  - clear F2 F3 I. destruct (byte_frac u) as [n|b|]; [|discriminate F1|discriminate F1]. exists n. split; [reflexivity|]. apply Bool.andb_true_iff in F1 as [P Q]. apply Z.leb_le in P, Q. lia.
  - clear F1 F2 I. destruct (to_int _) as [v| | |]; [|discriminate F3|discriminate F3|discriminate F3]. apply Z.eqb_eq in F3. now subst.
Qed.
Lemma byte_frac_lt u v : 0 <= u -> u < v -> v <= 255 -> f_lt (byte_frac u) (byte_frac v) = true.
Proof.
  intros U0 UV V. replace v with (u + 1 + Z.of_nat (Z.to_nat (v - u - 1))) in * by lia. revert V. clear UV. induction (Z.to_nat (v - u - 1)) as [|k IH]; intro V.
  - destruct (byte_frac_ok (u + 1 + Z.of_nat 0) ltac:(lia)) as (_ & F & _). now replace (u + 1 + Z.of_nat 0 - 1) with u in F by lia.
  - destruct (byte_frac_ok (u + 1 + Z.of_nat (S k)) ltac:(lia)) as ((n & N & _) & F & _). replace (u + 1 + Z.of_nat (S k) - 1) with (u + 1 + Z.of_nat k) in F by lia. specialize (IH ltac:(lia)).
    destruct (byte_frac_ok u ltac:(lia)) as ((n0 & N0 & _) & _). destruct (byte_frac_ok (u + 1 + Z.of_nat k) ltac:(lia)) as ((n1 & N1 & _) & _).
    rewrite N, N0, N1 in *. cbn [f_lt] in *. apply Z.ltb_lt in IH, F. apply Z.ltb_lt. lia.
Qed.
