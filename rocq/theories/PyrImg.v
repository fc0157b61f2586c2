(** Building pyramids of images. *)
From Verif Require Import Base BaseLemmas Gray Flt FltErr Img FilterModel FilterSpec FilterProofs ImgModel ImgSpec ImgProofs ImgBox ImgProps KernModel KernSpec KernSmooth KernProps PyrModel PyrSpec PyrProofs.
Local Open Scope Z_scope.

(** A kernel as of C119. *)
Definition good_kernel (k : list flt) : Prop := exists w, weights k w /\ 1000 * Z.abs (total w (length k) - U) <= U /\ 2 <= Z.of_nat (length k) <= 4096.

Lemma fresh_bytes g w h : fresh g w h -> (forall x y, in_img g x y -> 0 <= pix 0 g x y <= 255) -> byte_img g.
Proof.
  intros (W & H & S & O) B. unfold byte_img. apply Forall_forall. intros v V. apply (In_nth _ _ 0) in V as (n & N & <-). pose proof (io_len g O) as L. pose proof (io_w g O) as W0. pose proof (io_h g O) as H0.
  rewrite S in L. rewrite W in W0. rewrite H in L, H0. assert (WP : 0 < w) by (assert (w = 0 \/ 0 < w) as [->|] by lia; lia).
  specialize (B (Z.of_nat n mod w) (Z.of_nat n / w)). unfold pix in B. rewrite S in B. replace (Z.of_nat n / w * w + Z.of_nat n mod w) with (Z.of_nat n) in B by (pose proof (Z.div_mod (Z.of_nat n) w); lia). rewrite Nat2Z.id in B.
  apply B. unfold in_img. rewrite W, H. split; [apply Z.mod_pos_bound; lia|]. split; [apply Z.div_pos; lia|apply Z.div_lt_upper_bound; lia].
Qed.
Lemma size_int w i : 0 <= w < 2 ^ 24 -> 0 <= i <= 24 -> to_int (fdiv (of_int w) (of_int (2 ^ i))) = Ok (w / 2 ^ i).
Proof.
  intros W I. assert (P : 1 <= 2 ^ i <= 2 ^ 24) by (split; [apply (Z.pow_le_mono_r 2 0 i); lia|apply Z.pow_le_mono_r; lia]).
  rewrite !of_int_exact by (unfold small24; lia). cbn [fdiv]. pose proof U_pos as UP. destruct (Z.eqb_spec (2 ^ i * U) 0) as [E|_]; [apply Z.mul_eq_0 in E; lia|].
  rewrite Z.sgn_pos, Z.abs_eq by (try apply Z.mul_pos_pos; try apply Z.mul_nonneg_nonneg; lia). rewrite Z.mul_1_r.
  replace (w * U * U) with (w * 2 ^ (149 - i) * (2 ^ i * U)).
  - rewrite mkf_exact_d; [|unfold small24; lia|lia|apply Z.mul_pos_pos; lia]. unfold to_int. replace U with (2 ^ (149 - i) * 2 ^ i) by (rewrite <- Z.pow_add_r by lia; replace (149 - i + i) with 149 by lia; reflexivity).
    rewrite (Z.mul_comm w), Z.quot_mul_cancel_l by (try apply Z.pow_nonzero; lia). rewrite Z.quot_div_nonneg by lia. rewrite chk_int_in; [reflexivity|]. pose proof int_rng as [-> ->].
    split; [apply Z.le_trans with 0; [lia|apply Z.div_pos; lia]|]. apply Z.le_trans with w; [apply Z.div_le_upper_bound; nia|change (2 ^ 24) with 16777216 in W; lia].
  - replace (w * U * U) with (w * (2 ^ (149 - i) * 2 ^ i) * U); [ring|]. rewrite <- Z.pow_add_r by lia. replace (149 - i + i) with 149 by lia. reflexivity.
Qed.
Lemma nth_map' {A B} (f : A -> B) l n d d' : f d = d' -> nth n (map f l) d' = f (nth n l d).
Proof. intros <-. apply map_nth. Qed.

Section Images.
Variables (junk : nat -> Z) (sigma_at scale_at : Z -> flt).
Notation d := empty_img.
Definition dl : level := mkLev empty_img FNaN FNaN.
Notation lev p i := (nth (Z.to_nat i) p dl).

Lemma create_ok p i w h sc si : 0 <= i < Z.of_nat (length p) -> 0 <= w -> 0 <= h -> w * h <= INT_MAX -> exists img,
  resize0 junk (l_img (lev p i)) w h = Ok img /\ create_level junk p i w h sc si = Ok (lset p (Z.to_nat i) (mkLev img si sc)).
Proof.
  intros I W H M. unfold create_level. destruct (Z.leb_spec (Z.of_nat (length p)) i); [lia|]. rewrite (zget_lt _ _ dl) by lia. cbn [bind].
  assert (WH : 0 <= w * h) by (apply Z.mul_nonneg_nonneg; lia). destruct (resize0 junk (l_img (lev p i)) w h) as [img| | |] eqn:E; unfold resize0 in E; destruct (Z.ltb_spec w 0), (Z.ltb_spec h 0); try lia; cbn [orb] in E; rewrite chk_int_in in E by (pose proof int_rng; lia); cbn [bind] in E; try discriminate E.
  exists img. split; [reflexivity|]. cbn [bind]. now rewrite zset_lt' by lia.
Qed.
Lemma resize_same img : image_ok img -> i_stride img = i_w img -> resize0 junk img (i_w img) (i_h img) = Ok img.
Proof.
  intros [W H L M] S. unfold resize0. destruct (Z.ltb_spec (i_w img) 0), (Z.ltb_spec (i_h img) 0); try lia. cbn [orb]. rewrite S in L, M. rewrite (Z.mul_comm (i_w img)). 
  assert (0 <= i_h img * i_w img) by (apply Z.mul_nonneg_nonneg; lia). rewrite chk_int_in by (pose proof int_rng; lia). cbn [bind]. rewrite <- L, Nat2Z.id, firstn_all, Nat.sub_diag. cbn [seq map]. rewrite app_nil_r. destruct img. cbn in *. subst. reflexivity.
Qed.
Lemma alloc_ok p n : 1 <= n -> exists p', alloc_levels p n = Ok p' /\ Z.of_nat (length p') = n.
Proof.
  intro N. unfold alloc_levels. destruct (Z.ltb_spec n 1); [lia|]. destruct (Z.eqb_spec (Z.of_nat (length p)) n) as [E|E]; [exists p; auto|]. eexists. split; [reflexivity|]. rewrite repeat_length. lia.
Qed.

Section Sizes.
Variables (n steps w h : Z).
Hypothesis NN : 1 <= n.
Hypothesis NS : 1 <= steps.
Hypothesis N24 : (n - 1) / steps <= 24.
Hypothesis W24 : 1 <= w < 2 ^ 24.
Hypothesis H24 : 1 <= h < 2 ^ 24.
Hypothesis WH : w * h <= INT_MAX.
Hypothesis SC : forall i, 0 <= i < n -> scale_at i = of_int (2 ^ (i / steps)).
Definition inited (g0 : image Z) (p : list level) (m : Z) : Prop :=
  Z.of_nat (length p) = n /\ l_img (lev p 0) = g0 /\ forall i, 0 <= i < m -> l_sigma (lev p i) = sigma_at i /\ l_scale (lev p i) = of_int (2 ^ (i / steps)).
Lemma half_size i : 0 <= i < n -> to_int (fdiv (of_int w) (scale_at i)) = Ok (w / 2 ^ (i / steps)) /\ to_int (fdiv (of_int h) (scale_at i)) = Ok (h / 2 ^ (i / steps)) /\
  0 <= w / 2 ^ (i / steps) /\ 0 <= h / 2 ^ (i / steps) /\ w / 2 ^ (i / steps) * (h / 2 ^ (i / steps)) <= INT_MAX.
Proof.
  intro I. assert (Q : 0 <= i / steps <= 24) by (split; [apply Z.div_pos; lia|apply Z.le_trans with (2 := N24); apply Z.div_le_mono; lia]).
  rewrite SC by exact I. rewrite !size_int by lia. set (e := 2 ^ (i / steps)). assert (E : 1 <= e) by (apply (Z.pow_le_mono_r 2 0); lia).
  assert (A : 0 <= w / e <= w) by (split; [apply Z.div_pos; lia|apply Z.div_le_upper_bound; nia]). assert (B : 0 <= h / e <= h) by (split; [apply Z.div_pos; lia|apply Z.div_le_upper_bound; nia]).
  repeat (split; [reflexivity||lia|]). apply Z.le_trans with (2 := WH). apply Z.mul_le_mono_nonneg; lia.
Qed.
Notation stepf := (fun i pyr => let* w := to_int (fdiv (of_int w) (scale_at i)) in let* h := to_int (fdiv (of_int h) (scale_at i)) in create_level junk pyr i w h (scale_at i) (sigma_at i)).
Lemma init_first p g0 : Z.of_nat (length p) = n -> resize0 junk (l_img (lev p 0)) w h = Ok g0 -> exists p', stepf 0 p = Ok p' /\ inited g0 p' 1.
Proof.
  intros L RZ. destruct (half_size 0 ltac:(lia)) as (E1 & E2 & A & B & C). rewrite Z.div_0_l in * by lia. change (2 ^ 0) with 1 in *. rewrite Z.div_1_r in *. rewrite E1. cbn [bind]. rewrite E2. cbn [bind].
  rewrite Z.div_1_r in *. destruct (create_ok p 0 w h (scale_at 0) (sigma_at 0) ltac:(lia) A B C) as (img & RI & CI). rewrite CI. eexists. split; [reflexivity|].
  split; [now rewrite lset_length|]. split; [rewrite nth_lset_same by lia; cbn [l_img]; congruence|]. intros i Hi. replace i with 0 by lia. rewrite nth_lset_same by lia. cbn [l_sigma l_scale]. split; [reflexivity|apply SC; lia].
Qed.
Lemma init_next p g0 m : 1 <= m < n -> inited g0 p m -> exists p', stepf m p = Ok p' /\ inited g0 p' (m + 1).
Proof.
  intros M (L & V0 & VV). destruct (half_size m ltac:(lia)) as (E1 & E2 & A & B & C). rewrite E1. cbn [bind]. rewrite E2. cbn [bind].
  destruct (create_ok p m _ _ (scale_at m) (sigma_at m) ltac:(lia) A B C) as (img & RI & CI). rewrite CI. eexists. split; [reflexivity|].
  split; [now rewrite lset_length|]. split; [rewrite nth_lset_other by lia; exact V0|]. intros i Hi.
  destruct (Z.eq_dec i m) as [->|NI]; [rewrite nth_lset_same by lia; cbn [l_sigma l_scale]; split; [reflexivity|apply SC; lia]|rewrite nth_lset_other by lia; apply VV; lia].
Qed.
Lemma init_ok b p g0 : b_type b <> BNone -> b_levels b = n -> Z.of_nat (length p) = n ->
  resize0 junk (l_img (lev p 0)) w h = Ok g0 -> exists p', init_levels junk sigma_at scale_at b p w h = Ok p' /\ inited g0 p' n.
Proof.
  intros BT BL L RZ.
  assert (ST : forall m, (1 <= m)%nat -> Z.of_nat m <= n -> exists p', for_each stepf (zrange 0 (Z.of_nat m)) p = Ok p' /\ inited g0 p' (Z.of_nat m)).
  { induction m as [|m IH]; intros M1 M2; [lia|]. destruct (Nat.eq_dec m 0) as [->|M0].
    - destruct (init_first p g0 L RZ) as (p' & E & IN). exists p'. split; [|exact IN]. change (zrange 0 (Z.of_nat 1)) with [0]. cbn [for_each]. rewrite E. reflexivity.
    - destruct IH as (p' & E & IN); [lia|lia|]. destruct (init_next p' g0 (Z.of_nat m) ltac:(lia) IN) as (p'' & E' & IN'). replace (Z.of_nat (S m)) with (Z.of_nat m + 1) by lia.
      exists p''. split; [|exact IN']. rewrite zrange_snoc, for_each_app, E by lia. cbn [bind for_each]. rewrite E'. reflexivity. }
  destruct (ST (Z.to_nat n)) as (p' & E & IN); [lia|lia|]. rewrite Z2Nat.id in * by lia. exists p'. split; [|exact IN].
  assert (X : (if (w <=? 0) || (h <=? 0) then Fatal else let* pyr := alloc_levels p (b_levels b) in for_each stepf (zrange 0 (Z.of_nat (length pyr))) pyr) = Ok p').
  { destruct (Z.leb_spec w 0), (Z.leb_spec h 0); try lia. cbn [orb]. unfold alloc_levels. rewrite BL. destruct (Z.ltb_spec n 1); [lia|]. rewrite L, Z.eqb_refl. cbn [bind]. rewrite L. exact E. }
  unfold init_levels. destruct (b_type b); [contradiction|exact X..].
Qed.
End Sizes.
End Images.

(** ** Single steps *)
Lemma five_tap_byte n s c : 4 <= n -> 0 <= c < n -> (forall i, 0 <= i < n -> 0 <= s i <= 255) -> 0 <= five_tap n s c / 25 <= 255.
Proof.
  intros N C B. assert (E : forall j, - n < j < 2 * n - 1 -> 0 <= extended 0 BMirror n s j <= 255).
  { intros j J. unfold extended. destruct (Z.leb_spec 0 j), (Z.ltb_spec j n); cbn [andb]; try (apply B; lia); destruct (Z.ltb_spec j 0); apply B; lia. }
  unfold five_tap. cbv zeta. pose proof (E (c - 2) ltac:(lia)). pose proof (E (c - 1) ltac:(lia)). pose proof (E c ltac:(lia)). pose proof (E (c + 1) ltac:(lia)). pose proof (E (c + 2) ltac:(lia)).
  split; [apply Z.div_pos; lia|]. apply Z.lt_succ_r, Z.div_lt_upper_bound; lia.
Qed.
Lemma five_tap_ext n s s' c : 4 <= n -> 0 <= c < n -> (forall i, 0 <= i < n -> s i = s' i) -> five_tap n s c = five_tap n s' c.
Proof. intros N C E. unfold five_tap. cbv zeta. now rewrite !(extended_ext 0 BMirror n s s') by (auto; lia). Qed.
Lemma aa_step junk g w h : fresh g w h -> byte_img g -> 4 <= w -> 4 <= h -> exists q, aa_down junk g = Ok q /\ fresh q (w / 2) (h / 2) /\ byte_img q /\
  forall x y, in_img q x y -> pix 0 q x y = aa_half w h (pix 0 g) x y.
Proof.
  intros F B W H. pose proof F as (EW & EH & _ & O). unfold aa_down. destruct (C73_antialias_columns junk g O B ltac:(lia)) as (m & EM & FM & VM). rewrite EM. cbn [bind]. rewrite EW, EH in *.
  assert (W2 : 2 <= w / 2 /\ 2 * (w / 2) <= w) by (Z.div_mod_to_equations; lia). assert (H2 : 2 <= h / 2 /\ 2 * (h / 2) <= h) by (Z.div_mod_to_equations; lia).
  pose proof FM as (MW & MH & _ & OM).
  assert (BM : byte_img m).
  { apply (fresh_bytes _ _ _ FM). intros x y I. rewrite VM by exact I. destruct I as [IX IY]. rewrite MW, MH in *. apply five_tap_byte; [lia|lia|]. intros i J. apply pix_byte; auto. split; lia. }
  destruct (C73_antialias_rows junk m OM BM ltac:(lia)) as (q & EQ & FQ & VQ). rewrite EQ. exists q. rewrite MW, MH in *. split; [reflexivity|]. split; [exact FQ|]. pose proof FQ as (QW & QH & _ & _).
  split.
  - apply (fresh_bytes _ _ _ FQ). intros x y I. rewrite VQ by exact I. destruct I as [IX IY]. rewrite QW, QH in *. apply five_tap_byte; [lia|lia|]. intros i J. apply pix_byte; auto. split; lia.
  - intros x y I. rewrite VQ by exact I. destruct I as [IX IY]. rewrite QW, QH in *. unfold aa_half. f_equal. apply five_tap_ext; [lia|lia|]. intros j J. apply VM. split; lia.
Qed.
Lemma smooth_step junk bufj kernel s k g w h : kernel s = Ok k -> good_kernel k -> fresh g w h -> byte_img g -> 2 <= w < 2 ^ 24 -> 2 <= h < 2 ^ 24 ->
  exists q, smooth_other junk bufj kernel s g = Ok q /\ fresh q w h /\ byte_img q.
Proof.
  intros K (v & WK & TK & LK) F B W H. pose proof F as (EW & EH & _ & O). unfold smooth_other. rewrite K. cbn [bind].
  assert (P24 : 2 ^ 24 <= 2 ^ 30) by (apply Z.pow_le_mono_r; lia).
  destruct (C120_smooth_bytes junk bufj g k k v v 0 255 WK WK TK TK LK LK O) as (q & m & E & FQ & V); [lia|lia|lia|lia|intros x y I; apply pix_byte; auto|].
  rewrite EW, EH in FQ. exists q. split; [exact E|]. split; [exact FQ|]. apply (fresh_bytes _ _ _ FQ). intros x y I. pose proof FQ as (QW & QH & _). destruct (V x y) as (A & _); [unfold in_img in *; rewrite QW, QH in I; rewrite EW, EH; exact I|]. lia.
Qed.
Lemma smooth_self_step junk bufj bufj' kernel s k g w h : kernel s = Ok k -> good_kernel k -> fresh g w h -> byte_img g -> 2 <= w < 2 ^ 24 -> 2 <= h < 2 ^ 24 ->
  exists q q', smooth_other junk bufj kernel s g = Ok q /\ smooth_same bufj' kernel s g = Ok q' /\ fresh q' w h /\ byte_img q' /\ forall x y, in_img g x y -> pix 0 q' x y = pix 0 q x y.
Proof.
  intros K GK F B W H. destruct (smooth_step junk bufj kernel s k g w h K GK F B W H) as (q & E & FQ & BQ). destruct GK as (v & WK & TK & LK). pose proof F as (EW & EH & ES & O).
  assert (P24 : 2 ^ 24 <= 2 ^ 30) by (apply Z.pow_le_mono_r; lia).
  destruct (C120_in_place junk bufj bufj' g k k v v WK WK TK TK LK LK O B) as (q2 & q' & E2 & E' & SS & O' & V); [lia|lia|].
  exists q, q'. split; [exact E|]. unfold smooth_other, smooth_same in *. rewrite K in *. cbn [bind] in *. assert (q2 = q) by congruence. subst q2. split; [exact E'|].
  assert (FQ' : fresh q' w h) by (destruct SS as (S1 & S2 & S3); unfold fresh; rewrite S1, S2, S3; auto). split; [exact FQ'|]. split; [|exact V].
  apply (fresh_bytes _ _ _ FQ'). intros x y I. assert (I' : in_img g x y) by (destruct FQ' as (QW & QH & _); unfold in_img in *; rewrite QW, QH in I; rewrite EW, EH; exact I).
  rewrite V by exact I'. pose proof FQ as (QW & QH & QS & QO). apply pix_byte; auto. unfold in_img in *. rewrite QW, QH. rewrite EW, EH in I'. exact I'.
Qed.

(** ** Whole builds *)
Section Whole.
Variables (junk : nat -> Z) (bufj : nat -> flt) (kernel : flt -> res (list flt)) (sqrt_f : flt -> flt) (sigma_at scale_at : Z -> flt).
Variables (n steps : Z) (src : image Z).
Notation w := (i_w src).
Notation h := (i_h src).
Notation lev p i := (nth (Z.to_nat i) p dl).
Hypothesis NN : 1 <= n.
Hypothesis NS : 1 <= steps.
Hypothesis N24 : (n - 1) / steps <= 24.
Hypothesis W24 : 1 <= w < 2 ^ 24.
Hypothesis H24 : 1 <= h < 2 ^ 24.
Hypothesis SC : forall i, 0 <= i < n -> scale_at i = of_int (2 ^ (i / steps)).
Hypothesis SRC : image_ok src.
Hypothesis STR : i_stride src = w.
Definition fill (b : builder) (imgs : list (image Z)) : res (list (image Z)) :=
  let gt0 := fun s => f_lt F0 s in
  let shrink := fun i img => scale_uc junk img (fdiv F1 (scale_at i)) in
  match b_type b with
  | BNone => Fatal
  | Fast => update_fast _ _ (smooth_same bufj kernel) (aa_down junk) (sigma_gf sqrt_f) gt0 INITIAL sigma_at imgs
  | Fine => update_fine _ _ (smooth_same bufj kernel) (smooth_other junk bufj kernel) (downsample junk) (sigma_gf sqrt_f) gt0 fmul F1 (FF (2 ^ 148)) INITIAL sigma_at (b_octaves b) (b_steps b) imgs
  | Scaled => update_scaled _ _ (smooth_same bufj kernel) shrink (fun i => i) (sigma_gf sqrt_f) gt0 INITIAL sigma_at imgs
  end.
Lemma area : w * h <= INT_MAX.
Proof. pose proof (io_max src SRC) as M. rewrite STR in M. lia. Qed.
Lemma build_ok b pyr : b_type b <> BNone -> b_levels b = n -> exists p, inited sigma_at n steps src p n /\
  build junk bufj kernel sqrt_f sigma_at scale_at b pyr src = (let* imgs := fill b (map l_img p) in Ok (put_images p imgs)).
Proof.
  intros BT BL. pose proof area as AR. destruct (alloc_ok sigma_at scale_at pyr n NN) as (p0 & E0 & L0).
  destruct (create_ok junk sigma_at scale_at p0 0 w h F1 (sigma_at 0) ltac:(lia) ltac:(lia) ltac:(lia) AR) as (img & RI & CI).
  set (p1 := lset p0 (Z.to_nat 0) (mkLev img (sigma_at 0) F1)) in *. assert (L1 : Z.of_nat (length p1) = n) by (unfold p1; rewrite lset_length; exact L0).
  assert (C0 : copy_to_level0 junk p0 src (sigma_at 0) = Ok (lset p1 (Z.to_nat 0) (mkLev src (sigma_at 0) F1))).
  { unfold copy_to_level0. rewrite CI. cbn [bind]. rewrite (zget_lt _ _ dl) by lia. cbn [bind]. rewrite zset_lt' by lia. unfold p1. rewrite nth_lset_same by lia. reflexivity. }
  set (p2 := lset p1 (Z.to_nat 0) (mkLev src (sigma_at 0) F1)) in *. assert (L2 : Z.of_nat (length p2) = n) by (unfold p2; rewrite lset_length; exact L1).
  assert (V2 : l_img (lev p2 0) = src) by (unfold p2; rewrite nth_lset_same by lia; reflexivity). clearbody p2.
  assert (RS : resize0 junk (l_img (lev p2 0)) w h = Ok src) by (rewrite V2; now apply resize_same).
  destruct (init_ok junk sigma_at scale_at n steps w h NN NS N24 W24 H24 AR SC b p2 src BT BL L2 RS) as (p & EI & IN).
  exists p. split; [exact IN|].
  assert (X : (let* pyr := alloc_levels pyr (b_levels b) in let* pyr := copy_to_level0 junk pyr src (sigma_at 0) in update junk bufj kernel sqrt_f sigma_at scale_at b pyr) = (let* imgs := fill b (map l_img p) in Ok (put_images p imgs))).
  { rewrite BL, E0. cbn [bind]. rewrite C0. cbn [bind]. unfold update. rewrite L2, BL, Z.eqb_refl. cbn [negb]. rewrite (zget_lt _ _ dl) by lia. cbn [bind]. rewrite V2, EI. cbn [bind]. reflexivity. }
  unfold build. destruct (b_type b); [contradiction|exact X..].
Qed.
End Whole.
Lemma put_ok sigma_at n steps src p imgs i : inited sigma_at n steps src p n -> Z.of_nat (length imgs) = n -> 0 <= i < n -> length (put_images p imgs) = length p /\
  nth (Z.to_nat i) (put_images p imgs) dl = mkLev (nth (Z.to_nat i) imgs empty_img) (sigma_at i) (of_int (2 ^ (i / steps))).
Proof.
  intros (L & _ & V) LI I. unfold put_images. split; [rewrite map_length, combine_length; lia|].
  rewrite (nth_map' _ _ _ (dl, empty_img)) by reflexivity. rewrite combine_nth by lia. cbn [fst snd]. destruct (V i I) as [-> ->]. reflexivity.
Qed.
Lemma imgs0 sigma_at n steps src p : inited sigma_at n steps src p n -> length (map l_img p) = Z.to_nat n /\ nth 0 (map l_img p) empty_img = src.
Proof. intros (L & V & _). split; [rewrite map_length; lia|]. rewrite (nth_map' _ _ _ dl) by reflexivity. exact V. Qed.

Lemma pow_size w e o : 0 <= o < e -> 2 ^ e <= w -> 2 <= w / 2 ^ o /\ w / 2 ^ (o + 1) = w / 2 ^ o / 2 /\ w / 2 ^ o <= w.
Proof.
  intros O W. assert (P : 1 <= 2 ^ o) by (apply (Z.pow_le_mono_r 2 0 o); lia). assert (Q : 2 ^ o * 2 <= 2 ^ e) by (rewrite Z.mul_comm, <- Z.pow_succ_r by lia; apply Z.pow_le_mono_r; lia).
  split; [apply Z.div_le_lower_bound; lia|]. split; [rewrite Z.div_div, Z.mul_comm, <- Z.pow_succ_r by lia; reflexivity|]. apply Z.div_le_upper_bound; nia.
Qed.
Lemma pow_size4 w e o : 0 <= o < e - 1 -> 2 ^ e <= w -> 4 <= w / 2 ^ o.
Proof.
  intros O W. assert (P : 1 <= 2 ^ o) by (apply (Z.pow_le_mono_r 2 0 o); lia). assert (Q : 2 ^ o * 4 <= 2 ^ e) by (change 4 with (2 ^ 2); rewrite <- Z.pow_add_r by lia; apply Z.pow_le_mono_r; lia).
  apply Z.div_le_lower_bound; lia.
Qed.
Lemma pow_lt24 e w : 2 ^ e <= w -> w < 2 ^ 24 -> e < 24.
Proof. intros A B. apply (Z.pow_lt_mono_r_iff 2); lia. Qed.
