From Verif Require Import Base BaseLemmas Gray Img Flt CsvModel CsvSpec CsvProofs CsvProofs2 DfModel DfCsvProofs FilterModel FilterSpec FilterProofs ImgModel ImgSpec ImgProofs PnmModel PnmSpec.
Local Open Scope Z_scope.

(** * Raster order *)
Lemma raster_rows w y : 0 <= y -> raster 0 w 0 (y + 1) = raster 0 w 0 y ++ map (fun x => (x, y)) (zrange 0 w).
Proof. intro Y. unfold raster. rewrite zrange_snoc by lia. rewrite flat_map_app. cbn [flat_map]. now rewrite app_nil_r. Qed.
Lemma raster_len w h : 0 <= w -> 0 <= h -> Z.of_nat (length (raster 0 w 0 h)) = w * h.
Proof.
  intros W H. rewrite <- (Z2Nat.id h H). induction (Z.to_nat h) as [|k IH].
  - unfold raster. cbn. lia.
  - replace (Z.of_nat (S k)) with (Z.of_nat k + 1) by lia. rewrite raster_rows, app_length, map_length, zrange_length by lia. lia.
Qed.
Lemma zrange_pos a b pre x post : zrange a b = pre ++ x :: post -> x = a + Z.of_nat (length pre).
Proof.
  unfold zrange. intro E. assert (L : (length pre < Z.to_nat (b - a))%nat).
  { pose proof (f_equal (@length Z) E) as L. rewrite map_length, seq_length, app_length in L. cbn in L. lia. }
  pose proof (f_equal (fun l => nth (length pre) l 0) E) as N. cbv beta in N. rewrite app_nth2, Nat.sub_diag in N by lia. cbn [nth] in N.
  rewrite (nth_indep _ 0 (a + Z.of_nat 0)) in N by (now rewrite map_length, seq_length). rewrite (map_nth (fun i => a + Z.of_nat i)) in N. rewrite seq_nth in N by lia. cbn in N. lia.
Qed.
Lemma raster_pos w h pre x y post : 0 <= w -> 0 <= h -> raster 0 w 0 h = pre ++ (x, y) :: post -> Z.of_nat (length pre) = y * w + x.
Proof.
  intros W H. rewrite <- (Z2Nat.id h H). revert pre x y post. induction (Z.to_nat h) as [|k IH]; intros pre x y post.
  - unfold raster. cbn. intro E. destruct pre; discriminate.
  - replace (Z.of_nat (S k)) with (Z.of_nat k + 1) by lia. rewrite raster_rows by lia. intro E.
    pose proof (raster_len w (Z.of_nat k) W ltac:(lia)) as L.
    assert (ROW : forall l, map (fun x => (x, Z.of_nat k)) (zrange 0 w) = l ++ (x, y) :: post -> y = Z.of_nat k /\ x = Z.of_nat (length l)).
    { intros l F. apply map_eq_app in F as (l1 & l2 & EQ & E1 & E2). apply map_eq_cons in E2 as (x' & l3 & -> & E3 & _). injection E3 as -> ->. apply zrange_pos in EQ. apply (f_equal (@length _)) in E1. rewrite map_length in E1. lia. }
    apply app_eq_app in E as (l & [[E1 E2]|[E1 E2]]).
    + destruct l as [|p l].
      * rewrite app_nil_r in E1. symmetry in E2. destruct (ROW [] E2) as [-> ->]. subst pre. cbn. lia.
      * cbn [app] in E2. injection E2 as <- E2. eapply IH. exact E1.
    + destruct (ROW l E2) as [-> ->]. subst pre. rewrite app_length. lia.
Qed.
(** Equal-size chunks. *)
Lemma flat_chunks {A B} (f : A -> list B) (b : nat) l da d : (forall a, In a l -> length (f a) = b) -> length (flat_map f l) = (b * length l)%nat /\
  forall k c, (k < length l)%nat -> (c < b)%nat -> nth (b * k + c) (flat_map f l) d = nth c (f (nth k l da)) d.
Proof.
  induction l as [|a l IH]; intro F; [split; [cbn; lia|cbn; lia]|]. destruct IH as [L N]; [intros; apply F; now right|]. assert (La : length (f a) = b) by (apply F; now left).
  cbn [flat_map length]. split; [rewrite app_length; lia|]. intros [|k] c K C.
  - rewrite Nat.mul_0_r. cbn [Nat.add]. rewrite app_nth1 by lia. reflexivity.
  - rewrite app_nth2 by lia. cbn [nth]. rewrite <- N by lia. f_equal. lia.
Qed.
Lemma nth_error_skipn {A} (l : list A) n d : (n < length l)%nat -> skipn n l = nth n l d :: skipn (S n) l.
Proof. revert n. induction l as [|a l IH]; intros n L; [cbn in L; lia|]. destruct n; [reflexivity|]. cbn in L |- *. apply IH. lia. Qed.

(** * Pixel loops *)
Lemma puts_ok {A} (d : A) (h : Z * Z -> A) l g : image_ok g -> (forall p, In p l -> in_img g (fst p) (snd p)) -> exists g', puts h l g = Ok g' /\ same_shape g' g /\ image_ok g'.
Proof. intros G I. destruct (fill_list d (fun p _ => Ok (h p)) h l g G I) as (g' & E & S & O & _); [reflexivity|]. exists g'. auto. Qed.
Section ReadLoop.
Variables (w h : Z) (b : nat) (s0 : list N) (hv : Z * Z -> N) (cells : Z -> Z -> list (Z * Z)).
Variable f : Z -> Z -> image N -> list N -> res (option (image N * list N)).
Hypothesis W : 0 <= w.
Hypothesis H : 0 <= h.
Hypothesis F : forall x y g s, 0 <= x < w -> 0 <= y < h -> s = skipn (b * Z.to_nat (y * w + x)) s0 ->
  f x y g s = if (b <=? length s)%nat then (let* g := puts hv (cells x y) g in Ok (Some (g, skipn b s))) else Ok None.
Lemma loop_read_ok g0 : image_ok g0 -> (forall x y p, 0 <= x < w -> 0 <= y < h -> In p (cells x y) -> in_img g0 (fst p) (snd p)) ->
  (forall X Y, in_img g0 X Y -> exists x y, 0 <= x < w /\ 0 <= y < h /\ In (X, Y) (cells x y)) -> (0 < b)%nat ->
  exists r, loop_read w h f g0 s0 = Ok r /\
    if Z.of_nat b * (w * h) <=? Z.of_nat (length s0)
    then exists g, r = Some (g, skipn (b * Z.to_nat (w * h)) s0) /\ same_shape g g0 /\ image_ok g /\ forall X Y, in_img g0 X Y -> pix 0%N g X Y = hv (X, Y)
    else r = None.
Proof.
  intros G C COV B. unfold loop_read. rewrite scan_raster. set (R := raster 0 w 0 h).
  destruct (for_each_inv (fun p st => match st with None => Ok None | Some (g, s) => f (fst p) (snd p) g s end)
    (fun pre st => if (b * length pre <=? length s0)%nat
       then exists g, st = Some (g, skipn (b * length pre) s0) /\ puts hv (flat_map (fun p => cells (fst p) (snd p)) pre) g0 = Ok g /\ same_shape g g0 /\ image_ok g
       else st = None) R (Some (g0, s0))) as (r & E & Q).
  - cbn [length]. rewrite Nat.mul_0_r. cbn. exists g0. repeat split; auto; apply G.
  - intros pre [x y] st Q [post EQ]. pose proof (raster_pos w h pre x y post W H EQ) as P. assert (IN : In (x, y) R) by (rewrite EQ; apply in_or_app; right; now left). apply raster_in in IN as [X Y].
    cbn [fst snd]. rewrite app_length. cbn [length]. destruct (Nat.leb_spec (b * length pre) (length s0)) as [L|L].
    + destruct Q as (g & -> & PU & S & O). rewrite F; [|exact X|exact Y|f_equal; f_equal; lia]. rewrite skipn_length.
      destruct (Nat.leb_spec b (length s0 - b * length pre)) as [L1|L1].
      * destruct (puts_ok 0%N hv (cells x y) g O) as (g' & E' & S' & O'); [intros p IP; rewrite same_shape_in by exact S; eapply C; eauto|]. rewrite E'. cbn [bind]. eexists. split; [reflexivity|].
        destruct (Nat.leb_spec (b * (length pre + 1)) (length s0)); [|lia]. exists g'. split; [rewrite skipn_skipn; do 3 f_equal; lia|].
        split; [|split; [eapply same_shape_trans; eauto|exact O']]. rewrite flat_map_app, <- puts_app, PU. cbn [bind flat_map fst snd]. now rewrite app_nil_r.
      * eexists. split; [reflexivity|]. destruct (Nat.leb_spec (b * (length pre + 1)) (length s0)); [lia|reflexivity].
    + subst st. eexists. split; [reflexivity|]. destruct (Nat.leb_spec (b * (length pre + 1)) (length s0)); [lia|reflexivity].
  - exists r. split; [exact E|]. pose proof (raster_len w h W H) as LR. fold R in LR.
    assert (LN : length R = Z.to_nat (w * h)) by lia. rewrite LN in Q.
    destruct (Z.leb_spec (Z.of_nat b * (w * h)) (Z.of_nat (length s0))) as [L|L]; destruct (Nat.leb_spec (b * Z.to_nat (w * h)) (length s0)); try nia; [|exact Q].
    destruct Q as (g & -> & PU & S & O). exists g. split; [reflexivity|]. split; [exact S|]. split; [exact O|].
    destruct (puts_all 0%N hv (flat_map (fun p => cells (fst p) (snd p)) R) g0 G) as (g' & E' & _ & _ & V & _).
    + intros p IP. apply in_flat_map in IP as ([x y] & I1 & I2). apply raster_in in I1 as [X Y]. cbn [fst snd] in I2. eapply C; eauto.
    + intros X Y IG. destruct (COV X Y IG) as (x & y & HX & HY & IC). apply in_flat_map. exists (x, y). split; [now apply raster_in|exact IC].
    + assert (g' = g) by congruence. subst g'. exact V.
Qed.
End ReadLoop.

(** * Luminance *)
Definition lum (r g b : Z) : flt := fadd (fadd (fmul (of_int r) F_03) (fmul (of_int g) F_059)) (fmul (of_int b) F_011).
(** A float at most [m] units, not negative. *)
Definition fle (a b : flt) : Prop := exists x y, a = FF x /\ b = FF y /\ 0 <= x <= y.
Lemma mkf_pos p d : 0 <= p -> 0 < d -> p <= 2 ^ 276 * d -> mkf p d = FF (rnd p d).
Proof.
  intros P D L. unfold mkf. rewrite Z.abs_eq by exact P. assert (R : rnd p d <= 1 * 2 ^ 276) by (apply rnd_le; lia). rewrite Z.mul_1_l in R.
  destruct (Z.ltb_spec (rnd p d) (2 ^ 277)) as [_|N]; [|exfalso; assert (2 ^ 276 < 2 ^ 277) by (apply Z.pow_lt_mono_r; lia); lia].
  f_equal. destruct (Z.eq_dec p 0) as [->|]; [rewrite rnd_zero by exact D; reflexivity|]. rewrite Z.sgn_pos by lia. lia.
Qed.
Lemma mkf_fle p p' d : 0 <= p <= p' -> 0 < d -> p' <= 2 ^ 276 * d -> fle (mkf p d) (mkf p' d).
Proof.
  intros P D L. exists (rnd p d), (rnd p' d). rewrite !mkf_pos by lia. split; [reflexivity|]. split; [reflexivity|]. split; [apply rnd_nonneg; lia|]. apply rnd_mono; try lia. apply Z.mul_le_mono_nonneg_r; lia.
Qed.
Lemma fle_refl n : 0 <= n -> fle (FF n) (FF n).
Proof. intro N. exists n, n. repeat split; lia. Qed.
Definition fmax (a : flt) (m : Z) : Prop := exists x, a = FF x /\ 0 <= x <= m * U.
Lemma mkf_max p d m : 0 <= p -> 0 < d -> 0 <= m <= 2 ^ 24 -> p <= m * U * d -> fmax (mkf p d) m.
Proof.
  intros P D M L. exists (rnd p d). assert (m * U <= 2 ^ 276).
  { unfold U. transitivity (2 ^ 24 * 2 ^ 149); [apply Z.mul_le_mono_nonneg_r; [|lia]; apply Z.pow_nonneg; lia|]. rewrite <- Z.pow_add_r by lia. apply Z.pow_le_mono_r; lia. }
  split; [apply mkf_pos; auto; nia|]. split; [now apply rnd_nonneg|]. unfold U. apply rnd_le; auto; lia.
Qed.
Lemma fmul_byte c r r' : 0 <= c <= U -> 0 <= r <= r' -> r' <= 255 -> fle (fmul (of_int r) (FF c)) (fmul (of_int r') (FF c)) /\ fmax (fmul (of_int r') (FF c)) 255.
Proof.
  intros C R R'. rewrite !of_int_exact by (unfold small24; change (2 ^ 24) with 16777216; lia). cbn [fmul]. pose proof U_pos as UP. assert (M : 0 <= r * U * c <= r' * U * c).
  { split; [apply Z.mul_nonneg_nonneg; [apply Z.mul_nonneg_nonneg|]; lia|apply Z.mul_le_mono_nonneg_r; [lia|]; apply Z.mul_le_mono_nonneg_r; lia]. }
  assert (L : r' * U * c <= 255 * U * U).
  { apply Z.mul_le_mono_nonneg; [apply Z.mul_nonneg_nonneg; lia|apply Z.mul_le_mono_nonneg_r; lia|lia|lia]. }
  split.
  - apply mkf_fle; [exact M|exact UP|]. etransitivity; [exact L|]. apply Z.mul_le_mono_nonneg_r; [lia|]. vm_compute. discriminate.
  - apply mkf_max; [lia|exact UP|lia|exact L].
Qed.
Lemma fadd_fle a a' b b' m n : fle a a' -> fle b b' -> fmax a' m -> fmax b' n -> 0 <= m -> 0 <= n -> m + n <= 2 ^ 24 -> fle (fadd a b) (fadd a' b') /\ fmax (fadd a' b') (m + n).
Proof.
  intros (x & x' & -> & -> & X) (y & y' & -> & -> & Y) (u & [= <-] & HU) (v & [= <-] & HV) M N MN. cbn [fadd]. assert (L : x' + y' <= (m + n) * U) by lia. split.
  - apply mkf_fle; [lia|lia|]. rewrite Z.mul_1_r. etransitivity; [exact L|]. unfold U. transitivity (2 ^ 24 * 2 ^ 149); [apply Z.mul_le_mono_nonneg_r; [|lia]; apply Z.pow_nonneg; lia|]. rewrite <- Z.pow_add_r by lia. apply Z.pow_le_mono_r; lia.
  - apply mkf_max; lia.
Qed.
Lemma lum_mono r g b r' g' b' : 0 <= r <= r' -> 0 <= g <= g' -> 0 <= b <= b' -> r' <= 255 -> g' <= 255 -> b' <= 255 ->
  exists n n', lum r g b = FF n /\ lum r' g' b' = FF n' /\ 0 <= n <= n' /\ n' <= 765 * U.
Proof.
  intros R G B R' G' B'. unfold lum.
  destruct (fmul_byte 214087162412953155182204482001789456251617280 r r') as [A1 A2]; [split; vm_compute; discriminate|lia|lia|].
  destruct (fmul_byte 421038050632727984260578870501997656485658624 g g') as [B1 B2]; [split; vm_compute; discriminate|lia|lia|].
  destruct (fmul_byte 78498622673474834807032648990503973211340800 b b') as [C1 C2]; [split; vm_compute; discriminate|lia|lia|].
  change (FF 214087162412953155182204482001789456251617280) with F_03 in *. change (FF 421038050632727984260578870501997656485658624) with F_059 in *. change (FF 78498622673474834807032648990503973211340800) with F_011 in *.
  destruct (fadd_fle _ _ _ _ 255 255 A1 B1 A2 B2) as [D1 D2]; [lia|lia|change (2 ^ 24) with 16777216; lia|].
  destruct (fadd_fle _ _ _ _ 510 255 D1 C1 D2 C2) as [E1 E2]; [lia|lia|change (2 ^ 24) with 16777216; lia|].
  destruct E1 as (n & n' & EN & EN' & L). destruct E2 as (m & EM & LM). exists n, n'. rewrite EN'  in EM. injection EM as <-. split; [exact EN|]. split; [exact EN'|]. lia.
Qed.
Lemma to_int_small n m : 0 <= n <= m * U -> m <= INT_MAX -> to_int (FF n) = Ok (n / U).
Proof.
  intros [N0 N1] M. cbn [to_int]. pose proof U_pos as UP. rewrite Z.quot_div_nonneg by lia. apply chk_int_in. pose proof int_rng as [-> _]. split; [|apply Z.div_le_upper_bound; nia].
  pose proof (Z.div_pos n U N0 UP). lia.
Qed.
(** Bounds in units of 2^-12. *)
Definition W12 : Z := 2 ^ 137.
Definition within (f : flt) (lo hi : Z) : Prop := exists n, f = FF n /\ lo * W12 <= n <= hi * W12.
Lemma mkf_within p d lo hi : 0 < d -> 0 <= lo -> hi <= 2 ^ 24 -> lo * W12 * d <= p <= hi * W12 * d -> within (mkf p d) lo hi.
Proof.
  intros D L H B. assert (WP : 0 < W12) by reflexivity. assert (WD : 0 < W12 * d) by (apply Z.mul_pos_pos; assumption).
  assert (P0 : 0 <= p) by (etransitivity; [|exact (proj1 B)]; apply Z.mul_nonneg_nonneg; [apply Z.mul_nonneg_nonneg|]; lia).
  assert (LH : lo <= hi) by (apply (Z.mul_le_mono_pos_r _ _ (W12 * d) WD); rewrite !Z.mul_assoc; lia).
  assert (LO : lo * W12 <= rnd p d) by (unfold W12; apply rnd_ge; try lia; exact (proj1 B)).
  assert (HI : rnd p d <= hi * W12) by (unfold W12; apply rnd_le; try lia; exact (proj2 B)).
  exists (rnd p d). split; [|lia]. apply mkf_pos; [exact P0|exact D|]. etransitivity; [exact (proj2 B)|]. apply Z.mul_le_mono_nonneg_r; [lia|].
  transitivity (2 ^ 24 * W12); [apply Z.mul_le_mono_nonneg_r; lia|vm_compute; discriminate].
Qed.
Lemma fmul_within v c lo hi : 0 <= v <= 255 -> 0 <= lo -> hi <= 4096 -> lo * W12 <= c <= hi * W12 -> within (fmul (of_int v) (FF c)) (v * lo) (v * hi).
Proof.
  intros V L H C. pose proof U_pos as UP. assert (WP : 0 < W12) by reflexivity. rewrite of_int_exact by (unfold small24; change (2 ^ 24) with 16777216; lia). cbn [fmul].
  apply mkf_within; [exact UP|nia|change (2 ^ 24) with 16777216; nia|]. assert (v * lo * W12 <= v * c <= v * hi * W12) by nia. replace (v * U * c) with (v * c * U) by ring. split; apply Z.mul_le_mono_nonneg_r; lia.
Qed.
Lemma fadd_within a b lo hi lo' hi' : within a lo hi -> within b lo' hi' -> 0 <= lo -> 0 <= lo' -> hi + hi' <= 2 ^ 24 -> within (fadd a b) (lo + lo') (hi + hi').
Proof. intros (x & -> & X) (y & -> & Y) L L' H. cbn [fadd]. apply mkf_within; lia. Qed.
Lemma lum_diag v : 0 <= v <= 255 -> exists n, lum v v v = FF n /\ 0 <= n <= 765 * U /\ v - 1 <= n / U <= v.
Proof.
  intro V. pose proof U_pos as UP. assert (UW : U = 4096 * W12) by reflexivity. assert (WP : 0 < W12) by reflexivity.
  assert (A : within (fmul (of_int v) F_03) (v * 1228) (v * 1229)).
  { replace F_03 with (FF 214087162412953155182204482001789456251617280) by (vm_compute; reflexivity). apply fmul_within; try lia. split; vm_compute; discriminate. }
  assert (B : within (fmul (of_int v) F_059) (v * 2416) (v * 2417)).
  { replace F_059 with (FF 421038050632727984260578870501997656485658624) by (vm_compute; reflexivity). apply fmul_within; try lia. split; vm_compute; discriminate. }
  assert (C : within (fmul (of_int v) F_011) (v * 450) (v * 451)).
  { replace F_011 with (FF 78498622673474834807032648990503973211340800) by (vm_compute; reflexivity). apply fmul_within; try lia. split; vm_compute; discriminate. }
  assert (S : within (lum v v v) (v * 1228 + v * 2416 + v * 450) (v * 1229 + v * 2417 + v * 451)).
  { unfold lum. change (2 ^ 24) with 16777216. apply fadd_within; try lia; [|exact C]. apply fadd_within; auto; try lia. }
  destruct S as (n & E & N). exists n. split; [exact E|]. split; [nia|]. split; [apply Z.div_le_lower_bound; nia|]. enough (n / U < v + 1) by lia. apply Z.div_lt_upper_bound; nia.
Qed.
Lemma rgb_to_gray_ok r g b : (r < 256)%N -> (g < 256)%N -> (b < 256)%N ->
  exists v, rgb_to_gray r g b = Ok v /\ (N.min r (N.min g b) <= v + 1)%N /\ (v <= N.max r (N.max g b))%N.
Proof.
  intros R G B. set (lo := Z.of_N (N.min r (N.min g b))). set (hi := Z.of_N (N.max r (N.max g b))).
  destruct (lum_mono lo lo lo (Z.of_N r) (Z.of_N g) (Z.of_N b)) as (n0 & n & E0 & E & L0 & _); try (unfold lo; lia).
  destruct (lum_mono (Z.of_N r) (Z.of_N g) (Z.of_N b) hi hi hi) as (n' & n1 & E' & E1 & L1 & L2); try (unfold hi; lia). rewrite E in E'. injection E' as <-.
  destruct (lum_diag lo) as (m0 & EM0 & _ & D0); [unfold lo; lia|]. rewrite E0 in EM0. injection EM0 as <-. destruct (lum_diag hi) as (m1 & EM1 & _ & D1); [unfold hi; lia|]. rewrite E1 in EM1. injection EM1 as <-.
  pose proof U_pos as UP. pose proof (Z.div_le_mono n0 n U UP ltac:(lia)). pose proof (Z.div_le_mono n n1 U UP ltac:(lia)).
  unfold rgb_to_gray. fold (lum (Z.of_N r) (Z.of_N g) (Z.of_N b)). rewrite E. rewrite (to_int_small n 765) by (cbv delta [INT_MAX]; lia). cbn [bind]. eexists. split; [reflexivity|].
  pose proof (Z.div_pos n U ltac:(lia) UP). destruct (Z.ltb_spec (n / U) 0); [lia|]. destruct (Z.ltb_spec 255 (n / U)); [unfold hi in *; lia|]. unfold lo, hi in *. lia.
Qed.
Lemma rgb_to_gray_mono r g b r' g' b' v v' : (r <= r' < 256)%N -> (g <= g' < 256)%N -> (b <= b' < 256)%N -> rgb_to_gray r g b = Ok v -> rgb_to_gray r' g' b' = Ok v' -> (v <= v')%N.
Proof.
  intros R G B. destruct (lum_mono (Z.of_N r) (Z.of_N g) (Z.of_N b) (Z.of_N r') (Z.of_N g') (Z.of_N b')) as (n & n' & E & E' & L & L'); try lia.
  unfold rgb_to_gray. fold (lum (Z.of_N r) (Z.of_N g) (Z.of_N b)). fold (lum (Z.of_N r') (Z.of_N g') (Z.of_N b')). rewrite E, E'. rewrite (to_int_small n 765), (to_int_small n' 765) by (cbv delta [INT_MAX]; lia). cbn [bind].
  intros V V'. assert (V1 : v = if n / U <? 0 then 0%N else if 255 <? n / U then 255%N else Z.to_N (n / U)) by congruence. assert (V1' : v' = if n' / U <? 0 then 0%N else if 255 <? n' / U then 255%N else Z.to_N (n' / U)) by congruence.
  pose proof (Z.div_le_mono n n' U U_pos ltac:(lia)). subst. destruct (Z.ltb_spec (n / U) 0), (Z.ltb_spec (n' / U) 0), (Z.ltb_spec 255 (n / U)), (Z.ltb_spec 255 (n' / U)); lia.
Qed.
