From Verif Require Import Base BaseLemmas Gray Img Flt FilterModel FilterSpec FilterProofs ImgModel ImgSpec.
Local Open Scope Z_scope.

Definition puts {A} (h : Z * Z -> A) (l : list (Z * Z)) (g : image A) : res (image A) :=
  for_each (fun p g => iput g (fst p) (snd p) (h p)) l g.
Lemma puts_app {A} (h : Z * Z -> A) l l' g : (let* g := puts h l g in puts h l' g) = puts h (l ++ l') g.
Proof. unfold puts. now rewrite for_each_app. Qed.
Lemma puts_one {A} (h : Z * Z -> A) x y g : puts h [(x, y)] g = iput g x y (h (x, y)).
Proof. unfold puts. cbn. destruct (iput g x y (h (x, y))); reflexivity. Qed.
Lemma puts_all {A} (d : A) (h : Z * Z -> A) l g0 : image_ok g0 -> (forall p, In p l -> in_img g0 (fst p) (snd p)) ->
  (forall x y, in_img g0 x y -> In (x, y) l) ->
  exists g', puts h l g0 = Ok g' /\ same_shape g' g0 /\ image_ok g' /\ (forall x y, in_img g0 x y -> pix d g' x y = h (x, y)) /\
    (forall P : A -> Prop, Forall P (i_data g0) -> (forall p, In p l -> P (h p)) -> Forall P (i_data g')).
Proof.
  intros G I C. destruct (fill_list d (fun p _ => Ok (h p)) h l g0 G I) as (g' & E & S & O & V & Q); [reflexivity|].
  exists g'. split; [exact E|]. split; [exact S|]. split; [exact O|]. split; [|exact Q].
  intros x y J. rewrite V by exact J. now rewrite (proj2 (pmem_spec _ _) (C x y J)).
Qed.
Lemma puts_raster {A} (h : Z * Z -> A) x0 x1 y0 y1 g : puts h (raster x0 x1 y0 y1) g = scan x0 x1 y0 y1 (fun x y g => iput g x y (h (x, y))) g.
Proof. rewrite scan_raster. apply for_each_eq. now intros [x y]. Qed.
Lemma fresh_shape {A} (g g' : image A) w h : fresh g w h -> same_shape g' g -> image_ok g' -> fresh g' w h.
Proof. intros (W & H & S & _) (S1 & S2 & S3) O. repeat split; try congruence; apply O. Qed.
Lemma img_new_fresh {A} (junk : nat -> A) w h : 0 <= w -> 0 <= h -> w * h <= INT_MAX -> exists g, img_new junk w h = Ok g /\ fresh g w h.
Proof. intros W H M. destruct (img_new_ok junk w h W H M) as (g & E & ?). exists g. split; [exact E|]. unfold fresh. tauto. Qed.
Lemma fresh_in {A} (g : image A) w h x y : fresh g w h -> in_img g x y <-> 0 <= x < w /\ 0 <= y < h.
Proof. intros (W & H & _). unfold in_img. now rewrite W, H. Qed.
Lemma size_bound {A} (g : image A) : image_ok g -> i_w g * i_h g <= INT_MAX.
Proof. intros [? ? ? ?]. nia. Qed.

(** * Downsampling *)
Lemma downsample_ok {A} (d : A) junk src : image_ok src ->
  exists g, downsample junk src = Ok g /\ fresh g (i_w src / 2) (i_h src / 2) /\
    forall x y, in_img g x y -> pix d g x y = pix d src (2 * x) (2 * y).
Proof.
  intros G. unfold downsample. pose proof (io_w src G) as W. pose proof (io_h src G) as H. pose proof (size_bound src G) as B.
  rewrite !Z.quot_div_nonneg by lia.
  destruct (img_new_fresh junk (i_w src / 2) (i_h src / 2)) as (g & E & F); [Z.div_mod_to_equations; nia..|]. rewrite E. cbn [bind].
  destruct (scan_fill_all d (fun x y _ => iget src (2 * x) (2 * y)) (fun x y => pix d src (2 * x) (2 * y)) g) as (g' & E' & S & O & V & _); [apply F| |].
  - intros x y g' I _ _ _. apply iget_ok; [exact G|]. rewrite (fresh_in _ _ _ _ _ F) in I. split; Z.div_mod_to_equations; lia.
  - exists g'. split; [exact E'|]. split; [eapply fresh_shape; eauto|]. intros x y I. apply V. now rewrite <- (same_shape_in _ _ _ _ S).
Qed.

(** * Upsampling *)
Section Up.
Context {A : Type}.
Variables (d : A) (avg2 : A -> A -> A) (avg4 : A -> A -> A -> A -> A).
Definition block (x y : Z) : list (Z * Z) := [(2 * x, 2 * y); (2 * x + 1, 2 * y); (2 * x, 2 * y + 1); (2 * x + 1, 2 * y + 1)].
Lemma up_vals s w h x y : let H := fun p : Z * Z => upsampled avg2 avg4 s w h (fst p) (snd p) in
  H (2 * x, 2 * y) = s x y /\
  H (2 * x + 1, 2 * y) = (if x + 1 <? w then avg2 (s x y) (s (x + 1) y) else s x y) /\
  H (2 * x, 2 * y + 1) = (if y + 1 <? h then avg2 (s x y) (s x (y + 1)) else s x y) /\
  H (2 * x + 1, 2 * y + 1) = (if x + 1 <? w then (if y + 1 <? h then avg4 (s x y) (s (x + 1) y) (s x (y + 1)) (s (x + 1) (y + 1)) else avg2 (s x y) (s (x + 1) y))
                              else if y + 1 <? h then avg2 (s x y) (s x (y + 1)) else s x y).
Proof.
  intro H. unfold H, upsampled. cbn [fst snd].
  assert (forall z, 2 * z / 2 = z) as D0 by (intro; rewrite Z.mul_comm; apply Z.div_mul; lia).
  assert (forall z, (2 * z + 1) / 2 = z) as D1 by (intro; Z.div_mod_to_equations; lia).
  assert (forall z, Z.odd (2 * z) = false) as O0 by (intro; rewrite Z.odd_mul; reflexivity).
  assert (forall z, Z.odd (2 * z + 1) = true) as O1 by (intro; rewrite Z.odd_add, Z.odd_mul; reflexivity).
  rewrite !D0, !D1, !O0, !O1. cbn [andb]. destruct (x + 1 <? w), (y + 1 <? h); auto.
Qed.
Lemma puts_block h x y g : puts h (block x y) g =
  (let* g := iput g (2 * x) (2 * y) (h (2 * x, 2 * y)) in let* g := iput g (2 * x + 1) (2 * y) (h (2 * x + 1, 2 * y)) in
   let* g := iput g (2 * x) (2 * y + 1) (h (2 * x, 2 * y + 1)) in iput (A := A) g (2 * x + 1) (2 * y + 1) (h (2 * x + 1, 2 * y + 1))).
Proof.
  unfold puts, block. cbn [for_each fst snd]. destruct (iput g _ _ _); try reflexivity. cbn [bind]. destruct (iput _ _ _ _); try reflexivity. cbn [bind].
  destruct (iput _ _ _ _); try reflexivity. cbn [bind]. destruct (iput _ _ _ _); reflexivity.
Qed.
Lemma for_each_snoc {B S} (f : B -> S -> res S) l b s : for_each f (l ++ [b]) s = (let* s := for_each f l s in f b s).
Proof. rewrite for_each_app. destruct (for_each f l s) as [t| | |]; try reflexivity. cbn. destruct (f b t); reflexivity. Qed.
Lemma upsample_ok junk src : image_ok src -> 0 < i_w src -> 0 < i_h src -> 4 * (i_w src * i_h src) <= INT_MAX ->
  exists g, upsample avg2 avg4 junk src = Ok g /\ fresh g (2 * i_w src) (2 * i_h src) /\
    forall X Y, in_img g X Y -> pix d g X Y = upsampled avg2 avg4 (pix d src) (i_w src) (i_h src) X Y.
Proof.
  intros G W H M. unfold upsample. pose proof int_rng as [I0 I1]. set (w := i_w src) in *. set (h := i_h src) in *.
  rewrite !chk_int_in by nia. cbn [bind]. destruct (img_new_fresh junk (2 * w) (2 * h)) as (g & E & F); [nia..|]. rewrite E. cbn [bind].
  set (v := fun p : Z * Z => upsampled avg2 avg4 (pix d src) w h (fst p) (snd p)).
  assert (V : forall x y, _) by (intros x y; exact (up_vals (pix d src) w h x y)). fold v in V. cbv zeta in V.
  assert (GET : forall x y, 0 <= x < w -> 0 <= y < h -> iget src x y = Ok (pix d src x y)) by (intros; apply iget_ok; auto; split; auto).
  set (cells := flat_map (fun y => flat_map (fun x => block x y) (zrange 0 w)) (zrange 0 h)).
  match goal with |- exists g', ?t = Ok g' /\ _ => assert (T : t = puts v cells g) end.
  { assert (ZH : zrange 0 h = zrange 0 (h - 1) ++ [h - 1]) by (rewrite <- zrange_snoc by lia; f_equal; lia).
    assert (ZW : zrange 0 w = zrange 0 (w - 1) ++ [w - 1]) by (rewrite <- zrange_snoc by lia; f_equal; lia).
    unfold cells, puts. rewrite <- for_each_flat. rewrite ZH. rewrite for_each_snoc.
    match goal with |- bind ?a _ = bind ?b _ => assert (AB : a = b) end.
    { apply for_each_eq. intros y g1 Y. apply zrange_in in Y. rewrite <- for_each_flat. rewrite ZW. rewrite for_each_snoc.
      match goal with |- bind ?a _ = bind ?b _ => assert (AB : a = b) end.
      { apply for_each_eq. intros x g2 X. apply zrange_in in X. transitivity (puts v (block x y) g2); [|reflexivity]. rewrite puts_block. rewrite !GET by lia. cbn [bind].
        destruct (V x y) as (V1 & V2 & V3 & V4). rewrite V1, V2, V3, V4. destruct (Z.ltb_spec (x + 1) w), (Z.ltb_spec (y + 1) h); try lia. reflexivity. }
      rewrite AB. clear AB. destruct (for_each _ (zrange 0 (w - 1)) g1) as [g2| | |]; try reflexivity. cbn [bind]. transitivity (puts v (block (w - 1) y) g2); [|reflexivity]. rewrite puts_block. rewrite !GET by lia. cbn [bind].
      destruct (V (w - 1) y) as (V1 & V2 & V3 & V4). rewrite V1, V2, V3, V4. destruct (Z.ltb_spec (w - 1 + 1) w), (Z.ltb_spec (y + 1) h); try lia.
      replace (2 * (w - 1)) with (2 * w - 2) by lia. replace (2 * w - 2 + 1) with (2 * w - 1) by lia. reflexivity. }
    rewrite AB. clear AB. destruct (for_each _ (zrange 0 (h - 1)) g) as [g1| | |]; try reflexivity. cbn [bind].
    rewrite <- for_each_flat. rewrite ZW. rewrite for_each_snoc.
    match goal with |- bind ?a _ = bind ?b _ => assert (AB' : a = b) end.
    { apply for_each_eq. intros x g2 X. apply zrange_in in X. transitivity (puts v (block x (h - 1)) g2); [|reflexivity]. rewrite puts_block. rewrite !GET by lia. cbn [bind].
      destruct (V x (h - 1)) as (V1 & V2 & V3 & V4). rewrite V1, V2, V3, V4. destruct (Z.ltb_spec (x + 1) w), (Z.ltb_spec (h - 1 + 1) h); try lia. reflexivity. }
    rewrite AB'. clear AB'. destruct (for_each _ (zrange 0 (w - 1)) g1) as [g2| | |]; try reflexivity. cbn [bind]. transitivity (puts v (block (w - 1) (h - 1)) g2); [|reflexivity]. rewrite puts_block. rewrite !GET by lia. cbn [bind].
    destruct (V (w - 1) (h - 1)) as (V1 & V2 & V3 & V4). rewrite V1, V2, V3, V4. destruct (Z.ltb_spec (w - 1 + 1) w), (Z.ltb_spec (h - 1 + 1) h); try lia.
    replace (2 * (w - 1)) with (2 * w - 2) by lia. replace (2 * w - 2 + 1) with (2 * w - 1) by lia. reflexivity. }
  rewrite T. clear T.
  destruct (puts_all d v cells g) as (g' & E' & S & O & VV & _).
  - apply F.
  - intros [X Y] I. cbn. rewrite (fresh_in _ _ _ _ _ F). unfold cells in I. apply in_flat_map in I as (y & Y0 & I). apply in_flat_map in I as (x & X0 & I).
    apply zrange_in in Y0, X0. unfold block in I. cbn [In] in I. destruct I as [I|[I|[I|[I|[]]]]]; apply pair_equal_spec in I as [? ?]; lia.
  - intros X Y I. rewrite (fresh_in _ _ _ _ _ F) in I. apply in_flat_map. exists (Y / 2). split; [apply zrange_in; Z.div_mod_to_equations; lia|].
    apply in_flat_map. exists (X / 2). split; [apply zrange_in; Z.div_mod_to_equations; lia|]. unfold block. cbn [In].
    assert (X = 2 * (X / 2) \/ X = 2 * (X / 2) + 1) as [EX|EX] by (Z.div_mod_to_equations; lia);
    assert (Y = 2 * (Y / 2) \/ Y = 2 * (Y / 2) + 1) as [EY|EY] by (Z.div_mod_to_equations; lia); rewrite <- EX, <- EY; auto.
  - exists g'. split; [exact E'|]. split; [eapply fresh_shape; eauto|]. intros X Y I. apply (same_shape_in _ _ _ _ S) in I. now rewrite VV.
Qed.
End Up.

(** * Antialiased downsampling *)
Lemma bind_ret {A B} (m : res A) (v : A) (k : A -> res B) : m = Ok v -> bind m k = k v.
Proof. now intros ->. Qed.
Lemma zrange_three dw : 2 <= dw -> zrange 0 dw = 0 :: zrange 1 (dw - 1) ++ [dw - 1].
Proof. intro D. rewrite zrange_cons by lia. f_equal. replace dw with (dw - 1 + 1) at 1 by lia. apply zrange_snoc. lia. Qed.
Section AA.
Context {A : Type}.
Variables (d : A) (first : A -> A -> A -> res A) (mid : A -> A -> A -> A -> A -> res A) (last : A -> A -> A -> A -> res A) (last_odd : A -> A -> A -> A -> A -> res A).
(** [o] is the result of filtering the [n] samples [s]. *)
Definition aa_line (n : Z) (s o : Z -> A) : Prop :=
  first (s 0) (s 1) (s 2) = Ok (o 0) /\
  (forall x, 1 <= x < n / 2 - 1 -> mid (s (2 * x - 2)) (s (2 * x - 1)) (s (2 * x)) (s (2 * x + 1)) (s (2 * x + 2)) = Ok (o x)) /\
  (let x := n / 2 - 1 in
   if 2 * (n / 2) =? n then last (s (2 * x - 2)) (s (2 * x - 1)) (s (2 * x)) (s (2 * x + 1)) = Ok (o x)
   else last_odd (s (2 * x - 2)) (s (2 * x - 1)) (s (2 * x)) (s (2 * x + 1)) (s (2 * x + 2)) = Ok (o x)).
Lemma aa_x_ok junk src (h : Z * Z -> A) : image_ok src -> 4 <= i_w src ->
  (forall y, 0 <= y < i_h src -> aa_line (i_w src) (fun x => pix d src x y) (fun x => h (x, y))) ->
  exists g, aa_x first mid last last_odd junk src = Ok g /\ fresh g (i_w src / 2) (i_h src) /\ (forall x y, in_img g x y -> pix d g x y = h (x, y)).
Proof.
  intros G W4 L. unfold aa_x. pose proof (io_w src G) as W. pose proof (io_h src G) as H. pose proof (size_bound src G) as B.
  rewrite !Z.quot_div_nonneg by lia.
  destruct (img_new_fresh junk (i_w src / 2) (i_h src)) as (g & E & F); [Z.div_mod_to_equations; nia..|]. rewrite E. cbn [bind].
  pose proof F as (FW & FH & FS & FO). rewrite FW, FH. set (n := i_w src) in *. set (dw := n / 2) in *.
  assert (D2 : 2 <= dw /\ 2 * dw <= n <= 2 * dw + 1) by (unfold dw; Z.div_mod_to_equations; lia).
  assert (GET : forall x y, 0 <= x < n -> 0 <= y < i_h src -> iget src x y = Ok (pix d src x y)) by (intros; apply iget_ok; auto; split; auto).
  match goal with |- exists g', ?t = Ok g' /\ _ => assert (T : t = puts h (raster 0 dw 0 (i_h src)) g) end.
  { rewrite puts_raster. unfold scan. apply for_each_eq. intros y g1 Y. apply zrange_in in Y. destruct (L y Y) as (L1 & L2 & L3). cbv beta zeta in L1, L2, L3. fold dw in L2, L3. rewrite (zrange_three dw) by lia. cbn [for_each].
    rewrite !GET by lia. cbn [bind]. rewrite L1. cbn [bind]. destruct (iput g1 0 y (h (0, y))) as [g2| | |]; try reflexivity. cbn [bind]. rewrite for_each_snoc.
    match goal with |- bind ?a _ = bind ?b _ => assert (AB : a = b) end.
    { apply for_each_eq. intros x g3 X. apply zrange_in in X. rewrite !GET by lia. cbn [bind]. rewrite L2 by lia. reflexivity. }
    rewrite AB. clear AB. destruct (for_each _ (zrange 1 (dw - 1)) g2) as [g3| | |]; try reflexivity. cbn [bind].
    replace (2 * (dw - 1) - 2) with (2 * dw - 4) in L3 by lia. replace (2 * (dw - 1) - 1) with (2 * dw - 3) in L3 by lia.
    replace (2 * (dw - 1) + 1) with (2 * dw - 1) in L3 by lia. replace (2 * (dw - 1) + 2) with (2 * dw) in L3 by lia. replace (2 * (dw - 1)) with (2 * dw - 2) in L3 by lia.
    cbv zeta.
    destruct (Z.eqb_spec (2 * dw) n); rewrite ?GET by lia; cbn [bind]; rewrite L3; reflexivity. }
  rewrite T. clear T. destruct (puts_all d h (raster 0 dw 0 (i_h src)) g) as (g' & E' & S & O & VV & _).
  - exact FO.
  - intros [x y] I. apply raster_in in I. rewrite (fresh_in _ _ _ _ _ F). exact I.
  - intros x y I. rewrite (fresh_in _ _ _ _ _ F) in I. now apply raster_in.
  - exists g'. split; [exact E'|]. split; [eapply fresh_shape; eauto|]. intros x y I. apply (same_shape_in _ _ _ _ S) in I. now rewrite VV.
Qed.
Definition columns (w h : Z) : list (Z * Z) := flat_map (fun x => map (fun y => (x, y)) (zrange 0 h)) (zrange 0 w).
Lemma columns_in w h x y : In (x, y) (columns w h) <-> 0 <= x < w /\ 0 <= y < h.
Proof.
  unfold columns. rewrite in_flat_map. split.
  - intros (x' & X & I). apply in_map_iff in I as (y' & E & Y). apply zrange_in in X, Y. apply pair_equal_spec in E as [-> ->]. auto.
  - intros [X Y]. exists x. split; [now apply zrange_in|]. apply in_map_iff. exists y. split; auto. now apply zrange_in.
Qed.
Lemma puts_columns {B} (h : Z * Z -> B) w ht g : puts h (columns w ht) g = for_each (fun x => for_each (fun y g => iput g x y (h (x, y))) (zrange 0 ht)) (zrange 0 w) g.
Proof. unfold puts, columns. rewrite <- for_each_flat. apply for_each_eq. intros x g1 _. now rewrite for_each_map. Qed.
Lemma aa_y_ok junk src (h : Z * Z -> A) : image_ok src -> 4 <= i_h src ->
  (forall x, 0 <= x < i_w src -> aa_line (i_h src) (fun y => pix d src x y) (fun y => h (x, y))) ->
  exists g, aa_y first mid last last_odd junk src = Ok g /\ fresh g (i_w src) (i_h src / 2) /\ (forall x y, in_img g x y -> pix d g x y = h (x, y)).
Proof.
  intros G W4 L. unfold aa_y. pose proof (io_w src G) as W. pose proof (io_h src G) as H. pose proof (size_bound src G) as B.
  rewrite !Z.quot_div_nonneg by lia.
  destruct (img_new_fresh junk (i_w src) (i_h src / 2)) as (g & E & F); [Z.div_mod_to_equations; nia..|]. rewrite E. cbn [bind].
  pose proof F as (FW & FH & FS & FO). rewrite FW, FH. set (n := i_h src) in *. set (dh := n / 2) in *.
  assert (D2 : 2 <= dh /\ 2 * dh <= n <= 2 * dh + 1) by (unfold dh; Z.div_mod_to_equations; lia).
  assert (GET : forall x y, 0 <= x < i_w src -> 0 <= y < n -> iget src x y = Ok (pix d src x y)) by (intros; apply iget_ok; auto; split; auto).
  match goal with |- exists g', ?t = Ok g' /\ _ => assert (T : t = puts h (columns (i_w src) dh) g) end.
  { rewrite puts_columns. apply for_each_eq. intros y g1 Y. apply zrange_in in Y. destruct (L y Y) as (L1 & L2 & L3). cbv beta zeta in L1, L2, L3. fold dh in L2, L3. rewrite (zrange_three dh) by lia. cbn [for_each].
    rewrite !GET by lia. cbn [bind]. rewrite L1. cbn [bind]. destruct (iput g1 y 0 (h (y, 0))) as [g2| | |]; try reflexivity. cbn [bind]. rewrite for_each_snoc.
    match goal with |- bind ?a _ = bind ?b _ => assert (AB : a = b) end.
    { apply for_each_eq. intros x g3 X. apply zrange_in in X. rewrite !GET by lia. cbn [bind]. rewrite L2 by lia. reflexivity. }
    rewrite AB. clear AB. destruct (for_each _ (zrange 1 (dh - 1)) g2) as [g3| | |]; try reflexivity. cbn [bind].
    replace (2 * (dh - 1) - 2) with (2 * dh - 4) in L3 by lia. replace (2 * (dh - 1) - 1) with (2 * dh - 3) in L3 by lia.
    replace (2 * (dh - 1) + 1) with (2 * dh - 1) in L3 by lia. replace (2 * (dh - 1) + 2) with (2 * dh) in L3 by lia. replace (2 * (dh - 1)) with (2 * dh - 2) in L3 by lia.
    cbv zeta. destruct (Z.eqb_spec (2 * dh) n); rewrite ?GET by lia; cbn [bind]; rewrite L3; reflexivity. }
  rewrite T. clear T. destruct (puts_all d h (columns (i_w src) dh) g) as (g' & E' & S & O & VV & _).
  - exact FO.
  - intros [x y] I. apply columns_in in I. rewrite (fresh_in _ _ _ _ _ F). exact I.
  - intros x y I. rewrite (fresh_in _ _ _ _ _ F) in I. now apply columns_in.
  - exists g'. split; [exact E'|]. split; [eapply fresh_shape; eauto|]. intros x y I. apply (same_shape_in _ _ _ _ S) in I. now rewrite VV.
Qed.
End AA.
(** The product with the rounded 1/25 truncates to the integer quotient. *)
Lemma norm_val : NORM = FF (10737418 * 2 ^ 121).
Proof. vm_compute. reflexivity. Qed.
Lemma norm_mult q : 0 <= q <= 255 -> rnd (25 * q * U * (10737418 * 2 ^ 121)) U = q * U.
Proof.
  intro Q. pose proof U_pos as UP. destruct (Z.eq_dec q 0) as [->|NZ]; [apply rnd_zero, UP|].
  pose proof (Z.log2_spec q ltac:(lia)) as [L1 L2]. pose proof (Z.log2_nonneg q) as L0. assert (L7 : Z.log2 q <= 7) by (change 7 with (Z.log2 255); apply Z.log2_le_mono; lia).
  set (l := Z.log2 q) in *. clearbody l. replace (Z.succ l) with (l + 1) in L2 by lia. rewrite Z.pow_add_r in L2 by lia. change (2 ^ 1) with 2 in L2.
  set (T := 2 ^ 121). assert (TP : 0 < T) by reflexivity. assert (UT : U = 268435456 * T) by reflexivity.
  assert (P1 : 2 ^ (l + 126) = 32 * 2 ^ l * T) by (replace (l + 126) with (5 + l + 121) by lia; rewrite !Z.pow_add_r by lia; reflexivity).
  assert (P2 : 2 ^ (23 - l) * 2 ^ l = 8388608) by (rewrite <- Z.pow_add_r by lia; replace (23 - l + l) with 23 by lia; reflexivity).
  assert (P3 : 0 < 2 ^ (23 - l)) by (apply Z.pow_pos_nonneg; lia). assert (P4 : 0 < 2 ^ l) by (apply Z.pow_pos_nonneg; lia).
  assert (E : q * U = q * 2 ^ (23 - l) * 2 ^ (l + 126)) by (rewrite P1, UT; transitivity (q * (2 ^ (23 - l) * 2 ^ l) * 32 * T); [rewrite P2; ring|ring]).
  assert (DIFF : Z.abs (25 * q * U * (10737418 * T) - q * 2 ^ (23 - l) * 2 ^ (l + 126) * U) = 6 * q * (T * U)).
  { rewrite <- E. replace (25 * q * U * (10737418 * T) - q * U * U) with (- (6 * q * (T * U))) by (rewrite UT; ring). rewrite Z.abs_opp. apply Z.abs_eq. nia. }
  rewrite E. apply rnd_near; try lia.
  - nia.
  - intro A0. change (2 ^ 23) with 8388608 in A0. assert (Q0 : q = 2 ^ l) by (set (a := 2 ^ (23 - l)) in *; set (b := 2 ^ l) in *; clearbody a b; nia). rewrite DIFF, P1. set (TU := T * U) in *. assert (0 < TU) by (unfold TU; nia).
    replace (32 * 2 ^ l * T * U) with (32 * 2 ^ l * TU) by (unfold TU; ring). clearbody TU. set (b := 2 ^ l) in *. clearbody b. nia.
Qed.
Lemma aa_uc_div s : 0 <= s <= 25 * 255 -> aa_uc s = Ok (s / 25).
Proof.
  intro B. unfold aa_uc, to_uc. rewrite norm_val, of_int_exact by (unfold small24; change (2 ^ 24) with 16777216; lia). unfold fmul, mkf. pose proof U_pos as UP.
  set (q := s / 25). assert (QD : 25 * q <= s <= 25 * q + 24) by (unfold q; Z.div_mod_to_equations; lia). assert (Q : 0 <= q <= 255) by lia. clearbody q.
  pose proof (norm_mult q Q) as NM. set (T := 2 ^ 121) in *. assert (TP : 0 < T) by reflexivity. assert (UT : U = 268435456 * T) by reflexivity.
  rewrite Z.abs_eq by nia. replace (s * U * (10737418 * T)) with (s * (10737418 * T) * U) in * by ring. replace (25 * q * U * (10737418 * T)) with (25 * q * (10737418 * T) * U) in NM by ring.
  assert (LO : q * U <= rnd (s * (10737418 * T) * U) U).
  { rewrite <- NM. apply rnd_mono; try nia. }
  set (V := 2 ^ 133). assert (VP : 0 < V) by reflexivity. assert (VT : V = 4096 * T) by reflexivity.
  assert (HI : rnd (s * (10737418 * T) * U) U <= ((q + 1) * 65536 - 1) * V).
  { unfold V. apply rnd_le; [nia|nia|lia|change (2 ^ 24) with 16777216; lia|]. fold V. apply Z.mul_le_mono_nonneg_r; [lia|]. rewrite VT, !Z.mul_assoc. apply Z.mul_le_mono_nonneg_r; lia. }
  assert (ZN : s = 0 -> rnd (s * (10737418 * T) * U) U = 0) by (intros ->; apply rnd_zero; nia).
  assert (SG : Z.sgn (s * (10737418 * T) * U) = Z.sgn s).
  { rewrite !Z.sgn_mul. rewrite (Z.sgn_pos T), (Z.sgn_pos U) by lia. cbn [Z.sgn]. lia. } rewrite SG.
  set (m := rnd (s * (10737418 * T) * U) U) in *. clearbody m.
  assert (M277 : m < 2 ^ 277).
  { assert (m < 256 * U) by nia. assert (256 * U < 2 ^ 277) by reflexivity. lia. }
  destruct (Z.ltb_spec m (2 ^ 277)); [|lia]. assert (SM : Z.sgn s * m = m).
  { destruct (Z.eq_dec s 0) as [->|NZ]; [rewrite ZN by reflexivity; reflexivity|rewrite Z.sgn_pos by lia; lia]. }
  rewrite SM. cbn [to_int]. assert (EQ : Z.quot m U = q) by (rewrite Z.quot_div_nonneg by nia; symmetry; apply Z.div_unique with (r := m - q * U); nia). rewrite EQ.
  rewrite chk_int_in by (pose proof int_rng as [-> _]; cbv delta [INT_MAX]; lia). cbn [bind]. destruct (Z.leb_spec 0 q), (Z.leb_spec q 255); cbn [andb]; try lia. reflexivity.
Qed.
Lemma aa_line_uc n s : 4 <= n -> (forall i, 0 <= i < n -> 0 <= s i <= 255) -> aa_line uc_first uc_mid uc_last uc_mid n s (fun x => five_tap n s (2 * x) / 25).
Proof.
  intros N B. unfold aa_line, uc_first, uc_mid, uc_last. set (dn := n / 2).
  assert (D2 : 2 <= dn /\ 2 * dn <= n <= 2 * dn + 1) by (unfold dn; Z.div_mod_to_equations; lia). clearbody dn.
  assert (IN : forall i, 0 <= i < n -> extended 0 BMirror n s i = s i) by (intros i I; unfold extended; destruct (Z.leb_spec 0 i), (Z.ltb_spec i n); try lia; reflexivity).
  assert (LO : forall i, - n < i < 0 -> extended 0 BMirror n s i = s (- i)) by (intros i I; unfold extended; destruct (Z.leb_spec 0 i), (Z.ltb_spec i 0); try lia; reflexivity).
  assert (HI : extended 0 BMirror n s n = s (n - 2)).
  { unfold extended. destruct (Z.leb_spec 0 n), (Z.ltb_spec n n), (Z.ltb_spec n 0); try lia. cbn [andb]. f_equal. lia. }
  unfold five_tap. cbv zeta. split; [|split].
  - rewrite (LO (2 * 0 - 2)), (LO (2 * 0 - 1)), (IN (2 * 0)), (IN (2 * 0 + 1)), (IN (2 * 0 + 2)) by lia. replace (- (2 * 0 - 2)) with 2 by lia. replace (- (2 * 0 - 1)) with 1 by lia. replace (2 * 0 + 1) with 1 by lia. replace (2 * 0 + 2) with 2 by lia. replace (2 * 0) with 0 by lia. pose proof (B 0 ltac:(lia)). pose proof (B 1 ltac:(lia)). pose proof (B 2 ltac:(lia)). rewrite aa_uc_div by lia. do 2 f_equal. lia.
  - intros x X. rewrite !IN by lia. pose proof (B (2 * x - 2) ltac:(lia)). pose proof (B (2 * x - 1) ltac:(lia)). pose proof (B (2 * x) ltac:(lia)). pose proof (B (2 * x + 1) ltac:(lia)). pose proof (B (2 * x + 2) ltac:(lia)).
    rewrite aa_uc_div by lia. do 2 f_equal. lia.
  - pose proof (B (2 * (dn - 1) - 2) ltac:(lia)). pose proof (B (2 * (dn - 1) - 1) ltac:(lia)). pose proof (B (2 * (dn - 1)) ltac:(lia)). pose proof (B (2 * (dn - 1) + 1) ltac:(lia)).
    destruct (Z.eqb_spec (2 * dn) n) as [EN|NN].
    + replace (2 * (dn - 1) + 2) with n by lia. rewrite HI. replace (n - 2) with (2 * (dn - 1)) by lia. rewrite !IN by lia. rewrite aa_uc_div by lia. do 2 f_equal. lia.
    + pose proof (B (2 * (dn - 1) + 2) ltac:(lia)). rewrite !IN by lia. rewrite aa_uc_div by lia. do 2 f_equal. lia.
Qed.

(** * Derivatives *)
Section Deriv.
Context {A : Type}.
Variables (d : A) (edge inner : A -> A -> flt).
Local Notation derivative := (ImgSpec.derivative edge inner).
Lemma deriv_x_ok junk src : image_ok src -> 2 <= i_w src ->
  exists g, deriv_x edge inner junk src = Ok g /\ fresh g (i_w src) (i_h src) /\
    forall x y, in_img g x y -> pix F0 g x y = derivative (i_w src) (fun x => pix d src x y) x.
Proof.
  intros G W2. unfold deriv_x. pose proof (io_w src G) as W. pose proof (io_h src G) as H. pose proof (size_bound src G) as B.
  destruct (img_new_fresh junk (i_w src) (i_h src)) as (g & E & F); [lia..|]. rewrite E. cbn [bind].
  pose proof F as (FW & FH & FS & FO). set (n := i_w src) in *.
  assert (GET : forall x y, 0 <= x < n -> 0 <= y < i_h src -> iget src x y = Ok (pix d src x y)) by (intros; apply iget_ok; auto; split; auto).
  set (h := fun p : Z * Z => derivative n (fun x => pix d src x (snd p)) (fst p)).
  assert (IW : forall g1 x y v g2, iput g1 x y v = Ok g2 -> i_w (A := flt) g2 = i_w g1).
  { intros g1 x y v g2. unfold iput. destruct (chk_int _); try discriminate. cbn [bind]. destruct (zset _ _ _); try discriminate. cbn [bind]. intro Q. now injection Q as <-. }
  assert (FE : forall l f g1 g2, (forall x a b, f x a = Ok b -> i_w (A := flt) b = i_w a) -> for_each (A := Z) f l g1 = Ok g2 -> i_w g2 = i_w g1).
  { induction l as [|x l IH]; intros f g1 g2 P Q; [cbn in Q; now injection Q as <-|]. cbn [for_each] in Q. destruct (f x g1) as [g3| | |] eqn:EF; try discriminate. cbn [bind] in Q.
    apply IH in Q; auto. rewrite Q. eapply P; eauto. }
  assert (T : forall g1, i_w g1 = n -> for_each (fun y dest =>
    let* b := iget src 1 y in
    let* a := iget src 0 y in
    let* dest := iput dest 0 y (edge a b) in
    let* dest := for_each (fun x dest =>
      let* b := iget src (x + 1) y in
      let* a := iget src (x - 1) y in
      iput dest x y (inner a b)) (zrange 1 (i_w dest - 1)) dest in
    let* b := iget src (n - 1) y in
    let* a := iget src (n - 2) y in
    iput dest (i_w dest - 1) y (edge a b)) (zrange 0 (i_h src)) g1 = puts h (raster 0 n 0 (i_h src)) g1).
  { intros g0 W0. rewrite puts_raster. unfold scan.
    assert (SUB : forall l, (forall y, In y l -> 0 <= y < i_h src) -> forall g1, i_w g1 = n ->
      for_each (fun y dest => let* b := iget src 1 y in let* a := iget src 0 y in let* dest := iput dest 0 y (edge a b) in
        let* dest := for_each (fun x dest => let* b := iget src (x + 1) y in let* a := iget src (x - 1) y in iput dest x y (inner a b)) (zrange 1 (i_w dest - 1)) dest in
        let* b := iget src (n - 1) y in let* a := iget src (n - 2) y in iput dest (i_w dest - 1) y (edge a b)) l g1 =
      for_each (fun y => for_each (fun x g => iput g x y (h (x, y))) (zrange 0 n)) l g1).
    { induction l as [|y l IH]; intros I g1 W1; [reflexivity|]. cbn [for_each]. pose proof (I y ltac:(now left)) as Y.
      assert (R : (let* b := iget src 1 y in let* a := iget src 0 y in let* dest := iput g1 0 y (edge a b) in
        let* dest := for_each (fun x dest => let* b := iget src (x + 1) y in let* a := iget src (x - 1) y in iput dest x y (inner a b)) (zrange 1 (i_w dest - 1)) dest in
        let* b := iget src (n - 1) y in let* a := iget src (n - 2) y in iput dest (i_w dest - 1) y (edge a b)) = for_each (fun x g => iput g x y (h (x, y))) (zrange 0 n) g1).
      { rewrite !GET by lia. cbn [bind]. rewrite (zrange_three n) by lia. cbn [for_each].
        unfold h at 1. unfold ImgSpec.derivative at 1. cbn [fst snd Z.eqb].
        destruct (iput g1 0 y _) as [g2| | |] eqn:E2; try reflexivity. cbn [bind]. apply IW in E2. rewrite for_each_snoc.
        match goal with |- bind ?a _ = bind ?b _ => assert (AB : a = b) end.
        { rewrite E2, W1. apply for_each_eq. intros x g3 X. apply zrange_in in X. rewrite !GET by lia. cbn [bind]. unfold h, ImgSpec.derivative. cbn [fst snd].
          destruct (Z.eqb_spec x 0), (Z.eqb_spec x (n - 1)); try lia. reflexivity. }
        rewrite AB. clear AB. destruct (for_each _ (zrange 1 (n - 1)) g2) as [g3| | |] eqn:E3; try reflexivity. cbn [bind].
        apply FE in E3; [|intros; eapply IW; eauto]. rewrite E3, E2, W1. unfold h, ImgSpec.derivative. cbn [fst snd].
        destruct (Z.eqb_spec (n - 1) 0); [lia|]. rewrite Z.eqb_refl. reflexivity. }
      rewrite R. destruct (for_each _ (zrange 0 n) g1) as [g2| | |] eqn:E2; try reflexivity. cbn [bind]. apply IH; [intros; apply I; now right|].
      apply FE in E2; [congruence|]. intros; eapply IW; eauto. }
    apply SUB; auto. intros y. apply zrange_in. }
  rewrite T by congruence. clear T. destruct (puts_all F0 h (raster 0 n 0 (i_h src)) g) as (g' & E' & S & O & VV & _).
  - exact FO.
  - intros [x y] I. apply raster_in in I. rewrite (fresh_in _ _ _ _ _ F). exact I.
  - intros x y I. rewrite (fresh_in _ _ _ _ _ F) in I. now apply raster_in.
  - exists g'. split; [exact E'|]. split; [eapply fresh_shape; eauto|]. intros x y I. apply (same_shape_in _ _ _ _ S) in I. now rewrite VV.
Qed.
(** The last row of the result, when the rows of the source are [ds] apart but
    the code takes them to be i_w apart. *)
Definition last_row (src : image A) (x : Z) : flt :=
  let at_row k := nth (Z.to_nat (x + k * i_w src)) (i_data src) d in edge (at_row (i_h src - 2)) (at_row (i_h src - 1)).
Lemma deriv_y_ok src : image_ok src -> 2 <= i_h src ->
  exists g, deriv_y edge inner src = Ok g /\ fresh g (i_w src) (i_h src) /\ (forall x y, in_img g x y -> pix F0 g x y = if y =? i_h src - 1 then last_row src x else derivative (i_h src) (fun y => pix d src x y) y).
Proof.
  intros G H2. unfold deriv_y. pose proof (io_w src G) as W. pose proof (io_h src G) as H. pose proof (size_bound src G) as B. pose proof (io_len src G) as LEN. pose proof int_rng as [I0 I1].
  destruct (img_new_fresh (fun _ => F0) (i_w src) (i_h src)) as (g & E & F); [lia..|]. rewrite E. cbn [bind].
  pose proof F as (FW & FH & FS & FO). rewrite FS. set (w := i_w src) in *. set (n := i_h src) in *.
  assert (GET : forall x y, 0 <= x < w -> 0 <= y < n -> iget src x y = Ok (pix d src x y)) by (intros; apply iget_ok; auto; split; auto).
  set (h := fun p : Z * Z => if snd p =? n - 1 then last_row src (fst p) else derivative n (fun y => pix d src (fst p) y) (snd p)).
  match goal with |- exists g', ?t = Ok g' /\ _ => assert (T : t = puts h (raster 0 w 0 n) g) end.
  { rewrite puts_raster. unfold scan. rewrite (zrange_three n) by lia. cbn [for_each].
    match goal with |- bind ?a _ = bind ?b _ => assert (AB : a = b) end.
    { apply for_each_eq. intros x g1 X. apply zrange_in in X. rewrite !GET by lia. cbn [bind]. unfold h, ImgSpec.derivative. cbn [fst snd].
      destruct (Z.eqb_spec 0 (n - 1)); [lia|]. reflexivity. }
    rewrite AB. clear AB. destruct (for_each _ (zrange 0 w) g) as [g1| | |]; try reflexivity. cbn [bind]. rewrite for_each_snoc.
    match goal with |- bind ?a _ = bind ?b _ => assert (AB : a = b) end.
    { apply for_each_eq. intros y g2 Y. apply zrange_in in Y. apply for_each_eq. intros x g3 X. apply zrange_in in X. rewrite !GET by lia. cbn [bind]. unfold h, ImgSpec.derivative. cbn [fst snd].
      destruct (Z.eqb_spec y (n - 1)), (Z.eqb_spec y 0); try lia. reflexivity. }
    rewrite AB. clear AB. destruct (for_each _ (zrange 1 (n - 1)) g1) as [g2| | |]; try reflexivity. cbn [bind].
    apply for_each_eq. intros x g3 X. apply zrange_in in X. rewrite !chk_int_in by nia. cbn [bind]. rewrite !(zget_lt _ _ d) by (rewrite LEN; nia). cbn [bind].
    unfold h, last_row. cbn [fst snd]. rewrite Z.eqb_refl. reflexivity. }
  rewrite T. clear T. destruct (puts_all F0 h (raster 0 w 0 n) g) as (g' & E' & S & O & VV & _).
  - exact FO.
  - intros [x y] I. apply raster_in in I. rewrite (fresh_in _ _ _ _ _ F). exact I.
  - intros x y I. rewrite (fresh_in _ _ _ _ _ F) in I. now apply raster_in.
  - exists g'. split; [exact E'|]. split; [eapply fresh_shape; eauto|]. intros x y I. apply (same_shape_in _ _ _ _ S) in I. now rewrite VV.
Qed.
Lemma last_row_derivative src x : 2 <= i_h src -> i_stride src = i_w src -> last_row src x = derivative (i_h src) (fun y => pix d src x y) (i_h src - 1).
Proof.
  intros H S. unfold last_row, derivative, pix. rewrite S. destruct (Z.eqb_spec (i_h src - 1) 0); [lia|]. rewrite Z.eqb_refl. now rewrite !(Z.add_comm x).
Qed.
End Deriv.

(** * Values *)
Lemma convert_uc_f32_ok junk src : image_ok src ->
  exists g, convert_uc_f32 junk src = Ok g /\ fresh g (i_w src) (i_h src) /\ forall x y, in_img g x y -> pix F0 g x y = fdiv (of_int (pix 0 src x y)) F255.
Proof.
  intros G. unfold convert_uc_f32. pose proof (io_w src G) as W. pose proof (io_h src G) as H. pose proof (size_bound src G) as B.
  destruct (img_new_fresh junk (i_w src) (i_h src)) as (g & E & F); [lia..|]. rewrite E. cbn [bind].
  destruct (scan_fill_all F0 (fun x y _ => let* u := iget src x y in Ok (fdiv (of_int u) F255)) (fun x y => fdiv (of_int (pix 0 src x y)) F255) g) as (g' & E' & S & O & V & _); [apply F| |].
  - intros x y g' I _ _ _. rewrite (iget_ok 0); [reflexivity|exact G|]. now rewrite (fresh_in _ _ _ _ _ F) in I.
  - exists g'. split; [exact E'|]. split; [eapply fresh_shape; eauto|]. intros x y I. apply V. now rewrite <- (same_shape_in _ _ _ _ S).
Qed.
Lemma convert_f32_uc_ok junk src (p : Z -> Z -> Z) : image_ok src -> (forall x y, in_img src x y -> to_int (fmul (pix F0 src x y) F255) = Ok (p x y)) ->
  exists g, convert_f32_uc junk src = Ok g /\ fresh g (i_w src) (i_h src) /\ forall x y, in_img g x y -> pix 0 g x y = 0.
Proof.
  intros G C. unfold convert_f32_uc. pose proof (io_w src G) as W. pose proof (io_h src G) as H. pose proof (size_bound src G) as B.
  destruct (img_new_fresh junk (i_w src) (i_h src)) as (g & E & F); [lia..|]. rewrite E. cbn [bind].
  destruct (scan_fill_all 0 (fun x y _ => let* f := iget src x y in let* value := to_int (fmul f F255) in Ok (Z.min 0 (Z.max 255 value) mod 256)) (fun x y => 0) g) as (g' & E' & S & O & V & _); [apply F| |].
  - intros x y g' I _ _ _. assert (IS : in_img src x y) by now rewrite (fresh_in _ _ _ _ _ F) in I.
    rewrite (iget_ok F0) by auto. cbn [bind]. rewrite (C x y IS). cbn [bind]. replace (Z.min 0 (Z.max 255 (p x y))) with 0 by lia. reflexivity.
  - exists g'. split; [exact E'|]. split; [eapply fresh_shape; eauto|]. intros x y I. apply V. now rewrite <- (same_shape_in _ _ _ _ S).
Qed.
Lemma axpy_uc_ok img a y0 (p : Z -> Z) : image_ok img -> byte_img img -> (forall u, 0 <= u <= 255 -> to_int (fadd (fmul a (of_int u)) y0) = Ok (p u)) ->
  exists g, axpy_uc img a y0 = Ok g /\ same_shape g img /\ image_ok g /\ byte_img g /\ forall x y, in_img img x y -> pix 0 g x y = clamp_byte (p (pix 0 img x y)).
Proof.
  intros G BI C. unfold axpy_uc.
  assert (PB : forall x y, in_img img x y -> 0 <= pix 0 img x y <= 255).
  { intros x y I. destruct (pix_index img x y G I) as [J _]. unfold byte_img in BI. rewrite Forall_forall in BI. apply BI, nth_In. lia. }
  destruct (scan_fill_all 0 (fun x y img => let* u := iget img x y in let* p := to_int (fadd (fmul a (of_int u)) y0) in
      Ok (if p <? 0 then 0 else if 255 <? p then 255 else p)) (fun x y => clamp_byte (p (pix 0 img x y))) img) as (g' & E' & S & O & V & Q); [exact G| |].
  - intros x y g I S O P. rewrite (iget_ok 0); [|exact O|now rewrite same_shape_in by exact S]. cbn [bind]. rewrite P, C by auto. cbn [bind]. f_equal. unfold clamp_byte.
    destruct (Z.ltb_spec (p (pix 0 img x y)) 0); [lia|]. destruct (Z.ltb_spec 255 (p (pix 0 img x y))); lia.
  - exists g'. split; [exact E'|]. split; [exact S|]. split; [exact O|]. split; [|exact V]. apply Q; [exact BI|]. intros. unfold clamp_byte. lia.
Qed.
Lemma axpy_f32_ok img a y0 : image_ok img ->
  exists g, axpy_f32 img a y0 = Ok g /\ same_shape g img /\ image_ok g /\ forall x y, in_img img x y -> pix F0 g x y = fadd (fmul a (pix F0 img x y)) y0.
Proof.
  intros G. unfold axpy_f32.
  destruct (scan_fill_all F0 (fun x y img => let* u := iget img x y in Ok (fadd (fmul a u) y0)) (fun x y => fadd (fmul a (pix F0 img x y)) y0) img) as (g' & E' & S & O & V & Q); [exact G| |].
  - intros x y g I S O P. rewrite (iget_ok F0); [|exact O|now rewrite same_shape_in by exact S]. cbn [bind]. now rewrite P.
  - exists g'. auto.
Qed.
Lemma subtract_ok {A} (d : A) diff junk img0 img1 : image_ok img0 -> image_ok img1 ->
  exists g, subtract diff junk img0 img1 = Ok g /\ fresh g (Z.min (i_w img0) (i_w img1)) (Z.min (i_h img0) (i_h img1)) /\
    forall x y, in_img g x y -> pix F0 g x y = diff (pix d img0 x y) (pix d img1 x y).
Proof.
  intros G0 G1. unfold subtract. cbv zeta. pose proof (io_w _ G0) as W0. pose proof (io_w _ G1) as W1. pose proof (io_h _ G0) as H0. pose proof (io_h _ G1) as H1. pose proof (size_bound _ G0) as B0.
  destruct (img_new_fresh junk (Z.min (i_w img0) (i_w img1)) (Z.min (i_h img0) (i_h img1))) as (g & E & F); [nia..|]. rewrite E. cbn [bind].
  pose proof F as (FW & FH & _).
  destruct (scan_fill_all F0 (fun x y _ => let* a := iget img0 x y in let* b := iget img1 x y in Ok (diff a b)) (fun x y => diff (pix d img0 x y) (pix d img1 x y)) g) as (g' & E' & S & O & V & _); [apply F| |].
  - intros x y g' I _ _ _. rewrite (fresh_in _ _ _ _ _ F) in I. rewrite (iget_ok d img0), (iget_ok d img1); auto; split; lia.
  - exists g'. rewrite FW, FH in E'. split; [exact E'|]. split; [eapply fresh_shape; eauto|]. intros x y I. apply V. now rewrite <- (same_shape_in _ _ _ _ S).
Qed.
