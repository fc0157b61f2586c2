From Verif Require Import Base BaseLemmas Gray Img Flt FilterModel FilterSpec FilterProofs ImgModel ImgSpec ImgProofs PnmModel PnmSpec PnmProofs PnmRead PnmSave.
Local Open Scope Z_scope.

Lemma scan_cells w h t (hv : Z * Z -> N) f g0 : fresh g0 (n_ch t * w) h -> (forall x y g, 0 <= x < w -> 0 <= y < h -> f x y g = puts hv (cells_of t x y) g) ->
  exists g, scan 0 w 0 h f g0 = Ok g /\ fresh g (n_ch t * w) h /\ forall X Y, in_img g0 X Y -> pix 0%N g X Y = hv (X, Y).
Proof.
  intros F E. rewrite scan_raster. set (R := raster 0 w 0 h).
  assert (ER : for_each (fun p => f (fst p) (snd p)) R g0 = puts hv (flat_map (fun p => cells_of t (fst p) (snd p)) R) g0).
  { unfold puts. rewrite <- for_each_flat. apply for_each_eq. intros [x y] g I. apply raster_in in I as [X Y]. apply E; auto. }
  rewrite ER. destruct (puts_all 0%N hv (flat_map (fun p => cells_of t (fst p) (snd p)) R) g0) as (g & EG & S & O & V & _).
  - apply F.
  - intros p I. apply in_flat_map in I as ([x y] & I1 & I2). apply raster_in in I1 as [X Y]. cbn [fst snd] in I2. rewrite (fresh_in _ _ _ _ _ F). destruct (cells_in t w x y p X I2) as [I3 ->]. auto.
  - intros X Y I. rewrite (fresh_in _ _ _ _ _ F) in I. destruct (cells_cover t w X Y (proj1 I)) as (x & HX & IC). apply in_flat_map. exists (x, Y). split; [apply raster_in; tauto|exact IC].
  - exists g. split; [exact EG|]. split; [eapply fresh_shape; eauto|exact V].
Qed.

Lemma to_rgba_ok u g0 : u_ok u -> u_type u = GRAY -> 4 * u_w u <= INT_MAX -> fresh g0 (4 * u_w u) (u_h u) ->
  exists g, gray_to_rgba (u_w u) (u_h u) g0 (u_px u) = Ok g /\ sized (mkU RGBA (u_w u) g) RGBA (u_w u) (u_h u) /\ forall x y, in_uimg u x y -> same_colour u (mkU RGBA (u_w u) g) x y.
Proof.
  intros G T M F. pose proof (uo_w u G) as W. pose proof (uo_h u G) as H. pose proof (io_h _ (uo_px u G)) as H0.
  set (hv := fun p : Z * Z => if fst p mod 4 =? 3 then 255%N else sample u (fst p / 4) (snd p) 0).
  destruct (scan_cells (u_w u) (u_h u) RGBA hv (fun x y rgba =>
    let* v := iget (u_px u) x y in
    let* rgba := iput rgba (4 * x) y v in
    let* rgba := iput rgba (4 * x + 1) y v in
    let* rgba := iput rgba (4 * x + 2) y v in
    iput rgba (4 * x + 3) y 255%N) g0 F) as (g & E & F' & V).
  - intros x y g X Y. pose proof (sample_get u x y 0 G (conj X Y)) as SG. rewrite T in SG. cbn [n_ch] in SG. replace (1 * x + 0) with x in SG by lia. rewrite SG by lia. cbn [bind].
    pose proof (quad x) as (Q0 & Q1 & Q2 & Q3 & D0 & D1 & D2 & D3). symmetry. apply puts4; unfold hv; cbn [fst snd]; rewrite ?Q0, ?Q1, ?Q2, ?Q3, ?D0, ?D1, ?D2, ?D3; reflexivity.
  - exists g. split; [exact E|]. split; [apply sized_of; cbn [n_ch]; auto; lia|]. intros x y [X Y]. unfold same_colour. rewrite T. cbn [u_type].
    assert (P : forall c, 0 <= c < 4 -> sample (mkU RGBA (u_w u) g) x y c = hv (4 * x + c, y)).
    { intros c C. unfold sample. cbn [u_px u_type n_ch]. apply V. rewrite (fresh_in _ _ _ _ _ F). cbn [n_ch]. lia. }
    pose proof (quad x) as (Q0 & Q1 & Q2 & Q3 & D0 & D1 & D2 & D3). split; [|rewrite P by lia; unfold hv; cbn [fst]; rewrite Q3; reflexivity].
    intros c C. rewrite P by lia. unfold hv. cbn [fst snd]. assert ((4 * x + c) mod 4 = c /\ (4 * x + c) / 4 = x) as [-> ->] by (split; Z.div_mod_to_equations; lia). destruct (Z.eqb_spec c 3); [lia|reflexivity].
Qed.
Lemma to_gray_ok u g0 : u_ok u -> u_type u = RGBA -> byte_samples u -> fresh g0 (u_w u) (u_h u) ->
  exists g, rgba_to_gray (u_w u) (u_h u) g0 (u_px u) = Ok g /\ sized (mkU GRAY (u_w u) g) GRAY (u_w u) (u_h u) /\ forall x y, in_uimg u x y -> same_colour u (mkU GRAY (u_w u) g) x y.
Proof.
  intros G T B F. pose proof (uo_w u G) as W. pose proof (uo_h u G) as H. pose proof (io_h _ (uo_px u G)) as H0.
  assert (F1 : fresh g0 (n_ch GRAY * u_w u) (u_h u)) by (cbn [n_ch]; rewrite Z.mul_1_l; exact F).
  set (hv := fun p : Z * Z => match rgb_to_gray (sample u (fst p) (snd p) 0) (sample u (fst p) (snd p) 1) (sample u (fst p) (snd p) 2) with Ok v => v | _ => 0%N end).
  assert (LU : forall x y, in_uimg u x y -> rgb_to_gray (sample u x y 0) (sample u x y 1) (sample u x y 2) = Ok (hv (x, y))).
  { intros x y I. unfold hv. cbn [fst snd]. assert (BB : forall c, 0 <= c < 4 -> (sample u x y c < 256)%N) by (intros c C; apply B; [exact I|rewrite T; exact C]).
    destruct (rgb_to_gray_ok (sample u x y 0) (sample u x y 1) (sample u x y 2)) as (v & -> & _); try (apply BB; lia). reflexivity. }
  destruct (scan_cells (u_w u) (u_h u) GRAY hv (fun x y gray =>
    let* r := iget (u_px u) (4 * x) y in
    let* g := iget (u_px u) (4 * x + 1) y in
    let* b := iget (u_px u) (4 * x + 2) y in
    let* v := rgb_to_gray r g b in
    iput gray x y v) g0 F1) as (g & E & F' & V).
  - intros x y g X Y. assert (I : in_uimg u x y) by (split; auto). pose proof (fun c => sample_get u x y c G I) as SG. rewrite T in SG. cbn [n_ch] in SG.
    pose proof (SG 0 ltac:(lia)) as S0. rewrite Z.add_0_r in S0. rewrite S0. cbn [bind]. rewrite (SG 1), (SG 2) by lia. cbn [bind]. rewrite LU by auto. cbn [bind cells_of]. now rewrite puts_one.
  - exists g. split; [exact E|]. split; [apply sized_of; cbn [n_ch] in *; auto; lia|]. intros x y I. unfold same_colour. rewrite T. cbn [u_type]. rewrite LU by auto. f_equal.
    unfold sample. cbn [u_px u_type n_ch]. replace (1 * x + 0) with x by lia. symmetry. apply V. rewrite (fresh_in _ _ _ _ _ F). exact I.
Qed.
