(** Image pyramids. *)
From Coq Require Import Reals Lra.
From Verif Require Import Base BaseLemmas Gray Flt FltErr Img FilterModel FilterSpec ImgModel ImgSpec ImgProofs ImgBox ImgProps KernModel KernSpec PyrModel PyrSpec PyrProofs PyrReal PyrImg.
Local Open Scope Z_scope.

Notation lev p i := (nth (Z.to_nat i) p dl).
(** The source smoothed by the blur missing between INITIAL and the first sigma, if
    there is one. *)
Definition started (junk : nat -> Z) bufj kernel sqrt_f (sigma0 : flt) (src l0 : image Z) : Prop :=
  let g := lacking sqrt_f HALF sigma0 in
  if f_lt F0 g then exists q, gauss junk bufj kernel g src = Ok q /\ forall x y, in_img src x y -> pix 0 l0 x y = pix 0 q x y else l0 = src.
(** Sizes, sigmas and scales of the levels; everything is a byte. *)
Definition halving (sigma_at : Z -> flt) (src : image Z) (n steps : Z) (p : list level) : Prop :=
  Z.of_nat (length p) = n /\ forall i, 0 <= i < n -> l_sigma (lev p i) = sigma_at i /\ l_scale (lev p i) = of_int (2 ^ (i / steps)) /\
    fresh (l_img (lev p i)) (i_w src / 2 ^ (i / steps)) (i_h src / 2 ^ (i / steps)) /\ byte_img (l_img (lev p i)).

Lemma gauss_eq junk bufj kernel s src g : smooth_other junk bufj kernel s src = Ok g -> gauss junk bufj kernel s src = Ok g.
Proof. unfold smooth_other, gauss. destruct (kernel s); cbn [bind]; intro E; [exact E|discriminate E..]. Qed.
Lemma start_ok junk bufj kernel sqrt_f (sigma_at : Z -> flt) src : image_ok src -> byte_img src -> i_stride src = i_w src -> 2 <= i_w src < 2 ^ 24 -> 2 <= i_h src < 2 ^ 24 ->
  (f_lt F0 (lacking sqrt_f HALF (sigma_at 0)) = true -> exists k, kernel (lacking sqrt_f HALF (sigma_at 0)) = Ok k /\ good_kernel k) ->
  exists l, first_of _ _ (smooth_same bufj kernel) (sigma_gf sqrt_f) (fun s => f_lt F0 s) INITIAL sigma_at src l /\ fresh l (i_w src) (i_h src) /\ byte_img l /\
    started junk bufj kernel sqrt_f (sigma_at 0) src l.
Proof.
  intros O B S W H K. change (lacking sqrt_f HALF (sigma_at 0)) with (sigma_gf sqrt_f INITIAL (sigma_at 0)) in K. assert (F : fresh src (i_w src) (i_h src)) by (unfold fresh; auto). unfold first_of, started. change (lacking sqrt_f HALF (sigma_at 0)) with (sigma_gf sqrt_f INITIAL (sigma_at 0)). cbv zeta. destruct (f_lt F0 (sigma_gf sqrt_f INITIAL (sigma_at 0))).
  - destruct (K eq_refl) as (k & EK & GK). destruct (smooth_self_step junk bufj bufj kernel _ k src _ _ EK GK F B W H) as (q & q' & E & E' & FQ & BQ & V). exists q'. repeat (split; [assumption|]). exists q. split; [apply gauss_eq, E|exact V].
  - exists src. split; [reflexivity|]. split; [exact F|]. split; [exact B|reflexivity].
Qed.

(** C121: the fast builder makes n levels, each the antialiased half of the one
    before, whatever the pyramid held. *)
Theorem C121_fast : forall junk bufj kernel sqrt_f sigma_at scale_at n b pyr src, set_fast n = Ok b ->
  image_ok src -> byte_img src -> i_stride src = i_w src -> 2 ^ n <= i_w src < 2 ^ 24 -> 2 ^ n <= i_h src < 2 ^ 24 ->
  (forall i, 0 <= i < n -> scale_at i = of_int (2 ^ i)) ->
  (f_lt F0 (lacking sqrt_f HALF (sigma_at 0)) = true -> exists k, kernel (lacking sqrt_f HALF (sigma_at 0)) = Ok k /\ good_kernel k) ->
  exists p, build junk bufj kernel sqrt_f sigma_at scale_at b pyr src = Ok p /\ halving sigma_at src n 1 p /\
    started junk bufj kernel sqrt_f (sigma_at 0) src (l_img (lev p 0)) /\
    forall i, 1 <= i < n -> forall x y, in_img (l_img (lev p i)) x y ->
      pix 0 (l_img (lev p i)) x y = aa_half (i_w src / 2 ^ (i - 1)) (i_h src / 2 ^ (i - 1)) (pix 0 (l_img (lev p (i - 1)))) x y.
Proof.
  intros junk bufj kernel sqrt_f sigma_at scale_at n b pyr src SB O B S W H SC K. unfold set_fast in SB. destruct (Z.ltb_spec 0 n) as [N|]; [|discriminate]. injection SB as <-.
  pose proof (pow_lt24 n _ (proj1 W) (proj2 W)) as N24. pose proof (pow_size (i_w src) n 0 ltac:(lia) (proj1 W)) as (W2 & _ & _). pose proof (pow_size (i_h src) n 0 ltac:(lia) (proj1 H)) as (H2 & _ & _). change (2 ^ 0) with 1 in *. rewrite Z.div_1_r in *.
  assert (SC' : forall i, 0 <= i < n -> scale_at i = of_int (2 ^ (i / 1))) by (intros i I; rewrite Z.div_1_r; now apply SC).
  destruct (build_ok junk bufj kernel sqrt_f sigma_at scale_at n 1 src ltac:(lia) ltac:(lia) ltac:(rewrite Z.div_1_r; lia) ltac:(lia) ltac:(lia) SC' O S (mkB Fast n n 1) pyr) as (p & IN & ->); [discriminate|reflexivity|].
  destruct (imgs0 sigma_at n 1 src p IN) as [LI V0].
  destruct (start_ok junk bufj kernel sqrt_f sigma_at src O B S ltac:(lia) ltac:(lia) K) as (l & FO & FL & BL & ST).
  set (P := fun i g => fresh g (i_w src / 2 ^ i) (i_h src / 2 ^ i) /\ byte_img g).
  destruct (update_fast_ok _ _ (smooth_same bufj kernel) (smooth_same bufj kernel) (aa_down junk) (aa_down junk) (fun _ => aa_down junk) (fun g => g) (sigma_gf sqrt_f) (fun s => f_lt F0 s) fmul INITIAL sigma_at empty_img P (map l_img p) l) as (ls & EU & LU & U0 & UP & UA).
  - intro E. rewrite E in LI. cbn in LI. lia.
  - change (Z.to_nat 0) with 0%nat. rewrite V0. exact FO.
  - unfold P. change (2 ^ 0) with 1. rewrite !Z.div_1_r. auto.
  - rewrite LI, Z2Nat.id by lia. intros i g I [FG BG]. pose proof (pow_size4 _ n (i - 1) ltac:(lia) (proj1 W)) as W4. pose proof (pow_size4 _ n (i - 1) ltac:(lia) (proj1 H)) as H4.
    destruct (aa_step junk g _ _ FG BG W4 H4) as (q & E & FQ & BQ & _). exists q. split; [exact E|]. unfold P. destruct (pow_size (i_w src) n (i - 1) ltac:(lia) (proj1 W)) as (_ & EW & _). destruct (pow_size (i_h src) n (i - 1) ltac:(lia) (proj1 H)) as (_ & EH & _).
    replace (i - 1 + 1) with i in * by lia. rewrite EW, EH. auto.
  - unfold fill. cbn [b_type]. cbv zeta. rewrite EU. cbn [bind]. eexists. split; [reflexivity|]. rewrite LI, Z2Nat.id in * by lia.
    assert (LL : Z.of_nat (length ls) = n) by lia.
    assert (PUT := fun i I => put_ok sigma_at n 1 src p ls i IN LL I).
    split; [|split].
    + split; [destruct (PUT 0 ltac:(lia)) as [-> _]; apply IN|]. intros i I. destruct (PUT i I) as [_ ->]. cbn [l_img l_sigma l_scale]. destruct (UP i I) as [A C]. rewrite Z.div_1_r. auto.
    + destruct (PUT 0 ltac:(lia)) as [_ ->]. cbn [l_img]. rewrite U0. exact ST.
    + intros i I x y. destruct (PUT i ltac:(lia)) as [_ ->]. destruct (PUT (i - 1) ltac:(lia)) as [_ ->]. cbn [l_img]. intro XY.
      destruct (UP (i - 1) ltac:(lia)) as [FG BG]. pose proof (pow_size4 _ n (i - 1) ltac:(lia) (proj1 W)) as W4. pose proof (pow_size4 _ n (i - 1) ltac:(lia) (proj1 H)) as H4.
      destruct (aa_step junk _ _ _ FG BG W4 H4) as (q & E & _ & _ & V). rewrite (UA i I) in E. injection E as <-. now apply V.
Qed.
Print Assumptions C121_fast.

(** C122: in the fine builder, level i is the level before smoothed by the blur
    missing between them and, at the start of an octave, halved. *)
Theorem C122_fine : forall junk bufj kernel sqrt_f sigma_at scale_at n_oct steps b pyr src, set_fine n_oct steps = Ok b ->
  image_ok src -> byte_img src -> i_stride src = i_w src -> 2 ^ n_oct <= i_w src < 2 ^ 24 -> 2 ^ n_oct <= i_h src < 2 ^ 24 ->
  (forall i, 0 <= i < n_oct * steps -> scale_at i = of_int (2 ^ (i / steps))) ->
  (f_lt F0 (lacking sqrt_f HALF (sigma_at 0)) = true -> exists k, kernel (lacking sqrt_f HALF (sigma_at 0)) = Ok k /\ good_kernel k) ->
  let missing := added flt (lacking sqrt_f) fmul (fun s => f_lt F0 s) F1 HALF HALF sigma_at steps in
  (forall i, 1 <= i < n_oct * steps -> exists k, kernel (missing i) = Ok k /\ good_kernel k) ->
  exists p, build junk bufj kernel sqrt_f sigma_at scale_at b pyr src = Ok p /\ halving sigma_at src (n_oct * steps) steps p /\
    started junk bufj kernel sqrt_f (sigma_at 0) src (l_img (lev p 0)) /\
    forall i, 1 <= i < n_oct * steps -> exists g, gauss junk bufj kernel (missing i) (l_img (lev p (i - 1))) = Ok g /\
      if i mod steps =? 0 then forall x y, in_img (l_img (lev p i)) x y -> pix 0 (l_img (lev p i)) x y = pix 0 g (2 * x) (2 * y) else l_img (lev p i) = g.
Proof.
  intros junk bufj kernel sqrt_f sigma_at scale_at no steps b pyr src SB O B S W H SC K missing KM. unfold set_fine in SB. destruct (Z.ltb_spec 0 no) as [N|]; [|discriminate]. destruct (Z.ltb_spec 0 steps) as [NS|]; [|discriminate]. cbn [andb] in SB.
  unfold chk_int in SB. destruct (in_int (no * steps)); [|discriminate]. cbn [bind] in SB. injection SB as <-.
  pose proof (pow_lt24 no _ (proj1 W) (proj2 W)) as N24. pose proof (pow_size (i_w src) no 0 ltac:(lia) (proj1 W)) as (W2 & _ & _). pose proof (pow_size (i_h src) no 0 ltac:(lia) (proj1 H)) as (H2 & _ & _). change (2 ^ 0) with 1 in *. rewrite Z.div_1_r in *.
  assert (NP : 1 * 1 <= no * steps) by (apply Z.mul_le_mono_nonneg; lia).
  assert (OCT : forall i, 0 <= i < no * steps -> 0 <= i / steps < no) by (intros i I; split; [apply Z.div_pos; lia|apply Z.div_lt_upper_bound; lia]).
  destruct (build_ok junk bufj kernel sqrt_f sigma_at scale_at (no * steps) steps src ltac:(lia) ltac:(lia) ltac:(pose proof (OCT (no * steps - 1) ltac:(lia)); lia) ltac:(lia) ltac:(lia) SC O S (mkB Fine (no * steps) no steps) pyr) as (p & IN & ->); [discriminate|reflexivity|].
  destruct (imgs0 sigma_at (no * steps) steps src p IN) as [LI V0].
  destruct (start_ok junk bufj kernel sqrt_f sigma_at src O B S ltac:(lia) ltac:(lia) K) as (l & FO & FL & BL & ST).
  set (P := fun i g => fresh g (i_w src / 2 ^ i) (i_h src / 2 ^ i) /\ byte_img g).
  assert (SZ : forall o, 0 <= o < no -> 2 <= i_w src / 2 ^ o < 2 ^ 24 /\ 2 <= i_h src / 2 ^ o < 2 ^ 24).
  { intros o OO. destruct (pow_size (i_w src) no o OO (proj1 W)) as (A1 & _ & A2). destruct (pow_size (i_h src) no o OO (proj1 H)) as (A3 & _ & A4). lia. }
  destruct (update_fine_ok _ _ (smooth_same bufj kernel) (smooth_other junk bufj kernel) (downsample junk) (aa_down junk) (fun _ => aa_down junk) (fun g => g) (sigma_gf sqrt_f) (fun s => f_lt F0 s) fmul F1 (FF (2 ^ 148)) INITIAL sigma_at empty_img no steps ltac:(lia) ltac:(lia) P) with (levels := map l_img p) (l := l) as (ls & EU & LU & U0 & UP & UA).
  - intros i g I [FG BG]. destruct (KM i I) as (k & EK & GK). destruct (SZ ((i - 1) / steps) (OCT (i - 1) ltac:(lia))) as [S1 S2]. destruct (smooth_step junk bufj kernel _ k g _ _ EK GK FG BG S1 S2) as (q & E & FQ & BQ). exists q. split; [exact E|]. split; assumption.
  - intros o g OO [FG BG]. pose proof FG as (GW & GH & _ & GO). destruct (downsample_ok 0 junk g GO) as (q & E & FQ & V). exists q. split; [exact E|].
    destruct (pow_size (i_w src) no o ltac:(lia) (proj1 W)) as (Q1 & EW & _). destruct (pow_size (i_h src) no o ltac:(lia) (proj1 H)) as (Q2 & EH & _). unfold P. rewrite EW, EH, <- GW, <- GH. split; [exact FQ|].
    apply (fresh_bytes _ _ _ FQ). intros x y I. rewrite V by exact I. apply pix_byte; auto. destruct FQ as (QW & QH & _). unfold in_img in *. rewrite QW, QH in I. clear -I. Z.div_mod_to_equations. lia.
  - rewrite LI. lia.
  - change (Z.to_nat 0) with 0%nat. rewrite V0. exact FO.
  - unfold P. change (2 ^ 0) with 1. rewrite !Z.div_1_r. auto.
  - unfold fill. cbn [b_type b_octaves b_steps]. cbv zeta. rewrite EU. cbn [bind]. eexists. split; [reflexivity|].
    assert (LL : Z.of_nat (length ls) = no * steps) by lia.
    assert (PUT := fun i I => put_ok sigma_at (no * steps) steps src p ls i IN LL I).
    split; [|split].
    + split; [destruct (PUT 0 ltac:(lia)) as [-> _]; apply IN|]. intros i I. destruct (PUT i I) as [_ ->]. cbn [l_img l_sigma l_scale]. destruct (UP i I) as [A C]. auto.
    + destruct (PUT 0 ltac:(lia)) as [_ ->]. cbn [l_img]. rewrite U0. exact ST.
    + intros i I. destruct (PUT i ltac:(lia)) as [_ ->]. destruct (PUT (i - 1) ltac:(lia)) as [_ ->]. cbn [l_img]. destruct (UA i I) as (g & E & D). exists g. split; [apply gauss_eq, E|]. destruct (i mod steps =? 0); [|exact D].
      destruct (UP (i - 1) ltac:(lia)) as [FG BG]. destruct (KM i I) as (k & EK & GK). destruct (SZ ((i - 1) / steps) (OCT (i - 1) ltac:(lia))) as [S1 S2]. destruct (smooth_step junk bufj kernel _ k _ _ _ EK GK FG BG S1 S2) as (q & E' & FQ & BQ).
      assert (EG : Ok g = Ok q) by (rewrite <- E; exact E'). injection EG as <-. clear E'. pose proof FQ as (_ & _ & _ & GO). destruct (downsample_ok 0 junk g GO) as (q & E' & _ & V). rewrite D in E'. injection E' as <-. exact V.
Qed.
Print Assumptions C122_fine.
(** Finding: the rows of a source with padding are sheared: level 0 gets its bytes but
    loses its stride. *)
Theorem C122_padded_refuted : exists kernel sqrt_f sigma_at scale_at b p src x y, set_fast 1 = Ok b /\ image_ok src /\ byte_img src /\ scale_at 0 = of_int 1 /\
  f_lt F0 (lacking sqrt_f HALF (sigma_at 0)) = false /\ build (fun _ => 0) (fun _ => F0) kernel sqrt_f sigma_at scale_at b [] src = Ok p /\
  in_img src x y /\ in_img (l_img (lev p 0)) x y /\ pix 0 (l_img (lev p 0)) x y <> pix 0 src x y.
Proof.
  exists (fun _ => Fatal), (fun x => x), (fun _ => INITIAL), (fun _ => F1). eexists. eexists. exists (mkImg 2 2 3 [1; 2; 99; 3; 4; 99]), 0, 1. split; [reflexivity|]. split; [constructor; vm_compute; intuition discriminate|].
  split; [repeat constructor; lia|]. split; [reflexivity|]. split; [vm_compute; reflexivity|]. split; [vm_compute; reflexivity|]. split; [split; cbn; lia|]. split; [split; cbn; lia|]. vm_compute. discriminate.
Qed.
Print Assumptions C122_padded_refuted.

(** A 5 x 4 image, three kernels and two octaves of two steps. *)
Definition ex_src : image Z := mkImg 5 4 5 [0; 10; 20; 30; 40; 50; 60; 70; 80; 90; 100; 110; 120; 130; 140; 150; 160; 170; 180; 255].
Definition ex_half : list flt := [FF (2 ^ 148); FF (2 ^ 147)].
Lemma ex_half_good : good_kernel ex_half.
Proof.
  exists (fun i => nth (Z.to_nat i) [2 ^ 148; 2 ^ 147] 0). split.
  - intros i I. change (Z.of_nat (length ex_half)) with 2 in I. assert (i = 0 \/ i = 1) as [->| ->] by lia; (split; [reflexivity|vm_compute; discriminate]).
  - split; [vm_compute; discriminate|cbn; lia].
Qed.
Example C121_example : exists b p, set_fast 2 = Ok b /\
  build (fun _ => 7) (fun _ => FNaN) (fun _ => Ok ex_half) (fun x => x) (fun i => of_int (2 ^ i)) (fun i => of_int (2 ^ i)) b [] ex_src = Ok p /\ halving (fun i => of_int (2 ^ i)) ex_src 2 1 p.
Proof.
  eexists. destruct (C121_fast (fun _ => 7) (fun _ => FNaN) (fun _ => Ok ex_half) (fun x => x) (fun i => of_int (2 ^ i)) (fun i => of_int (2 ^ i)) 2 (mkB Fast 2 2 1) [] ex_src) as (p & E & H & _); [reflexivity|constructor; vm_compute; intuition discriminate|repeat constructor; lia|reflexivity|cbn; lia|cbn; lia|reflexivity|intros _; exists ex_half; split; [reflexivity|apply ex_half_good]|].
  exists p. split; [reflexivity|]. split; [exact E|exact H].
Qed.
Example C122_example : exists b p, set_fine 2 2 = Ok b /\
  build (fun _ => 7) (fun _ => FNaN) (fun _ => Ok ex_half) (fun x => x) (fun i => of_int (2 ^ i)) (fun i => of_int (2 ^ (i / 2))) b [] ex_src = Ok p /\ halving (fun i => of_int (2 ^ i)) ex_src 4 2 p.
Proof.
  eexists. destruct (C122_fine (fun _ => 7) (fun _ => FNaN) (fun _ => Ok ex_half) (fun x => x) (fun i => of_int (2 ^ i)) (fun i => of_int (2 ^ (i / 2))) 2 2 (mkB Fine 4 2 2) [] ex_src) as (p & E & H & _); [reflexivity|constructor; vm_compute; intuition discriminate|repeat constructor; lia|reflexivity|cbn; lia|cbn; lia|reflexivity|intros _; exists ex_half; split; [reflexivity|apply ex_half_good]|intros i _; exists ex_half; split; [reflexivity|apply ex_half_good]|].
  exists p. split; [reflexivity|]. split; [exact E|exact H].
Qed.

(** C123: in exact arithmetic every level has the blur its sigma says. *)
Local Open Scope R_scope.
(** s0 2^(i / steps), as nx_image_pyr_builder_init_levels sets it. *)
Definition sigma_R (s0 : R) (steps i : Z) : R := s0 * Rpower 2 (IZR i / IZR steps).
Lemma sigma_mono s0 steps i : / 2 <= s0 -> (1 <= steps)%Z -> 0 < sigma_R s0 steps i <= sigma_R s0 steps (i + 1)%Z.
Proof.
  intros S0 NS. unfold sigma_R. assert (P : forall x, 0 < Rpower 2 x) by (intro; apply exp_pos). split; [apply Rmult_lt_0_compat; [lra|apply P]|]. apply Rmult_le_compat_l; [lra|]. apply Rle_Rpower; [lra|].
  apply Rmult_le_compat_r; [left; apply Rinv_0_lt_compat; apply (IZR_lt 0); lia|]. apply IZR_le. lia.
Qed.
Lemma sigma_0 s0 steps : sigma_R s0 steps 0 = s0.
Proof. unfold sigma_R. replace (0 / IZR steps) with 0 by (unfold Rdiv; ring). rewrite Rpower_O by lra. ring. Qed.
Lemma sigma_octave s0 steps i : (1 <= steps)%Z -> (0 <= i)%Z -> sigma_R s0 steps i / 2 ^ Z.to_nat (i / steps) = s0 * Rpower 2 (IZR (i mod steps) / IZR steps).
Proof.
  intros NS I. assert (NZ : IZR steps <> 0) by (apply not_0_IZR; lia). assert (Q : (0 <= i / steps)%Z) by (apply Z.div_pos; lia). unfold sigma_R.
  replace (IZR i / IZR steps) with (IZR (i mod steps) / IZR steps + INR (Z.to_nat (i / steps))).
  - rewrite Rpower_plus, Rpower_pow by lra. field. apply pow_nonzero. lra.
  - rewrite INR_IZR_INZ, Z2Nat.id by exact Q. rewrite (Z.div_mod i steps) at 3 by lia. rewrite plus_IZR, mult_IZR. field. exact NZ.
Qed.
(** Images have a known blur; the source is blurred by 1/2. *)
Theorem C123_fine_blur : forall s0 n_oct steps (levels : list blurred), (1 <= n_oct)%Z -> (1 <= steps)%Z -> / 2 <= s0 ->
  Z.of_nat (length levels) = (n_oct * steps)%Z -> nth 0 levels (0, 0%Z) = (/ 2, 0%Z) ->
  exists ls, update_fine blurred R blur blur halve sub_blur posb Rmult 1 (/ 2) (/ 2) (sigma_R s0 steps) n_oct steps levels = Ok ls /\ length ls = length levels /\
    forall i, (0 <= i < n_oct * steps)%Z -> nth (Z.to_nat i) ls (0, 0%Z) = (s0 * Rpower 2 (IZR (i mod steps) / IZR steps), (i / steps)%Z).
Proof.
  intros s0 no steps levels NO NS S0 L V. destruct (fine_R s0 (sigma_R s0 steps) no steps S0 (sigma_0 s0 steps) (fun i _ => sigma_mono s0 steps i S0 NS) NO NS levels L V) as (ls & E & LL & G).
  exists ls. split; [exact E|]. split; [exact LL|]. intros i I. rewrite G, sigma_octave by lia. reflexivity.
Qed.
Print Assumptions C123_fine_blur.
(** Shrinking to 1 / f^i of the size. *)
Definition shrunk (f : R) (i : Z) (g : blurred) : res blurred := Ok (fst g / f ^ Z.to_nat i, snd g).
Theorem C123_scaled_blur : forall s0 f (levels : list blurred), / 2 <= s0 -> 0 < f -> levels <> [] -> nth 0 levels (0, 0%Z) = (/ 2, 0%Z) ->
  exists ls, update_scaled blurred R blur (shrunk f) (fun g => g) sub_blur posb (/ 2) (sigma_R s0 1) levels = Ok ls /\ length ls = length levels /\
    forall i, (i < length levels)%nat -> fst (nth i ls (0, 0%Z)) = s0 * (2 / f) ^ i.
Proof.
  intros s0 f levels S0 F NE V. assert (NS : (1 <= 1)%Z) by lia.
  destruct (update_scaled_ok blurred R blur blur halve halve (shrunk f) (fun g => g) sub_blur posb Rmult (/ 2) (sigma_R s0 1) (0, 0%Z) (fun i g => g = (sigma_R s0 1 i, 0%Z)) levels (s0, 0%Z)) as (ls & work & E & LL & V0 & W0 & ST).
  - exact NE.
  - cbn [Z.to_nat]. rewrite V. apply (first_R s0); [exact S0|apply sigma_0].
  - now rewrite sigma_0.
  - intros i g I ->. assert (SA : scaled_at R sub_blur posb (/ 2) (sigma_R s0 1) (i - 1) = sigma_R s0 1 (i - 1)%Z).
    { unfold scaled_at. destruct (Z.eqb_spec (i - 1) 0) as [E|_]; [|reflexivity]. rewrite E. pose proof (reached0_R s0 (sigma_R s0 1) 1 S0 (sigma_0 s0 1)) as RR. unfold reached in RR. cbn [Z.eqb] in RR. rewrite RR. symmetry. apply sigma_0. }
    rewrite SA. pose proof (sigma_mono s0 1 (i - 1) S0 NS) as M. replace (i - 1 + 1)%Z with i in M by lia. rewrite blur_sub by lra. eexists. eexists. split; [reflexivity|]. split; reflexivity.
  - exists ls. split; [exact E|]. split; [exact LL|]. intros i I.
    assert (Q : fst (nth i ls (0, 0%Z)) = sigma_R s0 1 (Z.of_nat i) / f ^ i).
    { destruct (Nat.eq_dec i 0) as [->|NI]; [change (Z.to_nat 0) with O in V0; rewrite V0; cbn [fst Z.of_nat pow]; rewrite sigma_0; field|].
      destruct (ST (Z.of_nat i) ltac:(lia)) as (WI & _ & SH). rewrite WI, Nat2Z.id in SH. unfold shrunk in SH. cbn [fst snd] in SH. rewrite Nat2Z.id in SH. injection SH as <-. reflexivity. }
    rewrite Q. pose proof (sigma_octave s0 1 (Z.of_nat i) NS ltac:(lia)) as SO. rewrite Z.div_1_r, Nat2Z.id, Z.mod_1_r in SO. replace (0 / 1) with 0 in SO by field. rewrite Rpower_O in SO by lra.
    assert (P2 : 2 ^ i <> 0) by (apply pow_nonzero; lra). assert (PF : f ^ i <> 0) by (apply pow_nonzero; lra). unfold Rdiv at 1. replace (sigma_R s0 1 (Z.of_nat i)) with (s0 * 2 ^ i) by (apply (Rmult_eq_reg_r (/ 2 ^ i)); [unfold Rdiv in SO; rewrite SO; field; exact P2|apply Rinv_neq_0_compat, P2]).
    unfold Rdiv. rewrite Rpow_mult_distr, pow_inv. ring.
Qed.
Print Assumptions C123_scaled_blur.
Example C123_example : exists ls, update_fine blurred R blur blur halve sub_blur posb Rmult 1 (/ 2) (/ 2) (sigma_R 1 1) 2 1 [(/ 2, 0%Z); (0, 0%Z)] = Ok ls /\ nth 1 ls (0, 0%Z) = (1, 1%Z).
Proof.
  destruct (C123_fine_blur 1 2 1 [(/ 2, 0%Z); (0, 0%Z)]) as (ls & E & _ & V); [lia|lia|lra|reflexivity|reflexivity|]. exists ls. split; [exact E|]. specialize (V 1%Z ltac:(lia)). change (Z.to_nat 1) with 1%nat in V. rewrite V.
  change (1 mod 1)%Z with 0%Z. change (1 / 1)%Z with 1%Z. replace (0 / 1) with 0 by field. rewrite Rpower_O by lra. f_equal. ring.
Qed.
