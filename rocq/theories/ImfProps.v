(** C154 to C156: PNG files, JPEG files and the choice of the format. *)
From Verif Require Import Base BaseLemmas Gray Img ImgModel ImgSpec ImgProofs PnmModel PnmSpec PnmProofs PnmRead PnmSave PnmConv PnmProps ImfModel ImfSpec ImfProofs.
Local Open Scope Z_scope.

(** * C154 *)

(** Outside the two exceptions a PNG file of any colour type loads as an image of the
    wanted type and the size of the file, and each pixel shows that of the file.
    Partial: the exceptions are real, see below. *)
Theorem C154_load_partial : forall lum junk mode f, pfile_ok f -> fits (f_w f) (f_h f) -> ~ png_exception mode f ->
  exists u, load_png lum junk mode f = Ok u /\ sized u (wanted_type mode (colour_file f)) (f_w f) (f_h f) /\
    forall x y, 0 <= x < f_w f -> 0 <= y < f_h f -> shows_png lum f u x y.
Proof.
  intros lum junk mode f K Fi X. set (ty := wanted_type mode (colour_file f)).
  assert (exists t, png_setup mode (f_ct f) = (ty, t) /\ (forall x y, Z.of_nat (length (png_samples lum t f x y)) = n_ch ty) /\
    forall x y u, u_type u = ty -> (forall c, 0 <= c < n_ch ty -> sample u x y c = nth (Z.to_nat c) (png_samples lum t f x y) 0%N) -> shows_png lum f u x y) as (t & E & L & Q).
  { unfold ty, colour_file, png_setup. exists (snd (png_setup mode (f_ct f))). unfold png_setup. split; [destruct mode, (f_ct f); reflexivity|]. unfold png_exception in X. split.
    - intros x y. unfold png_samples. destruct (f_px f x y) as [[[r g] b] a]. destruct mode, (f_ct f), (f_trns f); cbn; try reflexivity; exfalso; apply X; auto 6.
    - intros x y u Tu S. specialize (K x y). unfold shows_png, colour_file. unfold pfile_ok, colour_file, opaque_file in K. unfold png_samples in S. rewrite Tu. destruct (f_px f x y) as [[[r g] b] a]. destruct K as [K1 K2].
      destruct mode, (f_ct f), (f_trns f); cbn in *; try (exfalso; apply X; now auto 6);
        try (destruct (K1 eq_refl) as [-> ->]); try (rewrite (K2 eq_refl));
        try (rewrite (S 0), (S 1), (S 2), (S 3) by lia; cbn; auto; fail); rewrite (S 0) by lia; reflexivity. }
  destruct (load_png_ok lum junk mode f ty t Fi E L) as (u & EU & Sz & P). exists u. split; [exact EU|]. split; [exact Sz|]. intros x y Hx Hy. apply Q; [apply Sz|]. intros c C. now apply P.
Qed.
Print Assumptions C154_load_partial.
(** Asked for RGBA, an RGB file gets three bytes for each pixel of four: the alpha of the
    first pixel is the red of the second, the rest of the row is not written at all. *)
Theorem C154_rgb_refuted : exists f, pfile_ok f /\ fits (f_w f) (f_h f) /\ f_ct f = PRgb /\ f_trns f = false /\
  f_px f 0 0 = (10, 20, 30, 255)%N /\ f_px f 1 0 = (40, 50, 60, 255)%N /\
  forall lum junk, exists u, load_png lum junk LOAD_RGBA f = Ok u /\ sample u 0 0 3 = 40%N /\
    sample u 1 0 0 = 50%N /\ sample u 1 0 1 = 60%N /\ sample u 1 0 2 = junk 6%nat /\ sample u 1 0 3 = junk 7%nat.
Proof.
  exists (mkP PRgb false 2 1 (fun x _ => if x =? 0 then (10, 20, 30, 255)%N else (40, 50, 60, 255)%N)). split.
  { intros x y. cbn. destruct (x =? 0); split; auto; discriminate. }
  split; [repeat split; vm_compute; congruence|]. do 4 (split; [reflexivity|]). intros lum junk.
  exists (mkU RGBA 2 (mkImg 8 1 8 [10; 20; 30; 40; 50; 60; junk 6%nat; junk 7%nat]%N)). split; [lazy; reflexivity|]. repeat split; lazy; reflexivity.
Qed.
Print Assumptions C154_rgb_refuted.
(** A gray file with a transparent level, loaded as it is, is written past the end of
    the image. *)
Theorem C154_transparent_refuted : exists f, pfile_ok f /\ fits (f_w f) (f_h f) /\ f_ct f = PGray /\ f_trns f = true /\
  forall lum junk, load_png lum junk LOAD_AS_IS f = UB.
Proof.
  exists (mkP PGray true 1 1 (fun _ _ => (7, 7, 7, 0)%N)). split; [intros x y; cbn; split; auto; discriminate|]. split; [repeat split; vm_compute; congruence|]. split; [reflexivity|]. split; [reflexivity|]. intros lum junk. lazy. reflexivity.
Qed.
Print Assumptions C154_transparent_refuted.
(** An image saved as PNG and loaded as it is keeps every sample, alpha included. *)
Theorem C154_roundtrip : forall lum junk u, u_ok u -> fits (u_w u) (u_h u) ->
  exists f v, save_png u = Ok f /\ load_png lum junk LOAD_AS_IS f = Ok v /\ sized v (u_type u) (u_w u) (u_h u) /\
    forall x y c, in_uimg u x y -> 0 <= c < n_ch (u_type u) -> sample v x y c = sample u x y c.
Proof.
  intros lum junk u G Fi. unfold save_png. destruct (chunk_at u G) as (s & E & P). rewrite E. cbn [bind]. cbv zeta.
  match goal with |- exists f v, Ok ?F = _ /\ _ => set (f := F) end. exists f.
  assert (D : f_w f = u_w u /\ f_h f = u_h u) by (unfold f; destruct (u_type u); auto). destruct D as [Dw Dh].
  destruct (load_png_ok lum junk LOAD_AS_IS f (u_type u) (mkT false false false false)) as (v & EV & Sz & Q).
  - now rewrite Dw, Dh.
  - unfold f. destruct (u_type u); reflexivity.
  - intros x y. unfold f. destruct (u_type u); reflexivity.
  - exists v. split; [reflexivity|]. split; [exact EV|]. rewrite Dw, Dh in Sz, Q. split; [exact Sz|]. intros x y c I C. pose proof I as [X Y]. rewrite Q by auto. rewrite <- (P x y c I C). unfold f. destruct (u_type u); cbn [n_ch] in *.
    + replace c with 0 by lia. reflexivity.
    + assert (c = 0 \/ c = 1 \/ c = 2 \/ c = 3) as [-> | [-> | [-> | ->]]] by lia; reflexivity.
Qed.
Print Assumptions C154_roundtrip.
(** A palette file of two pixels, one transparent. *)
Definition ex154 : pfile := mkP PPalette true 2 1 (fun x _ => if x =? 0 then (10, 20, 30, 0)%N else (40, 50, 60, 255)%N).
Example C154_example : pfile_ok ex154 /\ fits (f_w ex154) (f_h ex154) /\ ~ png_exception LOAD_RGBA ex154 /\
  exists u, load_png (fun r _ _ => r) (fun _ => 9%N) LOAD_RGBA ex154 = Ok u /\ i_data (u_px u) = [10; 20; 30; 0; 40; 50; 60; 255]%N.
Proof.
  split; [intros x y; cbn; destruct (x =? 0); split; discriminate|]. split; [repeat split; vm_compute; congruence|].
  split; [intros [(_ & _ & E)|(E & _)]; discriminate E|].
  exists (mkU RGBA 2 (mkImg 8 1 8 [10; 20; 30; 0; 40; 50; 60; 255]%N)). split; lazy; reflexivity.
Qed.

(** * C155 *)

(** JPEG files, except CMYK ones, load as an image of the wanted type and the size of
    the file; colours and gray values are those libjpeg gives, alpha is 255.  Partial:
    CMYK files loaded as they are go wrong, see below. *)
Theorem C155_load_partial : forall junk bjunk mode f, fits (j_w f) (j_h f) -> j_kind f <> JCmyk ->
  exists u, load_jpeg junk bjunk mode f = Ok (Some u) /\
    sized u (wanted_type mode (match j_kind f with JGray => false | _ => true end)) (j_w f) (j_h f) /\
    forall x y, 0 <= x < j_w f -> 0 <= y < j_h f -> shows_jpeg f u x y.
Proof.
  intros junk bjunk mode f Fi K.
  assert (jpeg_components mode (j_kind f) = Some 1 /\ wanted_type mode (match j_kind f with JGray => false | _ => true end) = GRAY \/
          jpeg_components mode (j_kind f) = Some 3 /\ wanted_type mode (match j_kind f with JGray => false | _ => true end) = RGBA) as [[E ->]|[E ->]]
    by (destruct mode, (j_kind f); try congruence; cbn; auto).
  - destruct (load_jpeg_gray junk bjunk mode f Fi E) as (u & EU & Sz & P). exists u. split; [exact EU|]. split; [exact Sz|]. intros x y X Y. unfold shows_jpeg. destruct (j_px f x y) as [[[r g] b] d].
    rewrite (proj1 (proj2 Sz)). now apply P.
  - destruct (load_jpeg_colour junk bjunk mode f Fi E) as (u & EU & Sz & P). exists u. split; [exact EU|]. split; [exact Sz|]. intros x y X Y. destruct (P x y X Y) as [P3 Pc]. unfold shows_jpeg. unfold jpeg_samples in Pc.
    destruct (j_px f x y) as [[[r g] b] d]. rewrite (proj1 (proj2 Sz)). split; [exact P3|]. cbn [Z.eqb Pos.eqb] in Pc. destruct (j_kind f); try congruence; rewrite (Pc 0), (Pc 1), (Pc 2) by lia; cbn; auto.
Qed.
Print Assumptions C155_load_partial.
(** A CMYK file is refused when gray values or colours are asked for. *)
Theorem C155_cmyk : forall junk bjunk mode f, j_kind f = JCmyk -> mode <> LOAD_AS_IS -> load_jpeg junk bjunk mode f = Ok None.
Proof. intros junk bjunk mode f K M. unfold load_jpeg. rewrite K. destruct mode; [reflexivity|reflexivity|congruence]. Qed.
Print Assumptions C155_cmyk.
(** Loaded as it is, its rows of four bytes per pixel overrun the buffer of three. *)
Theorem C155_cmyk_refuted : exists f, j_kind f = JCmyk /\ fits (j_w f) (j_h f) /\ forall junk bjunk, load_jpeg junk bjunk LOAD_AS_IS f = UB.
Proof. exists (mkJ JCmyk 1 1 (fun _ _ => (1, 2, 3, 4)%N) (fun _ _ => 0%N)). split; [reflexivity|]. split; [repeat split; vm_compute; congruence|]. intros junk bjunk. lazy. reflexivity. Qed.
Print Assumptions C155_cmyk_refuted.
(** The encoder gets the gray values or the colours of all pixels, row by row, and
    nothing else. *)
Theorem C155_save : forall u, u_ok u -> exists s, save_jpeg u = Ok s /\
  js_colour s = (match u_type u with GRAY => false | RGBA => true end) /\ js_w s = u_w u /\ js_h s = u_h u /\
  Z.of_nat (length (js_rows s)) = bpp (u_type u) * (u_w u * u_h u) /\
  forall x y c, in_uimg u x y -> 0 <= c < bpp (u_type u) -> byte_at (js_rows s) (bpp (u_type u) * (y * u_w u + x) + c) = sample u x y c.
Proof. intros u G. rewrite (save_jpeg_ok u G). eexists. split; [reflexivity|]. cbn [js_colour js_w js_h js_rows]. repeat (split; [reflexivity|]). split; [now apply pixels_len|]. intros x y c I C. now apply pixels_at. Qed.
Print Assumptions C155_save.
Definition ex155 : jfile := mkJ JColour 2 1 (fun x _ => if x =? 0 then (10, 20, 30, 0)%N else (40, 50, 60, 0)%N) (fun _ _ => 5%N).
Example C155_example : fits (j_w ex155) (j_h ex155) /\ j_kind ex155 <> JCmyk /\
  exists u, load_jpeg (fun _ => 9%N) (fun _ => 8%N) LOAD_RGBA ex155 = Ok (Some u) /\ i_data (u_px u) = [10; 20; 30; 255; 40; 50; 60; 255]%N.
Proof. split; [repeat split; vm_compute; congruence|]. split; [discriminate|]. exists (mkU RGBA 2 (mkImg 8 1 8 [10; 20; 30; 255; 40; 50; 60; 255]%N)). split; lazy; reflexivity. Qed.

(** * C156 *)

(** The case of PNM files. *)
Ltac pnm G B := match goal with |- context [save_pnm ?u] => match goal with junk : nat -> N |- _ =>
    destruct (C59_roundtrip junk junk u G B) as (file & v & v' & ES & EL & _ & Sz & _ & Pc & Pa);
    exists file, v; split; [exact ES|]; split; [|split; [exact Sz|]; split; [tauto|]; split; [tauto|];
      intros _ _ x y I; split; [intros c C0; apply Pc; auto; destruct (u_type u); cbn [bpp n_ch] in *; lia|intro T; now apply Pa]];
    assert (FH : format_from_header (Some file) = FMT_PNM_BINARY);
    [rewrite (save_ok u G) in ES; injection ES as <-; apply C60_header; [discriminate|]; unfold header; split; [destruct (u_type u); rewrite !app_length; cbn; lia|];
      destruct (u_type u); cbn [app signature]; do 2 eexists; (split; [reflexivity|cbn; auto])
    |unfold image_load; rewrite FH; exact EL] end end.
(** Whatever the name, an image that was saved can be loaded with type and size kept.
    With a PNG ending every sample is kept; with a JPEG ending the encoder got the
    image; with any other ending, or none, colours are kept and alpha becomes 255. *)
Theorem C156_save_load : forall C lum junk bjunk u name, codecs_ok C -> u_ok u -> byte_samples u -> fits (u_w u) (u_h u) ->
  exists file v, image_save C u name = Ok file /\ image_load C lum junk bjunk LOAD_AS_IS (Some file) = Ok (Some v) /\ sized v (u_type u) (u_w u) (u_h u) /\
    (named name FMT_PNG -> forall x y c, in_uimg u x y -> 0 <= c < n_ch (u_type u) -> sample v x y c = sample u x y c) /\
    (named name FMT_JPEG -> exists s, save_jpeg u = Ok s /\ file = jpeg_enc C s) /\
    (~ named name FMT_PNG -> ~ named name FMT_JPEG -> forall x y, in_uimg u x y ->
       (forall c, 0 <= c < bpp (u_type u) -> sample v x y c = sample u x y c) /\ (u_type u = RGBA -> sample v x y 3 = 255%N)).
Proof.
  intros C lum junk bjunk u name K G B Fi. pose proof (C81_filename name FMT_PNG ltac:(discriminate)) as NP. pose proof (C81_filename name FMT_JPEG ltac:(discriminate)) as NJ. fold (named name FMT_PNG) in NP. fold (named name FMT_JPEG) in NJ.
  unfold image_save. destruct (format_from_filename name) eqn:FN.
  all: try (assert (~ named name FMT_PNG) by (intro Q; apply NP in Q; discriminate Q)).
  all: try (assert (~ named name FMT_JPEG) by (intro Q; apply NJ in Q; discriminate Q)).
  all: try (pnm G B; fail).
  - (* JPEG *)
    rewrite (save_jpeg_ok u G). cbn [bind]. match goal with |- context [jpeg_enc C ?S0] => set (s := S0) end. destruct (co_jpeg C K s Fi) as (f & ED & Kf & Wf & Hf). destruct (co_jpeg_sig C K s) as [Sg Ln].
    assert (Fi' : fits (j_w f) (j_h f)) by (rewrite Wf, Hf; exact Fi). assert (NC : j_kind f <> JCmyk) by (rewrite Kf; destruct (js_colour s); discriminate).
    destruct (C155_load_partial junk bjunk LOAD_AS_IS f Fi' NC) as (v & EL & Sz & _). exists (jpeg_enc C s), v. split; [reflexivity|]. split.
    { unfold image_load. rewrite (proj2 (C60_header (jpeg_enc C s) FMT_JPEG ltac:(discriminate)) (conj Ln Sg)). rewrite ED. exact EL. }
    split.
    { rewrite Kf, Wf, Hf in Sz. unfold s in Sz. cbn [js_colour js_w js_h] in Sz. destruct (u_type u); exact Sz. }
    split; [tauto|]. split; [eauto|]. intros _ NJ'. exfalso. apply NJ', NJ. reflexivity.
  - (* PNG *)
    unfold save_png. destruct (chunk_at u G) as (s & E & P). rewrite E. cbn [bind]. cbv zeta. match goal with |- context [png_enc C ?F0] => set (f := F0) end.
    assert (D : f_w f = u_w u /\ f_h f = u_h u) by (unfold f; destruct (u_type u); auto). destruct D as [Dw Dh].
    destruct (co_png C K f ltac:(now rewrite Dw, Dh)) as (f' & ED & Cf & Tf & Wf & Hf & Px). pose proof (co_png_sig C K f) as Sg.
    destruct (load_png_ok lum junk LOAD_AS_IS f' (u_type u) (mkT false false false false)) as (v & EL & Sz & Q).
    + now rewrite Wf, Hf, Dw, Dh.
    + rewrite Cf. unfold f. destruct (u_type u); reflexivity.
    + intros x y. unfold png_samples. rewrite Cf, Tf. destruct (f_px f' x y) as [[[r g] b] a]. unfold f. destruct (u_type u); reflexivity.
    + exists (png_enc C f), v. split; [reflexivity|]. rewrite Wf, Hf, Dw, Dh in Sz, Q. split.
      { unfold image_load. assert (Ln : (4 <= length (png_enc C f))%nat) by (destruct Sg as (r & ->); cbn; lia). rewrite (proj2 (C60_header _ FMT_PNG ltac:(discriminate)) (conj Ln Sg)). rewrite ED, EL. reflexivity. }
      split; [exact Sz|]. split.
      { intros _ x y c I Cc. pose proof I as [X Y]. rewrite Q by auto. rewrite <- (P x y c I Cc). unfold png_samples. rewrite Cf, Tf, Px by (rewrite ?Dw, ?Dh; auto). unfold f. destruct (u_type u); cbn [n_ch] in *.
        - replace c with 0 by lia. reflexivity.
        - assert (c = 0 \/ c = 1 \/ c = 2 \/ c = 3) as [-> | [-> | [-> | ->]]] by lia; reflexivity. }
      split; [tauto|]. intros NP' _. exfalso. apply NP', NP. reflexivity.
Qed.
Print Assumptions C156_save_load.
(** A missing file, or one that starts as none of the formats, is refused. *)
Theorem C156_unknown : forall C lum junk bjunk mode, image_load C lum junk bjunk mode None = Ok None /\
  forall s, ~ signature FMT_PNM_BINARY s -> ~ signature FMT_JPEG s -> ~ signature FMT_PNG s -> image_load C lum junk bjunk mode (Some s) = Ok None.
Proof.
  intros C lum junk bjunk mode. split; [reflexivity|]. intros s A B D. unfold image_load.
  destruct (format_from_header (Some s)) eqn:E; try reflexivity; exfalso; (apply C60_header in E; [|discriminate]); tauto.
Qed.
Print Assumptions C156_unknown.
(** Codecs as promised exist: one without any compression for PNG, and one that keeps
    nothing but the size for JPEG. *)
Definition ct_code (ct : ctype) : N := match ct with PGray => 0 | PRgb => 1 | PPalette => 2 | PGrayAlpha => 3 | PRgba => 4 end%N.
Definition ct_of (n : N) : ctype := match n with 0 => PGray | 1 => PRgb | 2 => PPalette | 3 => PGrayAlpha | _ => PRgba end%N.
Definition quad_of (q : N * N * N * N) : list N := let '(r, g, b, a) := q in [r; g; b; a].
Definition ex156 : codecs := mkC
  (fun f => [137; 80; 78; 71; ct_code (f_ct f); (if f_trns f then 1 else 0); Z.to_N (f_w f); Z.to_N (f_h f)]%N ++
            flat_map (fun p => quad_of (f_px f (fst p) (snd p))) (raster 0 (f_w f) 0 (f_h f)))
  (fun s => match s with
    | _ :: _ :: _ :: _ :: ct :: t :: w :: h :: px =>
      Some (mkP (ct_of ct) (t =? 1)%N (Z.of_N w) (Z.of_N h) (fun x y => let k := (4 * Z.to_nat (y * Z.of_N w + x))%nat in (nth (k + 0) px 0, nth (k + 1) px 0, nth (k + 2) px 0, nth (k + 3) px 0)%N))
    | _ => None end)
  (fun s => [255; 216; (if js_colour s then 1 else 0); Z.to_N (js_w s); Z.to_N (js_h s)]%N)
  (fun s => match s with [_; _; c; w; h] => Some (mkJ (if (c =? 1)%N then JColour else JGray) (Z.of_N w) (Z.of_N h) (fun _ _ => (0, 0, 0, 0)%N) (fun _ _ => 0%N)) | _ => None end).
Example C156_example : codecs_ok ex156 /\ named [97; 46; 112; 110; 103]%N FMT_PNG.
Proof.
  split; [split|exists [97%N], [112; 110; 103]%N; split; [reflexivity|cbn; auto]].
  - intros f (W & H & M). unfold ex156. cbn [png_dec png_enc app]. eexists. split; [reflexivity|]. cbn [f_ct f_trns f_w f_h f_px]. split; [destruct (f_ct f); reflexivity|]. split; [destruct (f_trns f); reflexivity|].
    rewrite !Z2N.id by lia. split; [reflexivity|]. split; [reflexivity|]. intros x y X Y.
    destruct (flat_chunks (fun p : Z * Z => quad_of (f_px f (fst p) (snd p))) 4 (raster 0 (f_w f) 0 (f_h f)) (0, 0) 0%N) as [_ K].
    { intros p _. destruct (f_px f (fst p) (snd p)) as [[[r g] b] a]. reflexivity. }
    pose proof (raster_len (f_w f) (f_h f) ltac:(lia) ltac:(lia)) as RL. assert (L : (Z.to_nat (y * f_w f + x) < length (raster 0 (f_w f) 0 (f_h f)))%nat) by nia.
    rewrite !K by lia. rewrite raster_nth by auto. cbn [fst snd]. destruct (f_px f x y) as [[[r g] b] a]. reflexivity.
  - intros f. cbn. eexists. reflexivity.
  - intros s (W & H & M). cbn. eexists. split; [reflexivity|]. cbn [j_kind j_w j_h]. rewrite !Z2N.id by lia. destruct (js_colour s); auto.
  - intros s. cbn. split; [eexists; reflexivity|lia].
Qed.
