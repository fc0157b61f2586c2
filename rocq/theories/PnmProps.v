(** Theorems about image files and colours: C59, C60, C78-C82.
    [u_ok u]: the memory of the image holds its rows.  [sample u x y c]: channel c
    of a pixel.  [sized v t w h]: v is a well-formed image of type t, w x h. *)
From Verif Require Import Base BaseLemmas Gray Img Flt CsvSpec CsvProofs2 DfModel FilterSpec FilterProofs ImgSpec ImgProofs PnmModel PnmSpec PnmProofs PnmRead PnmSave PnmConv.
Local Open Scope Z_scope.

(** ** C59 *)
(** A saved image is loaded again with the same size, type and colours by both
    loaders.  The alpha channel is not stored: 255 comes back. *)
Theorem C59_roundtrip : forall junk junk' u, u_ok u -> byte_samples u ->
  exists file v v', save_pnm u = Ok file /\
    load_pnm junk LOAD_AS_IS file = Ok (Some v) /\ xload_pnm junk' LOAD_AS_IS file = Ok v' /\
    sized v (u_type u) (u_w u) (u_h u) /\ sized v' (u_type u) (u_w u) (u_h u) /\
    (forall x y c, in_uimg u x y -> 0 <= c < n_ch (u_type u) -> c < 3 -> sample v x y c = sample u x y c /\ sample v' x y c = sample u x y c) /\
    (forall x y, in_uimg u x y -> u_type u = RGBA -> sample v x y 3 = 255%N /\ sample v' x y 3 = 255%N).
Proof.
  intros junk junk' u G B. exists (header u ++ pixels u). pose proof (io_max _ (uo_px u G)) as M. pose proof (io_w _ (uo_px u G)) as W. pose proof (io_h _ (uo_px u G)) as H. pose proof (uo_cols u G) as C.
  assert (M2 : n_ch (u_type u) * u_w u * u_h u <= INT_MAX) by (rewrite <- C; nia). pose proof (uo_max u G) as M1.
  destruct (load_saved junk LOAD_AS_IS u G B M1 M2) as (v & E & _ & S & P). destruct (load_saved junk' LOAD_AS_IS u G B M1 M2) as (v' & _ & E' & S' & P'). cbn [mode_type] in S, S'.
  exists v, v'. split; [now apply save_ok|]. split; [exact E|]. split; [exact E'|]. split; [exact S|]. split; [exact S'|].
  destruct S as (_ & T & _). destruct S' as (_ & T' & _). split.
  - intros x y c I C1 C2. specialize (P x y I). specialize (P' x y I). unfold same_colour in P, P'. rewrite T in P. rewrite T' in P'. destruct (u_type u); cbn [n_ch] in C1.
    + replace c with 0 by lia. auto.
    + split; [apply P|apply P']; lia.
  - intros x y I TY. specialize (P x y I). specialize (P' x y I). unfold same_colour in P, P'. rewrite T in P. rewrite T' in P'. rewrite TY in P, P'. split; [apply P|apply P'].
Qed.
Print Assumptions C59_roundtrip.
(** Loading as another type: gray values are put in the three colours, colours
    are mixed by the luminance formula. *)
Theorem C59_as_type : forall junk mode u, u_ok u -> byte_samples u -> let t := mode_type mode (u_type u) in
  n_ch t * u_w u <= INT_MAX -> n_ch t * u_w u * u_h u <= INT_MAX ->
  exists file v, save_pnm u = Ok file /\ load_pnm junk mode file = Ok (Some v) /\ xload_pnm junk mode file = Ok v /\
    sized v t (u_w u) (u_h u) /\ forall x y, in_uimg u x y -> same_colour u v x y.
Proof. intros junk mode u G B t M1 M2. destruct (load_saved junk mode u G B M1 M2) as (v & E). exists (header u ++ pixels u), v. split; [now apply save_ok|exact E]. Qed.
Print Assumptions C59_as_type.
(** A 2 x 2 image with a stride of 3 whose pixels look like a header. *)
Definition ex59 : uimg := mkU GRAY 2 (mkImg 2 2 3 [10; 32; 0; 53; 35; 0]%N).
Definition ex59c : uimg := mkU RGBA 1 (mkImg 4 2 4 [10; 32; 49; 255; 35; 10; 9; 255]%N).
Lemma ex59_ok : u_ok ex59 /\ u_ok ex59c /\ byte_samples ex59 /\ byte_samples ex59c.
Proof.
  assert (BS : forall u, Forall (fun b => b < 256)%N (i_data (u_px u)) -> byte_samples u).
  { intros u F x y c _ _. unfold sample, pix. rewrite Forall_forall in F. destruct (nth_in_or_default (Z.to_nat (y * i_stride (u_px u) + (n_ch (u_type u) * x + c))) (i_data (u_px u)) 0%N) as [I|E]; [now apply F|rewrite E; reflexivity]. }
  repeat split; try (cbn; cbv delta [INT_MAX]; lia); try (vm_compute; discriminate); try reflexivity; apply BS; repeat constructor.
Qed.
Example C59_example : u_ok ex59 /\ byte_samples ex59 /\ u_ok ex59c /\ byte_samples ex59c /\
  save_pnm ex59 = Ok [80; 53; 10; 50; 32; 50; 32; 50; 53; 53; 10; 10; 32; 53; 35]%N /\
  xload_pnm (fun _ => 1%N) LOAD_AS_IS [80; 53; 10; 50; 32; 50; 32; 50; 53; 53; 10; 10; 32; 53; 35]%N = Ok (mkU GRAY 2 (mkImg 2 2 2 [10; 32; 53; 35]%N)) /\
  (let* f := save_pnm ex59c in load_pnm (fun _ => 1%N) LOAD_AS_IS f) = Ok (Some ex59c).
Proof. destruct ex59_ok as (A & B & C & D). repeat (split; [assumption|]). repeat split; vm_compute; reflexivity. Qed.

(** ** C60 *)
Theorem C60_header : forall s f, f <> FMT_UNKNOWN -> (format_from_header (Some s) = f <-> (4 <= length s)%nat /\ signature f s).
Proof.
  intros s f NU. destruct s as [|m0 [|m1 [|m2 [|m3 s]]]]; try (split; [intro E; cbn in E; congruence|intros [L _]; cbn in L; lia]).
  cbn [format_from_header]. split.
  - intro E. split; [cbn; lia|].
    destruct (_ && _ && _ && _) eqn:P in E; [|destruct (_ && _) eqn:J in E; [|destruct (m0 =? 80)%N eqn:M in E; [|congruence]; destruct (_ || _ || _) eqn:B in E; [|destruct (_ || _ || _) eqn:A in E; [|congruence]]]]; subst f; cbn [signature];
      rewrite ?Bool.andb_true_iff, ?Bool.orb_true_iff, ?N.eqb_eq in *.
    + destruct P as (((-> & ->) & ->) & ->). now exists s.
    + destruct J as (-> & ->). eexists. reflexivity.
    + subst m0. eexists _, _. split; [reflexivity|]. cbn. intuition auto.
    + subst m0. eexists _, _. split; [reflexivity|]. cbn. intuition auto.
  - intros [_ S]. destruct f; cbn [signature] in S; [tauto| | | |].
    + destruct S as (d & r & E & I). assert (m0 = 80%N /\ m1 = d) as [-> ->] by (split; congruence). destruct I as [<-|[<-|[<-|[]]]]; reflexivity.
    + destruct S as (d & r & E & I). assert (m0 = 80%N /\ m1 = d) as [-> ->] by (split; congruence). destruct I as [<-|[<-|[<-|[]]]]; reflexivity.
    + destruct S as (r & E). assert (m0 = 255%N /\ m1 = 216%N) as [-> ->] by (split; congruence). reflexivity.
    + destruct S as (r & E). assert (m0 = 137%N /\ m1 = 80%N /\ m2 = 78%N /\ m3 = 71%N) as (-> & -> & -> & ->) by (repeat split; congruence). reflexivity.
Qed.
Print Assumptions C60_header.
Theorem C60_first_bytes : forall s s', firstn 4 s = firstn 4 s' -> format_from_header (Some s) = format_from_header (Some s').
Proof.
  intros s s' E. destruct s as [|m0 [|m1 [|m2 [|m3 s]]]], s' as [|n0 [|n1 [|n2 [|n3 s']]]]; cbn [firstn] in E; try discriminate E; try reflexivity.
  injection E as -> -> -> ->. reflexivity.
Qed.
Print Assumptions C60_first_bytes.
Theorem C60_unreadable : format_from_header None = FMT_UNKNOWN /\ forall s, (length s < 4)%nat -> format_from_header (Some s) = FMT_UNKNOWN.
Proof. split; [reflexivity|]. intros s L. destruct s as [|m0 [|m1 [|m2 [|m3 s]]]]; try reflexivity. cbn in L. lia. Qed.
Print Assumptions C60_unreadable.
Example C60_example : format_from_header (Some [80; 53; 10; 50; 32]%N) = FMT_PNM_BINARY /\ format_from_header (Some [137; 80; 78; 71; 13]%N) = FMT_PNG /\
  format_from_header (Some [255; 216; 255; 224]%N) = FMT_JPEG /\ format_from_header (Some [80; 53; 10]%N) = FMT_UNKNOWN.
Proof. repeat split. Qed.

(** ** C78 *)
(** Loading a file with a newline after the header: the outcome is failure if
    pixel bytes are missing, and otherwise exactly the pixels of the file. *)
Theorem C78_load : forall junk mode pt w h m hdr line data, let t := mode_type mode pt in
  numbers w h m hdr -> (match line with c :: _ => ~ (48 <= c <= 57)%N /\ (c < 65)%N | [] => True end) -> ~ In 10%N line -> (length line < 255)%nat -> bytes_ok data ->
  0 <= w <= INT_MAX -> 0 <= h <= INT_MAX -> 0 <= m <= INT_MAX -> n_ch t * w <= INT_MAX -> n_ch t * w * h <= INT_MAX ->
  exists r, load_pnm junk mode (magic_of pt ++ hdr ++ line ++ 10%N :: data) = Ok r /\ reads r pt t data w h.
Proof.
  intros junk mode pt w h m hdr line data t N D. intros. apply load_any with (m := m); auto. destruct line as [|c line]; [cbn; lia|]. cbn [app no_dig]. unfold CsvModel.digit_value.
  destruct (N.leb_spec 48 c), (N.leb_spec c 57), (N.leb_spec 97 c), (N.leb_spec c 122), (N.leb_spec 65 c), (N.leb_spec c 90); cbn [andb]; lia.
Qed.
Print Assumptions C78_load.
Theorem C78_xload : forall junk mode pt w h m hdr sep data, let t := mode_type mode pt in
  numbers w h m hdr -> sep = 32%N \/ (9 <= sep <= 13)%N -> bytes_ok data ->
  0 <= w <= INT_MAX -> 0 <= h <= INT_MAX -> 0 <= m <= INT_MAX -> n_ch t * w <= INT_MAX -> n_ch t * w * h <= INT_MAX ->
  exists r, xload_pnm junk mode (magic_of pt ++ hdr ++ sep :: data) = (match r with Some u => Ok u | None => Fatal end) /\ reads r pt t data w h.
Proof.
  intros junk mode pt w h m hdr sep data t N SP. intros. apply (xload_any junk mode pt w h m [] [] hdr sep data); auto; try constructor.
  apply (space_no_dig [sep] []); [|discriminate]. constructor; [exact SP|constructor].
Qed.
Print Assumptions C78_xload.
Example C78_example : numbers 2 1 255 [10; 50; 32; 49; 10; 50; 53; 53]%N /\
  load_pnm (fun _ => 1%N) LOAD_RGBA (magic_of GRAY ++ [10; 50; 32; 49; 10; 50; 53; 53; 10; 7; 9]%N) = Ok (Some (mkU RGBA 2 (mkImg 8 1 8 [7; 7; 7; 255; 9; 9; 9; 255]%N))) /\
  load_pnm (fun _ => 1%N) LOAD_RGBA (magic_of GRAY ++ [10; 50; 32; 49; 10; 50; 53; 53; 10; 7]%N) = Ok None.
Proof.
  split; [|split; vm_compute; reflexivity]. exists [10%N], [50%N], [32%N], [49%N], [10%N], [50; 53; 53]%N.
  repeat split; try discriminate; repeat constructor; lia.
Qed.

(** ** C79 *)
Theorem C79_luminance : forall r g b, (r < 256)%N -> (g < 256)%N -> (b < 256)%N ->
  exists v, rgb_to_gray r g b = Ok v /\ (N.min r (N.min g b) <= v + 1)%N /\ (v <= N.max r (N.max g b))%N.
Proof. intros. now apply rgb_to_gray_ok. Qed.
Print Assumptions C79_luminance.
Theorem C79_monotone : forall r g b r' g' b' v v', (r <= r' < 256)%N -> (g <= g' < 256)%N -> (b <= b' < 256)%N ->
  rgb_to_gray r g b = Ok v -> rgb_to_gray r' g' b' = Ok v' -> (v <= v')%N.
Proof. intros r g b r' g' b' v v'. apply rgb_to_gray_mono. Qed.
Print Assumptions C79_monotone.
(** On floats the result is NaN or between 0 and 1. *)
Theorem C79_float : forall r g b, rgb_to_gray_f32 r g b = FNaN \/ exists n, rgb_to_gray_f32 r g b = FF n /\ 0 <= n <= U.
Proof.
  intros r g b. unfold rgb_to_gray_f32. set (v := fadd _ _). pose proof U_pos. destruct (f_lt v F0) eqn:E0; [right; exists 0; split; [reflexivity|lia]|]. destruct (f_lt F1 v) eqn:E1; [right; exists U; split; [reflexivity|lia]|].
  clearbody v. destruct v as [n|[|]|]; unfold f_lt, F0, F1 in E0, E1; try discriminate; [|now left]. right. exists n. split; [reflexivity|]. apply Z.ltb_ge in E0, E1. lia.
Qed.
Print Assumptions C79_float.
(** The gray level 7 of a colour image becomes 6. *)
Example C79_example : rgb_to_gray 7 7 7 = Ok 6%N /\ rgb_to_gray 255 255 255 = Ok 255%N /\ rgb_to_gray 200 10 30 = Ok 69%N.
Proof. vm_compute. auto. Qed.

(** ** C80 *)
Theorem C80_to_rgba_partial : forall junk u, u_ok u -> u_type u = GRAY -> 0 < u_w u -> 0 < u_h u -> 4 * u_w u * u_h u <= INT_MAX ->
  exists v, convert_type junk u RGBA = Ok v /\ sized v RGBA (u_w u) (u_h u) /\
    forall x y, in_uimg u x y -> (forall c, 0 <= c < 3 -> sample v x y c = sample u x y 0) /\ sample v x y 3 = 255%N.
Proof.
  intros junk u G T W0 H1 M. pose proof (uo_w u G) as W. pose proof (uo_h u G) as H. unfold convert_type. rewrite T.
  destruct (u_new_ok junk (u_w u) (u_h u) RGBA) as (g0 & E & F); cbn [n_ch]; [lia|lia|nia|lia|]. rewrite E. cbn [bind u_px].
  destruct (to_rgba_ok u g0 G T) as (g & EG & S & P); [nia|exact F|]. rewrite EG. cbn [bind]. eexists. split; [reflexivity|]. split; [exact S|]. intros x y I. specialize (P x y I). unfold same_colour in P. rewrite T in P. exact P.
Qed.
Print Assumptions C80_to_rgba_partial.
(** The colour conversion on pixel buffers: w x h colours to a w x h gray buffer. *)
Theorem C80_to_gray_buffer_partial : forall u gray, u_ok u -> u_type u = RGBA -> byte_samples u -> fresh gray (u_w u) (u_h u) ->
  exists g, rgba_to_gray (u_w u) (u_h u) gray (u_px u) = Ok g /\ sized (mkU GRAY (u_w u) g) GRAY (u_w u) (u_h u) /\
    forall x y, in_uimg u x y -> rgb_to_gray (sample u x y 0) (sample u x y 1) (sample u x y 2) = Ok (sample (mkU GRAY (u_w u) g) x y 0).
Proof.
  intros u gray G T B F. destruct (to_gray_ok u gray G T B F) as (g & E & S & P). exists g. split; [exact E|]. split; [exact S|]. intros x y I. specialize (P x y I). unfold same_colour in P. rewrite T in P. exact P.
Qed.
Print Assumptions C80_to_gray_buffer_partial.
(** Converting a colour image to gray never works. *)
Theorem C80_to_gray_refuted : ~ (forall junk u, u_ok u -> byte_samples u -> u_type u = RGBA -> exists v, convert_type junk u GRAY = Ok v).
Proof. intro C. destruct (C (fun _ => 0%N) ex59c) as (v & E); try apply ex59_ok; [reflexivity|discriminate E]. Qed.
Print Assumptions C80_to_gray_refuted.
(** Nor do gray values survive the way through a colour file: 7 comes back as 6. *)
Theorem C80_gray_rgba_gray_refuted : ~ (forall junk u, u_ok u -> byte_samples u -> u_type u = GRAY ->
   (let* v := convert_type junk u RGBA in let* f := save_pnm v in xload_pnm junk LOAD_GRAY f) = Ok u).
Proof.
  intro C. specialize (C (fun _ => 0%N) (mkU GRAY 1 (mkImg 1 1 1 [7%N]))). assert (G : u_ok (mkU GRAY 1 (mkImg 1 1 1 [7%N]))).
  { repeat split; try (cbn; cbv delta [INT_MAX]; lia); vm_compute; discriminate. }
  specialize (C G). assert (B : byte_samples (mkU GRAY 1 (mkImg 1 1 1 [7%N]))).
  { intros x y c [X Y] CC. cbn in X, Y, CC. assert (x = 0 /\ y = 0 /\ c = 0) as (-> & -> & ->) by lia. reflexivity. }
  specialize (C B eq_refl). vm_compute in C. discriminate C.
Qed.
Print Assumptions C80_gray_rgba_gray_refuted.
Example C80_example : convert_type (fun _ => 9%N) ex59 RGBA = Ok (mkU RGBA 2 (mkImg 8 2 8 [10; 10; 10; 255; 32; 32; 32; 255; 53; 53; 53; 255; 35; 35; 35; 255]%N)).
Proof. vm_compute. reflexivity. Qed.

(** ** C81 *)
Lemma strrchr_spec c s : match strrchr c s with Some r => exists p, s = p ++ r /\ exists q, r = c :: q /\ ~ In c q | None => ~ In c s end.
Proof.
  induction s as [|x s IH]; [cbn; tauto|]. cbn [strrchr]. destruct (strrchr c s) as [r|].
  - destruct IH as (p & -> & Q). exists (x :: p). auto.
  - destruct (N.eqb_spec x c) as [->|NE]; [exists []; split; [reflexivity|]; exists s; auto|]. intros [E|I]; [congruence|tauto].
Qed.
Lemma last_dot (c : N) p q p' q' : ~ In c q -> ~ In c q' -> p ++ c :: q = p' ++ c :: q' -> q = q'.
Proof.
  intros N1 N2 E. apply app_eq_app in E. destruct E as (l & [[-> E]|[-> E]]); destruct l as [|a l]; cbn [app] in E; try congruence; injection E as <- ->; exfalso; [apply N2|apply N1]; apply in_or_app; right; now left.
Qed.
Lemma str_eqb_iff a b : str_eqb a b = true <-> a = b.
Proof. unfold str_eqb. destruct (list_eq_dec N.eq_dec a b); split; congruence. Qed.
Theorem C81_filename : forall name f, f <> FMT_UNKNOWN -> (format_from_filename name = f <-> exists base e, name = base ++ 46%N :: e /\ In e (endings f)).
Proof.
  intros name f NU. unfold format_from_filename. pose proof (strrchr_spec 46%N name) as S. destruct (strrchr 46%N name) as [r|].
  - destruct S as (p & -> & q & -> & NQ).
    assert (ND : forall e, In e (endings f) -> ~ In 46%N e) by (intros e I; destruct f; cbn in I; intuition (subst; cbn in *; intuition discriminate)).
    assert (EQ : (exists base e, p ++ 46%N :: q = base ++ 46%N :: e /\ In e (endings f)) <-> In q (endings f)).
    { split; [|intro I; eauto]. intros (base & e & E & I). now rewrite (last_dot _ _ _ _ _ NQ (ND e I) E). }
    rewrite EQ. clear EQ ND. split.
    + intro E. destruct (_ || _ || _ || _) eqn:B1 in E; [|destruct (_ || _ || _ || _) eqn:B2 in E; [|destruct (_ || _) eqn:B3 in E; [|congruence]]]; subst f; rewrite ?Bool.orb_true_iff, ?str_eqb_iff in *; cbn;
        intuition (match goal with H : _ :: _ = _ |- _ => injection H as H end; auto 6).
    + intro I. destruct f; cbn in I; intuition (subst; try reflexivity; try discriminate).
  - split; [congruence|]. intros (base & e & -> & _). exfalso. apply S, in_or_app. right. now left.
Qed.
Print Assumptions C81_filename.
Example C81_example : format_from_filename [97; 46; 98; 46; 112; 110; 103]%N = FMT_PNG /\ format_from_filename [112; 110; 103]%N = FMT_UNKNOWN.
Proof. split; vm_compute; reflexivity. Qed.

(** ** C82 *)
(** The aborting loader accepts comment lines after the magic number and any
    white space after the header. *)
Theorem C82_xload_partial : forall junk mode pt w h m bl cs hdr sep data, let t := mode_type mode pt in
  blanks bl -> Forall comment cs -> numbers w h m hdr -> sep = 32%N \/ (9 <= sep <= 13)%N -> bytes_ok data ->
  0 <= w <= INT_MAX -> 0 <= h <= INT_MAX -> 0 <= m <= INT_MAX -> n_ch t * w <= INT_MAX -> n_ch t * w * h <= INT_MAX ->
  exists r, xload_pnm junk mode (magic_of pt ++ bl ++ concat cs ++ hdr ++ sep :: data) = (match r with Some u => Ok u | None => Fatal end) /\ reads r pt t data w h.
Proof. intros junk mode pt w h m bl cs hdr sep data t BL C N SP. intros. apply xload_any with (m := m); auto. apply (space_no_dig [sep] []); [|discriminate]. constructor; [exact SP|constructor]. Qed.
Print Assumptions C82_xload_partial.
(** The other loader fails on a comment, and takes pixels for header text when a
    space ends the header (here P5, 2 x 1, levels 255, pixels 10 and 7). *)
Theorem C82_load_refuted : exists u,
  xload_pnm (fun _ => 0%N) LOAD_AS_IS [80; 53; 10; 35; 10; 50; 32; 49; 32; 50; 53; 53; 10; 10; 7]%N = Ok u /\
  load_pnm (fun _ => 0%N) LOAD_AS_IS [80; 53; 10; 35; 10; 50; 32; 49; 32; 50; 53; 53; 10; 10; 7]%N = Ok None /\
  xload_pnm (fun _ => 0%N) LOAD_AS_IS [80; 53; 10; 50; 32; 49; 32; 50; 53; 53; 32; 10; 7]%N = Ok u /\
  load_pnm (fun _ => 0%N) LOAD_AS_IS [80; 53; 10; 50; 32; 49; 32; 50; 53; 53; 32; 10; 7]%N = Ok None.
Proof. eexists. repeat split; vm_compute; reflexivity. Qed.
Print Assumptions C82_load_refuted.
(** A negative width ends the program instead of giving a failure result. *)
Theorem C82_negative_refuted : load_pnm (fun _ => 0%N) LOAD_AS_IS [80; 53; 32; 45; 49; 32; 49; 32; 50; 53; 53; 10]%N = Fatal.
Proof. vm_compute. reflexivity. Qed.
Print Assumptions C82_negative_refuted.
Example C82_example : comment [35; 97; 10]%N /\ numbers 2 1 255 [50; 32; 49; 10; 50; 53; 53]%N /\
  xload_pnm (fun _ => 1%N) LOAD_AS_IS ([80; 53; 10]%N ++ concat [[35; 97; 10]%N] ++ [50; 32; 49; 10; 50; 53; 53; 10; 7; 9]%N) = Ok (mkU GRAY 2 (mkImg 2 1 2 [7; 9]%N)).
Proof.
  split; [exists [97%N]; split; [reflexivity|cbn; intuition discriminate]|]. split; [|vm_compute; reflexivity]. exists [], [50%N], [32%N], [49%N], [10%N], [50; 53; 53]%N.
  repeat split; try discriminate; repeat constructor; lia.
Qed.
