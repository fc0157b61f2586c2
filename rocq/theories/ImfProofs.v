From Verif Require Import Base BaseLemmas Gray Img ImgModel ImgSpec ImgProofs PnmModel PnmSpec PnmProofs PnmRead PnmSave PnmConv ImfModel ImfSpec.
Local Open Scope Z_scope.

(** * PNG *)
Lemma samples_len lum t f x y x' y' : length (png_samples lum t f x y) = length (png_samples lum t f x' y').
Proof.
  unfold png_samples. destruct (f_px f x y) as [[[r g] b] a], (f_px f x' y') as [[[r' g'] b'] a']. rewrite !app_length. f_equal.
  - destruct (coloured _), (t_gray t), (t_rgb t); reflexivity.
  - destruct (_ && _), (t_add t); reflexivity.
Qed.
Lemma scan_samples (ch w h : Z) (s : Z -> Z -> list N) g0 t : 0 < ch -> n_ch t = ch -> 0 <= w -> (forall x y, Z.of_nat (length (s x y)) = ch) -> fresh g0 (ch * w) h ->
  exists g, scan 0 (ch * w) 0 h (fun k y g => let* v := zget (s (k / ch) y) (k mod ch) in iput g k y v) g0 = Ok g /\ fresh g (ch * w) h /\
    forall x y c, 0 <= x < w -> 0 <= y < h -> 0 <= c < ch -> pix 0%N g (ch * x + c) y = nth (Z.to_nat c) (s x y) 0%N.
Proof.
  intros C T W L F.
  destruct (scan_cells (ch * w) h GRAY (fun p => nth (Z.to_nat (fst p mod ch)) (s (fst p / ch) (snd p)) 0%N) (fun k y g => let* v := zget (s (k / ch) y) (k mod ch) in iput g k y v) g0) as (g & E & F' & P).
  - cbn [n_ch]. now rewrite Z.mul_1_l.
  - intros k y g K Y. pose proof (Z.mod_pos_bound k ch C) as M. rewrite (zget_lt _ _ 0%N) by (rewrite L; exact M). cbn [bind]. unfold puts, cells_of. cbn [for_each fst snd]. destruct (iput g k y _); reflexivity.
  - cbn [n_ch] in F'. rewrite Z.mul_1_l in F'. exists g. split; [exact E|]. split; [exact F'|]. intros x y c X Y Cc.
    rewrite P.
    + cbn [fst snd]. replace ((ch * x + c) mod ch) with c by (symmetry; rewrite Z.add_comm, Z.mul_comm, Z.mod_add by lia; apply Z.mod_small; lia).
      replace ((ch * x + c) / ch) with x; [reflexivity|]. symmetry. rewrite Z.add_comm, Z.mul_comm, Z.div_add by lia. rewrite Z.div_small by lia. lia.
    + destruct F as (F1 & F2 & _). split; [rewrite F1; nia|rewrite F2; lia].
Qed.
Lemma load_png_ok lum junk mode f ty t : fits (f_w f) (f_h f) -> png_setup mode (f_ct f) = (ty, t) -> (forall x y, Z.of_nat (length (png_samples lum t f x y)) = n_ch ty) ->
  exists u, load_png lum junk mode f = Ok u /\ sized u ty (f_w f) (f_h f) /\
    forall x y c, 0 <= x < f_w f -> 0 <= y < f_h f -> 0 <= c < n_ch ty -> sample u x y c = nth (Z.to_nat c) (png_samples lum t f x y) 0%N.
Proof.
  intros (W & H & M) E L. assert (C : 0 < n_ch ty <= 4) by (destruct ty; cbn; lia).
  assert (M1 : n_ch ty * f_w f <= INT_MAX) by nia. assert (M2 : n_ch ty * f_w f * f_h f <= INT_MAX) by nia.
  unfold load_png. rewrite E. destruct (u_new_ok junk (f_w f) (f_h f) ty) as (g0 & -> & F); [nia|nia|exact M1|exact M2|]. cbn [bind u_px]. rewrite L.
  destruct (scan_samples (n_ch ty) (f_w f) (f_h f) (png_samples lum t f) g0 ty) as (g & -> & F' & P); [lia|reflexivity|lia|exact L|exact F|].
  cbn [bind]. eexists. split; [reflexivity|]. split; [apply sized_of; auto; nia|]. intros x y c X Y Cc. unfold sample. cbn [u_px u_type]. now apply P.
Qed.
Lemma chunk_at u : u_ok u ->
  exists s, scan 0 (n_ch (u_type u) * u_w u) 0 (u_h u) (fun k y out => let* v := iget (u_px u) k y in Ok (out ++ [v])) [] = Ok s /\
    forall x y c, in_uimg u x y -> 0 <= c < n_ch (u_type u) -> nth (Z.to_nat (y * (n_ch (u_type u) * u_w u) + (n_ch (u_type u) * x + c))) s 0%N = sample u x y c.
Proof.
  intros G. set (n := n_ch (u_type u)) in *. assert (Np : 0 < n) by (unfold n; destruct (u_type u); cbn; lia). pose proof (uo_cols u G) as Co. fold n in Co.
  pose proof (flat_chunks (fun p : Z * Z => [pix 0%N (u_px u) (fst p) (snd p)]) 1 (raster 0 (n * u_w u) 0 (u_h u)) (0, 0) 0%N (fun _ _ => eq_refl)) as [_ K].
  eexists. split.
  - rewrite scan_raster. apply for_each_out with (h := fun p => [pix 0%N (u_px u) (fst p) (snd p)]). intros [k j] acc I. apply raster_in in I. cbn [fst snd].
    rewrite (iget_ok 0%N); [reflexivity|apply (uo_px u G)|]. split; [rewrite Co|]; apply I.
  - intros x y c [X Y] C. cbn [app]. pose proof (raster_len (n * u_w u) (u_h u) ltac:(nia) ltac:(lia)) as RL. assert (B : 0 <= n * x + c < n * u_w u) by nia.
    specialize (K (Z.to_nat (y * (n * u_w u) + (n * x + c))) 0%nat ltac:(nia) ltac:(lia)). rewrite raster_nth in K by (auto; lia).
    rewrite Nat.mul_1_l, Nat.add_0_r in K. rewrite K. reflexivity.
Qed.

(** * JPEG *)
Lemma fill_row (v : Z -> N) n : forall l, (n <= length l)%nat ->
  exists l', for_each (fun k l => zset l k (v k)) (zrange 0 (Z.of_nat n)) l = Ok l' /\ length l' = length l /\ forall k, 0 <= k < Z.of_nat n -> nth (Z.to_nat k) l' 0%N = v k.
Proof.
  induction n as [|n IH]; intros l L; [exists l; split; [reflexivity|split; [reflexivity|lia]]|].
  destruct (IH l ltac:(lia)) as (l1 & E & L1 & P). replace (Z.of_nat (S n)) with (Z.of_nat n + 1) by lia. rewrite zrange_snoc, for_each_app by lia. rewrite E. cbn [bind for_each].
  rewrite zset_lt' by lia. cbn [bind]. eexists. split; [reflexivity|]. rewrite lset_length. split; [exact L1|]. intros k K.
  rewrite nth_lset. destruct (Nat.eqb_spec (Z.to_nat (Z.of_nat n)) (Z.to_nat k)) as [Q|Q]; cbn [andb].
  - destruct (Nat.ltb_spec (Z.to_nat (Z.of_nat n)) (length l1)); [|lia]. f_equal. lia.
  - apply P. lia.
Qed.
Lemma for_each_ext {A T} (f f' : A -> T -> res T) l : (forall a t, In a l -> f a t = f' a t) -> forall t, for_each f l t = for_each f' l t.
Proof.
  induction l as [|a l IH]; intros E t; [reflexivity|]. cbn [for_each]. rewrite E by now left. destruct (f' a t); try reflexivity. cbn [bind]. apply IH. intros; apply E; now right.
Qed.
Lemma jsamples_len n f x y : n = 1 \/ n = 3 -> Z.of_nat (length (jpeg_samples n f x y)) = n.
Proof. unfold jpeg_samples. destruct (j_px f x y) as [[[a b] c] d]. intros [-> | ->]; cbn [Z.eqb Pos.eqb]; [reflexivity|]. destruct (j_kind f); reflexivity. Qed.
Lemma read_row_ok f y l : 0 <= j_w f -> Z.of_nat (length l) = 3 * j_w f ->
  exists l', jpeg_read_row 3 f y l = Ok l' /\ length l' = length l /\ forall x c, 0 <= x < j_w f -> 0 <= c < 3 -> zget l' (3 * x + c) = Ok (nth (Z.to_nat c) (jpeg_samples 3 f x y) 0%N).
Proof.
  intros W L. destruct (fill_row (fun k => nth (Z.to_nat (k mod 3)) (jpeg_samples 3 f (k / 3) y) 0%N) (Z.to_nat (3 * j_w f)) l ltac:(lia)) as (l' & E & L' & P). rewrite Z2Nat.id in E, P by lia.
  exists l'. split; [|split; [exact L'|]].
  - unfold jpeg_read_row. rewrite <- E. apply for_each_ext. intros k t _. rewrite (zget_lt _ _ 0%N); [reflexivity|]. rewrite jsamples_len by auto. apply Z.mod_pos_bound. lia.
  - intros x c X C. rewrite (zget_lt _ _ 0%N) by lia. rewrite P by lia. replace ((3 * x + c) mod 3) with c by (Z.div_mod_to_equations; lia). replace ((3 * x + c) / 3) with x by (Z.div_mod_to_equations; lia). reflexivity.
Qed.
Definition jpeg_cell (f : jfile) (p : Z * Z) : N := if fst p mod 4 =? 3 then 255%N else nth (Z.to_nat (fst p mod 4)) (jpeg_samples 3 f (fst p / 4) (snd p)) 0%N.
Lemma rows_ok f ys : 0 <= j_w f -> forall g buffer, Z.of_nat (length buffer) = 3 * j_w f ->
  exists buffer', for_each (fun y '(g, buffer) =>
          let* buffer := jpeg_read_row 3 f y buffer in
          let* g := for_each (fun x g =>
              let* r := zget buffer (3 * x) in
              let* g := iput g (4 * x) y r in
              let* v := zget buffer (3 * x + 1) in
              let* g := iput g (4 * x + 1) y v in
              let* b := zget buffer (3 * x + 2) in
              let* g := iput g (4 * x + 2) y b in
              iput g (4 * x + 3) y 255%N) (zrange 0 (j_w f)) g in
          Ok (g, buffer)) ys (g, buffer) =
   (let* g := for_each (fun y => for_each (fun x => puts (jpeg_cell f) (cells_of RGBA x y)) (zrange 0 (j_w f))) ys g in Ok (g, buffer')).
Proof.
  intro W. induction ys as [|y ys IH]; intros g buffer L; [exists buffer; reflexivity|]. destruct (read_row_ok f y buffer W L) as (b1 & E & L1 & P).
  cbn [for_each]. rewrite E. cbn [bind].
  rewrite (for_each_ext _ (fun x => puts (jpeg_cell f) (cells_of RGBA x y)) (zrange 0 (j_w f))).
  - destruct (for_each _ (zrange 0 (j_w f)) g) as [g1| | |]; [|exists buffer; reflexivity..]. cbn [bind]. apply IH. lia.
  - intros x g' I. apply zrange_in in I. pose proof (P x 0 I ltac:(lia)) as P0. rewrite Z.add_0_r in P0. rewrite P0, (P x 1 I), (P x 2 I) by lia. cbn [bind].
    destruct (quad x) as (q0 & q1 & q2 & q3 & d0 & d1 & d2 & d3).
    erewrite puts4; [reflexivity| | | |]; unfold jpeg_cell; cbn [fst snd]; rewrite ?q0, ?q1, ?q2, ?q3, ?d0, ?d1, ?d2, ?d3; reflexivity.
Qed.
Lemma load_jpeg_gray junk bjunk mode f : fits (j_w f) (j_h f) -> jpeg_components mode (j_kind f) = Some 1 ->
  exists u, load_jpeg junk bjunk mode f = Ok (Some u) /\ sized u GRAY (j_w f) (j_h f) /\ forall x y, 0 <= x < j_w f -> 0 <= y < j_h f -> sample u x y 0 = j_gray f x y.
Proof.
  intros (W & H & M) E. unfold load_jpeg. rewrite E. cbn [Z.eqb Pos.eqb]. destruct (u_new_ok junk (j_w f) (j_h f) GRAY) as (g0 & -> & F); cbn [n_ch] in *; [nia..|]. cbn [bind u_px].
  match goal with |- context [scan 0 _ 0 _ ?F0 g0] => destruct (scan_cells (j_w f) (j_h f) GRAY (fun p => j_gray f (fst p) (snd p)) F0 g0 F) as (g & -> & F' & P) end.
  - intros x y g X Y. unfold jpeg_samples. destruct (j_px f x y) as [[[a b] c] d]. cbn. destruct (iput g x y _); reflexivity.
  - cbn [bind]. eexists. split; [reflexivity|]. split; [apply sized_of; cbn [n_ch] in *; auto; nia|]. intros x y X Y. unfold sample. cbn [u_px u_type n_ch]. rewrite Z.mul_1_l, Z.add_0_r. rewrite P; [reflexivity|]. destruct F as (F1 & F2 & _). split; lia.
Qed.
Lemma load_jpeg_colour junk bjunk mode f : fits (j_w f) (j_h f) -> jpeg_components mode (j_kind f) = Some 3 ->
  exists u, load_jpeg junk bjunk mode f = Ok (Some u) /\ sized u RGBA (j_w f) (j_h f) /\
    forall x y, 0 <= x < j_w f -> 0 <= y < j_h f -> sample u x y 3 = 255%N /\ forall c, 0 <= c < 3 -> sample u x y c = nth (Z.to_nat c) (jpeg_samples 3 f x y) 0%N.
Proof.
  intros (W & H & M) E. unfold load_jpeg. rewrite E. cbn [Z.eqb Pos.eqb]. destruct (u_new_ok junk (j_w f) (j_h f) RGBA) as (g0 & -> & F); cbn [n_ch] in *; [nia..|]. cbn [bind u_px]. cbv zeta.
  destruct (rows_ok f (zrange 0 (j_h f)) ltac:(lia) g0 (map bjunk (seq 0 (Z.to_nat (3 * j_w f))))) as (b' & ->); [rewrite map_length, seq_length; lia|].
  destruct (scan_cells (j_w f) (j_h f) RGBA (jpeg_cell f) (fun x y => puts (jpeg_cell f) (cells_of RGBA x y)) g0 F) as (g & EG & F' & P); [reflexivity|]. unfold scan in EG. rewrite EG. cbn [bind fst].
  eexists. split; [reflexivity|]. split; [apply sized_of; cbn [n_ch] in *; auto; nia|]. intros x y X Y. destruct F as (F1 & F2 & _).
  assert (Q : forall c, 0 <= c < 4 -> sample (mkU RGBA (j_w f) g) x y c = jpeg_cell f (4 * x + c, y)) by (intros c C; unfold sample; cbn [u_px u_type n_ch]; apply P; split; lia).
  split.
  - rewrite Q by lia. unfold jpeg_cell. cbn [fst]. destruct (quad x) as (_ & _ & _ & -> & _). reflexivity.
  - intros c C. rewrite Q by lia. unfold jpeg_cell. cbn [fst snd]. replace ((4 * x + c) mod 4) with c by (Z.div_mod_to_equations; lia). replace ((4 * x + c) / 4) with x by (Z.div_mod_to_equations; lia).
    destruct (Z.eqb_spec c 3); [lia|reflexivity].
Qed.
Lemma save_jpeg_ok u : u_ok u -> save_jpeg u = Ok (mkS (match u_type u with GRAY => false | RGBA => true end) (u_w u) (u_h u) (pixels u)).
Proof.
  intro G. unfold save_jpeg, pixels. pose proof (sample_get u) as SG. destruct (u_type u) eqn:T; cbn [n_ch] in SG.
  - rewrite scan_raster. erewrite for_each_out; [reflexivity|]. intros [x y] acc I. apply raster_in in I. destruct I as [X Y]. cbn [fst snd]. unfold pixel_bytes. rewrite T.
    pose proof (SG x y 0 G ltac:(split; auto) ltac:(lia)) as E. replace (1 * x + 0) with x in E by lia. rewrite E. reflexivity.
  - rewrite scan_raster. erewrite for_each_out; [reflexivity|]. intros [x y] acc I. apply raster_in in I. destruct I as [X Y]. cbn [fst snd]. unfold pixel_bytes. rewrite T.
    pose proof (SG x y 0 G ltac:(split; auto) ltac:(lia)) as E0. pose proof (SG x y 1 G ltac:(split; auto) ltac:(lia)) as E1. pose proof (SG x y 2 G ltac:(split; auto) ltac:(lia)) as E2.
    rewrite Z.add_0_r in E0. rewrite E0. cbn [bind]. rewrite E1. cbn [bind]. rewrite E2. reflexivity.
Qed.
