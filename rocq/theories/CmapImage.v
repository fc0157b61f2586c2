From Coq Require Import Lia.
From Verif Require Import Base BaseLemmas Flt FltErr Gray Img FilterModel FilterSpec FilterProofs ImgModel ImgSpec ImgProofs PnmModel PnmSpec PnmProofs PnmRead PnmConv CmapData CmapModel CmapSpec CmapProofs CmapMore.
Local Open Scope Z_scope.

Definition times255 (b : Z) : bool := match fmul (of_int 255) (fdiv (of_int b) (of_int 255)) with FF n => n =? b * U | _ => false end.
Lemma times255_all : forallb times255 (zrange 0 256) = true.
Proof. vm_compute. reflexivity. Qed.
(** The value of a byte. *)
Lemma byte_value b : 0 <= b <= 255 -> exists V, fdiv (of_int b) (of_int 255) = FF V /\ 0 <= V <= U /\ Z.abs (255 * V - b * U) <= 65 * 255 * W /\ fmul (of_int 255) (FF V) = FF (b * U).
Proof.
  intro B. pose proof U_pos as UP. pose proof W_pos as WP. pose proof times255_all as T. rewrite forallb_forall in T. specialize (T b ltac:(apply zrange_in; lia)). unfold times255 in T.
  assert (E : fdiv (of_int b) (of_int 255) = mkf (b * U * U) (255 * U)).
  { rewrite !of_int_exact by (unfold small24; lia). unfold fdiv. destruct (Z.eqb_spec (255 * U) 0); [lia|]. rewrite (Z.sgn_pos (255 * U)), (Z.abs_eq (255 * U)), Z.mul_1_r by lia. reflexivity. }
  assert (P : 0 <= b * U * U) by (repeat apply Z.mul_nonneg_nonneg; lia).
  assert (L : b * U * U <= U * (255 * U)) by (replace (U * (255 * U)) with (255 * (U * U)) by ring; rewrite <- Z.mul_assoc; apply Z.mul_le_mono_nonneg_r; [apply Z.mul_nonneg_nonneg; lia|lia]).
  destruct (mkf_err (b * U * U) (255 * U) 1) as (V & EV & R); [lia|lia|rewrite Z.abs_eq by exact P; rewrite Z.mul_1_l; exact L|].
  rewrite E, EV in *. exists V. split; [reflexivity|]. split; [|split].
  - rewrite <- (Z.mul_1_l U). change (1 * U) with (1 * 2 ^ 149). apply (mkf_bound (b * U * U) (255 * U)); [exact P|lia|lia|lia|change (1 * 2 ^ 149) with U; exact L|exact EV].
  - replace (V * (255 * U) - b * U * U) with ((255 * V - b * U) * U) in R by ring. rewrite Z.abs_mul, (Z.abs_eq U) in R by lia. replace (65 * 1 * W * (255 * U)) with (65 * 255 * W * U) in R by ring. apply Z.mul_le_mono_pos_r in R; [exact R|exact UP].
  - destruct (fmul (of_int 255) (FF V)); try discriminate. apply Z.eqb_eq in T. now subst.
Qed.
Definition byte_colour (m : cmap) (b : Z) (c : Z * Z * Z) : Prop :=
  coloured m b 255 c /\ (m = CGray -> c = (b, b, b)) /\ (forall d rows, table m = Some (d, rows) -> length rows = 256%nat -> colour_at d rows (b * U) c).
Lemma byte_ok m b : 0 <= b <= 255 -> exists c, color_map_apply (fdiv (of_int b) (of_int 255)) m = Ok c /\ byte_colour m b c.
Proof.
  intro B. pose proof U_pos as UP. pose proof W_pos as WP. destruct (byte_value b B) as (V & -> & VB & VE & V255). unfold byte_colour, coloured. destruct (table m) as [[d rows]|] eqn:T.
  - destruct (table_ok m d rows T) as (D & F & N). destruct (position_ok _ V N VB) as (X & EX & XB & XE). destruct (colour_at_ok m d rows V X T EX XB) as (c & E & C).
    exists c. split; [exact E|]. split; [exists X; split; [exact XB|split; [|exact C]]|split].
    + set (n := Z.of_nat (length rows)) in *. replace (X * 255 - (n - 1) * b * U) with (255 * (X - (n - 1) * V) + (n - 1) * (255 * V - b * U)) by ring.
      assert (A1 : Z.abs (255 * (X - (n - 1) * V)) <= 255 * (65 * n * W)) by (apply abs_mul_le; [clear; lia|exact XE]).
      assert (A2 : Z.abs ((n - 1) * (255 * V - b * U)) <= n * (65 * 255 * W)) by (apply abs_mul_le; [clear -N; lia|exact VE]).
      replace (130 * n * W * 255) with (33150 * (n * W)) by ring. replace (255 * (65 * n * W)) with (16575 * (n * W)) in A1 by ring. replace (n * (65 * 255 * W)) with (16575 * (n * W)) in A2 by ring.
      set (a1 := 255 * _) in *. set (a2 := (n - 1) * (_ - _)) in *. set (w := n * W) in *. clear -A1 A2. clearbody a1 a2 w. lia.
    + intros ->. discriminate T.
    + intros d' rows' E' L. injection E' as <- <-. rewrite L in EX. change (Z.of_nat 256 - 1) with 255 in EX. rewrite V255 in EX. injection EX as <-. exact C.
  - assert (m = CGray) as -> by (destruct m; [reflexivity|discriminate..]). exists (b, b, b). split; [|split; [|split; [reflexivity|discriminate]]].
    + unfold color_map_apply. cbn [bind]. unfold to_uchar. assert (CM : fmul (FF V) (of_int 255) = FF (b * U)). { rewrite <- V255, of_int_exact by (unfold small24; lia). unfold fmul. now rewrite Z.mul_comm. }
      rewrite CM, <- of_int_exact, to_int_of_int by (unfold small24; lia). cbn [bind]. destruct (Z.leb_spec 0 b); [|lia]. destruct (Z.leb_spec b 255); [|lia]. reflexivity.
    + cbn [red green blue fst snd]. split; [|split; reflexivity]. unfold near255. lia.
Qed.
Lemma near_byte c p q : near255 c p q -> 0 <= c <= 255.
Proof. intros [H _]. exact H. Qed.
Lemma coloured_byte m num den c : coloured m num den c -> 0 <= red c <= 255 /\ 0 <= green c <= 255 /\ 0 <= blue c <= 255.
Proof.
  unfold coloured. destruct (table m) as [[d rows]|].
  - intros (P & _ & _ & C1 & C2 & C3). repeat split; try (apply near_byte in C1; lia); try (apply near_byte in C2; lia); apply near_byte in C3; lia.
  - intros (C & -> & ->). apply near_byte in C. auto.
Qed.
Section Image.
Context {A : Type}.
Variables (z : A) (val : A -> flt) (m : cmap) (Q : A -> Z * Z * Z -> Prop).
Lemma image_coloured junk (gray : image A) : image_ok gray -> i_w gray <= INT_MAX -> i_h gray <= INT_MAX -> 4 * i_w gray <= INT_MAX -> 4 * i_w gray * i_h gray <= INT_MAX ->
  (forall x y, in_img gray x y -> exists c, color_map_apply (val (pix z gray x y)) m = Ok c /\ Q (pix z gray x y) c /\ 0 <= red c <= 255 /\ 0 <= green c <= 255 /\ 0 <= blue c <= 255) ->
  exists u, apply_colormap val junk gray m = Ok u /\ sized u RGBA (i_w gray) (i_h gray) /\
    forall x y, in_img gray x y -> Q (pix z gray x y) (colour_of u x y) /\ sample u x y 3 = 255%N.
Proof.
  intros G W1 H1 W4 A4 V. pose proof (io_w _ G) as W0. pose proof (io_h _ G) as H0.
  unfold apply_colormap. destruct (u_new_ok junk (i_w gray) (i_h gray) RGBA) as (g0 & -> & F); [lia|lia|exact W4|exact A4|]. cbn [bind u_px].
  set (col := fun x y => match color_map_apply (val (pix z gray x y)) m with Ok c => c | _ => (0, 0, 0) end).
  assert (COL : forall x y, in_img gray x y -> color_map_apply (val (pix z gray x y)) m = Ok (col x y) /\ Q (pix z gray x y) (col x y) /\ 0 <= red (col x y) <= 255 /\ 0 <= green (col x y) <= 255 /\ 0 <= blue (col x y) <= 255).
  { intros x y I. unfold col. destruct (V x y I) as (c & -> & R). auto. }
  set (hv := fun p : Z * Z => let c := col (fst p / 4) (snd p) in let k := fst p mod 4 in if k =? 3 then 255%N else Z.to_N (if k =? 0 then red c else if k =? 1 then green c else blue c)).
  edestruct (scan_cells (i_w gray) (i_h gray) RGBA hv) as (g & E & F' & PV); [exact F| |].
  2:{ rewrite E. cbn [bind]. eexists. split; [reflexivity|]. split; [apply sized_of; [lia|lia|exact W4|exact F']|].
      intros x y I. assert (P : forall c, 0 <= c < 4 -> sample (mkU RGBA (i_w gray) g) x y c = hv (4 * x + c, y)).
      { intros c C. unfold sample. cbn [u_px u_type n_ch]. apply PV. rewrite (fresh_in _ _ _ _ _ F). cbn [n_ch]. destruct I. lia. }
      assert (HV : forall c, 0 <= c < 4 -> hv (4 * x + c, y) = if c =? 3 then 255%N else Z.to_N (if c =? 0 then red (col x y) else if c =? 1 then green (col x y) else blue (col x y))).
      { intros c C. unfold hv. cbn [fst snd]. assert ((4 * x + c) mod 4 = c /\ (4 * x + c) / 4 = x) as [-> ->] by (split; Z.div_mod_to_equations; lia). reflexivity. }
      destruct (COL x y I) as (_ & QC & R1 & R2 & R3). split; [|rewrite P, HV by lia; reflexivity].
      unfold colour_of. rewrite !P, !HV by lia. cbn. rewrite !Z2N.id by lia. destruct (col x y) as [[r gg] b]. exact QC. }
  intros x y g X Y. cbn beta. rewrite (iget_ok z) by (auto; split; auto). cbn [bind]. destruct (COL x y (conj X Y)) as (-> & _). cbn [bind].
  pose proof (quad x) as (Q0 & Q1 & Q2 & Q3 & D0 & D1 & D2 & D3). destruct (col x y) as [[r gg] b] eqn:EC. symmetry.
  apply puts4; unfold hv; cbn [fst snd]; rewrite ?Q0, ?Q1, ?Q2, ?Q3, ?D0, ?D1, ?D2, ?D3, EC; reflexivity.
Qed.
End Image.
