(** Proofs about annotated images. *)
From Verif Require Import Base BaseLemmas Gray Img ImgSpec ImgProofs PnmModel PnmSpec PnmProofs PnmRead PnmSave PnmConv PnmProps AnnModel AnnSpec.
Local Open Scope Z_scope.

Lemma to_rgba_shown junk u : u_ok u -> 0 < u_w u -> 0 < u_h u -> 4 * u_w u * u_h u <= INT_MAX ->
  exists v, to_rgba false junk u = Ok v /\ sized v RGBA (u_w u) (u_h u) /\
    forall x y c, in_uimg u x y -> 0 <= c < 4 -> sample v x y c = shown u x y c.
Proof.
  intros G W H M. unfold to_rgba, shown. destruct (u_type u) eqn:T.
  - destruct (C80_to_rgba_partial junk u G T W H M) as (v & E & S & P). exists v. split; [exact E|]. split; [exact S|].
    intros x y c I C. destruct (P x y I) as [P1 P2]. destruct (Z.eqb_spec c 3) as [->|NE]; [exact P2|apply P1; lia].
  - exists u. split; [reflexivity|]. split; [repeat split; auto; apply G|]. auto.
Qed.

Lemma zeroed_fresh g w h : fresh g w h -> fresh (zeroed g) w h /\ forall x y, pix 0%N (zeroed g) x y = 0%N.
Proof.
  intros (W & H & S & G). split.
  - unfold fresh, zeroed. cbn [i_w i_h i_stride]. split; [exact W|]. split; [exact H|]. split; [exact S|].
    destruct G as [G1 G2 G3 G4]. constructor; cbn [i_w i_h i_stride i_data]; rewrite ?map_length; assumption.
  - intros x y. unfold pix, zeroed. cbn [i_data i_stride]. generalize (Z.to_nat (y * i_stride g + x)). generalize (i_data g).
    induction l as [|a l IH]; intros [|n]; cbn [map nth]; auto.
Qed.
(** Copying a row. *)
Lemma copy_row_ok src g off n y : image_ok src -> image_ok g -> 0 <= off -> off + n <= i_w g -> n <= i_w src -> 0 <= y < i_h g -> y < i_h src ->
  exists g', copy_row src off n y g = Ok g' /\ same_shape g' g /\ image_ok g' /\
    forall X Y, in_img g X Y -> pix 0%N g' X Y = if in_rect off (off + n) y (y + 1) X Y then pix 0%N src (X - off) Y else pix 0%N g X Y.
Proof.
  intros S G O1 O2 O3 Y1 Y2. unfold copy_row.
  destruct (scan_fill 0%N (fun X Y (_ : image N) => iget src (X - off) Y) (fun X Y => pix 0%N src (X - off) Y) off (off + n) y (y + 1) g G) as (g' & E & SS & OK & V & _); try lia.
  - intros X Y g1 HX HY _ _ _. apply iget_ok; [exact S|]. unfold in_img. lia.
  - exists g'. auto.
Qed.
Section Canvas.
  Variables (l r g0 : image N) (lw rw lh rh : Z).
  Hypotheses (L : image_ok l) (R : image_ok r) (G : image_ok g0).
  Hypotheses (LW : i_w l = lw * 4) (RW : i_w r = rw * 4) (LH : i_h l = lh) (RH : i_h r = rh).
  Hypotheses (GW : i_w g0 = (lw + rw) * 4) (GH : i_h g0 = Z.max lh rh).
  Hypotheses (LW0 : 0 <= lw) (RW0 : 0 <= rw).
  Definition want (X Y : Z) : N :=
    if X <? lw * 4 then if Y <? lh then pix 0%N l X Y else pix 0%N g0 X Y
    else if Y <? rh then pix 0%N r (X - lw * 4) Y else pix 0%N g0 X Y.
  Lemma rows_ok k : (Z.of_nat k <= Z.max lh rh) ->
    exists g, for_each (fun y g =>
      let* g := if y <? lh then copy_row l 0 (lw * 4) y g else Ok g in
      if y <? rh then copy_row r (lw * 4) (rw * 4) y g else Ok g) (zrange 0 (Z.of_nat k)) g0 = Ok g /\
      same_shape g g0 /\ image_ok g /\
      forall X Y, in_img g0 X Y -> pix 0%N g X Y = if Y <? Z.of_nat k then want X Y else pix 0%N g0 X Y.
  Proof.
    induction k as [|k IH]; intros K.
    - exists g0. split; [reflexivity|]. split; [repeat split|]. split; [exact G|]. intros X Y [_ HY]. destruct (Z.ltb_spec Y (Z.of_nat 0)); [lia|reflexivity].
    - destruct IH as (g & E & (S1 & S2 & S3) & O & V); [lia|].
      rewrite Nat2Z.inj_succ, <- Z.add_1_r, zrange_snoc, for_each_app by lia. rewrite E. cbn [bind for_each].
      set (y := Z.of_nat k) in *.
      assert (A : exists g1, (if y <? lh then copy_row l 0 (lw * 4) y g else Ok g) = Ok g1 /\ same_shape g1 g0 /\ image_ok g1 /\
        forall X Y, in_img g0 X Y -> pix 0%N g1 X Y = if (Y =? y) && (X <? lw * 4) && (y <? lh) then pix 0%N l X Y else pix 0%N g X Y).
      { destruct (Z.ltb_spec y lh) as [YL|YL].
        - destruct (copy_row_ok l g 0 (lw * 4) y) as (g1 & E1 & (T1 & T2 & T3) & O1 & V1); auto; try lia.
          exists g1. split; [exact E1|]. split; [repeat split; congruence|]. split; [exact O1|].
          intros X Y I. rewrite V1 by (unfold in_img in *; lia). rewrite Z.sub_0_r. unfold in_rect. destruct I as [IX IY].
          destruct (Z.eqb_spec Y y), (Z.ltb_spec X (lw * 4)), (Z.leb_spec 0 X), (Z.ltb_spec X (0 + lw * 4)), (Z.leb_spec y Y), (Z.ltb_spec Y (y + 1)); try lia; reflexivity.
        - exists g. split; [reflexivity|]. split; [repeat split; auto|]. split; [exact O|]. intros X Y _. rewrite andb_false_r. reflexivity. }
      destruct A as (g1 & E1 & (T1 & T2 & T3) & O1 & V1). rewrite E1. cbn [bind].
      assert (B : exists g2, (if y <? rh then copy_row r (lw * 4) (rw * 4) y g1 else Ok g1) = Ok g2 /\ same_shape g2 g0 /\ image_ok g2 /\
        forall X Y, in_img g0 X Y -> pix 0%N g2 X Y = if (Y =? y) && negb (X <? lw * 4) && (y <? rh) then pix 0%N r (X - lw * 4) Y else pix 0%N g1 X Y).
      { destruct (Z.ltb_spec y rh) as [YR|YR].
        - destruct (copy_row_ok r g1 (lw * 4) (rw * 4) y) as (g2 & E2 & (U1 & U2 & U3) & O2 & V2); auto; try lia.
          exists g2. split; [exact E2|]. split; [repeat split; congruence|]. split; [exact O2|].
          intros X Y I. rewrite V2 by (unfold in_img in *; lia). unfold in_rect. destruct I as [IX IY].
          destruct (Z.eqb_spec Y y), (Z.ltb_spec X (lw * 4)), (Z.leb_spec (lw * 4) X), (Z.ltb_spec X (lw * 4 + rw * 4)), (Z.leb_spec y Y), (Z.ltb_spec Y (y + 1)); try lia; reflexivity.
        - exists g1. split; [reflexivity|]. split; [repeat split; auto|]. split; [exact O1|]. intros X Y _. rewrite andb_false_r. reflexivity. }
      destruct B as (g2 & E2 & SS2 & O2 & V2). rewrite E2. cbn [bind]. exists g2. split; [reflexivity|]. split; [exact SS2|]. split; [exact O2|].
      intros X Y I. rewrite V2, V1, V by exact I. unfold want.
      destruct (Z.eqb_spec Y y) as [->|NE].
      + destruct (Z.ltb_spec X (lw * 4)), (Z.ltb_spec y lh), (Z.ltb_spec y rh), (Z.ltb_spec y (y + 1)), (Z.ltb_spec y y); try lia; reflexivity.
      + cbn [andb]. destruct (Z.ltb_spec Y y), (Z.ltb_spec Y (y + 1)); try lia; reflexivity.
  Qed.
End Canvas.

Lemma canvas_ok j1 j2 j3 j4 a b : u_ok a -> u_ok b -> 0 < u_w a -> 0 < u_h a -> 0 < u_w b -> 0 < u_h b ->
  4 * (u_w a + u_w b) * Z.max (u_h a) (u_h b) <= INT_MAX ->
  exists v, match_canvas false j1 j2 j3 j4 a b = Ok v /\ side_by_side v a b.
Proof.
  intros A B AW AH BW BH M. pose proof (uo_h a A) as AH1. pose proof (uo_h b B) as BH1.
  assert (MA : 4 * u_w a * u_h a <= INT_MAX) by nia. assert (MB : 4 * u_w b * u_h b <= INT_MAX) by nia.
  assert (MW : 4 * (u_w a + u_w b) <= INT_MAX) by nia.
  destruct (to_rgba_shown j1 a A AW AH MA) as (l & EL & (LO & LT & LW & LH) & LV).
  destruct (to_rgba_shown j2 b B BW BH MB) as (r & ER & (RO & RT & RW & RH) & RV).
  pose proof (uo_cols l LO) as LC. pose proof (uo_cols r RO) as RC. rewrite LT, LW in LC. rewrite RT, RW in RC. cbn [n_ch] in LC, RC.
  destruct (u_new_ok j3 (u_w a + u_w b) (Z.max (u_h a) (u_h b)) RGBA) as (g0 & E0 & F0); cbn [n_ch]; try lia.
  destruct (zeroed_fresh g0 _ _ F0) as ((ZW & ZH & ZS & ZO) & ZV). cbn [n_ch] in ZW, ZS.
  destruct (rows_ok (u_px l) (u_px r) (zeroed g0) (u_w a) (u_w b) (u_h a) (u_h b) (uo_px l LO) (uo_px r RO) ZO) with (k := Z.to_nat (Z.max (u_h a) (u_h b))) as (g & E & SS & O & V); try lia.
  rewrite Z2Nat.id in E, V by lia.
  exists (mkU RGBA (u_w a + u_w b) g). unfold match_canvas. rewrite chk_int_in by (pose proof int_rng as [-> _]; lia). cbn [bind].
  rewrite EL. cbn [bind]. rewrite ER. cbn [bind]. rewrite E0. cbn [bind u_px]. rewrite E. cbn [bind]. split; [reflexivity|].
  assert (F : fresh g (n_ch RGBA * (u_w a + u_w b)) (Z.max (u_h a) (u_h b))).
  { cbn [n_ch]. destruct SS as (S1 & S2 & S3). unfold fresh. split; [lia|]. split; [lia|]. split; [lia|exact O]. }
  split; [apply sized_of; cbn [n_ch]; try lia; exact F|].
  assert (P : forall x y c, 0 <= x < u_w a + u_w b -> 0 <= y < Z.max (u_h a) (u_h b) -> 0 <= c < 4 ->
    sample (mkU RGBA (u_w a + u_w b) g) x y c = want (u_px l) (u_px r) (zeroed g0) (u_w a) (u_h a) (u_h b) (4 * x + c) y).
  { intros x y c X Y C. unfold sample. cbn [u_px u_type n_ch]. rewrite V by (unfold in_img; lia). destruct (Z.ltb_spec y (Z.max (u_h a) (u_h b))); [reflexivity|lia]. }
  split; [|split].
  - intros x y c [X Y] C. rewrite P by lia. unfold want. destruct (Z.ltb_spec (4 * x + c) (u_w a * 4)); [|lia]. destruct (Z.ltb_spec y (u_h a)); [|lia].
    rewrite <- LV by (auto; split; auto). unfold sample. rewrite LT. reflexivity.
  - intros x y c [X Y] C. rewrite P by lia. unfold want. destruct (Z.ltb_spec (4 * (u_w a + x) + c) (u_w a * 4)); [lia|]. destruct (Z.ltb_spec y (u_h b)); [|lia].
    rewrite <- RV by (auto; split; auto). unfold sample. rewrite RT. cbn [n_ch]. f_equal. lia.
  - intros x y c [X Y] C N1 N2. cbn [u_w u_px] in X, Y. destruct SS as (S1 & S2 & S3). rewrite P by lia. unfold want.
    destruct (Z.ltb_spec (4 * x + c) (u_w a * 4)); [destruct (Z.ltb_spec y (u_h a)); [lia|apply ZV]|destruct (Z.ltb_spec y (u_h b)); [lia|apply ZV]].
Qed.
