(** Scaling by one half and by one. *)
From Verif Require Import Base BaseLemmas Gray Img Flt FilterModel FilterSpec FilterProofs ImgModel ImgSpec ImgProofs ImgBox.
Local Open Scope Z_scope.

Definition F2 : flt := of_int 2.
Lemma half_inv : fdiv F1 F_HALF = F2.
Proof. vm_compute. reflexivity. Qed.
Lemma half_trunc z : 0 <= z <= 2 ^ 24 -> to_int (fmul (of_int z) F_HALF) = Ok (z / 2).
Proof.
  intro Z0. rewrite of_int_exact by (unfold small24; lia). unfold fmul, F_HALF. replace (z * U * 2 ^ 148) with (z * 2 ^ 148 * U) by ring.
  rewrite mkf_exact_d by (unfold small24, U; lia). unfold to_int. change U with (2 * 2 ^ 148). rewrite Z.quot_mul_cancel_r by lia. rewrite Z.quot_div_nonneg by lia.
  pose proof int_rng as [I0 I1]. change (2 ^ 24) with 16777216 in Z0. apply chk_int_in. Z.div_mod_to_equations. lia.
Qed.
Lemma double_exact z : 0 <= z -> 2 * z <= 2 ^ 24 -> fmul (of_int z) F2 = of_int (2 * z).
Proof. intros Z0 Z1. unfold F2. rewrite fmul_int; unfold small24; [f_equal; lia|lia..]. Qed.
Lemma fsub_self z : small24 z -> fsub (of_int z) (of_int z) = F0.
Proof. intro S. rewrite fsub_int; [now rewrite Z.sub_diag|exact S|exact S|]. rewrite Z.sub_diag. unfold small24. lia. Qed.
Lemma byte_cases (P : Z -> Prop) : (forall z, In z (zrange 0 256) -> P z) -> forall z, 0 <= z <= 255 -> P z.
Proof. intros H z B. apply H, zrange_in. lia. Qed.
Lemma mul_one z : 0 <= z <= 255 -> fmul (of_int z) F1 = of_int z.
Proof. intro B. change F1 with (of_int 1). rewrite fmul_int; unfold small24; [f_equal; lia|lia..]. Qed.
Lemma mul_zero z : 0 <= z <= 255 -> fmul (of_int z) F0 = F0.
Proof. intro B. change F0 with (of_int 0). rewrite fmul_int; unfold small24; [f_equal; lia|lia..]. Qed.
Lemma add_zero z : 0 <= z <= 255 -> fadd (of_int z) F0 = of_int z.
Proof. intro B. change F0 with (of_int 0). rewrite fadd_int; unfold small24; [f_equal; lia|lia..]. Qed.
Lemma scale_half_ok junk src : image_ok src -> byte_img src -> i_w src <= 2 ^ 24 -> i_h src <= 2 ^ 24 ->
  exists g, scale_uc junk src F_HALF = Ok g /\ fresh g (i_w src / 2) (i_h src / 2) /\ forall x y, in_img g x y -> pix 0 g x y = pix 0 src (2 * x) (2 * y).
Proof.
  intros G BI W24 H24. unfold scale_uc. pose proof (io_w src G) as W. pose proof (io_h src G) as H. pose proof (size_bound src G) as SB. pose proof int_rng as [I0 I1].
  rewrite !half_trunc by lia. cbn [bind]. set (w := i_w src) in *. set (h := i_h src) in *. set (dw := w / 2). set (dh := h / 2).
  assert (DW : 0 <= dw /\ 2 * dw <= w) by (unfold dw; Z.div_mod_to_equations; lia). assert (DH : 0 <= dh /\ 2 * dh <= h) by (unfold dh; Z.div_mod_to_equations; lia). clearbody dw dh.
  destruct (img_new_fresh junk dw dh) as (g & E & F); [nia..|]. rewrite E. cbn [bind]. rewrite half_inv. cbv zeta.
  set (v := fun p : Z * Z => pix 0 src (2 * fst p) (2 * snd p)).
  assert (GZ : forall x y, 0 <= x < w -> 0 <= y < h -> zget (i_data src) (y * i_stride src + x) = Ok (pix 0 src x y)).
  { intros x y X Y. apply zget_lt. apply (pix_index src x y G). split; auto. }
  assert (BY : forall x y, 0 <= x < w -> 0 <= y < h -> 0 <= pix 0 src x y <= 255) by (intros; apply pix_byte; auto; split; auto).
  match goal with |- exists g', ?t = Ok g' /\ _ => assert (T : t = puts v (raster 0 dw 0 dh) g) end.
  { rewrite puts_raster. unfold scan. apply for_each_eq. intros y g1 Y. apply zrange_in in Y. change (2 ^ 24) with 16777216 in *.
    assert (Y24 : small24 (2 * y)) by (unfold small24; change (2 ^ 24) with 16777216; lia).
    rewrite double_exact by (change (2 ^ 24) with 16777216; lia). rewrite to_int_of_int by exact Y24. cbn [bind].
    rewrite chk_int_in by (pose proof (io_max src G); nia). cbn [bind]. rewrite fsub_self by exact Y24.
    apply for_each_eq. intros x g2 X. apply zrange_in in X. assert (X24 : small24 (2 * x)) by (unfold small24; change (2 ^ 24) with 16777216; lia).
    rewrite double_exact by (change (2 ^ 24) with 16777216; lia). rewrite to_int_of_int by exact X24. cbn [bind]. rewrite fsub_self by exact X24.
    rewrite GZ by lia. cbn [bind]. rewrite <- Z.add_assoc. rewrite GZ by lia. cbn [bind].
    replace (2 * y * i_stride src + (2 * x) + i_stride src) with ((2 * y + 1) * i_stride src + 2 * x) by ring. rewrite GZ by lia. cbn [bind].
    replace ((2 * y + 1) * i_stride src + 2 * x + 1) with ((2 * y + 1) * i_stride src + (2 * x + 1)) by ring. rewrite GZ by lia. cbn [bind].
    change (fsub F1 F0) with F1. pose proof (BY (2 * x) (2 * y) ltac:(lia) ltac:(lia)) as B0. pose proof (BY (2 * x + 1) (2 * y) ltac:(lia) ltac:(lia)) as B1.
    pose proof (BY (2 * x) (2 * y + 1) ltac:(lia) ltac:(lia)) as B2. pose proof (BY (2 * x + 1) (2 * y + 1) ltac:(lia) ltac:(lia)) as B3.
    rewrite !mul_one, !mul_zero by lia. rewrite !add_zero by lia. rewrite mul_one, mul_zero by lia. rewrite add_zero by lia.
    unfold to_short. rewrite to_int_of_int by (unfold small24; change (2 ^ 24) with 16777216; lia). cbn [bind].
    destruct (Z.leb_spec (-32768) (pix 0 src (2 * x) (2 * y))), (Z.leb_spec (pix 0 src (2 * x) (2 * y)) 32767); try lia. cbn [andb bind].
    destruct (Z.ltb_spec (pix 0 src (2 * x) (2 * y)) 0), (Z.ltb_spec 255 (pix 0 src (2 * x) (2 * y))); try lia. reflexivity. }
  rewrite T. clear T. destruct (puts_all 0 v (raster 0 dw 0 dh) g) as (g' & E' & S & O & VV & _).
  - apply F.
  - intros [x y] I. apply raster_in in I. rewrite (fresh_in _ _ _ _ _ F). exact I.
  - intros x y I. rewrite (fresh_in _ _ _ _ _ F) in I. now apply raster_in.
  - exists g'. split; [exact E'|]. split; [eapply fresh_shape; eauto|]. intros x y I. apply (same_shape_in _ _ _ _ S) in I. now rewrite VV.
Qed.
Lemma for_each_ok_in {A S} (f : A -> S -> res S) l s s' x : for_each f l s = Ok s' -> In x l -> exists t t', f x t = Ok t'.
Proof.
  revert s. induction l as [|a l IH]; intros s E I; [destruct I|]. cbn [for_each] in E. destruct (f a s) as [t| | |] eqn:F; try discriminate. cbn [bind] in E. destruct I as [->|I]; eauto.
Qed.
(** If a sample row is the last one, the row below it is read. *)
Lemma scale_oob junk src f g dw dh y ypi : image_ok src ->
  to_int (fmul (of_int (i_w src)) f) = Ok dw -> to_int (fmul (of_int (i_h src)) f) = Ok dh -> 0 < dw -> 0 <= y < dh ->
  to_int (fmul (of_int y) (fdiv F1 f)) = Ok ypi -> i_h src - 1 <= ypi -> to_int (fmul (of_int 0) (fdiv F1 f)) = Ok 0 -> scale_uc junk src f <> Ok g.
Proof.
  intros G EW EH DW Y EY HY E0 Q. unfold scale_uc in Q. rewrite EW in Q. cbn [bind] in Q. rewrite EH in Q. cbn [bind] in Q.
  destruct (img_new junk dw dh) as [g0| | |]; try discriminate. cbn [bind] in Q. cbv zeta in Q.
  apply for_each_ok_in with (x := y) in Q as (t & t' & Q); [|now apply zrange_in]. rewrite EY in Q. cbn [bind] in Q. unfold chk_int in Q. destruct (in_int (ypi * i_stride src)); try discriminate. cbn [bind] in Q.
  apply for_each_ok_in with (x := 0) in Q as (u & u' & Q); [|apply zrange_in; lia]. rewrite E0 in Q. cbn [bind] in Q.
  destruct (zget (i_data src) (ypi * i_stride src + 0)); try discriminate. cbn [bind] in Q. destruct (zget (i_data src) (ypi * i_stride src + 0 + 1)); try discriminate. cbn [bind] in Q.
  assert (OOB : zget (i_data src) (ypi * i_stride src + 0 + i_stride src) = UB).
  { unfold zget. pose proof (io_len src G) as L. pose proof (io_w src G) as W. pose proof (io_h src G) as H. assert (LE : Z.of_nat (length (i_data src)) <= ypi * i_stride src + 0 + i_stride src) by nia.
    destruct (ypi * i_stride src + 0 + i_stride src <? 0) eqn:N; [reflexivity|]. unfold aget. rewrite (proj2 (nth_error_None _ _)) by lia. reflexivity. }
  rewrite OOB in Q. discriminate.
Qed.
Lemma scale_one junk src g : image_ok src -> 0 < i_w src <= 2 ^ 24 -> 0 < i_h src <= 2 ^ 24 -> scale_uc junk src F1 <> Ok g.
Proof.
  intros G W H. assert (ONE : forall z, 0 <= z <= 2 ^ 24 -> to_int (fmul (of_int z) F1) = Ok z).
  { intros z Z0. change F1 with (of_int 1). rewrite fmul_int by (unfold small24; lia). rewrite Z.mul_1_r. apply to_int_of_int. unfold small24. lia. }
  assert (INV : fdiv F1 F1 = F1) by (vm_compute; reflexivity).
  apply (scale_oob junk src F1 g (i_w src) (i_h src) (i_h src - 1) (i_h src - 1) G); rewrite ?INV; try apply ONE; lia.
Qed.
Lemma scale_two junk src g : image_ok src -> 0 < i_w src < 2 ^ 23 -> 0 < i_h src < 2 ^ 23 -> scale_uc junk src F2 <> Ok g.
Proof.
  intros G W H. change (2 ^ 23) with 8388608 in *.
  assert (INV : fdiv F1 F2 = F_HALF) by (vm_compute; reflexivity).
  apply (scale_oob junk src F2 g (2 * i_w src) (2 * i_h src) (2 * i_h src - 1) (i_h src - 1) G); rewrite ?INV; try lia.
  - rewrite double_exact by (change (2 ^ 24) with 16777216; lia). apply to_int_of_int. unfold small24. change (2 ^ 24) with 16777216. lia.
  - rewrite double_exact by (change (2 ^ 24) with 16777216; lia). apply to_int_of_int. unfold small24. change (2 ^ 24) with 16777216. lia.
  - rewrite half_trunc by (change (2 ^ 24) with 16777216; lia). f_equal. Z.div_mod_to_equations. lia.
  - rewrite half_trunc by lia. reflexivity.
Qed.
