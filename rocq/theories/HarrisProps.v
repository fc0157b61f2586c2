(** C50, C69: Harris corners. *)
From Verif Require Import Base BaseLemmas Gray Img Flt HarrisModel HarrisSpec HarrisProofs.
Local Open Scope Z_scope.

(** ** C50 *)
(** The keypoints are, in raster order and numbered from 0, exactly the
    corners, or the first [n] of them if there are more. *)
Theorem C50_detects_exactly_the_corners : forall n s t,
  image_ok s ->
  exists keys, harris_detect n s t = Ok keys /\
    (length keys <= Z.to_nat n)%nat /\
    StronglySorted before keys /\
    (forall i k, nth_error keys i = Some k -> h_id k = Z.of_nat i /\ key_fields s k /\ harris_corner s t (h_x k) (h_y k)) /\
    (forall x y, harris_corner s t x y ->
       (exists k, In k keys /\ h_x k = x /\ h_y k = y) \/
       (length keys = Z.to_nat n /\ forall k, In k keys -> h_y k < y \/ (h_y k = y /\ h_x k < x))).
Proof.
  intros n s t G. set (C := corners s t). set (m := Z.to_nat n). exists (hkeys s (firstn m C)). split; [apply harris_detect_ok, G|].
  assert (SC : StronglySorted (fun p q => snd p < snd q \/ (snd p = snd q /\ fst p < fst q)) C) by (apply SSorted_filter, raster_sorted).
  assert (IC : forall p, In p C <-> harris_corner s t (fst p) (snd p)).
  { intros [x y]. unfold C, corners. rewrite filter_In, raster_in. cbn [fst snd]. split.
    - intros [[X Y] B]. now apply cornerb_iff.
    - intro H. pose proof H as (X & Y & _). split; [auto|]. now apply cornerb_iff. }
  assert (NK : forall l i, nth_error (hkeys s l) i = option_map (hkey_at s i) (nth_error l i)).
  { intros l i. rewrite <- (firstn_skipn i l) at 1. destruct (nth_error l i) as [p|] eqn:E.
    - apply nth_error_split in E as (a & b & -> & <-). rewrite firstn_skipn. unfold hkeys. rewrite app_length. cbn [length]. rewrite seq_app. cbn [seq].
      rewrite combine_app by now rewrite seq_length. rewrite map_app, nth_error_app2; rewrite map_length, combine_length, seq_length, Nat.min_id; [|lia]. now rewrite Nat.sub_diag.
    - rewrite firstn_skipn. apply nth_error_None in E. apply nth_error_None. now rewrite hkeys_length. }
  split; [rewrite hkeys_length, firstn_length; lia|]. split; [|split].
  - apply SSorted_firstn with (n := m) in SC. revert SC. generalize (firstn m C). intro l. induction l as [|p l IH] using rev_ind; intro SC; [constructor|].
    rewrite hkeys_snoc. apply SSorted_app; [apply IH|repeat constructor|].
    + clear -SC. induction l; [constructor|]. cbn in SC. inversion SC; subst. constructor; auto. apply Forall_app in H2. tauto.
    + intros a b Ia [<-|[]]. apply In_nth_error in Ia as (i & Ia). rewrite NK in Ia. destruct (nth_error l i) as [q|] eqn:E; [|discriminate]. injection Ia as <-.
      unfold before. cbn. pose proof (SSorted_nth _ (l ++ [p]) (0, 0) i (length l) SC) as R. assert (i < length l)%nat by (apply nth_error_Some; congruence).
      rewrite app_length in R. cbn [length] in R. specialize (R ltac:(lia)). rewrite app_nth1, app_nth2, Nat.sub_diag in R by lia. cbn in R. now rewrite (nth_error_nth l i (0, 0) E) in R.
  - intros i k K. rewrite NK in K. destruct (nth_error (firstn m C) i) as [p|] eqn:E; [|discriminate]. injection K as <-. cbn.
    split; [reflexivity|]. split; [repeat split|]. apply IC. apply nth_error_In in E. rewrite <- (firstn_skipn m C). apply in_or_app. now left.
  - intros x y H. assert (I : In (x, y) C) by now apply IC. rewrite <- (firstn_skipn m C) in I. apply in_app_or in I as [I|I].
    + left. apply In_nth_error in I as (i & I). exists (hkey_at s i (x, y)). split; [|split; reflexivity]. apply nth_error_In with (n := i). now rewrite NK, I.
    + right. assert (m < length C)%nat by (destruct (Nat.lt_ge_cases m (length C)); auto; rewrite skipn_all2 in I by lia; contradiction).
      rewrite hkeys_length, firstn_length. split; [lia|]. intros k K. apply In_nth_error in K as (i & K). rewrite NK in K.
      destruct (nth_error (firstn m C) i) as [q|] eqn:E; [|discriminate]. injection K as <-. cbn.
      apply In_nth_error in I as (j & I). assert (i < m)%nat by (assert (nth_error (firstn m C) i <> None) as Q by congruence; apply nth_error_Some in Q; rewrite firstn_length in Q; lia).
      assert (j < length (skipn m C))%nat by (apply nth_error_Some; congruence). rewrite skipn_length in *.
      pose proof (SSorted_nth _ C (0, 0) i (m + j) SC ltac:(lia)) as R.
      assert (nth i C (0, 0) = q) as Q1.
      { rewrite <- (firstn_skipn m C), app_nth1 by (rewrite firstn_length; lia). now apply nth_error_nth. }
      assert (nth (m + j) C (0, 0) = (x, y)) as Q2.
      { rewrite <- (firstn_skipn m C), app_nth2 by (rewrite firstn_length; lia). rewrite firstn_length, Nat.min_l by lia. replace (m + j - m)%nat with j by lia. now apply nth_error_nth. }
      rewrite Q1, Q2 in R. exact R.
Qed.
Print Assumptions C50_detects_exactly_the_corners.
(** Two peaks on a 9 by 8 score image with 2 unused elements per row; a third
    peak lies on the border and a fourth is flat. *)
Definition ex_scores : image flt :=
  let peaks := [(3, 2, 50); (5, 4, 70); (1, 4, 90); (4, 5, 60); (3, 5, 60)] in
  mkImg 9 8 11 (map (fun i => let x := Z.of_nat i mod 11 in let y := Z.of_nat i / 11 in
    of_int (fold_right (fun '(px, py, v) a => if (px =? x) && (py =? y) then v else a) (x + y) peaks)) (seq 0 88)).
Example C50_example :
  (let* k := harris_detect 5 ex_scores (of_int 40) in Ok (map (fun k => (h_x k, h_y k, h_score k, h_id k)) k))
  = Ok [(3, 2, of_int 50, 0); (5, 4, of_int 70, 1)] /\
  (let* k := harris_detect 1 ex_scores (of_int 40) in Ok (length k)) = Ok 1%nat /\
  (let* k := harris_detect 5 ex_scores (of_int 55) in Ok (map h_x k)) = Ok [5].
Proof. vm_compute. repeat split. Qed.

(** ** C69 *)
(** Every pixel of the score image is det - k * trace^2 of the gradient matrix at
    that pixel, in single precision. *)
Theorem C69_score_image : forall junk x2 y2 xy k,
  image_ok x2 -> image_ok y2 -> image_ok xy -> i_w y2 = i_w x2 -> i_h y2 = i_h x2 -> i_w xy = i_w x2 -> i_h xy = i_h x2 ->
  exists s, score_image junk x2 y2 xy k = Ok s /\ image_ok s /\ i_w s = i_w x2 /\ i_h s = i_h x2 /\
    forall x y, in_img x2 x y ->
      let a := pix P0 x2 x y in let b := pix P0 y2 x y in let c := pix P0 xy x y in
      pix P0 s x y = fsub (fsub (fmul a b) (fmul c c)) (fmul (fmul k (fadd a b)) (fadd a b)).
Proof.
  intros junk x2 y2 xy k G1 G2 G3 W2 H2 W3 H3. unfold score_image.
  destruct (img_new_ok junk (i_w x2) (i_h x2)) as (s & -> & SW & SH & SS & SO); [destruct G1; lia|destruct G1; lia|destruct G1; nia|]. cbn [bind].
  cbv zeta. rewrite <- SW, <- SH.
  edestruct (scan_fill_all P0 (fun x y (_ : image flt) =>
    let* a := iget x2 x y in let* b := iget y2 x y in let* c := iget xy x y in
    let det := fsub (fmul a b) (fmul c c) in let tr := fadd a b in Ok (fsub det (fmul (fmul k tr) tr)))) as (s' & E & S & O & V & _); [exact SO| |].
  - intros x y g [X Y] _ _ _. rewrite SW in X. rewrite SH in Y.
    rewrite !(iget_ok P0) by (auto; unfold in_img; rewrite ?W2, ?H2, ?W3, ?H3; auto). cbn [bind]. reflexivity.
  - exists s'. split; [exact E|]. destruct S as (S1 & S2 & _). split; [exact O|]. split; [congruence|]. split; [congruence|].
    intros x y [X Y]. apply V. unfold in_img. rewrite SW, SH. auto.
Qed.
Print Assumptions C69_score_image.
Example C69_example :
  let im l := mkImg 2 1 2 (map of_int l) in
  (let* s := score_image (fun _ => FNaN) (im [4; 10]) (im [9; 3]) (im [5; 2]) (FF (U / 16)) in Ok (i_data s))
  = Ok [fdiv (of_int 7) (of_int 16); fdiv (of_int 247) (of_int 16)].
Proof. vm_compute. reflexivity. Qed.
