(** Filters over the rows and columns of an image. *)
From Verif Require Import Base BaseLemmas Gray Img Flt FilterModel FilterSpec FilterProofs ImgModel ImgSpec ImgProofs.
Local Open Scope Z_scope.

Lemma extended_repeat {A} (zero : A) n s j : 0 < n -> extended zero BRepeat n s j = s (clamped n j).
Proof.
  intro N. unfold extended, clamped. destruct (Z.leb_spec 0 j), (Z.ltb_spec j n); cbn [andb].
  - f_equal. lia.
  - destruct (Z.ltb_spec j 0); [lia|]. f_equal. lia.
  - destruct (Z.ltb_spec j 0); [|lia]. f_equal. lia.
  - destruct (Z.ltb_spec j 0); [|lia]. f_equal. lia.
Qed.
Lemma clamped_in n j : 0 < n -> 0 <= clamped n j < n.
Proof. unfold clamped. lia. Qed.
Lemma zsum_shift f a m k : zsum f (a + k) m = zsum (fun j => f (j + k)) a m.
Proof. induction m as [|m IH]; cbn [zsum]; [reflexivity|]. rewrite IH. do 2 f_equal. lia. Qed.

(** One row or column is written: positions (px k) for k < m. *)
Lemma line_fill {A} (d : A) (store : flt -> res A) (pos : Z -> Z * Z) (v : Z -> A) (m : Z) buf g0 :
  image_ok g0 -> 0 <= m <= Z.of_nat (length buf) -> (forall k, 0 <= k < m -> in_img g0 (fst (pos k)) (snd (pos k))) ->
  (forall k k', pos k = pos k' -> k = k') -> (forall k, 0 <= k < m -> store (at_ F0 buf k) = Ok (v k)) ->
  exists g', for_each (fun k g => let* v := (let* f := zget buf k in store f) in iput g (fst (pos k)) (snd (pos k)) v) (zrange 0 m) g0 = Ok g' /\
    same_shape g' g0 /\ image_ok g' /\
    (forall k, 0 <= k < m -> pix d g' (fst (pos k)) (snd (pos k)) = v k) /\
    (forall x y, in_img g0 x y -> (forall k, 0 <= k < m -> pos k <> (x, y)) -> pix d g' x y = pix d g0 x y).
Proof.
  intros G M I J ST.
  destruct (for_each_inv (fun k g => let* v := (let* f := zget buf k in store f) in iput g (fst (pos k)) (snd (pos k)) v)
    (fun pre g => same_shape g g0 /\ image_ok g /\ (forall k, In k pre -> 0 <= k < m /\ pix d g (fst (pos k)) (snd (pos k)) = v k) /\
       (forall x y, in_img g0 x y -> (forall k, 0 <= k < m -> pos k <> (x, y)) -> pix d g x y = pix d g0 x y)) (zrange 0 m) g0) as (g' & E & S & O & V & K).
  - split; [apply same_shape_refl|]. split; [exact G|]. split; [intros k []|auto].
  - intros pre k g (S & O & V & K) [post L]. assert (KI : In k (zrange 0 m)) by (rewrite L; apply in_or_app; right; now left). apply zrange_in in KI.
    rewrite (zget_lt buf k F0) by lia. cbn [bind]. specialize (ST k KI). unfold at_ in ST. rewrite ST. cbn [bind].
    assert (KG : in_img g (fst (pos k)) (snd (pos k))) by (rewrite same_shape_in by exact S; auto).
    destruct (iput_ok d g (fst (pos k)) (snd (pos k)) (v k) O KG) as (g' & E & S' & O' & _ & V'). exists g'. split; [exact E|]. split; [eapply same_shape_trans; eauto|]. split; [exact O'|]. split.
    + intros k' K'. apply in_app_or in K'. assert (KK : 0 <= k' < m) by (destruct K' as [K'|[<-|[]]]; [now apply V in K'|exact KI]). split; [exact KK|].
      rewrite V' by (rewrite same_shape_in by exact S; auto). destruct (Z.eqb_spec (fst (pos k')) (fst (pos k))), (Z.eqb_spec (snd (pos k')) (snd (pos k))); cbn [andb].
      * f_equal. apply J. destruct (pos k), (pos k'); cbn in *; congruence.
      * destruct K' as [K'|[->|[]]]; [now apply V|congruence].
      * destruct K' as [K'|[->|[]]]; [now apply V|congruence].
      * destruct K' as [K'|[->|[]]]; [now apply V|congruence].
    + intros x y XY NP. rewrite V' by (rewrite same_shape_in by exact S; auto). specialize (NP k KI) as NK. destruct (Z.eqb_spec x (fst (pos k))), (Z.eqb_spec y (snd (pos k))); cbn [andb]; try (now apply K).
      exfalso. apply NK. destruct (pos k). cbn in *. congruence.
  - exists g'. split; [exact E|]. split; [exact S|]. split; [exact O|]. split; [|exact K]. intros k KK. apply V. now apply zrange_in.
Qed.

Section Lines.
Context {A : Type}.
Variables (d : A) (conv : A -> flt) (store : flt -> res A) (filter : list flt -> res (list flt)) (nb : Z) (v : Z * Z -> A) (len : nat).

Lemma row_filter_ok (src : option (image A)) dest0 buf0 : let s0 := match src with Some s => s | None => dest0 end in
  image_ok s0 -> image_ok dest0 -> i_w dest0 = i_w s0 -> i_h dest0 = i_h s0 -> 1 < i_w s0 -> 0 <= nb -> length buf0 = len -> i_w s0 + 2 * nb <= Z.of_nat len ->
  (forall y s buf, 0 <= y < i_h s0 -> (forall i, 0 <= i < i_w s0 -> s i = conv (pix d s0 i y)) -> length buf = len ->
     (forall j, - nb <= j < i_w s0 + nb -> at_ F0 buf (nb + j) = s (clamped (i_w s0) j)) ->
     exists buf', filter buf = Ok buf' /\ length buf' = len /\ forall x, 0 <= x < i_w s0 -> store (at_ F0 buf' x) = Ok (v (x, y))) ->
  exists dest buf, row_filter conv store filter nb src dest0 buf0 = Ok (dest, buf) /\ same_shape dest dest0 /\ image_ok dest /\ length buf = len /\
    forall x y, in_img dest0 x y -> pix d dest x y = v (x, y).
Proof.
  intros s0 G0 GD EW EH W1 NB LB LEN ST. unfold row_filter. fold s0.
  destruct (for_each_inv (fun y '(dest, buf) =>
    let s := match src with Some s => s | None => dest end in
    let* r := chk_int (y * i_stride s) in
    let* buf := copy_to_buffer F0 conv (i_w s) buf (i_data s) r 1 nb BRepeat in
    let* buf := filter buf in
    let* dest := for_each (fun x dest =>
      let* v := (let* f := zget buf x in store f) in
      iput dest x y v) (zrange 0 (i_w dest)) dest in
    Ok (dest, buf))
    (fun pre '(dest, buf) => same_shape dest dest0 /\ image_ok dest /\ length buf = len /\
       forall x y, in_img dest0 x y -> (In y pre -> pix d dest x y = v (x, y)) /\ (~ In y pre -> pix d dest x y = pix d dest0 x y)) (zrange 0 (i_h s0)) (dest0, buf0)) as ([dest buf] & E & S & O & L & V).
  - split; [apply same_shape_refl|]. split; [exact GD|]. split; [exact LB|]. intros x y I. split; [intros []|auto].
  - intros pre y [dest buf] (S & O & L & V) [post LP]. assert (YI : In y (zrange 0 (i_h s0))) by (rewrite LP; apply in_or_app; right; now left). apply zrange_in in YI.
    assert (NY : ~ In y pre).
    { intro Y. assert (ND : NoDup (pre ++ y :: post)). { rewrite <- LP. pose proof (zrange_sorted 0 (i_h s0)) as SS. clear - SS. induction SS as [|a l SS IH F]; constructor; auto. intro Q. rewrite Forall_forall in F. specialize (F a Q). lia. }
      apply NoDup_remove_2 in ND. apply ND. apply in_or_app. now left. }
    cbv zeta. set (s := match src with Some s => s | None => dest end).
    assert (SS : image_ok s /\ i_w s = i_w s0 /\ i_h s = i_h s0 /\ forall i, 0 <= i < i_w s0 -> pix d s i y = pix d s0 i y).
    { unfold s, s0 in *. destruct src as [sr|]; [auto|]. destruct S as (S1 & S2 & S3). repeat split; auto; try apply O. intros i Ii. apply V; [split; lia|exact NY]. }
    destruct SS as (SO & SW & SH & SP). pose proof (io_len s SO) as SL. pose proof (io_w s SO) as SWW. pose proof (io_max s SO) as SM. pose proof int_rng as [I0 _].
    rewrite chk_int_in by nia. cbn [bind]. rewrite SW.
    destruct (copy_to_buffer_ok F0 d conv (i_w s0) buf (i_data s) (y * i_stride s) 1 nb BRepeat) as (b1 & E1 & L1 & V1 & _); [lia|lia|lia|discriminate| |].
    { intros i Ii. rewrite SL. nia. }
    rewrite E1. cbn [bind].
    destruct (ST y (fun i => conv (pix d s i y)) b1 YI) as (b2 & E2 & L2 & V2).
    { intros i Ii. now rewrite SP. }
    { lia. }
    { intros j Jj. unfold at_. rewrite V1 by lia. rewrite extended_repeat by lia. unfold pix. do 3 f_equal. lia. }
    rewrite E2. cbn [bind]. assert (DW : i_w dest = i_w s0) by (destruct S as (S1 & _); congruence). rewrite DW.
    destruct (line_fill d store (fun x => (x, y)) (fun x => v (x, y)) (i_w s0) b2 dest) as (g' & E3 & S3 & O3 & V3 & K3); [exact O|lia| | |exact V2|].
    { intros k K. cbn. rewrite same_shape_in by exact S. split; lia. }
    { intros k k' K. congruence. }
    cbn [fst snd] in E3. rewrite E3. cbn [bind]. exists (g', b2). split; [reflexivity|]. split; [eapply same_shape_trans; eauto|]. split; [exact O3|]. split; [exact L2|].
    intros x y' XY. assert (XD : in_img dest x y') by (rewrite same_shape_in by exact S; exact XY). split.
    + intro Y'. apply in_app_or in Y'. destruct (Z.eq_dec y' y) as [->|NE]; [apply V3; destruct XY; lia|]. destruct Y' as [Y'|[Y'|[]]]; [|congruence].
      rewrite K3; [now apply V|exact XD|]. intros k K Q. congruence.
    + intro Y'. rewrite K3; [apply V; [exact XY|]|exact XD|].
      * intro Q. apply Y', in_or_app. now left.
      * intros k K Q. apply Y', in_or_app. right. left. congruence.
  - exists dest, buf. split; [exact E|]. split; [exact S|]. split; [exact O|]. split; [exact L|]. intros x y I. apply V; auto. apply zrange_in. destruct I. lia.
Qed.
Lemma col_filter_ok (src : option (image A)) dest0 buf0 : let s0 := match src with Some s => s | None => dest0 end in
  image_ok s0 -> image_ok dest0 -> i_w dest0 = i_w s0 -> i_h dest0 = i_h s0 -> 1 < i_h s0 -> 0 <= nb -> length buf0 = len -> i_h s0 + 2 * nb <= Z.of_nat len ->
  (forall x s buf, 0 <= x < i_w s0 -> (forall i, 0 <= i < i_h s0 -> s i = conv (pix d s0 x i)) -> length buf = len ->
     (forall j, - nb <= j < i_h s0 + nb -> at_ F0 buf (nb + j) = s (clamped (i_h s0) j)) ->
     exists buf', filter buf = Ok buf' /\ length buf' = len /\ forall y, 0 <= y < i_h s0 -> store (at_ F0 buf' y) = Ok (v (x, y))) ->
  exists dest buf, col_filter conv store filter nb src dest0 buf0 = Ok (dest, buf) /\ same_shape dest dest0 /\ image_ok dest /\ length buf = len /\
    forall x y, in_img dest0 x y -> pix d dest x y = v (x, y).
Proof.
  intros s0 G0 GD EW EH W1 NB LB LEN ST. unfold col_filter.
  destruct (for_each_inv (fun x '(dest, buf) =>
    let s := match src with Some s => s | None => dest end in
    let* buf := copy_to_buffer F0 conv (i_h s) buf (i_data s) x (i_stride s) nb BRepeat in
    let* buf := filter buf in
    let* dest := for_each (fun y dest =>
      let* v := (let* f := zget buf y in store f) in
      iput dest x y v) (zrange 0 (i_h dest)) dest in
    Ok (dest, buf))
    (fun pre '(dest, buf) => same_shape dest dest0 /\ image_ok dest /\ length buf = len /\
       forall x y, in_img dest0 x y -> (In x pre -> pix d dest x y = v (x, y)) /\ (~ In x pre -> pix d dest x y = pix d dest0 x y)) (zrange 0 (i_w dest0)) (dest0, buf0)) as ([dest buf] & E & S & O & L & V).
  - split; [apply same_shape_refl|]. split; [exact GD|]. split; [exact LB|]. intros x y I. split; [intros []|auto].
  - intros pre x [dest buf] (S & O & L & V) [post LP]. assert (XI : In x (zrange 0 (i_w dest0))) by (rewrite LP; apply in_or_app; right; now left). apply zrange_in in XI.
    assert (NX : ~ In x pre).
    { intro Y. assert (ND : NoDup (pre ++ x :: post)). { rewrite <- LP. pose proof (zrange_sorted 0 (i_w dest0)) as SS. clear - SS. induction SS as [|a l SS IH F]; constructor; auto. intro Q. rewrite Forall_forall in F. specialize (F a Q). lia. }
      apply NoDup_remove_2 in ND. apply ND. apply in_or_app. now left. }
    cbv zeta. set (s := match src with Some s => s | None => dest end).
    assert (SS : image_ok s /\ i_w s = i_w s0 /\ i_h s = i_h s0 /\ forall i, 0 <= i < i_h s0 -> pix d s x i = pix d s0 x i).
    { unfold s, s0 in *. destruct src as [sr|]; [auto|]. destruct S as (S1 & S2 & S3). repeat split; auto; try apply O. intros i Ii. apply V; [split; lia|exact NX]. }
    destruct SS as (SO & SW & SH & SP). pose proof (io_len s SO) as SL. pose proof (io_w s SO) as SWW. pose proof (io_max s SO) as SM. rewrite SH.
    destruct (copy_to_buffer_ok F0 d conv (i_h s0) buf (i_data s) x (i_stride s) nb BRepeat) as (b1 & E1 & L1 & V1 & _); [lia|lia|lia|discriminate| |].
    { intros i Ii. rewrite SL. nia. }
    rewrite E1. cbn [bind].
    destruct (ST x (fun i => conv (pix d s x i)) b1 ltac:(lia)) as (b2 & E2 & L2 & V2).
    { intros i Ii. now rewrite SP. }
    { lia. }
    { intros j Jj. unfold at_. rewrite V1 by lia. rewrite extended_repeat by lia. unfold pix. do 3 f_equal. lia. }
    rewrite E2. cbn [bind]. assert (DH : i_h dest = i_h s0) by (destruct S as (_ & S1 & _); congruence). rewrite DH.
    destruct (line_fill d store (fun y => (x, y)) (fun y => v (x, y)) (i_h s0) b2 dest) as (g' & E3 & S3 & O3 & V3 & K3); [exact O|lia| | |exact V2|].
    { intros k K. cbn. rewrite same_shape_in by exact S. split; lia. }
    { intros k k' K. congruence. }
    cbn [fst snd] in E3. rewrite E3. cbn [bind]. exists (g', b2). split; [reflexivity|]. split; [eapply same_shape_trans; eauto|]. split; [exact O3|]. split; [exact L2|].
    intros x' y XY. assert (XD : in_img dest x' y) by (rewrite same_shape_in by exact S; exact XY). split.
    + intro Y'. apply in_app_or in Y'. destruct (Z.eq_dec x' x) as [->|NE]; [apply V3; destruct XY; lia|]. destruct Y' as [Y'|[Y'|[]]]; [|congruence].
      rewrite K3; [now apply V|exact XD|]. intros k K Q. congruence.
    + intro Y'. rewrite K3; [apply V; [exact XY|]|exact XD|].
      * intro Q. apply Y', in_or_app. now left.
      * intros k K Q. apply Y', in_or_app. right. left. congruence.
  - exists dest, buf. split; [exact E|]. split; [exact S|]. split; [exact O|]. split; [exact L|]. intros x y I. apply V; auto. apply zrange_in. destruct I. lia.
Qed.
End Lines.

(** * Box filter on bytes *)
Lemma box_line n r s buf (z : Z -> Z) : 1 < n -> 1 <= r <= 32767 -> n + 2 * r <= Z.of_nat (length buf) ->
  (forall i, 0 <= i < n -> s i = of_int (z i) /\ 0 <= z i <= 255) ->
  (forall j, - r <= j < n + r -> at_ F0 buf (r + j) = s (clamped n j)) ->
  exists buf', box_filter n r buf = Ok buf' /\ length buf' = length buf /\ forall x, 0 <= x < n -> to_uc (at_ F0 buf' x) = Ok (window_sum n r z x / (2 * r + 1)).
Proof.
  intros N R L S B. unfold box_filter.
  destruct (convolve_box_ok F0 fadd fsub (fun a z => fdiv a (of_int z)) of_int (2 ^ 24)) with (n := n) (data := buf) (n_r := r) (s := fun k => z (clamped n (k - r))) (D := 255) as (b & E & LB & V & _); auto; try lia.
  - intros a b A1 A2 A3. apply fadd_int; unfold small24; lia.
  - intros a b A1 A2 A3. apply fsub_int; unfold small24; lia.
  - intros k K. specialize (B (k - r) ltac:(lia)). replace (r + (k - r)) with k in B by lia. unfold at_ in B. rewrite B. destruct (S (clamped n (k - r)) (clamped_in n (k - r) ltac:(lia))) as [S1 S2]. rewrite S1. split; [reflexivity|lia].
  - exists b. split; [exact E|]. split; [exact LB|]. intros x X. unfold at_. rewrite V by exact X.
    set (sm := zsum (fun k => z (clamped n (k - r))) x (Z.to_nat (2 * r + 1))).
    assert (WS : window_sum n r z x = sm).
    { unfold window_sum, sm. rewrite <- (Z.sub_add r x) at 2. rewrite zsum_shift. apply zsum_ext. intros j _. do 2 f_equal. lia. }
    rewrite WS.
    assert (SB : 0 <= sm <= 255 * (2 * r + 1)).
    { assert (G : forall a m, 0 <= zsum (fun k => z (clamped n (k - r))) a m <= 255 * Z.of_nat m).
      { intros a. induction m as [|m IH]; cbn [zsum]; [lia|]. destruct (S (clamped n (a + Z.of_nat m - r)) (clamped_in n _ ltac:(lia))). lia. }
      specialize (G x (Z.to_nat (2 * r + 1))). fold sm in G. lia. }
    destruct (fdiv_floor sm (2 * r + 1)) as (m & EM & M0 & MQ); [lia|change (2 ^ 16) with 65536; lia|]. rewrite EM. unfold to_uc, to_int. rewrite MQ.
    assert (Q : 0 <= sm / (2 * r + 1) <= 255) by (split; [apply Z.div_pos; lia|apply Z.div_le_upper_bound; lia]).
    pose proof int_rng as [I0 I1]. rewrite chk_int_in by lia. cbn [bind]. destruct (Z.leb_spec 0 (sm / (2 * r + 1))), (Z.leb_spec (sm / (2 * r + 1)) 255); try lia. reflexivity.
Qed.
Lemma window_mean_byte n r z c : 0 < n -> 1 <= r -> (forall i, 0 <= i < n -> 0 <= z i <= 255) -> 0 <= window_mean n r z c <= 255.
Proof.
  intros N R B. unfold window_mean, window_sum.
  assert (G : forall a m, 0 <= zsum (fun j => z (clamped n j)) a m <= 255 * Z.of_nat m).
  { intros a. induction m as [|m IH]; cbn [zsum]; [lia|]. pose proof (B _ (clamped_in n (a + Z.of_nat m) N)). lia. }
  specialize (G (c - r) (Z.to_nat (2 * r + 1))). split; [apply Z.div_pos; lia|apply Z.div_le_upper_bound; lia].
Qed.
Lemma window_mean_ext n r z z' c : 0 < n -> (forall i, 0 <= i < n -> z i = z' i) -> window_mean n r z c = window_mean n r z' c.
Proof. intros N E. unfold window_mean, window_sum. f_equal. apply zsum_ext. intros j _. apply E, clamped_in, N. Qed.
Lemma pix_byte g x y : image_ok g -> byte_img g -> in_img g x y -> 0 <= pix 0 g x y <= 255.
Proof. intros G BI I. destruct (pix_index g x y G I) as [J _]. unfold byte_img in BI. rewrite Forall_forall in BI. apply BI, nth_In. lia. Qed.
Lemma buf_len_ok n r : 0 <= n -> 0 <= r -> n + 2 * r <= INT_MAX -> buffer_len n r = Ok (n + 2 * r).
Proof. intros N R M. unfold buffer_len. pose proof int_rng as [I0 I1]. rewrite !chk_int_in by lia. cbn [bind]. now rewrite chk_int_in by lia. Qed.
Lemma filter_box_x_ok junk src r buf : image_ok src -> byte_img src -> 1 < i_w src -> 1 <= r <= 32767 -> i_w src + 2 * r <= Z.of_nat (length buf) ->
  exists g, filter_box_x_uc junk src r buf = Ok g /\ fresh g (i_w src) (i_h src) /\ forall x y, in_img g x y -> pix 0 g x y = window_mean (i_w src) r (fun x => pix 0 src x y) x.
Proof.
  intros G BI W R L. unfold filter_box_x_uc, filter_box_x. pose proof (io_h src G) as H. pose proof (size_bound src G) as SB.
  destruct (img_new_fresh junk (i_w src) (i_h src)) as (g & E & F); [lia..|]. rewrite E. cbn [bind]. pose proof F as (FW & FH & FS & FO).
  destruct (row_filter_ok 0 of_int to_uc (box_filter (i_w src) r) r (fun p => window_mean (i_w src) r (fun x => pix 0 src x (snd p)) (fst p)) (length buf) (Some src) g buf) as (g' & b & E' & S & O & _ & V); auto; try lia.
  - intros y s b Y S LB B. destruct (box_line (i_w src) r s b (fun x => pix 0 src x y)) as (b' & E1 & L1 & V1); auto; try lia.
    { intros i I. rewrite S by exact I. split; [reflexivity|]. apply pix_byte; auto. split; auto. }
    exists b'. split; [exact E1|]. split; [lia|exact V1].
  - rewrite E'. cbn [bind]. exists g'. split; [reflexivity|]. split; [eapply fresh_shape; eauto|]. intros x y I. apply (same_shape_in _ _ _ _ S) in I. now rewrite V.
Qed.
Lemma filter_box_y_ok junk src r buf : image_ok src -> byte_img src -> 1 < i_h src -> 1 <= r <= 32767 -> i_h src + 2 * r <= Z.of_nat (length buf) ->
  exists g, filter_box_y_uc junk src r buf = Ok g /\ fresh g (i_w src) (i_h src) /\ forall x y, in_img g x y -> pix 0 g x y = window_mean (i_h src) r (fun y => pix 0 src x y) y.
Proof.
  intros G BI W R L. unfold filter_box_y_uc, filter_box_y. pose proof (io_w src G) as H. pose proof (size_bound src G) as SB.
  destruct (img_new_fresh junk (i_w src) (i_h src)) as (g & E & F); [lia..|]. rewrite E. cbn [bind]. pose proof F as (FW & FH & FS & FO). rewrite FH.
  destruct (col_filter_ok 0 of_int to_uc (box_filter (i_h src) r) r (fun p => window_mean (i_h src) r (fun y => pix 0 src (fst p) y) (snd p)) (length buf) (Some src) g buf) as (g' & b & E' & S & O & _ & V); auto; try lia.
  - intros y s b Y S LB B. destruct (box_line (i_h src) r s b (fun x => pix 0 src y x)) as (b' & E1 & L1 & V1); auto; try lia.
    { intros i I. rewrite S by exact I. split; [reflexivity|]. apply pix_byte; auto. split; auto. }
    exists b'. split; [exact E1|]. split; [lia|exact V1].
  - rewrite E'. cbn [bind]. exists g'. split; [reflexivity|]. split; [eapply fresh_shape; eauto|]. intros x y I. apply (same_shape_in _ _ _ _ S) in I. now rewrite V.
Qed.
Lemma filter_box_ok junk bufj src rx ry : image_ok src -> byte_img src -> 1 < i_w src -> 1 < i_h src -> 1 <= rx <= 32767 -> 1 <= ry <= 32767 ->
  Z.max (i_w src) (i_h src) + 2 * Z.max rx ry <= INT_MAX ->
  exists g, filter_box_uc junk bufj src rx ry = Ok g /\ fresh g (i_w src) (i_h src) /\ forall x y, in_img g x y -> pix 0 g x y = box_mean (i_w src) (i_h src) rx ry (pix 0 src) x y.
Proof.
  intros G BI W H RX RY IM. unfold filter_box_uc, filter_box. pose proof (size_bound src G) as SB.
  destruct (img_new_fresh junk (i_w src) (i_h src)) as (g & E & F); [lia..|]. rewrite E. cbn [bind]. pose proof F as (FW & FH & FS & FO).
  rewrite buf_len_ok by lia. cbn [bind]. set (buf := map bufj _).
  assert (LB : Z.of_nat (length buf) = Z.max (i_w src) (i_h src) + 2 * Z.max rx ry) by (unfold buf; rewrite map_length, seq_length; lia). clearbody buf.
  destruct (row_filter_ok 0 of_int to_uc (box_filter (i_w src) rx) rx (fun p => window_mean (i_w src) rx (fun x => pix 0 src x (snd p)) (fst p)) (length buf) (Some src) g buf) as (g1 & b1 & E1 & S1 & O1 & L1 & V1); auto; try lia.
  { intros y s b Y S Lb B. destruct (box_line (i_w src) rx s b (fun x => pix 0 src x y)) as (b' & E1 & L1 & V1); auto; try lia.
    { intros i I. rewrite S by exact I. split; [reflexivity|]. apply pix_byte; auto. split; auto. }
    exists b'. split; [exact E1|]. split; [lia|exact V1]. }
  rewrite E1. cbn [bind]. destruct S1 as (SW & SH & SS).
  assert (BY : forall x y, in_img src x y -> 0 <= window_mean (i_w src) rx (fun x => pix 0 src x y) x <= 255).
  { intros x y I. apply window_mean_byte; [lia|lia|]. intros i Ii. apply pix_byte; auto. destruct I. split; auto. }
  destruct (col_filter_ok 0 of_int to_uc (box_filter (i_h g1) ry) ry (fun p => box_mean (i_w src) (i_h src) rx ry (pix 0 src) (fst p) (snd p)) (length buf) None g1 b1) as (g2 & b2 & E2 & S2 & O2 & L2 & V2); auto; try lia.
  { intros x s b X S Lb B. destruct (box_line (i_h g1) ry s b (fun y => pix 0 g1 x y)) as (b' & Eb & Lb' & Vb); auto; try lia.
    { intros i I. rewrite S by exact I. split; [reflexivity|]. rewrite V1 by (split; lia). cbn [fst snd]. apply BY. split; lia. }
    exists b'. split; [exact Eb|]. split; [lia|]. intros y Y. rewrite Vb by exact Y. f_equal. unfold box_mean. cbn [fst snd]. fold (window_mean (i_h g1) ry (fun y => pix 0 g1 x y) y).
    replace (i_h g1) with (i_h src) by congruence. apply window_mean_ext; [lia|]. intros i I. rewrite V1 by (split; lia). reflexivity. }
  rewrite E2. cbn [bind]. exists g2. split; [reflexivity|]. assert (SG : same_shape g2 g) by (eapply same_shape_trans; [exact S2|repeat split; congruence]).
  split; [eapply fresh_shape; eauto|]. intros x y I. rewrite V2; [reflexivity|]. now apply (same_shape_in _ _ _ _ S2) in I.
Qed.

(** * Smoothing *)
Lemma conv_sum_shift {A} (add mul : A -> A -> A) k s s' c c' m : (forall j, - Z.of_nat m <= j <= Z.of_nat m -> s (c + j) = s' (c' + j)) ->
  conv_sum add mul k s c m = conv_sum add mul k s' c' m.
Proof.
  induction m as [|m IH]; intro H; cbn [conv_sum].
  - f_equal. specialize (H 0 ltac:(lia)). now rewrite !Z.add_0_r in H.
  - rewrite IH by (intros; apply H; lia). do 2 f_equal. rewrite <- !Z.add_opp_r. rewrite !H by lia. reflexivity.
Qed.
Lemma smooth_line kernel n s buf : 1 < n -> (2 <= length kernel)%nat -> n + 2 * (Z.of_nat (length kernel) - 1) <= Z.of_nat (length buf) ->
  let nb := Z.of_nat (length kernel) - 1 in
  (forall j, - nb <= j < n + nb -> at_ F0 buf (nb + j) = s (clamped n j)) ->
  exists buf', convolve_sym fadd fmul n buf (Z.of_nat (length kernel)) kernel = Ok buf' /\ length buf' = length buf /\ forall x, 0 <= x < n -> at_ F0 buf' x = smoothed kernel n s x.
Proof.
  intros N K L nb B. destruct (convolve_sym_ok F0 fadd fmul n buf (Z.of_nat (length kernel)) kernel) as (b & E & LB & V & _); [lia..|].
  exists b. split; [exact E|]. split; [exact LB|]. intros x X. unfold at_ at 1. rewrite V by exact X. unfold smoothed. replace (Z.to_nat (Z.of_nat (length kernel) - 1)) with (length kernel - 1)%nat by lia.
  apply conv_sum_shift. intros j J. rewrite <- B by (unfold nb; lia). unfold at_, nb. do 2 f_equal. lia.
Qed.
Lemma smoothed_ext kernel n s s' c : 0 < n -> (forall i, 0 <= i < n -> s i = s' i) -> smoothed kernel n s c = smoothed kernel n s' c.
Proof. intros N H. unfold smoothed. apply conv_sum_shift. intros j _. apply H, clamped_in, N. Qed.
Lemma smooth_ok {A} (d : A) (conv : A -> flt) (store : flt -> res A) (v1 v2 : Z * Z -> A) junk bufj src kx ky : image_ok src -> 1 < i_w src -> 1 < i_h src ->
  (2 <= length kx)%nat -> (2 <= length ky)%nat -> Z.max (i_w src) (i_h src) + 2 * Z.max (Z.of_nat (length kx) - 1) (Z.of_nat (length ky) - 1) <= INT_MAX ->
  (forall x y, in_img src x y -> store (smoothed kx (i_w src) (fun x => conv (pix d src x y)) x) = Ok (v1 (x, y))) ->
  (forall x y, in_img src x y -> store (smoothed ky (i_h src) (fun y => conv (v1 (x, y))) y) = Ok (v2 (x, y))) ->
  exists g, smooth conv store junk bufj src kx ky = Ok g /\ fresh g (i_w src) (i_h src) /\ forall x y, in_img g x y -> pix d g x y = v2 (x, y).
Proof.
  intros G W H KX KY IM H1 H2. unfold smooth. pose proof (size_bound src G) as SB. cbv zeta.
  destruct (img_new_fresh junk (i_w src) (i_h src)) as (g & E & F); [lia..|]. rewrite E. cbn [bind]. pose proof F as (FW & FH & FS & FO).
  rewrite buf_len_ok by lia. cbn [bind]. set (buf := map bufj _).
  assert (LB : Z.of_nat (length buf) = Z.max (i_w src) (i_h src) + 2 * Z.max (Z.of_nat (length kx) - 1) (Z.of_nat (length ky) - 1)) by (unfold buf; rewrite map_length, seq_length; lia). clearbody buf.
  destruct (row_filter_ok d conv store (fun b => convolve_sym fadd fmul (i_w src) b (Z.of_nat (length kx)) kx) (Z.of_nat (length kx) - 1) v1 (length buf) (Some src) g buf) as (g1 & b1 & E1 & S1 & O1 & L1 & V1); auto; try lia.
  { intros y s b Y S Lb B. destruct (smooth_line kx (i_w src) s b) as (b' & E1 & L1 & V1); auto; try lia. exists b'. split; [exact E1|]. split; [lia|].
    intros x X. rewrite V1 by exact X. rewrite (smoothed_ext kx (i_w src) s (fun x => conv (pix d src x y))); [apply H1; split; auto|lia|exact S]. }
  rewrite E1. cbn [bind]. destruct S1 as (SW & SH & SS).
  destruct (col_filter_ok d conv store (fun b => convolve_sym fadd fmul (i_h g1) b (Z.of_nat (length ky)) ky) (Z.of_nat (length ky) - 1) v2 (length buf) None g1 b1) as (g2 & b2 & E2 & S2 & O2 & L2 & V2); auto; try lia.
  { intros x s b X S Lb B. destruct (smooth_line ky (i_h g1) s b) as (b' & Eb & Lb' & Vb); auto; try lia. exists b'. split; [exact Eb|]. split; [lia|].
    intros y Y. rewrite Vb by exact Y. replace (i_h g1) with (i_h src) in * by congruence. rewrite (smoothed_ext ky (i_h src) s (fun y => conv (v1 (x, y)))); [apply H2; split; lia|lia|].
    intros i I. rewrite S by exact I. rewrite V1 by (split; lia). reflexivity. }
  rewrite E2. cbn [bind]. exists g2. split; [reflexivity|]. assert (SG : same_shape g2 g) by (eapply same_shape_trans; [exact S2|repeat split; congruence]).
  split; [eapply fresh_shape; eauto|]. intros x y I. rewrite V2; [reflexivity|]. now apply (same_shape_in _ _ _ _ S2) in I.
Qed.
