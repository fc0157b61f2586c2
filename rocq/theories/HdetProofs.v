(** Proofs about the Harris detector class. *)
From Verif Require Import Base BaseLemmas Gray Img Flt ImgModel ImgSpec ImgProofs ImgBox ImgProps KernModel KernSmooth HarrisModel HarrisSpec HarrisProofs HarrisProps HdetModel HdetSpec.
Local Open Scope Z_scope.

(** * Scores *)
Lemma products_ok (gx gy : Z -> Z -> flt) w h a b c : fresh a w h -> fresh b w h -> fresh c w h ->
  (forall x y, in_img a x y -> pix F0 a x y = gx x y) -> (forall x y, in_img b x y -> pix F0 b x y = gy x y) ->
  exists a' b' c', scan 0 w 0 h (fun x y '(d0, d1, d2) =>
      let* a := iget d0 x y in
      let* b := iget d1 x y in
      let* d2 := iput d2 x y (fmul a b) in
      let* d0 := iput d0 x y (fmul a a) in
      let* d1 := iput d1 x y (fmul b b) in
      Ok (d0, d1, d2)) (a, b, c) = Ok (a', b', c') /\ fresh a' w h /\ fresh b' w h /\ fresh c' w h /\
    forall x y, 0 <= x < w -> 0 <= y < h -> pix F0 a' x y = fmul (gx x y) (gx x y) /\ pix F0 b' x y = fmul (gy x y) (gy x y) /\ pix F0 c' x y = fmul (gx x y) (gy x y).
Proof.
  intros FA FB FC VA VB. rewrite scan_raster. set (l := raster 0 w 0 h).
  match goal with |- context [for_each ?f l _] => set (body := f) end.
  destruct (for_each_inv body (fun pre st => let '(a', b', c') := st in fresh a' w h /\ fresh b' w h /\ fresh c' w h /\
    forall x y, 0 <= x < w -> 0 <= y < h ->
      pix F0 a' x y = (if pmem (x, y) pre then fmul (gx x y) (gx x y) else gx x y) /\
      pix F0 b' x y = (if pmem (x, y) pre then fmul (gy x y) (gy x y) else gy x y) /\
      (pmem (x, y) pre = true -> pix F0 c' x y = fmul (gx x y) (gy x y))) l (a, b, c)) as ([[a' b'] c'] & E & FA' & FB' & FC' & V).
  - split; [exact FA|]. split; [exact FB|]. split; [exact FC|]. intros x y X Y. cbn. destruct FA as (AW & AH & _), FB as (BW & BH & _).
    split; [apply VA; unfold in_img; lia|]. split; [apply VB; unfold in_img; lia|discriminate].
  - intros pre [x y] [[a' b'] c'] (FA' & FB' & FC' & V) [post L].
    assert (I : In (x, y) l) by (rewrite L; apply in_or_app; right; now left). apply raster_in in I as [X Y].
    assert (NM : pmem (x, y) pre = false).
    { apply Bool.not_true_iff_false. rewrite pmem_spec. intro J. pose proof (raster_nodup 0 w 0 h) as N. fold l in N. rewrite L in N. apply NoDup_remove_2 in N. apply N, in_or_app. now left. }
    destruct (V x y X Y) as (Va & Vb & _). rewrite NM in Va, Vb.
    pose proof FA' as (AW & AH & AS & AO). pose proof FB' as (BW & BH & BS & BO). pose proof FC' as (CW & CH & CS & CO).
    unfold body. cbn [fst snd]. rewrite (iget_ok F0 a') by (auto; unfold in_img; lia). cbn [bind]. rewrite (iget_ok F0 b') by (auto; unfold in_img; lia). cbn [bind]. rewrite Va, Vb.
    destruct (iput_ok F0 c' x y (fmul (gx x y) (gy x y)) CO) as (c2 & -> & (C1 & C2 & C3) & CO2 & _ & VC); [unfold in_img; lia|]. cbn [bind].
    destruct (iput_ok F0 a' x y (fmul (gx x y) (gx x y)) AO) as (a2 & -> & (A1 & A2 & A3) & AO2 & _ & VA2); [unfold in_img; lia|]. cbn [bind].
    destruct (iput_ok F0 b' x y (fmul (gy x y) (gy x y)) BO) as (b2 & -> & (B1 & B2 & B3) & BO2 & _ & VB2); [unfold in_img; lia|]. cbn [bind].
    exists (a2, b2, c2). split; [reflexivity|]. unfold fresh. split; [intuition congruence|]. split; [intuition congruence|]. split; [intuition congruence|].
    intros x' y' X' Y'. destruct (V x' y' X' Y') as (Ua & Ub & Uc). rewrite pmem_app. unfold peqb. cbn [fst snd].
    rewrite VA2, VB2, VC by (unfold in_img; lia).
    destruct (Z.eqb_spec x' x), (Z.eqb_spec y' y); cbn [andb]; rewrite ?Bool.orb_true_r, ?Bool.orb_false_r; auto. subst. auto.
  - rewrite E. exists a', b', c'. split; [reflexivity|]. split; [exact FA'|]. split; [exact FB'|]. split; [exact FC'|].
    intros x y X Y. destruct (V x y X Y) as (Ua & Ub & Uc). assert (M : pmem (x, y) l = true) by (apply pmem_spec, raster_in; auto). rewrite M in Ua, Ub. auto.
Qed.
Lemma smooth_win bufj (g : Z -> Z -> flt) k d w h : fresh d w h -> 2 <= w -> 2 <= h -> (2 <= length k)%nat -> Z.max w h + 2 * (Z.of_nat (length k) - 1) <= INT_MAX ->
  (forall x y, 0 <= x < w -> 0 <= y < h -> pix F0 d x y = g x y) ->
  exists d', smooth_self (fun f => f) (fun f => Ok f) bufj d k k = Ok d' /\ fresh d' w h /\ forall x y, 0 <= x < w -> 0 <= y < h -> pix F0 d' x y = windowed (Some k) w h g x y.
Proof.
  intros (DW & DH & DS & DO) W H K M V.
  destruct (smooth_self_ok F0 (fun f => f) (fun f => Ok f) (fun p => smoothed k w (fun i => g i (snd p)) (fst p))
    (fun p => smoothed k h (fun j => smoothed k w (fun i => g i j) (fst p)) (snd p)) bufj d k k DO) as (d' & E & (S1 & S2 & S3) & O' & V'); try lia.
  - intros x y [X Y]. rewrite DW in *. rewrite DH in *. cbn [fst snd]. f_equal. apply smoothed_ext; [lia|]. intros i I. apply V; lia.
  - intros x y [X Y]. cbn [fst snd]. now rewrite DH.
  - exists d'. split; [exact E|]. split; [unfold fresh; intuition congruence|]. intros x y X Y. cbn [windowed]. apply (V' x y). unfold in_img. lia.
Qed.
Lemma deriv_images_ok junk bufj img win : usable win img ->
  exists a b c, harris_deriv_images junk bufj img win = Ok (a, b, c) /\ fresh a (i_w img) (i_h img) /\ fresh b (i_w img) (i_h img) /\ fresh c (i_w img) (i_h img) /\
    forall x y, 0 <= x < i_w img -> 0 <= y < i_h img ->
      pix F0 a x y = windowed win (i_w img) (i_h img) (fun x y => fmul (grad_x img x y) (grad_x img x y)) x y /\
      pix F0 b x y = windowed win (i_w img) (i_h img) (fun x y => fmul (grad_y img x y) (grad_y img x y)) x y /\
      pix F0 c x y = windowed win (i_w img) (i_h img) (fun x y => fmul (grad_x img x y) (grad_y img x y)) x y.
Proof.
  intros (G & S & W & H & K). unfold harris_deriv_images.
  destruct (C74_derivative_x_bytes junk img G W) as (d0 & -> & F0' & V0). cbn [bind].
  destruct (C74_derivative_y_bytes img G H S) as (d1 & -> & F1' & V1). cbn [bind].
  destruct (img_new_ok junk (i_w d0) (i_h d0)) as (d2 & E2 & C1 & C2 & C3 & C4); [destruct F0' as (-> & _); lia|destruct F0' as (_ & -> & _); lia| |].
  { destruct F0' as (-> & -> & _). destruct G as [GW GH GL GM]. rewrite S in *. nia. }
  rewrite E2. cbn [bind].
  destruct (products_ok (grad_x img) (grad_y img) (i_w img) (i_h img) d0 d1 d2) as (a & b & c & E & FA & FB & FC & V); auto.
  { unfold fresh. destruct F0' as (A1 & A2 & _). rewrite C1, C2, C3, A1, A2. auto. }
  rewrite E. cbn [bind]. clear E. destruct win as [k|].
  - destruct K as [K M].
    destruct (smooth_win bufj (fun x y => fmul (grad_x img x y) (grad_x img x y)) k a (i_w img) (i_h img)) as (a' & -> & FA' & VA'); auto; [intros x y X Y; apply (V x y X Y)|]. cbn [bind].
    destruct (smooth_win bufj (fun x y => fmul (grad_y img x y) (grad_y img x y)) k b (i_w img) (i_h img)) as (b' & -> & FB' & VB'); auto; [intros x y X Y; apply (V x y X Y)|]. cbn [bind].
    destruct (smooth_win bufj (fun x y => fmul (grad_x img x y) (grad_y img x y)) k c (i_w img) (i_h img)) as (c' & -> & FC' & VC'); auto; [intros x y X Y; apply (V x y X Y)|]. cbn [bind].
    exists a', b', c'. split; [reflexivity|]. split; [exact FA'|]. split; [exact FB'|]. split; [exact FC'|]. intros x y X Y. auto.
  - exists a, b, c. split; [reflexivity|]. split; [exact FA|]. split; [exact FB|]. split; [exact FC|]. exact V.
Qed.
Lemma update_score_ok junk bufj win k img : usable win img -> exists s, update_score junk bufj win k img = Ok s /\ harris_response win k img s.
Proof.
  intro Us. unfold update_score. destruct (deriv_images_ok junk bufj img win Us) as (a & b & c & -> & FA & FB & FC & V). cbn [bind].
  destruct FA as (AW & AH & AS & AO), FB as (BW & BH & BS & BO), FC as (CW & CH & CS & CO).
  destruct (C69_score_image junk a b c k) as (s & E & SO & SW & SH & SV); auto; try congruence.
  exists s. split; [exact E|]. split; [exact SO|]. split; [congruence|]. split; [congruence|]. intros x y [X Y].
  destruct (V x y) as (Va & Vb & Vc); [lia|lia|]. cbv beta zeta. rewrite <- Va, <- Vb, <- Vc. apply SV. unfold in_img. lia.
Qed.

(** * Detection *)
Lemma hkeys_firstn s k l : firstn k (hkeys s l) = hkeys s (firstn k l).
Proof.
  induction l as [|p l IH] using rev_ind; [now rewrite !firstn_nil|]. rewrite hkeys_snoc, !firstn_app, IH, hkeys_length.
  destruct (Nat.le_gt_cases k (length l)) as [L|L].
  - replace (k - length l)%nat with 0%nat by lia. cbn [firstn]. now rewrite !app_nil_r.
  - rewrite (firstn_all2 l) by lia. rewrite !firstn_all2 by (cbn; lia). now rewrite hkeys_snoc.
Qed.
Lemma hkeys_nth s l i h : nth_error (hkeys s l) i = Some h -> exists p, h = hkey_at s i p.
Proof.
  unfold hkeys. intro E. apply nth_error_In in E as I. clear I. enough (G : forall j i, nth_error (map (fun '(i, p) => hkey_at s i p) (combine (seq j (length l)) l)) i = Some h -> exists p, h = hkey_at s (j + i) p) by exact (G 0%nat i E).
  clear. induction l as [|p l IH]; intros j [|i] E; cbn in E; try discriminate.
  - injection E as <-. exists p. now rewrite Nat.add_0_r.
  - destruct (IH (S j) i E) as (q & ->). exists q. f_equal. lia.
Qed.
Lemma Forall2_both {A B} (R : A -> B -> Prop) l l' : Forall2 R l l' -> forall i d d', (i < length l)%nat -> R (nth i l d) (nth i l' d').
Proof. induction 1 as [|x y l l' X F IH]; intros [|i] d d' L; cbn in *; try lia; auto. apply IH. lia. Qed.
Lemma Forall2_imp {A B} (R R' : A -> B -> Prop) l l' : (forall x y, R x y -> R' x y) -> Forall2 R l l' -> Forall2 R' l l'.
Proof. intro H. induction 1; constructor; auto. Qed.
Section Det.
Variable t : flt.
Variable pyr : list (image Z * flt * flt).
Variable ss : list (image flt).
Definition d0 : image flt := mkImg 0 0 0 [].
Definition score_at (l : nat) : image flt := nth l ss d0.
Definition lev (l : nat) : image Z * flt * flt := nth l pyr (mkImg 0 0 0 [], F0, F0).
Definition pl (l : nat) (p : Z * Z) : place := (Z.of_nat l, snd p, fst p).
Fixpoint places (n : nat) : list place :=
  match n with O => [] | S l => map (pl l) (corners (score_at l) t) ++ places l end.
Definition build (i : nat) (p : place) : hkey :=
  let '(l, y, x) := p in
  {| h_x := x; h_y := y; h_xs := of_int x; h_ys := of_int y; h_level := l; h_scale := snd (fst (lev (Z.to_nat l))); h_sigma := snd (lev (Z.to_nat l));
     h_score := pix F0 (score_at (Z.to_nat l)) x y; h_ori := F0; h_id := Z.of_nat i |}.
Definition built (k : nat) (l : list place) : list hkey := map (fun '(i, p) => build i p) (combine (seq k (length l)) l).
Lemma built_length k l : length (built k l) = length l.
Proof. unfold built. rewrite map_length, combine_length, seq_length. lia. Qed.
Lemma built_app k a b : built k (a ++ b) = built k a ++ built (k + length a) b.
Proof. unfold built. rewrite app_length, seq_app, combine_app by now rewrite seq_length. now rewrite map_app. Qed.
Lemma built_firstn k m l : firstn m (built k l) = built k (firstn m l).
Proof.
  rewrite <- (firstn_skipn m l) at 1. rewrite built_app, firstn_app, built_length, firstn_length.
  destruct (Nat.le_gt_cases m (length l)) as [L|L].
  - rewrite firstn_all2 by (rewrite built_length, firstn_length; lia). replace (m - _)%nat with 0%nat by lia. cbn [firstn]. now rewrite app_nil_r.
  - rewrite skipn_all2 by lia. rewrite firstn_all2 by (rewrite built_length, firstn_length; lia). cbn. now rewrite firstn_nil, app_nil_r.
Qed.
Lemma built_nth k l i h : nth_error (built k l) i = Some h -> exists p, nth_error l i = Some p /\ h = build (k + i) p.
Proof.
  revert k i. induction l as [|p l IH]; intros k i E; [destruct i; discriminate|]. destruct i; cbn in E |- *.
  - injection E as <-. exists p. now rewrite Nat.add_0_r.
  - destruct (IH (S k) i E) as (q & Q & ->). exists q. split; [exact Q|]. f_equal. lia.
Qed.
Lemma built_places k l : map place_of (built k l) = l.
Proof. unfold built. revert k. induction l as [|[[a b] c] l IH]; intro k; cbn; [reflexivity|]. f_equal. apply IH. Qed.
Lemma relabel_built l k C : map (relabel (Z.of_nat l) (snd (fst (lev l))) (snd (lev l)) k) (combine (seq 0 (length (hkeys (score_at l) C))) (hkeys (score_at l) C)) = built k (map (pl l) C).
Proof.
  unfold built, hkeys. rewrite !map_length, combine_length, seq_length, Nat.min_id.
  enough (G : forall j j', map (relabel (Z.of_nat l) (snd (fst (lev l))) (snd (lev l)) k) (combine (seq j (length C)) (map (fun '(i, p) => hkey_at (score_at l) i p) (combine (seq j' (length C)) C))) =
    map (fun '(i, p) => build i p) (combine (seq (k + j) (length C)) (map (pl l) C))) by (rewrite G, Nat.add_0_r; reflexivity).
  induction C as [|p C IH]; intros j j'; cbn [length seq combine map]; [reflexivity|]. f_equal; [|rewrite IH; now rewrite Nat.add_succ_r].
  unfold relabel, hkey_at, build, pl. cbn [h_x h_y h_xs h_ys h_score h_ori fst snd]. now rewrite Nat2Z.id.
Qed.
Variable score : image Z -> res (image flt).

Lemma pyr_loop_ok n : forall keys buf, (n <= length pyr)%nat -> 0 <= buf ->
  (forall l, (l < n)%nat -> score (fst (fst (lev l))) = Ok (score_at l) /\ image_ok (score_at l)) ->
  pyr_loop score t pyr n keys buf = Ok (keys ++ built (length keys) (firstn (Z.to_nat buf) (places n))).
Proof.
  induction n as [|l IH]; intros keys buf L B H; cbn [pyr_loop places].
  - rewrite firstn_nil. cbn. now rewrite app_nil_r.
  - destruct (Z.ltb_spec 0 buf) as [BP|BP]; cbn [negb].
    2:{ replace buf with 0 by lia. cbn. now rewrite app_nil_r. }
    rewrite (zget_lt pyr (Z.of_nat l) (mkImg 0 0 0 [], F0, F0)) by lia. cbn [bind]. rewrite Nat2Z.id. fold (lev l).
    destruct (H l) as [E O]; [lia|]. pose proof (relabel_built l) as RB. destruct (lev l) as [[im sc] sg]. cbn [fst snd] in *. rewrite E. cbn [bind].
    rewrite harris_detect_ok by exact O. cbn [bind]. rewrite RB, hkeys_length, firstn_length.
    rewrite IH; [|lia|lia|intros; apply H; lia].
    rewrite app_length, built_length, <- app_assoc, <- built_app. do 3 f_equal.
    rewrite firstn_app, map_length, firstn_map. f_equal. f_equal. lia.
Qed.
Lemma places_in n l y x : In (l, y, x) (places n) <-> 0 <= l < Z.of_nat n /\ harris_corner (score_at (Z.to_nat l)) t x y.
Proof.
  induction n as [|m IH]; cbn [places]; [cbn; lia|]. rewrite in_app_iff, IH, in_map_iff. split.
  - intros [([x' y'] & E & I)|[L H]]; [|split; [lia|exact H]]. unfold pl in E. cbn [fst snd] in E. injection E as <- <- <-. rewrite Nat2Z.id. split; [lia|].
    unfold corners in I. apply filter_In in I as [R C]. apply raster_in in R as [RX RY]. apply cornerb_iff; auto.
  - intros [L H]. destruct (Z.eq_dec l (Z.of_nat m)) as [->|NE]; [|right; split; [lia|exact H]]. left. rewrite Nat2Z.id in H. exists (x, y). split; [reflexivity|].
    pose proof H as (X & Y & _). apply filter_In. split; [apply raster_in; auto|]. apply cornerb_iff; auto.
Qed.
Lemma places_sorted n : StronglySorted earlier (places n).
Proof.
  induction n as [|m IH]; cbn [places]; [constructor|]. apply SSorted_app; [|exact IH|].
  - apply SSorted_map. apply SSorted_filter. eapply SSorted_impl; [|apply raster_sorted]. intros p q Hq. unfold earlier, pl. right. split; [reflexivity|exact Hq].
  - intros [[a b] c] [[a' b'] c'] I J. apply in_map_iff in I as (p & E & _). unfold pl in E. injection E as <- _ _. apply places_in in J as [J _]. cbn. lia.
Qed.
End Det.
Lemma hkeys_places s D : map place_of (hkeys s D) = map (pl 0) D.
Proof.
  unfold hkeys. generalize 0%nat at 1 as j. induction D as [|p D IH]; intro j; cbn [length seq combine map]; [reflexivity|]. now rewrite IH.
Qed.
