(** Proofs about the geometry of the affine warp processor. *)
From Coq Require Import Reals Lra Lia.
From Verif Require Import Base AwpModel AwpSpec.
Local Open Scope R_scope.

Lemma apply_combine t0 t1 p : t_apply (t_combine t0 t1) p = t_apply t0 (t_apply t1 p).
Proof. destruct t0, t1, p. unfold t_apply, t_combine. cbn. f_equal; ring. Qed.
Lemma apply_identity p : t_apply identity_t p = p.
Proof. destruct p. unfold t_apply, identity_t. cbn. f_equal; ring. Qed.
Lemma pair_eq (a b c d : R) : a = c -> b = d -> (a, b) = (c, d).
Proof. intros -> ->. reflexivity. Qed.

Definition scale_xy (sx sy : R) (p : R * R) : R * R := (sx * fst p, sy * snd p).
Lemma forward_apply ci co sx sy a p : t_apply (forward_stage ci co sx sy a) p = plus co (scale_xy sx sy (rotate a (minus p ci))).
Proof. destruct ci, co, p. unfold t_apply, forward_stage, plus, scale_xy, rotate, minus. cbn. apply pair_eq; ring. Qed.

(** ** Stages undo each other *)
Lemma trig a : cos a * cos a + sin a * sin a = 1.
Proof. pose proof (sin2_cos2 a) as H. unfold Rsqr in H. lra. Qed.
(** The inverse stage divides by scale_x in the first row and by scale_y in the
    second: it inverts the forward stage only for equal scales or without a
    rotation. *)
Lemma inverse_forward ci co sx sy a p : sx <> 0 -> sy <> 0 -> sx = sy \/ sin a = 0 ->
  t_apply (inverse_stage ci co sx sy a) (t_apply (forward_stage ci co sx sy a) p) = p.
Proof.
  intros Hx Hy H. pose proof (trig a) as T. destruct ci as [cx cy], co as [ox oy], p as [x y]. unfold t_apply, forward_stage, inverse_stage. cbn [fst snd e0 e1 e2 e3 e4 e5].
  destruct H as [->|H].
  - apply pair_eq.
    + transitivity (cx + (cos a * cos a + sin a * sin a) * (x - cx)); [field; auto|rewrite T; ring].
    + transitivity (cy + (cos a * cos a + sin a * sin a) * (y - cy)); [field; auto|rewrite T; ring].
  - rewrite H in *. assert (cos a * cos a = 1) as T' by lra. apply pair_eq.
    + transitivity (cx + (cos a * cos a) * (x - cx)); [field; auto|rewrite T'; ring].
    + transitivity (cy + (cos a * cos a) * (y - cy)); [field; auto|rewrite T'; ring].
Qed.
Lemma forward_inverse ci co sx sy a p : sx <> 0 -> sy <> 0 -> sx = sy \/ sin a = 0 ->
  t_apply (forward_stage ci co sx sy a) (t_apply (inverse_stage ci co sx sy a) p) = p.
Proof.
  intros Hx Hy H. pose proof (trig a) as T. destruct ci as [cx cy], co as [ox oy], p as [x y]. unfold t_apply, forward_stage, inverse_stage. cbn [fst snd e0 e1 e2 e3 e4 e5].
  destruct H as [->|H].
  - apply pair_eq.
    + transitivity (ox + (cos a * cos a + sin a * sin a) * (x - ox)); [field; auto|rewrite T; ring].
    + transitivity (oy + (cos a * cos a + sin a * sin a) * (y - oy)); [field; auto|rewrite T; ring].
  - rewrite H in *. assert (cos a * cos a = 1) as T' by lra. apply pair_eq.
    + transitivity (ox + (cos a * cos a) * (x - ox)); [field; auto|rewrite T'; ring].
    + transitivity (oy + (cos a * cos a) * (y - oy)); [field; auto|rewrite T'; ring].
Qed.

(** ** Sizes *)
Lemma MINr_cases a b : (a < b /\ MINr a b = a) \/ (b <= a /\ MINr a b = b).
Proof. unfold MINr. destruct (Rlt_dec a b); [left|right]; lra. Qed.
Lemma MAXr_cases a b : (b < a /\ MAXr a b = a) \/ (a <= b /\ MAXr a b = b).
Proof. unfold MAXr. destruct (Rgt_dec a b); [left|right]; lra. Qed.
Lemma spread P Q c : max4 c (P + c) (Q + c) (P + Q + c) - min4 c (P + c) (Q + c) (P + Q + c) = Rabs P + Rabs Q.
Proof.
  unfold max4, min4.
  destruct (MAXr_cases c (P + c)) as [[? ->]|[? ->]]; destruct (MAXr_cases (Q + c) (P + Q + c)) as [[? ->]|[? ->]]; try (exfalso; lra);
  destruct (MINr_cases c (P + c)) as [[? ->]|[? ->]]; destruct (MINr_cases (Q + c) (P + Q + c)) as [[? ->]|[? ->]]; try (exfalso; lra);
  match goal with |- MAXr ?a ?b - MINr ?d ?e = _ => destruct (MAXr_cases a b) as [[? ->]|[? ->]]; destruct (MINr_cases d e) as [[? ->]|[? ->]] end;
  (destruct (Rcase_abs P) as [HP|HP]; [rewrite (Rabs_left P HP)|rewrite (Rabs_right P HP)]);
  (destruct (Rcase_abs Q) as [HQ|HQ]; [rewrite (Rabs_left Q HQ)|rewrite (Rabs_right Q HQ)]); lra.
Qed.
Lemma to_int_r_bounds r z : 0 <= r -> to_int_r r = Ok z -> IZR z <= r < IZR z + 1.
Proof.
  intros Hr. unfold to_int_r. destruct (Rle_dec 0 r); [|lra]. destruct (in_int (Int_part r)); [|discriminate]. intros E. injection E as <-.
  destruct (base_Int_part r). lra.
Qed.
Lemma to_int_r_ok r : 0 <= r -> r <= IZR INT_MAX -> exists z, to_int_r r = Ok z.
Proof.
  intros H0 H1. unfold to_int_r. destruct (Rle_dec 0 r); [|lra]. destruct (base_Int_part r) as [A B].
  assert (0 <= Int_part r)%Z. { cut (0 < Int_part r + 1)%Z; [lia|]. apply lt_IZR. rewrite plus_IZR. lra. }
  assert (Int_part r <= INT_MAX)%Z by (apply le_IZR; lra).
  unfold in_int. replace (_ && _) with true; [eauto|]. unfold INT_MIN. symmetry. apply andb_true_intro. split; apply Z.leb_le; lia.
Qed.

(** The coefficients of the two coordinates of a transform given as a function. *)
Definition lin (f : R * R -> R) (A B C : R) : Prop := forall x y, f (x, y) = A * x + B * y + C.
Lemma half_bound A B w h x y : 0 <= w -> 0 <= h -> 0 <= x <= w -> 0 <= y <= h -> Rabs (A * (x - w / 2) + B * (y - h / 2)) <= (Rabs (A * w) + Rabs (B * h)) / 2.
Proof.
  intros Hw Hh Hx Hy. rewrite !Rabs_mult, (Rabs_right w), (Rabs_right h) by lra. eapply Rle_trans; [apply Rabs_triang|]. rewrite !Rabs_mult.
  assert (Rabs (x - w / 2) <= w / 2) by (apply Rabs_le; lra). assert (Rabs (y - h / 2) <= h / 2) by (apply Rabs_le; lra).
  pose proof (Rabs_pos A). pose proof (Rabs_pos B). nra.
Qed.

Definition req (sx sy a : R) : aff := Aff (sx * cos a) (sy * sin a) (- sx * sin a) (sy * cos a) 0 0.
Section Stage.
Variables (w h : Z) (sx sy a : R) (cur : aff).
Hypothesis Hw : (0 <= w)%Z.
Hypothesis Hh : (0 <= h)%Z.
Let go p := t_apply (req sx sy a) (t_apply cur p).
Let ext_x := Rabs ((sx * cos a * e0 cur - sx * sin a * e1 cur) * IZR w) + Rabs ((sx * cos a * e2 cur - sx * sin a * e3 cur) * IZR h).
Let ext_y := Rabs ((sy * sin a * e0 cur + sy * cos a * e1 cur) * IZR w) + Rabs ((sy * sin a * e2 cur + sy * cos a * e3 cur) * IZR h).

Lemma size_eq : transformed_buffer_size w h sx sy a cur =
  (let* rw := to_int_r (ext_x + 2) in let* rh := to_int_r (ext_y + 2) in Ok (rw, rh)).
Proof.
  unfold transformed_buffer_size. cbv zeta. fold (req sx sy a).
  assert (forall P Q c, max4 c (P + c) (Q + c) (P + Q + c) - min4 c (P + c) (Q + c) (P + Q + c) + 2 * 1 = Rabs P + Rabs Q + 2) as G by (intros; rewrite spread; ring).
  unfold t_apply, req. cbn [fst snd e0 e1 e2 e3 e4 e5].
  set (W := IZR w). set (H := IZR h).
  assert (forall u v, to_int_r u = to_int_r v -> to_int_r u = to_int_r v) as _ by auto.
  match goal with |- context [max4 ?p1 ?p2 ?p3 ?p4 - min4 ?p1 ?p2 ?p3 ?p4 + 2 * 1] =>
    replace (max4 p1 p2 p3 p4 - min4 p1 p2 p3 p4 + 2 * 1) with (ext_x + 2) end.
  2:{ unfold ext_x. fold W H. rewrite <- (G _ _ (e4 cur * (sx * cos a) - e5 cur * (sx * sin a))). f_equal. f_equal; f_equal; ring. }
  match goal with |- context [max4 ?p1 ?p2 ?p3 ?p4 - min4 ?p1 ?p2 ?p3 ?p4 + 2 * 1] =>
    replace (max4 p1 p2 p3 p4 - min4 p1 p2 p3 p4 + 2 * 1) with (ext_y + 2) end.
  2:{ unfold ext_y. fold W H. rewrite <- (G _ _ (e4 cur * (sy * sin a) + e5 cur * (sy * cos a))). f_equal. f_equal; f_equal; ring. }
  reflexivity.
Qed.

Lemma ext_pos : 0 <= ext_x /\ 0 <= ext_y.
Proof. unfold ext_x, ext_y. pose proof Rabs_pos as P. split; apply Rplus_le_le_0_compat; apply P. Qed.

(** After the stage, the image fits into the buffer. *)
Lemma stage_inside inb wo ho p : transformed_buffer_size w h sx sy a cur = Ok (wo, ho) ->
  t_apply cur (IZR w / 2, IZR h / 2) = centre inb -> on_image (w, h) p ->
  well_inside (wo, ho) (t_apply (forward_stage (centre inb) (centre (wo, ho)) sx sy a) (t_apply cur p)) /\
  IZR wo <= ext_x + 2 /\ IZR ho <= ext_y + 2.
Proof.
  intros E C (Px & Py). cbn [fst snd] in Px, Py. rewrite size_eq in E. destruct ext_pos as [Ex Ey].
  destruct (to_int_r (ext_x + 2)) as [zw| | |] eqn:E1; try discriminate. destruct (to_int_r (ext_y + 2)) as [zh| | |] eqn:E2; try discriminate.
  cbn [bind] in E. injection E as -> ->. apply to_int_r_bounds in E1; [|lra]. apply to_int_r_bounds in E2; [|lra].
  rewrite forward_apply. destruct p as [x y]. cbn [fst snd] in *. destruct inb as [wi hi]. unfold centre, t_apply in C. cbn [fst snd] in C. injection C as C1 C2.
  assert (0 <= IZR w) as Wp by (apply IZR_le; auto). assert (0 <= IZR h) as Hp by (apply IZR_le; auto).
  pose proof (half_bound (sx * cos a * e0 cur - sx * sin a * e1 cur) (sx * cos a * e2 cur - sx * sin a * e3 cur) (IZR w) (IZR h) x y Wp Hp Px Py) as Bx.
  pose proof (half_bound (sy * sin a * e0 cur + sy * cos a * e1 cur) (sy * sin a * e2 cur + sy * cos a * e3 cur) (IZR w) (IZR h) x y Wp Hp Px Py) as By.
  assert (forall u d, Rabs u <= d -> - d <= u <= d) as AB by (intros u d; unfold Rabs; destruct (Rcase_abs u); lra).
  apply AB in Bx. apply AB in By. fold ext_x in Bx. fold ext_y in By.
  unfold well_inside, plus, scale_xy, rotate, minus, centre, t_apply. cbn [fst snd].
  set (X := IZR wo / 2 + _). set (Y := IZR ho / 2 + _).
  assert (X = IZR wo / 2 + ((sx * cos a * e0 cur - sx * sin a * e1 cur) * (x - IZR w / 2) + (sx * cos a * e2 cur - sx * sin a * e3 cur) * (y - IZR h / 2))) as EX by (unfold X; rewrite <- C1, <- C2; ring).
  assert (Y = IZR ho / 2 + ((sy * sin a * e0 cur + sy * cos a * e1 cur) * (x - IZR w / 2) + (sy * sin a * e2 cur + sy * cos a * e3 cur) * (y - IZR h / 2))) as EY by (unfold Y; rewrite <- C1, <- C2; ring).
  lra.
Qed.
Lemma stage_centre inb wo ho : t_apply cur (IZR w / 2, IZR h / 2) = centre inb ->
  t_apply (forward_stage (centre inb) (centre (wo, ho)) sx sy a) (t_apply cur (IZR w / 2, IZR h / 2)) = centre (wo, ho).
Proof. intros ->. rewrite forward_apply. unfold plus, scale_xy, rotate, minus, centre. cbn. apply pair_eq; ring. Qed.
Lemma size_ok : ext_x + 2 <= IZR INT_MAX -> ext_y + 2 <= IZR INT_MAX -> exists wh, transformed_buffer_size w h sx sy a cur = Ok wh.
Proof.
  intros Hx Hy. destruct ext_pos. rewrite size_eq. destruct (to_int_r_ok (ext_x + 2)) as (z1 & ->); [lra|auto|]. destruct (to_int_r_ok (ext_y + 2)) as (z2 & ->); [lra|auto|]. cbn [bind]. eauto.
Qed.
End Stage.

(** ** The three stages *)
Lemma resize_spec wp img scale planar tilt tilt_angle wp' :
  resize_buffers wp img scale planar tilt tilt_angle = Ok wp' ->
  let f1 := forward_stage (centre img) (centre (skew_wh wp')) 1 1 tilt_angle in
  let f2 := forward_stage (centre (skew_wh wp')) (centre (sub_wh wp')) (1 / tilt) 1 0 in
  let f3 := forward_stage (centre (sub_wh wp')) (centre (result_wh wp')) scale scale planar in
  let i1 := inverse_stage (centre img) (centre (skew_wh wp')) 1 1 tilt_angle in
  let i2 := inverse_stage (centre (skew_wh wp')) (centre (sub_wh wp')) (1 / tilt) 1 0 in
  let i3 := inverse_stage (centre (sub_wh wp')) (centre (result_wh wp')) scale scale planar in
  transformed_buffer_size (fst img) (snd img) 1 1 tilt_angle identity_t = Ok (skew_wh wp') /\
  transformed_buffer_size (fst img) (snd img) (1 / tilt) 1 0 (t_combine f1 identity_t) = Ok (sub_wh wp') /\
  transformed_buffer_size (fst img) (snd img) scale scale planar (t_combine f2 (t_combine f1 identity_t)) = Ok (result_wh wp') /\
  forward_t wp' = t_combine f3 (t_combine f2 (t_combine f1 identity_t)) /\
  inverse_t wp' = t_combine (t_combine (t_combine identity_t i1) i2) i3.
Proof.
  intros E. unfold resize_buffers in E. set (wp0 := reset_transforms wp) in E.
  unfold resize_buffer at 1 in E. change (forward_t wp0) with identity_t in E.
  destruct (transformed_buffer_size (fst img) (snd img) 1 1 tilt_angle identity_t) as [[w1 h1]| | |] eqn:E1; cbn [bind] in E; try discriminate.
  change (IZR w1 / 2, IZR h1 / 2) with (centre (w1, h1)) in E. change (IZR (fst img) / 2, IZR (snd img) / 2) with (centre img) in E.
  set (wp1 := update_transforms wp0 _ _ _ _ _) in E.
  unfold resize_buffer at 1 in E.
  destruct (transformed_buffer_size (fst img) (snd img) (1 / tilt) 1 0 (forward_t wp1)) as [[w2 h2]| | |] eqn:E2; cbn [bind] in E; try discriminate.
  change (IZR w2 / 2, IZR h2 / 2) with (centre (w2, h2)) in E. change (IZR (fst (w1, h1)) / 2, IZR (snd (w1, h1)) / 2) with (centre (w1, h1)) in E.
  set (wp2 := update_transforms wp1 _ _ _ _ _) in E.
  unfold resize_buffer at 1 in E.
  destruct (transformed_buffer_size (fst img) (snd img) scale scale planar (forward_t wp2)) as [[w3 h3]| | |] eqn:E3; cbn [bind] in E; try discriminate.
  change (IZR w3 / 2, IZR h3 / 2) with (centre (w3, h3)) in E. change (IZR (fst (w2, h2)) / 2, IZR (snd (w2, h2)) / 2) with (centre (w2, h2)) in E.
  injection E as <-. cbn [skew_wh sub_wh result_wh forward_t inverse_t].
  split; [reflexivity|]. split; [exact E2|]. split; [exact E3|]. split; reflexivity.
Qed.

Lemma forward_formula wp img scale planar tilt tilt_angle wp' p :
  resize_buffers wp img scale planar tilt tilt_angle = Ok wp' ->
  t_apply (forward_t wp') p = affine_warp img (result_wh wp') scale planar tilt tilt_angle p.
Proof.
  intros E. destruct (resize_spec _ _ _ _ _ _ _ E) as (_ & _ & _ & -> & _). rewrite !apply_combine, apply_identity, !forward_apply.
  unfold affine_warp, plus, minus, scale_xy, rotate, compress, grow, centre. cbn [fst snd]. rewrite cos_0, sin_0. unfold Rdiv. apply pair_eq; ring.
Qed.
Lemma mutual_inverse wp img scale planar tilt tilt_angle wp' p : scale <> 0 -> tilt <> 0 ->
  resize_buffers wp img scale planar tilt tilt_angle = Ok wp' ->
  t_apply (inverse_t wp') (t_apply (forward_t wp') p) = p /\ t_apply (forward_t wp') (t_apply (inverse_t wp') p) = p.
Proof.
  intros Hs Ht E. destruct (resize_spec _ _ _ _ _ _ _ E) as (_ & _ & _ & -> & ->). rewrite !apply_combine, !apply_identity.
  assert (1 / tilt <> 0). { unfold Rdiv. rewrite Rmult_1_l. apply Rinv_neq_0_compat. auto. } pose proof R1_neq_R0. pose proof sin_0.
  split.
  - rewrite inverse_forward, inverse_forward, inverse_forward; auto.
  - rewrite forward_inverse, forward_inverse, forward_inverse; auto.
Qed.

Lemma combine_id f p : t_apply (t_combine f identity_t) p = t_apply f p.
Proof. rewrite apply_combine, apply_identity. reflexivity. Qed.
Lemma at_centre img : (IZR (fst img) / 2, IZR (snd img) / 2) = centre img.
Proof. reflexivity. Qed.

Lemma all_inside wp img scale planar tilt tilt_angle wp' p : (0 <= fst img)%Z -> (0 <= snd img)%Z ->
  resize_buffers wp img scale planar tilt tilt_angle = Ok wp' -> on_image img p ->
  well_inside (skew_wh wp') (plus (centre (skew_wh wp')) (rotate tilt_angle (minus p (centre img)))) /\
  well_inside (sub_wh wp') (plus (centre (sub_wh wp')) (compress tilt (rotate tilt_angle (minus p (centre img))))) /\
  well_inside (result_wh wp') (affine_warp img (result_wh wp') scale planar tilt tilt_angle p).
Proof.
  intros Hw Hh E Hp. pose proof (forward_formula _ _ _ _ _ _ _ p E) as FF.
  destruct (resize_spec _ _ _ _ _ _ _ E) as (S1 & S2 & S3 & F & _). rewrite F in FF. clear E F.
  destruct img as [w h]. cbn [fst snd] in *. destruct (skew_wh wp') as [w1 h1]. destruct (sub_wh wp') as [w2 h2]. destruct (result_wh wp') as [w3 h3].
  set (f1 := forward_stage (centre (w, h)) (centre (w1, h1)) 1 1 tilt_angle) in *. set (f2 := forward_stage (centre (w1, h1)) (centre (w2, h2)) (1 / tilt) 1 0) in *.
  set (f3 := forward_stage (centre (w2, h2)) (centre (w3, h3)) scale scale planar) in *.
  assert (t_apply identity_t (IZR w / 2, IZR h / 2) = centre (w, h)) as C0 by apply apply_identity.
  pose proof (stage_centre w h 1 1 tilt_angle identity_t (w, h) w1 h1 C0) as C1. fold f1 in C1. rewrite <- apply_combine in C1.
  pose proof (stage_centre w h (1 / tilt) 1 0 _ (w1, h1) w2 h2 C1) as C2. fold f2 in C2. rewrite <- apply_combine in C2.
  split; [|split].
  - destruct (stage_inside w h 1 1 tilt_angle identity_t Hw Hh (w, h) w1 h1 p S1 C0 Hp) as [G _]. rewrite apply_identity, forward_apply in G.
    unfold scale_xy in G. rewrite !Rmult_1_l, <- surjective_pairing in G. exact G.
  - destruct (stage_inside w h (1 / tilt) 1 0 _ Hw Hh (w1, h1) w2 h2 p S2 C1 Hp) as [G _].
    rewrite combine_id in G. unfold f1 in G. rewrite !forward_apply in G.
    match goal with |- well_inside _ ?q => match type of G with well_inside _ ?q' => replace q with q'; [exact G|] end end.
    unfold plus, minus, scale_xy, rotate, compress, centre. cbn [fst snd]. rewrite cos_0, sin_0. unfold Rdiv. apply pair_eq; ring.
  - destruct (stage_inside w h scale scale planar _ Hw Hh (w2, h2) w3 h3 p S3 C2 Hp) as [G _]. fold f3 in G. rewrite <- apply_combine, FF in G. exact G.
Qed.

(** ** Sufficient room: all is defined for moderate sizes and tilts of at least 1 *)
Lemma cs_le a x y : Rabs (cos a * x - sin a * y) <= Rabs x + Rabs y /\ Rabs (sin a * x + cos a * y) <= Rabs x + Rabs y.
Proof.
  destruct (COS_bound a), (SIN_bound a). assert (Rabs (cos a) <= 1) by (apply Rabs_le; lra). assert (Rabs (sin a) <= 1) by (apply Rabs_le; lra).
  pose proof (Rabs_pos x). pose proof (Rabs_pos y). split.
  - eapply Rle_trans; [apply Rabs_triang|]. rewrite Rabs_Ropp, !Rabs_mult. nra.
  - eapply Rle_trans; [apply Rabs_triang|]. rewrite !Rabs_mult. nra.
Qed.
Lemma resize_defined wp img scale planar tilt tilt_angle : (0 <= fst img)%Z -> (0 <= snd img)%Z -> 1 <= tilt ->
  2 * (Rabs scale + 1) * (IZR (fst img) + IZR (snd img)) + 2 <= IZR INT_MAX ->
  exists wp', resize_buffers wp img scale planar tilt tilt_angle = Ok wp'.
Proof.
  intros Hw Hh Ht Hroom. destruct img as [w h]. cbn [fst snd] in *.
  assert (0 <= IZR w) as Wp by (apply IZR_le; auto). assert (0 <= IZR h) as Hp by (apply IZR_le; auto).
  pose proof (Rabs_pos scale) as Sp. pose proof (COS_bound tilt_angle) as [B1 B2]. pose proof (SIN_bound tilt_angle) as [B3 B4].
  assert (Rabs (cos tilt_angle) <= 1) as Bc by (apply Rabs_le; lra). assert (Rabs (sin tilt_angle) <= 1) as Bs by (apply Rabs_le; lra).
  assert (0 < / tilt <= 1) as Bt. { split; [apply Rinv_0_lt_compat; lra|]. rewrite <- Rinv_1. apply Rinv_le_contravar; lra. }
  assert (forall u v d k, Rabs u <= k -> Rabs v <= k -> k * (IZR w + IZR h) + 2 <= d -> Rabs (u * IZR w) + Rabs (v * IZR h) + 2 <= d) as Ext.
  { intros u v d k Hu Hv Hd. rewrite !Rabs_mult, (Rabs_right (IZR w)), (Rabs_right (IZR h)) by lra. nra. }
  assert (forall x, Rabs x <= 1 -> Rabs (/ tilt * x) <= 1) as Shr. { intros x Hx. rewrite Rabs_mult, (Rabs_right (/ tilt)) by lra. pose proof (Rabs_pos x). nra. }
  assert (forall a x y, Rabs x <= 1 -> Rabs y <= 1 -> Rabs (cos a * x - sin a * y) <= 2 /\ Rabs (sin a * x + cos a * y) <= 2) as Two.
  { intros a x y Hx Hy. destruct (cs_le a x y). lra. }
  unfold resize_buffers. set (wp0 := reset_transforms wp).
  destruct (size_ok w h 1 1 tilt_angle identity_t) as ([w1 h1] & S1).
  { cbn [e0 e1 e2 e3 identity_t]. apply (Ext _ _ _ 1); [| |nra].
    - replace (1 * cos tilt_angle * 1 - 1 * sin tilt_angle * 0) with (cos tilt_angle) by ring. auto.
    - replace (1 * cos tilt_angle * 0 - 1 * sin tilt_angle * 1) with (- sin tilt_angle) by ring. rewrite Rabs_Ropp. auto. }
  { cbn [e0 e1 e2 e3 identity_t]. apply (Ext _ _ _ 1); [| |nra].
    - replace (1 * sin tilt_angle * 1 + 1 * cos tilt_angle * 0) with (sin tilt_angle) by ring. auto.
    - replace (1 * sin tilt_angle * 0 + 1 * cos tilt_angle * 1) with (cos tilt_angle) by ring. auto. }
  unfold resize_buffer at 1. cbn [fst snd]. change (forward_t wp0) with identity_t. rewrite S1. cbn [bind]. set (wp1 := update_transforms wp0 _ _ _ _ _).
  assert (e0 (forward_t wp1) = cos tilt_angle /\ e1 (forward_t wp1) = sin tilt_angle /\ e2 (forward_t wp1) = - sin tilt_angle /\ e3 (forward_t wp1) = cos tilt_angle) as (D0 & D1 & D2 & D3).
  { unfold wp1, update_transforms. cbn. repeat split; ring. }
  clearbody wp1.
  destruct (size_ok w h (1 / tilt) 1 0 (forward_t wp1)) as ([w2 h2] & S2).
  { rewrite D0, D1, D2, D3, cos_0, sin_0. apply (Ext _ _ _ 1); [| |nra].
    - replace (1 / tilt * 1 * cos tilt_angle - 1 / tilt * 0 * sin tilt_angle) with (/ tilt * cos tilt_angle) by (unfold Rdiv; ring). auto.
    - replace (1 / tilt * 1 * - sin tilt_angle - 1 / tilt * 0 * cos tilt_angle) with (- (/ tilt * sin tilt_angle)) by (unfold Rdiv; ring). rewrite Rabs_Ropp. auto. }
  { rewrite D0, D1, D2, D3, cos_0, sin_0. apply (Ext _ _ _ 1); [| |nra].
    - replace (1 * 0 * cos tilt_angle + 1 * 1 * sin tilt_angle) with (sin tilt_angle) by ring. auto.
    - replace (1 * 0 * - sin tilt_angle + 1 * 1 * cos tilt_angle) with (cos tilt_angle) by ring. auto. }
  unfold resize_buffer at 1. cbn [fst snd]. rewrite S2. cbn [bind]. set (wp2 := update_transforms wp1 _ _ _ _ _).
  assert (e0 (forward_t wp2) = / tilt * cos tilt_angle /\ e1 (forward_t wp2) = sin tilt_angle /\ e2 (forward_t wp2) = - (/ tilt * sin tilt_angle) /\ e3 (forward_t wp2) = cos tilt_angle) as (Z0 & Z1 & Z2 & Z3).
  { unfold wp2, update_transforms. cbn -[cos sin]. rewrite D0, D1, D2, D3, cos_0, sin_0. unfold Rdiv. repeat split; ring. }
  clearbody wp2.
  assert (Rabs (- (/ tilt * sin tilt_angle)) <= 1) as Z2' by (rewrite Rabs_Ropp; auto).
  pose proof (Shr _ Bc) as Z0'. pose proof (Two planar _ _ Z0' Bs) as [A1 A2]. pose proof (Two planar _ _ Z2' Bc) as [A3 A4].
  assert (forall x, Rabs x <= 2 -> Rabs (scale * x) <= 2 * Rabs scale) as Scl by (intros x Hx; rewrite Rabs_mult; nra).
  destruct (size_ok w h scale scale planar (forward_t wp2)) as ([w3 h3] & S3).
  { rewrite Z0, Z1, Z2, Z3. apply (Ext _ _ _ (2 * Rabs scale)); [| |nra].
    - replace (scale * cos planar * (/ tilt * cos tilt_angle) - scale * sin planar * sin tilt_angle) with (scale * (cos planar * (/ tilt * cos tilt_angle) - sin planar * sin tilt_angle)) by ring. auto.
    - replace (scale * cos planar * - (/ tilt * sin tilt_angle) - scale * sin planar * cos tilt_angle) with (scale * (cos planar * - (/ tilt * sin tilt_angle) - sin planar * cos tilt_angle)) by ring. auto. }
  { rewrite Z0, Z1, Z2, Z3. apply (Ext _ _ _ (2 * Rabs scale)); [| |nra].
    - replace (scale * sin planar * (/ tilt * cos tilt_angle) + scale * cos planar * sin tilt_angle) with (scale * (sin planar * (/ tilt * cos tilt_angle) + cos planar * sin tilt_angle)) by ring. auto.
    - replace (scale * sin planar * - (/ tilt * sin tilt_angle) + scale * cos planar * cos tilt_angle) with (scale * (sin planar * - (/ tilt * sin tilt_angle) + cos planar * cos tilt_angle)) by ring. auto. }
  unfold resize_buffer at 1. cbn [fst snd]. rewrite S3. cbn [bind]. eauto.
Qed.

(** ** The result is hardly larger than necessary *)
Lemma extent A B w h : 0 <= w -> 0 <= h -> exists p q : R * R, (0 <= fst p <= w /\ 0 <= snd p <= h) /\ (0 <= fst q <= w /\ 0 <= snd q <= h) /\
  (fst p - fst q) * A + (snd p - snd q) * B = Rabs (A * w) + Rabs (B * h).
Proof.
  intros Hw Hh.
  assert (forall A w, 0 <= w -> exists a b, 0 <= a <= w /\ 0 <= b <= w /\ (a - b) * A = Rabs (A * w)) as K.
  { clear. intros A w Hw. rewrite Rabs_mult, (Rabs_right w) by lra. destruct (Rcase_abs A) as [N|N].
    - rewrite (Rabs_left A N). exists 0, w. split; [lra|]. split; [lra|ring].
    - rewrite (Rabs_right A N). exists w, 0. split; [lra|]. split; [lra|ring]. }
  destruct (K A w Hw) as (a & b & Ha & Hb & E1). destruct (K B h Hh) as (c & d & Hc & Hd & E2). exists (a, c), (b, d). cbn [fst snd]. rewrite E1, E2. auto.
Qed.
Lemma result_tight wp img scale planar tilt tilt_angle wp' : (0 <= fst img)%Z -> (0 <= snd img)%Z ->
  resize_buffers wp img scale planar tilt tilt_angle = Ok wp' ->
  let f := affine_warp img (result_wh wp') scale planar tilt tilt_angle in
  (exists p q, on_image img p /\ on_image img q /\ IZR (fst (result_wh wp')) - 2 <= fst (f p) - fst (f q)) /\
  (exists p q, on_image img p /\ on_image img q /\ IZR (snd (result_wh wp')) - 2 <= snd (f p) - snd (f q)).
Proof.
  intros Hw Hh E. cbv zeta. pose proof (fun p => forward_formula _ _ _ _ _ _ _ p E) as FF.
  destruct (resize_spec _ _ _ _ _ _ _ E) as (S1 & S2 & S3 & F & _). rewrite F in FF. clear E F.
  destruct img as [w h]. cbn [fst snd] in *. destruct (skew_wh wp') as [w1 h1]. destruct (sub_wh wp') as [w2 h2]. destruct (result_wh wp') as [w3 h3].
  set (f1 := forward_stage (centre (w, h)) (centre (w1, h1)) 1 1 tilt_angle) in *. set (f2 := forward_stage (centre (w1, h1)) (centre (w2, h2)) (1 / tilt) 1 0) in *.
  set (f3 := forward_stage (centre (w2, h2)) (centre (w3, h3)) scale scale planar) in *.
  assert (t_apply identity_t (IZR w / 2, IZR h / 2) = centre (w, h)) as C0 by apply apply_identity.
  pose proof (stage_centre w h 1 1 tilt_angle identity_t (w, h) w1 h1 C0) as C1. fold f1 in C1. rewrite <- apply_combine in C1.
  pose proof (stage_centre w h (1 / tilt) 1 0 _ (w1, h1) w2 h2 C1) as C2. fold f2 in C2. rewrite <- apply_combine in C2.
  assert (0 <= IZR w) as Wp by (apply IZR_le; auto). assert (0 <= IZR h) as Hp by (apply IZR_le; auto).
  assert (on_image (w, h) (0, 0)) as O0 by (split; cbn; lra).
  destruct (stage_inside w h scale scale planar _ Hw Hh (w2, h2) w3 h3 (0, 0) S3 C2 O0) as (_ & B1 & B2).
  set (cur := t_combine f2 (t_combine f1 identity_t)) in *. clearbody cur.
  split.
  - destruct (extent (scale * cos planar * e0 cur - scale * sin planar * e1 cur) (scale * cos planar * e2 cur - scale * sin planar * e3 cur) _ _ Wp Hp) as (p & q & P & Q & D).
    exists p, q. split; [exact P|]. split; [exact Q|]. rewrite <- !FF, !apply_combine.
    match goal with |- _ <= ?d => replace d with (Rabs ((scale * cos planar * e0 cur - scale * sin planar * e1 cur) * IZR w) + Rabs ((scale * cos planar * e2 cur - scale * sin planar * e3 cur) * IZR h)) end; [change (fst (w3, h3)) with w3; change (snd (w3, h3)) with h3; lra|].
    rewrite <- D. unfold f3. rewrite !forward_apply. unfold plus, scale_xy, rotate, minus, t_apply. cbn [fst snd]. ring.
  - destruct (extent (scale * sin planar * e0 cur + scale * cos planar * e1 cur) (scale * sin planar * e2 cur + scale * cos planar * e3 cur) _ _ Wp Hp) as (p & q & P & Q & D).
    exists p, q. split; [exact P|]. split; [exact Q|]. rewrite <- !FF, !apply_combine.
    match goal with |- _ <= ?d => replace d with (Rabs ((scale * sin planar * e0 cur + scale * cos planar * e1 cur) * IZR w) + Rabs ((scale * sin planar * e2 cur + scale * cos planar * e3 cur) * IZR h)) end; [change (fst (w3, h3)) with w3; change (snd (w3, h3)) with h3; lra|].
    rewrite <- D. unfold f3. rewrite !forward_apply. unfold plus, scale_xy, rotate, minus, t_apply. cbn [fst snd]. ring.
Qed.
