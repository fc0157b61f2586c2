(** Normalisation of point matches. *)
From Verif Require Import Base ProjModel GeoSpec ProjSpec GeoProofs.
From Coq Require Import Lra Lia.
Local Open Scope R_scope.

Lemma V2_eq : forall a b c d, a = c -> b = d -> V2 a b = V2 c d.
Proof. congruence. Qed.
Lemma total_nil : forall A (f : A -> R), total f [] = 0.
Proof. reflexivity. Qed.
Lemma total_cons : forall A (f : A -> R) a l, total f (a :: l) = f a + total f l.
Proof. reflexivity. Qed.
Ltac tot := rewrite ?total_nil, ?total_cons.
Lemma total_app : forall A (f : A -> R) l l', total f (l ++ l') = total f l + total f l'.
Proof. induction l; intros; cbn [app]; tot; [lra|]. rewrite IHl. lra. Qed.
Lemma total_map : forall A B (f : B -> R) (g : A -> B) l, total f (map g l) = total (fun a => f (g a)) l.
Proof. induction l; cbn [map]; tot; auto. now rewrite IHl. Qed.
Lemma total_ext : forall A (f g : A -> R) l, (forall a, In a l -> f a = g a) -> total f l = total g l.
Proof. induction l; intros H; tot; auto. rewrite H, IHl; cbn; auto. intros. apply H. cbn. auto. Qed.
Lemma total_sub : forall A (f : A -> R) k l, total (fun a => f a - k) l = total f l - INR (length l) * k.
Proof. induction l; tot; [cbn; lra|]. cbn [length]. rewrite IHl, S_INR. lra. Qed.
Lemma total_div : forall A (f : A -> R) k l, total (fun a => f a / k) l = total f l / k.
Proof. induction l; tot; [unfold Rdiv; lra|]. rewrite IHl. unfold Rdiv; lra. Qed.
Lemma total_nonneg : forall A (f : A -> R) l, (forall a, In a l -> 0 <= f a) -> 0 <= total f l.
Proof. induction l; intros H; tot; [lra|]. pose proof (H a (or_introl eq_refl)). assert (0 <= total f l) by (apply IHl; cbn in H; auto). lra. Qed.
Lemma total_pos : forall A (f : A -> R) l, (forall a, In a l -> 0 <= f a) -> (exists a, In a l /\ 0 < f a) -> 0 < total f l.
Proof.
  induction l; intros H [b [B P]]; tot; [easy|]. pose proof (H a (or_introl eq_refl)).
  assert (0 <= total f l) by (apply total_nonneg; cbn in H; auto). destruct B as [<-|B]; [lra|].
  assert (0 < total f l) by (apply IHl; cbn in H; eauto). lra.
Qed.

Lemma sum_loop_total : forall l, sum_loop l =
  (V2 (total (fun c => px (mx c)) l) (total (fun c => py (mx c)) l), V2 (total (fun c => px (mxp c)) l) (total (fun c => py (mxp c)) l)).
Proof.
  intro l. unfold sum_loop.
  assert (G : forall l a b c d, fold_left (fun '(m, mp) c => (V2 (px m + px (mx c)) (py m + py (mx c)), V2 (px mp + px (mxp c)) (py mp + py (mxp c)))) l (V2 a b, V2 c d)
    = (V2 (a + total (fun c => px (mx c)) l) (b + total (fun c => py (mx c)) l), V2 (c + total (fun c => px (mxp c)) l) (d + total (fun c => py (mxp c)) l))).
  { induction l0; intros; cbn [fold_left]; tot; [f_equal; apply V2_eq; lra|]. cbn [px py]. rewrite IHl0.
    f_equal; apply V2_eq; lra. }
  rewrite G. f_equal; apply V2_eq; lra.
Qed.
Definition len2 (p : vec2) : R := sqrt (px p * px p + py p * py p).
Lemma dist_loop_total : forall l, dist_loop l = (total (fun c => len2 (mx c)) l, total (fun c => len2 (mxp c)) l).
Proof.
  intro l. unfold dist_loop.
  assert (G : forall l a b, fold_left (fun '(d, dp) c => (d + sqrt (px (mx c) * px (mx c) + py (mx c) * py (mx c)),
                                dp + sqrt (px (mxp c) * px (mxp c) + py (mxp c) * py (mxp c)))) l (a, b)
    = (a + total (fun c => len2 (mx c)) l, b + total (fun c => len2 (mxp c)) l)).
  { induction l0; intros; cbn [fold_left]; tot; [f_equal; lra|]. rewrite IHl0. unfold len2. f_equal; lra. }
  rewrite G. f_equal; lra.
Qed.
Lemma len2_pos : forall p, p <> V2 0 0 -> 0 < len2 p.
Proof.
  intros [a b] H. unfold len2. cbn. apply sqrt_lt_R0.
  destruct (Req_dec a 0) as [->|A]; [destruct (Req_dec b 0) as [->|B]; [now elim H|]|];
  [assert (0 < b * b) by (apply Rlt_0_sqr; auto)|assert (0 < a * a) by (apply Rlt_0_sqr; auto)].
  - lra.
  - assert (0 <= b * b) by apply Rle_0_sqr. lra.
Qed.
Lemma len2_scale : forall x y d, 0 < d -> len2 (V2 (x / d) (y / d)) = len2 (V2 x y) / d.
Proof.
  intros. unfold len2. cbn. replace (x / d * (x / d) + y / d * (y / d)) with ((x * x + y * y) * ((1 / d) * (1 / d))) by (field; lra).
  rewrite sqrt_mult_alt; [|pose proof (Rle_0_sqr x); pose proof (Rle_0_sqr y); unfold Rsqr in *; lra].
  rewrite sqrt_square; [unfold Rdiv; lra|]. apply Rlt_le. apply Rdiv_lt_0_compat; lra.
Qed.

Section Norm.
Variable l : list pmatch.
Let st := fst (normalize_matches l).
Let l' := snd (normalize_matches l).
Let n := INR (length l).
Lemma norm_stats : st = St (V2 (mean (fun c => px (mx c)) l) (mean (fun c => py (mx c)) l))
   (V2 (mean (fun c => px (mxp c)) l) (mean (fun c => py (mxp c)) l))
   (total (fun c => len2 (V2 (px (mx c) - px (sm st)) (py (mx c) - py (sm st)))) l / n)
   (total (fun c => len2 (V2 (px (mxp c) - px (smp st)) (py (mxp c) - py (smp st)))) l / n).
Proof.
  unfold st, normalize_matches. rewrite sum_loop_total, dist_loop_total. cbn [fst sm smp px py]. rewrite !total_map. reflexivity.
Qed.
Lemma norm_list : l' = map (fun c => shrink (sd st) (sdp st) (center (sm st) (smp st) c)) l.
Proof.
  unfold l', st, normalize_matches. rewrite sum_loop_total, dist_loop_total. cbn [snd fst sm smp sd sdp]. now rewrite map_map.
Qed.
Lemma some_off : forall (f : pmatch -> vec2) m, spread f l -> exists c, In c l /\ f c <> m.
Proof.
  intros f m (a & b & A & B & D).
  assert (f a = m \/ f a <> m) as [E|E] by (destruct (f a) as [x y], m as [x' y']; destruct (Req_dec x x'), (Req_dec y y'); subst; auto; right; congruence).
  - exists b. split; auto. congruence.
  - eauto.
Qed.
Lemma n_pos : forall f, spread f l -> 0 < n.
Proof. intros f (a & b & A & _). unfold n. destruct l as [|? ?]; [easy|]. cbn [length]. apply lt_0_INR. lia. Qed.
Lemma dist_pos : forall (f : pmatch -> vec2) m, spread f l -> 0 < total (fun c => len2 (V2 (px (f c) - px m) (py (f c) - py m))) l / n.
Proof.
  intros f m H. apply Rdiv_lt_0_compat; [|now apply (n_pos f)]. apply total_pos.
  - intros. apply sqrt_pos.
  - destruct (some_off f m H) as (c & C & D). exists c. split; auto. apply len2_pos. intro E. injection E. intros.
    apply D. destruct (f c) as [x y], m as [x' y']. cbn in *. apply V2_eq; lra.
Qed.
Lemma sd_pos : spread mx l -> 0 < sd st.
Proof. intro H. rewrite norm_stats. cbn [sd]. now apply dist_pos. Qed.
Lemma sdp_pos : spread mxp l -> 0 < sdp st.
Proof. intro H. rewrite norm_stats. cbn [sdp]. now apply dist_pos. Qed.
Lemma roundtrip : spread mx l -> spread mxp l -> denormalize_matches st l' = l.
Proof.
  intros H H'. pose proof (sd_pos H). pose proof (sdp_pos H'). rewrite norm_list. unfold denormalize_matches. rewrite map_map.
  rewrite <- (map_id l) at 2. apply map_ext. intros [[x y] [x' y'] c s s' i i' b]. unfold shrink, center. cbn.
  f_equal; try (apply V2_eq); field; lra.
Qed.
Lemma norm_side : forall (f : pmatch -> vec2) m d, 0 < n -> 0 < d ->
  m = V2 (mean (fun c => px (f c)) l) (mean (fun c => py (f c)) l) ->
  d = total (fun c => len2 (V2 (px (f c) - px m) (py (f c) - py m))) l / n ->
  total (fun c => (px (f c) - px m) / d) l / n = 0 /\ total (fun c => (py (f c) - py m) / d) l / n = 0 /\
  total (fun c => distance (V2 ((px (f c) - px m) / d) ((py (f c) - py m) / d)) (V2 0 0)) l / n = 1.
Proof.
  intros f m d N D -> E. cbn [px py] in *. rewrite !total_div, !total_sub. fold n. unfold mean in *. fold n in E |- *.
  assert (G : forall t, n * (t / n) = t) by (intro; field; lra). rewrite !G.
  split; [rewrite Rminus_diag_eq by auto; unfold Rdiv; lra|]. split; [rewrite Rminus_diag_eq by auto; unfold Rdiv; lra|].
  erewrite total_ext. 2: { intros c _. instantiate (1 := fun c => len2 (V2 (px (f c) - total (fun c0 => px (f c0)) l / n) (py (f c) - total (fun c0 => py (f c0)) l / n)) / d). cbn beta.
    rewrite <- len2_scale by auto. unfold distance, len2. cbn. f_equal. ring. }
  rewrite total_div. set (t := total _ l) in *. assert (t <> 0) by (intro X; rewrite X in E; unfold Rdiv in *; lra). rewrite E. field. lra.
Qed.
Lemma norm_means : spread mx l -> spread mxp l ->
  mean (fun c => px (mx c)) l' = 0 /\ mean (fun c => py (mx c)) l' = 0 /\ mean (fun c => distance (mx c) (V2 0 0)) l' = 1 /\
  mean (fun c => px (mxp c)) l' = 0 /\ mean (fun c => py (mxp c)) l' = 0 /\ mean (fun c => distance (mxp c) (V2 0 0)) l' = 1.
Proof.
  intros H H'. pose proof (sd_pos H) as D. pose proof (sdp_pos H') as D'. pose proof (n_pos _ H) as N. unfold mean at 1 2 3 4 5 6. rewrite norm_list, map_length, !total_map.
  fold n. unfold shrink, center. cbn [px py mx mxp].
  assert (F : sd st = total (fun c => len2 (V2 (px (mx c) - px (sm st)) (py (mx c) - py (sm st)))) l / n) by (rewrite norm_stats at 1; reflexivity).
  assert (F' : sdp st = total (fun c => len2 (V2 (px (mxp c) - px (smp st)) (py (mxp c) - py (smp st)))) l / n) by (rewrite norm_stats at 1; reflexivity).
  destruct (norm_side mx (sm st) (sd st) N D) as (? & ? & ?); [rewrite norm_stats; reflexivity|exact F|].
  destruct (norm_side mxp (smp st) (sdp st) N D') as (? & ? & ?); [rewrite norm_stats; reflexivity|exact F'|].
  auto 10.
Qed.
End Norm.

Lemma denorm_homography : forall st h x, sd st <> 0 -> sdp st <> 0 ->
  transfer_fwd (denormalize_homography st h) x =
  option_map (from_norm (smp st) (sdp st)) (transfer_fwd h (to_norm (sm st) (sd st) x)).
Proof.
  intros [[mx my] [mx' my'] d d'] [h0 h1 h2 h3 h4 h5 h6 h7 h8] [x y] D D'. cbn in D, D'. unfold transfer_fwd, denormalize_homography, to_norm.
  cbn [px py sm smp sd sdp m0 m1 m2 m3 m4 m5 m6 m7 m8]. cbv zeta.
  replace (1 / d * h2 * x + 1 / d * h5 * y + (h8 + - mx * (1 / d) * h2 + - my * (1 / d) * h5))
    with (h2 * ((x - mx) / d) + h5 * ((y - my) / d) + h8) by (field; auto).
  set (s := h2 * ((x - mx) / d) + h5 * ((y - my) / d) + h8).
  destruct (is_zero s) eqn:Z; [reflexivity|]. cbn [option_map]. f_equal. unfold from_norm. cbn [px py].
  assert (S : s <> 0) by (intro A; apply is_zero_spec in A; congruence).
  assert (T : s * (1 / s) = 1) by (field; auto). set (t := 1 / s) in *. clearbody t.
  apply V2_eq.
  - transitivity ((d' * (h0 * ((x - mx) / d) + h3 * ((y - my) / d) + h6) + mx' * s) * t); [|transitivity (d' * ((h0 * ((x - mx) / d) + h3 * ((y - my) / d) + h6) * t) + mx' * (s * t)); [ring|rewrite T; ring]].
    f_equal. unfold s. field. auto.
  - transitivity ((d' * (h1 * ((x - mx) / d) + h4 * ((y - my) / d) + h7) + my' * s) * t); [|transitivity (d' * ((h1 * ((x - mx) / d) + h4 * ((y - my) / d) + h7) * t) + my' * (s * t)); [ring|rewrite T; ring]].
    f_equal. unfold s. field. auto.
Qed.
Lemma denorm_fundamental : forall st f x xp, sd st <> 0 -> sdp st <> 0 ->
  dmat3_xptFx (denormalize_fundamental st f) x xp = dmat3_xptFx f (to_norm (sm st) (sd st) x) (to_norm (smp st) (sdp st) xp).
Proof.
  intros [[mx my] [mx' my'] d d'] [f0 f1 f2 f3 f4 f5 f6 f7 f8] [x y] [x' y'] D D'. cbn in D, D'. unfold dmat3_xptFx, denormalize_fundamental, to_norm.
  cbn [px py sm smp sd sdp m0 m1 m2 m3 m4 m5 m6 m7 m8]. field. auto.
Qed.
