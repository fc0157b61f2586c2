(** Inlier marking, transfer errors, linear constraints, the homography check, 2-D transforms. *)
From Verif Require Import Base ProjModel GeoSpec ProjSpec GeoProofs NormProofs HomoProofs.
From Coq Require Import Lra Lia.
Local Open Scope R_scope.

Lemma sumsq_nonneg : forall a b, 0 <= a * a + b * b.
Proof. intros. pose proof (Rle_0_sqr a). pose proof (Rle_0_sqr b). unfold Rsqr in *. lra. Qed.
Lemma distance_lt : forall p q t, (px p - px q) * (px p - px q) + (py p - py q) * (py p - py q) < t * t <-> distance p q < Rabs t.
Proof.
  intros. unfold distance. set (s := _ + _). assert (S : 0 <= s) by apply sumsq_nonneg.
  replace (t * t) with (Rabs t * Rabs t) by (rewrite <- Rabs_mult; apply Rabs_pos_eq; apply Rle_0_sqr).
  pose proof (Rabs_pos t). rewrite <- (sqrt_sqrt s S) at 1. pose proof (sqrt_pos s). split; intro K.
  - destruct (Rlt_le_dec (sqrt s) (Rabs t)); auto. exfalso.
    assert (Rabs t * Rabs t <= sqrt s * sqrt s) by (apply Rmult_le_compat; lra). lra.
  - apply Rmult_le_0_lt_compat; lra.
Qed.
Lemma close_spec : forall H x q tol, close_to (transfer_fwd H x) q (tol * tol) = true <-> exists y, maps_to H x y /\ distance y q < Rabs tol.
Proof.
  intros. unfold close_to. destruct (transfer_fwd H x) as [y|] eqn:E.
  - rewrite r_lt_spec, distance_lt. apply transfer_maps in E. split; [eauto|]. intros (y' & M & D). now rewrite (maps_unique _ _ _ _ E M).
  - split; [discriminate|]. intros (y & M & _). apply transfer_maps in M. congruence.
Qed.
Lemma mark_loop_eq : forall good l n, mark_loop good l n =
  (map (fun c => set_inlier (good c) c) l, (n + Z.of_nat (length (filter inlier (map (fun c => set_inlier (good c) c) l))))%Z).
Proof.
  induction l; intros; cbn [mark_loop map filter]; [f_equal; cbn; lia|]. destruct (good a) eqn:G; rewrite IHl; cbn [set_inlier inlier length]; f_equal; cbn [length]; lia.
Qed.
Lemma mark_spec : forall good (P : pmatch -> Prop) l n l' n', (forall c, good c = true <-> P c) -> mark_loop good l n = (l', n') ->
  Forall2 (fun c c' => same_match c c' /\ (inlier c' = true <-> P c)) l l' /\ n' = (n + Z.of_nat (length (filter inlier l')))%Z.
Proof.
  intros good P l n l' n' G E. rewrite mark_loop_eq in E. injection E as <- <-. split; auto.
  induction l; cbn [map]; constructor; auto. split; [destruct a; reflexivity|]. cbn [set_inlier inlier]. apply G.
Qed.

Lemma err_fold : forall (f : pmatch -> vec2) (T : pmatch -> option vec2) (q : pmatch -> vec2) l e n,
  (forall c, In c l -> inlier c = true -> T c = Some (f c)) ->
  fold_left (fun '(e, n) c =>
      if inlier c then
        (match e, T c with
         | Some e, Some p => let dx := px p - px (q c) in let dy := py p - py (q c) in Some (e + sqrt (dx * dx + dy * dy))
         | _, _ => None
         end, (n + 1)%Z)
      else (e, n)) l (Some e, n) =
  (Some (e + total (fun c => distance (f c) (q c)) (filter inlier l)), (n + Z.of_nat (length (filter inlier l)))%Z).
Proof.
  induction l; intros e n H; cbn [fold_left filter]; [f_equal; [f_equal; cbn; lra|cbn; lia]|].
  destruct (inlier a) eqn:I.
  - rewrite (H a) by (cbn; auto). cbv zeta. rewrite IHl by (intros; apply H; cbn; auto). rewrite total_cons. unfold distance at 2.
    cbn [length]. f_equal; [f_equal; lra|lia].
  - apply IHl. intros; apply H; cbn; auto.
Qed.
Lemma mean_div : forall A (f : A -> R) l, l <> [] -> ((0 + Z.of_nat (length l) =? 0)%Z = false) /\ (0 + total f l) / IZR (0 + Z.of_nat (length l)) = mean f l.
Proof.
  intros A f l H. split; [destruct l; [easy|]; apply Z.eqb_neq; cbn [length]; lia|]. unfold mean. rewrite Rplus_0_l, Z.add_0_l, INR_IZR_INZ. reflexivity.
Qed.
Lemma error_fwd : forall h l (f : pmatch -> vec2), (forall c, In c l -> inlier c = true -> maps_to h (mx c) (f c)) ->
  transfer_error_fwd h l = match filter inlier l with [] => None | _ => Some (mean (fun c => distance (f c) (mxp c)) (filter inlier l)) end.
Proof.
  intros h l f H. unfold transfer_error_fwd. rewrite (err_fold f) by (intros; apply transfer_maps; auto).
  destruct (filter inlier l) eqn:F; [reflexivity|].
  destruct (mean_div _ (fun c => distance (f c) (mxp c)) (p :: l0) ltac:(easy)) as [-> ->]. reflexivity.
Qed.
Lemma error_bwd : forall h l (f : pmatch -> vec2), det3 h <> 0 -> (forall c, In c l -> inlier c = true -> maps_to h (f c) (mxp c)) ->
  transfer_error_bwd h l = match filter inlier l with [] => None | _ => Some (mean (fun c => distance (f c) (mx c)) (filter inlier l)) end.
Proof.
  intros h l f D H. unfold transfer_error_bwd. cbv zeta. rewrite (err_fold f) by (intros; apply transfer_maps; apply maps_inverse; auto).
  destruct (filter inlier l) eqn:F; [reflexivity|].
  destruct (mean_div _ (fun c => distance (f c) (mx c)) (p :: l0) ltac:(easy)) as [-> ->]. reflexivity.
Qed.

(** * Linear constraints *)
Lemma homography_rows : forall c u, length u = 9%nat ->
  let '(r0, r1) := homography_constraints c in let w := lin (unpack_rows u) (h3 (mx c)) in
  length r0 = 9%nat /\ length r1 = 9%nat /\ row_dot r0 u = py (mxp c) * v2 w - v1 w /\ row_dot r1 u = v0 w - px (mxp c) * v2 w.
Proof.
  intros [[x y] [x' y'] ? ? ? ? ? ?] u L. do 9 (destruct u as [|? u]; [discriminate|]). destruct u; [|discriminate].
  unfold homography_constraints, unpack_rows, row_dot, h3. cbn [mx mxp px py combine map fold_right nth length]. geo. repeat split; ring.
Qed.
Lemma homography_rows_iff : forall c u, length u = 9%nat ->
  let '(r0, r1) := homography_constraints c in
  (row_dot r0 u = 0 /\ row_dot r1 u = 0) <-> exists w, lin (unpack_rows u) (h3 (mx c)) = vscale w (h3 (mxp c)).
Proof.
  intros c u L. pose proof (homography_rows c u L) as H. destruct (homography_constraints c) as [r0 r1]. cbv zeta in H. destruct H as (_ & _ & -> & ->).
  destruct (lin (unpack_rows u) (h3 (mx c))) as [a b w]. unfold h3, vscale. cbn. split.
  - intros [A B]. exists w. apply V3_eq; lra.
  - intros (w' & E). injection E as -> -> ->. split; ring.
Qed.
Lemma fundamental_row : forall c u, length u = 9%nat ->
  row_dot (fundamental_constraints c) u = dot (h3 (mxp c)) (lin (unpack_rows u) (h3 (mx c))).
Proof.
  intros [[x y] [x' y'] ? ? ? ? ? ?] u L. do 9 (destruct u as [|? u]; [discriminate|]). destruct u; [|discriminate].
  unfold fundamental_constraints, unpack_rows, row_dot, h3. cbn [mx mxp px py combine map fold_right nth length]. geo. ring.
Qed.
Lemma xptFx_eq : forall F x xp, dmat3_xptFx F x xp = dot (h3 xp) (lin F (h3 x)).
Proof. intros [] [] []. unfold dmat3_xptFx, h3. geo. ring. Qed.

(** * The homography check *)
Lemma check_spec : forall h mac A B C D,
  maps_to h (V2 (-1) (-1)) A -> maps_to h (V2 1 (-1)) B -> maps_to h (V2 1 1) C -> maps_to h (V2 (-1) 1) D ->
  A <> C -> B <> D ->
  let AC := V3 (px C - px A) (py C - py A) 0 in let BD := V3 (px B - px D) (py B - py D) 0 in
  exists r, homography_check h mac = Some r /\
  (r = true <-> 0 < area A B C /\ 0 < area A C D /\ Rabs (dot AC BD) <= mac * (dot AC AC * dot BD BD)).
Proof.
  intros h mac A B C D MA MB MC MD NAC NBD AC BD.
  assert (G : forall sx sy E w0 w1 w2, maps_to h (V2 sx sy) E -> w0 = m0 h * sx + m3 h * sy + m6 h -> w1 = m1 h * sx + m4 h * sy + m7 h -> w2 = m2 h * sx + m5 h * sy + m8 h ->
     is_zero w2 = false /\ V2 (w0 * (1 / w2)) (w1 * (1 / w2)) = E).
  { intros sx sy E w0 w1 w2 (w & W & L) -> -> ->. destruct h as [a b c d e f g i j], E as [ex ey]. unfold h3 in L. geo. injection L as L0 L1 L2.
    assert (SW : c * sx + f * sy + j = w) by lra. rewrite SW. split; [now apply is_zero_no|]. apply V2_eq.
    - replace (a * sx + d * sy + g) with (w * ex) by lra. field. auto.
    - replace (b * sx + e * sy + i) with (w * ey) by lra. field. auto. }
  unfold homography_check. cbv zeta.
  destruct (G _ _ _ (- (m0 h + m3 h) + m6 h) (- (m1 h + m4 h) + m7 h) (- (m2 h + m5 h) + m8 h) MA) as [-> EA]; try ring.
  destruct (G _ _ _ (m0 h - m3 h + m6 h) (m1 h - m4 h + m7 h) (m2 h - m5 h + m8 h) MB) as [-> EB]; try ring.
  destruct (G _ _ _ (m0 h + m3 h + m6 h) (m1 h + m4 h + m7 h) (m2 h + m5 h + m8 h) MC) as [-> EC]; try ring.
  destruct (G _ _ _ (- (m0 h - m3 h) + m6 h) (- (m1 h - m4 h) + m7 h) (- (m2 h - m5 h) + m8 h) MD) as [-> ED]; try ring.
  cbn [orb]. rewrite EA, EB, EC, ED. clear EA EB EC ED G MA MB MC MD. unfold line_eqn_2d.
  destruct A as [ax ay], B as [bx by_], C as [cx cy], D as [dx dy]. cbn [px py] in *.
  assert (SQ : forall x y, (x <> 0 \/ y <> 0) -> 0 < x * x + y * y).
  { intros x y [N|N]; pose proof (Rlt_0_sqr _ N); pose proof (Rle_0_sqr x); pose proof (Rle_0_sqr y); unfold Rsqr in *; lra. }
  assert (N1 : 0 < (cy - ay) * (cy - ay) + (ax - cx) * (ax - cx)).
  { apply SQ. destruct (Req_dec (cy - ay) 0); auto. right. intro. apply NAC. apply V2_eq; lra. }
  assert (N2 : 0 < (bx - dx) * (bx - dx) + (by_ - dy) * (by_ - dy)).
  { apply SQ. destruct (Req_dec (bx - dx) 0); auto. right. intro. apply NBD. apply V2_eq; lra. }
  rewrite !is_zero_no by lra. eexists. split; [reflexivity|].
  rewrite !andb_true_iff, !r_lt_spec, r_le_spec. unfold AC, BD, area, dot. cbn [v0 v1 v2 px py].
  set (nl := (cy - ay) * (cy - ay) + (ax - cx) * (ax - cx)) in *. set (nb := (bx - dx) * (bx - dx) + (by_ - dy) * (by_ - dy)) in *.
  assert (P : forall a, 0 < a * (1 / nl) <-> 0 < a).
  { intro a. assert (0 < 1 / nl) by (apply Rdiv_lt_0_compat; lra). split; intro K; [|now apply Rmult_lt_0_compat].
    destruct (Rlt_le_dec 0 a); auto. exfalso. assert (- a * (1 / nl) >= 0) by (apply Rle_ge; apply Rmult_le_pos; lra). lra. }
  assert (Q1 : (cy - ay) * (1 / nl) * bx + (ax - cx) * (1 / nl) * by_ + (- ax * (cy - ay) - ay * (ax - cx)) * (1 / nl)
             = ((bx - ax) * (cy - ay) - (by_ - ay) * (cx - ax)) * (1 / nl)) by ring.
  assert (Q2 : (cy - ay) * (1 / nl) * dx + (ax - cx) * (1 / nl) * dy + (- ax * (cy - ay) - ay * (ax - cx)) * (1 / nl)
             = - (((cx - ax) * (dy - ay) - (cy - ay) * (dx - ax)) * (1 / nl))) by ring.
  rewrite Q1, Q2, P. assert (P' : forall a, - (a * (1 / nl)) < 0 <-> 0 < a) by (intro a; rewrite <- (P a); lra). rewrite P'.
  set (dt := (cx - ax) * (bx - dx) + (cy - ay) * (by_ - dy) + 0 * 0).
  replace (- ((ax - cx) * (1 / nl)) * ((bx - dx) * (1 / nb)) + (cy - ay) * (1 / nl) * ((by_ - dy) * (1 / nb)))
    with (dt / (nl * nb)) by (unfold dt; field; lra).
  replace ((cx - ax) * (cx - ax) + (cy - ay) * (cy - ay) + 0 * 0) with nl by (unfold nl; ring).
  fold nb. replace (nb + 0 * 0) with nb by ring.
  assert (N : 0 < nl * nb) by now apply Rmult_lt_0_compat.
  unfold Rdiv. rewrite Rabs_mult, (Rabs_pos_eq (/ (nl * nb))) by (left; now apply Rinv_0_lt_compat).
  assert (K : Rabs dt * / (nl * nb) <= mac <-> Rabs dt <= mac * (nl * nb)).
  { split; intro K.
    - apply (Rmult_le_compat_r (nl * nb)) in K; [|lra]. rewrite Rmult_assoc, Rinv_l in K by lra. lra.
    - apply (Rmult_le_reg_r (nl * nb)); auto. rewrite Rmult_assoc, Rinv_l by lra. lra. }
  rewrite K. tauto.
Qed.

(** * 2-D transforms *)
Lemma similarity_spec : forall dx dy lam th dx' dy' p,
  maps_to (fill_similarity dx dy lam th dx' dy') p (shift dx dy (stretch lam lam (turn th (shift dx' dy' p)))).
Proof.
  intros. exists 1. split; [lra|]. destruct p as [x y]. unfold fill_similarity, h3, shift, stretch, turn. geo. apply V3_eq; ring.
Qed.
Lemma affine_spec : forall dx dy lam psi th phi dx' dy' p, cos th <> 0 ->
  maps_to (fill_affine dx dy lam psi th phi dx' dy') p
    (shift dx dy (stretch lam lam (turn psi (stretch (1 / cos th) 1 (turn phi (shift dx' dy' p)))))).
Proof.
  intros. exists 1. split; [lra|]. destruct p as [x y]. unfold fill_affine, h3, shift, stretch, turn. geo. apply V3_eq; ring.
Qed.
