(** Epipolar distances, the rank correction, pinhole projection and triangulation. *)
From Verif Require Import Base BaseLemmas ProjModel GeoSpec ProjSpec GeoProofs NormProofs HomoProofs MarkProofs EpiProofs.
From Coq Require Import Lra Lia.
Local Open Scope R_scope.

(** * Distance to the epipolar line *)
Lemma epipolar_some : forall F c, let L := lin F (h3 (mx c)) in v0 L <> 0 \/ v1 L <> 0 ->
  epipolar_distance_fwd F c = Some (sqrt (dot (h3 (mxp c)) L * dot (h3 (mxp c)) L / (v0 L * v0 L + v1 L * v1 L))).
Proof.
  intros F [[x y] [xp yp] co sg sg' i i' inl] L H.
  assert (E0 : m0 F * x + m3 F * y + m6 F = v0 L) by (unfold L, h3; cbn [mx]; geo; ring).
  assert (E1 : m1 F * x + m4 F * y + m7 F = v1 L) by (unfold L, h3; cbn [mx]; geo; ring).
  assert (E2 : m2 F * x + m5 F * y + m8 F = v2 L) by (unfold L, h3; cbn [mx]; geo; ring).
  unfold epipolar_distance_fwd. cbn [mx mxp px py]. rewrite E0, E1, E2. clearbody L. clear E0 E1 E2.
  destruct L as [a b d]. unfold h3, dot. cbn [v0 v1 v2 px py] in *.
  assert (P : 0 < a * a + b * b).
  { pose proof (Rle_0_sqr a) as A. pose proof (Rle_0_sqr b) as B. unfold Rsqr in *. destruct H as [H|H]; pose proof (Rsqr_pos_lt _ H) as C; unfold Rsqr in C; lra. }
  pose proof (sqrt_lt_R0 _ P) as SP. set (n := sqrt (a * a + b * b)) in *.
  assert (NN : n * n = a * a + b * b) by (apply sqrt_sqrt; lra).
  rewrite is_zero_no by lra. f_equal. rewrite <- sqrt_Rsqr_abs. f_equal. unfold Rsqr. rewrite <- NN. field. lra.
Qed.
Lemma epipolar_none : forall F c, let L := lin F (h3 (mx c)) in v0 L = 0 -> v1 L = 0 -> epipolar_distance_fwd F c = None.
Proof.
  intros F [[x y] [xp yp] co sg sg' i i' inl] L H0 H1.
  assert (E0 : m0 F * x + m3 F * y + m6 F = v0 L) by (unfold L, h3; cbn [mx]; geo; ring).
  assert (E1 : m1 F * x + m4 F * y + m7 F = v1 L) by (unfold L, h3; cbn [mx]; geo; ring).
  unfold epipolar_distance_fwd. cbn [mx mxp px py]. rewrite E0, E1, H0, H1.
  replace (0 * 0 + 0 * 0) with 0 by ring. rewrite sqrt_0. now rewrite (proj2 (is_zero_spec 0) eq_refl).
Qed.
Lemma point_line : forall a b d p, a <> 0 \/ b <> 0 -> let e := dot (h3 p) (V3 a b d) in
  (exists q, dot (h3 q) (V3 a b d) = 0 /\ distance p q = sqrt (e * e / (a * a + b * b))) /\
  (forall q, dot (h3 q) (V3 a b d) = 0 -> sqrt (e * e / (a * a + b * b)) <= distance p q).
Proof.
  intros a b d [x y] H e.
  assert (P : 0 < a * a + b * b).
  { pose proof (Rle_0_sqr a) as A. pose proof (Rle_0_sqr b) as B. unfold Rsqr in *. destruct H as [H|H]; pose proof (Rsqr_pos_lt _ H) as C; unfold Rsqr in C; lra. }
  split.
  - exists (V2 (x - e / (a * a + b * b) * a) (y - e / (a * a + b * b) * b)). split.
    + unfold e, h3, dot. cbn [v0 v1 v2 px py]. field. lra.
    + unfold distance. cbn [px py]. f_equal. field. lra.
  - intros [qx qy] Q. unfold distance. cbn [px py]. apply sqrt_le_1_alt. apply (Rmult_le_reg_l (a * a + b * b)); auto.
    replace ((a * a + b * b) * (e * e / (a * a + b * b))) with (e * e) by (field; lra).
    assert (E : e = a * (x - qx) + b * (y - qy)) by (unfold e, h3, dot in *; cbn [v0 v1 v2 px py] in *; lra).
    rewrite E. pose proof (Rle_0_sqr (a * (y - qy) - b * (x - qx))) as S'. unfold Rsqr in S'. nra.
Qed.

(** * The nearest singular matrix *)
Lemma fix_rank_lin : forall U s0 s1 Vt u, lin (fix_rank U s0 s1 Vt) u = lin U (lin (diag s0 s1 0) (lin Vt u)).
Proof. intros [] s0 s1 [] []. unfold fix_rank, diag, dmat3_mul. geoc. apply V3_eq; ring. Qed.
Lemma fix_rank_det : forall U s0 s1 Vt, det3 (fix_rank U s0 s1 Vt) = 0.
Proof. intros [] s0 s1 []. unfold fix_rank, dmat3_mul. geoc. ring. Qed.
Lemma parallel : forall r r', r <> zero3 -> cross r r' = zero3 -> r' = vscale (dot r r' / dot r r) r.
Proof.
  intros r r' H C. pose proof (cross_zero_dot r H) as P.
  assert (E : cross (cross r r') r = vadd (vscale (dot r r) r') (vscale (- dot r r') r)) by (destruct r, r'; geoc; apply V3_eq; ring).
  rewrite C in E. assert (Z : cross zero3 r = zero3) by (destruct r; geoc; apply V3_eq; ring). rewrite Z in E.
  set (p := dot r r) in *. set (q := dot r r') in *. clearbody p q. destruct r as [a b c], r' as [a' b' c']. geo. injection E as E0 E1 E2.
  apply V3_eq; apply (Rmult_eq_reg_l p); try lra; [transitivity (q * a)|transitivity (q * b)|transitivity (q * c)]; try lra; field; lra.
Qed.
Lemma kernel : forall A, det3 A = 0 -> exists v, v <> zero3 /\ lin A v = zero3.
Proof.
  intros A D.
  set (r0 := V3 (m0 A) (m3 A) (m6 A)). set (r1 := V3 (m1 A) (m4 A) (m7 A)). set (r2 := V3 (m2 A) (m5 A) (m8 A)).
  assert (L : forall v, dot r0 v = 0 -> dot r1 v = 0 -> dot r2 v = 0 -> lin A v = zero3).
  { intros v X0 X1 X2. unfold r0, r1, r2 in *. destruct A, v. geo. apply V3_eq; lra. }
  assert (D0 : dot r0 (cross r1 r2) = 0) by (unfold r0, r1, r2; destruct A; geo; lra).
  assert (dec : forall v, v = zero3 \/ v <> zero3).
  { intros [x y z]. destruct (Req_dec x 0) as [->|]; [destruct (Req_dec y 0) as [->|]; [destruct (Req_dec z 0) as [->|]; [left; reflexivity|]|]|]; right; intro K; injection K; auto. }
  destruct (dec (cross r1 r2)) as [C0|C0].
  2: { exists (cross r1 r2). split; auto. apply L; auto; [apply dot_cross_l|apply dot_cross_r]. }
  destruct (dec (cross r2 r0)) as [C1|C1].
  2: { exists (cross r2 r0). split; auto. apply L; [apply dot_cross_r| |apply dot_cross_l]. rewrite <- D0. clear. destruct r0, r1, r2. geoc. ring. }
  destruct (dec (cross r0 r1)) as [C2|C2].
  2: { exists (cross r0 r1). split; auto. apply L; [apply dot_cross_l|apply dot_cross_r|]. rewrite <- D0. clear. destruct r0, r1, r2. geoc. ring. }
  assert (perp : forall r, exists v, v <> zero3 /\ dot r v = 0).
  { intros [x y z]. destruct (Req_dec x 0) as [->|N].
    - exists (V3 1 0 0). split; [intro K; injection K; lra|]. geoc. ring.
    - exists (V3 (- y) x 0). split; [intro K; injection K; lra|]. geoc. ring. }
  assert (par : forall r r' v, r <> zero3 -> cross r r' = zero3 -> dot r v = 0 -> dot r' v = 0).
  { intros r r' v N C Z. rewrite (parallel r r' N C), dot_vscale, Z. ring. }
  assert (anti : forall r r', cross r r' = zero3 -> cross r' r = zero3).
  { intros r r' Z. rewrite cross_anti, Z. geoc. apply V3_eq; ring. }
  assert (zd : forall v, dot zero3 v = 0) by (intros []; geoc; ring).
  destruct (dec r0) as [Z0|N0].
  - destruct (dec r1) as [Z1|N1].
    + destruct (perp r2) as (v & V & P). exists v. split; auto. apply L; auto; [rewrite Z0|rewrite Z1]; auto.
    + destruct (perp r1) as (v & V & P). exists v. split; auto. apply L; auto; [rewrite Z0; auto|]. apply (par r1 r2); auto.
  - destruct (perp r0) as (v & V & P). exists v. split; auto. apply L; auto; [apply (par r0 r1)|apply (par r0 r2)]; auto.
Qed.
Lemma frob_bound : forall A v, dot (lin A v) (lin A v) <= frob2 A * dot v v.
Proof.
  intros A v.
  assert (CS : forall a b c, (a * v0 v + b * v1 v + c * v2 v) * (a * v0 v + b * v1 v + c * v2 v) <= (a * a + b * b + c * c) * dot v v).
  { intros a b c. pose proof (dot_nonneg (cross (V3 a b c) v)) as P. destruct v as [x y z]. revert P. geoc. intro. lra. }
  pose proof (CS (m0 A) (m3 A) (m6 A)). pose proof (CS (m1 A) (m4 A) (m7 A)). pose proof (CS (m2 A) (m5 A) (m8 A)).
  unfold frob2. destruct A as [a b c d e f g h i], v as [x y z]. cbn [m0 m1 m2 m3 m4 m5 m6 m7 m8] in *. revert H H0 H1. geoc. intros. lra.
Qed.
Lemma minus_lin : forall A B v, lin (minus A B) v = vadd (lin A v) (vscale (-1) (lin B v)).
Proof. intros [] [] []. unfold minus. geoc. apply V3_eq; ring. Qed.
Lemma orth_cols : forall A, orthogonal A -> dot (col2 A) (col2 A) = 1 /\ dot (V3 (m2 A) (m5 A) (m8 A)) (V3 (m2 A) (m5 A) (m8 A)) = 1.
Proof.
  intros A H. split.
  - pose proof (H (V3 0 0 1) (V3 0 0 1)) as Q. replace (lin A (V3 0 0 1)) with (col2 A) in Q by (destruct A; geoc; apply V3_eq; ring). rewrite Q. geoc. ring.
  - assert (T : lin A (lin (transpose A) (V3 0 0 1)) = V3 0 0 1) by now apply orth_tr_r.
    replace (lin (transpose A) (V3 0 0 1)) with (V3 (m2 A) (m5 A) (m8 A)) in T by (destruct A; geoc; apply V3_eq; ring).
    pose proof (tr_dot A (V3 0 0 1) (V3 (m2 A) (m5 A) (m8 A))) as Q. rewrite T in Q. transitivity (dot (lin (transpose A) (V3 0 0 1)) (V3 (m2 A) (m5 A) (m8 A))); [destruct A; geoc; ring|].
    rewrite Q. geoc. ring.
Qed.
Lemma fix_rank_frob : forall U s0 s1 s2 Vt F, orthogonal U -> orthogonal Vt ->
  (forall u, lin F u = lin U (lin (diag s0 s1 s2) (lin Vt u))) -> frob2 (minus F (fix_rank U s0 s1 Vt)) = s2 * s2.
Proof.
  intros U s0 s1 s2 Vt F HU HV E.
  assert (Q : minus F (fix_rank U s0 s1 Vt) = dmat3_mul U (dmat3_mul (diag 0 0 s2) Vt)).
  { apply lin_ext. intro u. rewrite minus_lin, fix_rank_lin, E, !mul_lin. destruct (lin Vt u), U. unfold diag. geoc. apply V3_eq; ring. }
  rewrite Q. destruct (orth_cols U HU) as [A _]. destruct (orth_cols Vt HV) as [_ B].
  transitivity (s2 * s2 * (dot (col2 U) (col2 U)) * dot (V3 (m2 Vt) (m5 Vt) (m8 Vt)) (V3 (m2 Vt) (m5 Vt) (m8 Vt))).
  - destruct U, Vt. unfold frob2, diag, dmat3_mul. geoc. ring.
  - rewrite A, B. ring.
Qed.
Lemma fix_rank_nearest : forall U s0 s1 s2 Vt F B, orthogonal U -> orthogonal Vt -> 0 <= s2 <= s1 -> s1 <= s0 ->
  (forall u, lin F u = lin U (lin (diag s0 s1 s2) (lin Vt u))) -> det3 B = 0 ->
  frob2 (minus F (fix_rank U s0 s1 Vt)) <= frob2 (minus F B).
Proof.
  intros U s0 s1 s2 Vt F B HU HV H12 H01 E D. rewrite (fix_rank_frob U s0 s1 s2) by auto.
  destruct (kernel B D) as (v & N & K). pose proof (cross_zero_dot v N) as P. apply (Rmult_le_reg_r (dot v v)); auto.
  eapply Rle_trans; [|apply frob_bound]. rewrite minus_lin, K.
  replace (vadd (lin F v) (vscale (-1) zero3)) with (lin F v) by (destruct (lin F v); geoc; apply V3_eq; ring).
  rewrite E, HU. rewrite <- (HV v v). destruct (lin Vt v) as [x y z]. unfold diag. geoc.
  assert (S1 : s2 * s2 <= s1 * s1) by (apply Rmult_le_compat; lra). assert (S0 : s2 * s2 <= s0 * s0) by (apply Rmult_le_compat; lra).
  pose proof (Rmult_le_compat_r (x * x) _ _ (Rle_0_sqr x) S0). pose proof (Rmult_le_compat_r (y * y) _ _ (Rle_0_sqr y) S1). unfold Rsqr in *. lra.
Qed.

(** * Pinhole cameras *)
Ltac geop := cbv beta iota zeta delta [apply34 dmat3_mul_ua lin vadd vscale col0 col1 col2 v0 v1 v2 m0 m1 m2 m3 m4 m5 m6 m7 m8 p0 p1 p2 p3 p4 p5 p6 p7 p8 p9 p10 p11].
Lemma krt_spec : forall K A t X,
  let Kv := match K with Some K => K | None => M3 1 0 0 0 1 0 0 0 1 end in
  let Rv := match A with Some A => A | None => M3 1 0 0 0 1 0 0 0 1 end in
  let tv := match t with Some t => t | None => zero3 end in
  upper_triangular Kv -> m8 Kv = 1 ->
  apply34 (projection_from_krt K A t) X = lin Kv (vadd (lin Rv X) tv).
Proof.
  intros K A t X Kv Rv tv HU H8. unfold projection_from_krt. fold Kv Rv. change (match t with Some t => t | None => V3 0 0 0 end) with tv.
  clearbody Kv Rv tv. clear K A t. destruct Kv as [k0 k1 k2 k3 k4 k5 k6 k7 k8]. destruct HU as (A & B & C). cbn [m1 m2 m5 m8] in *. subst. destruct Rv, tv, X.
  geop. apply V3_eq; ring.
Qed.
Definition depth_of (P : mat34) (X : vec3) : R := v2 (apply34 P X).
Lemma project_loop_spec : forall P Xs m0, (match m0 with Some m => 0 <= m | None => True end) ->
  let '(xs, m) := project_loop P Xs m0 in
  length xs = length Xs /\
  (forall m', m = Some m' -> (0 <= m' /\ (forall X, In X Xs -> m' <= Rabs (depth_of P X)) /\ (forall k, m0 = Some k -> m' <= k) /\ ((exists X, In X Xs /\ m' = Rabs (depth_of P X)) \/ m0 = Some m'))) /\
  (m = None -> Xs = [] /\ m0 = None) /\
  ((forall X, In X Xs -> depth_of P X <> 0) -> Forall2 (projects_to P) Xs xs).
Proof.
  induction Xs as [|X Xs IH]; intros m0 H0.
  - cbn [project_loop]. split; [reflexivity|]. split; [|split; [|constructor]].
    + intros m' ->. split; auto. split; [intros X []|]. split; [intros k K; inversion K; lra|now right].
    + auto.
  - cbn [project_loop].
    set (s := p2 P * v0 X + p5 P * v1 X + p8 P * v2 X + p11 P). set (mn := match m0 with Some m => _ | None => Rabs s end).
    assert (Es : s = depth_of P X) by reflexivity.
    assert (A : 0 <= mn /\ mn <= Rabs s /\ (forall k, m0 = Some k -> mn <= k) /\ (mn = Rabs s \/ m0 = Some mn)).
    { unfold mn. pose proof (Rabs_pos s). destruct m0 as [m|]; [destruct (r_lt m (Rabs s)) eqn:E; [apply r_lt_spec in E|apply r_lt_no in E]|]; repeat split; auto; try lra; intros k K; inversion K; lra. }
    clearbody mn. destruct A as (A1 & A2 & A3 & A4). specialize (IH (Some mn) A1). destruct (project_loop P Xs (Some mn)) as [r k] eqn:EL.
    destruct IH as (L & M & Nn & F). split; [cbn; lia|]. split; [|split].
    + intros m' ->. destruct (M m' eq_refl) as (B1 & B2 & B3 & B4). specialize (B3 mn eq_refl). split; auto. split; [|split].
      * intros Y [<-|HY]; auto. rewrite <- Es. lra.
      * intros k' K. specialize (A3 k' K). lra.
      * destruct B4 as [(Y & HY & E)|E]; [left; exists Y; split; auto; now right|]. inversion E; subst. destruct A4 as [A4|A4]; auto. left. exists X. split; [now left|congruence].
    + intros ->. destruct (Nn eq_refl). discriminate.
    + intros HN. constructor; [|apply F; intros; apply HN; now right].
      assert (S0 : s <> 0) by (rewrite Es; apply HN; now left). exists s. split; auto. unfold apply34, h3. fold s. unfold vscale. cbn [v0 v1 v2 px py]. apply V3_eq; field; auto.
Qed.
Lemma project_spec : forall P Xs, (Xs = [] \/ exists X, In X Xs /\ depth_of P X = 0) -> pinhole_project P Xs = Fatal.
Proof.
  intros P Xs H. unfold pinhole_project. destruct Xs as [|X0 Xs']; [reflexivity|]. destruct H as [H|(X & HX & H)]; [discriminate|].
  set (Xs := X0 :: Xs') in *. pose proof (project_loop_spec P Xs None Logic.I) as Q. destruct (project_loop P Xs None) as [xs [m|]]; [|reflexivity].
  destruct Q as (_ & M & _). destruct (M m eq_refl) as (A & B & _). specialize (B X HX). rewrite H, Rabs_R0 in B. now rewrite (proj2 (r_lt_no 0 m)).
Qed.
Lemma project_ok : forall P Xs, Xs <> [] -> (forall X, In X Xs -> depth_of P X <> 0) ->
  exists xs m, pinhole_project P Xs = Ok (xs, m) /\ Forall2 (projects_to P) Xs xs /\
    (forall X, In X Xs -> m <= Rabs (depth_of P X)) /\ (exists X, In X Xs /\ m = Rabs (depth_of P X)).
Proof.
  intros P Xs HN H. unfold pinhole_project. destruct Xs as [|X0 Xs']; [easy|].
  set (Xs := X0 :: Xs') in *. pose proof (project_loop_spec P Xs None Logic.I) as Q. destruct (project_loop P Xs None) as [xs [m|]].
  - destruct Q as (_ & M & _ & F). destruct (M m eq_refl) as (A & B & _ & C). destruct C as [(X & HX & E)|C]; [|discriminate].
    exists xs, m. rewrite (proj2 (r_lt_spec 0 m)); [repeat split; eauto|]. rewrite E. now apply Rabs_pos_lt, H.
  - destruct Q as (_ & _ & N & _). destruct (N eq_refl). now elim HN.
Qed.

(** * Triangulation *)
Definition quad_row (u : R * R * R * R) : list R := let '(a, b, c, d) := u in [a; b; c; d].
Lemma rows_on_ray : forall c P Q v, let T := triangulation_constraints c P Q in let r := [w0 v; w1 v; w2 v; w3 v] in
  (row_dot (firstn 4 T) r = 0 /\ row_dot (firstn 4 (skipn 4 T)) r = 0 /\ row_dot (firstn 4 (skipn 8 T)) r = 0 /\ row_dot (skipn 12 T) r = 0) <->
  on_ray P (mx c) v /\ on_ray Q (mxp c) v.
Proof.
  intros c P Q v. cbv zeta. unfold triangulation_constraints, row_dot. cbn [firstn skipn combine map fold_right].
  unfold on_ray, apply34h, vscale, h3. cbn [v0 v1 v2 px py]. split.
  - intros (A & B & C & D). split; eexists; apply V3_eq; try (rewrite Rmult_1_r; reflexivity); lra.
  - intros ((w & E) & (w' & E')). injection E as E0 E1 E2. injection E' as E0' E1' E2'. assert (Ew : w = p2 P * w0 v + p5 P * w1 v + p8 P * w2 v + p11 P * w3 v) by lra. assert (Ew' : w' = p2 Q * w0 v + p5 Q * w1 v + p8 Q * w2 v + p11 Q * w3 v) by lra.
    rewrite Ew in E0, E1. rewrite Ew' in E0', E1'. repeat split; lra.
Qed.
Definition nz4 (u : R * R * R * R) : Prop := u <> (0, 0, 0, 0).
Lemma solve_point : forall c P Q X a b d w, meet_only_in P Q c X -> on_ray P (mx c) (V4 a b d w) -> on_ray Q (mxp c) (V4 a b d w) -> V4 a b d w <> V4 0 0 0 0 ->
  w <> 0 /\ V3 (a / w) (b / w) (d / w) = X.
Proof.
  intros c P Q [x y z] a b d w (_ & _ & U) H1 H2 N. destruct (U _ H1 H2) as (s & E). unfold vscale4, homogeneous in E. cbn [w0 w1 w2 w3 v0 v1 v2] in E.
  injection E as Ea Eb Ed Ew. subst. assert (S0 : s <> 0). { intros ->. apply N. f_equal; ring. }
  split; [lra|]. apply V3_eq; field; lra.
Qed.
Lemma aset_mid : forall A (pre : list A) x rest v, aset (pre ++ x :: rest) (length pre) v = Ok (pre ++ v :: rest).
Proof.
  intros. rewrite aset_lt by (rewrite app_length; cbn; lia). f_equal. induction pre; cbn [lset length app]; [reflexivity|]. now rewrite IHpre.
Qed.
Lemma count_filter : forall l, count_inliers l = Z.of_nat (length (filter inlier l)).
Proof.
  intro l. unfold count_inliers. rewrite <- (Z.add_0_l (Z.of_nat _)). generalize 0%Z. induction l as [|c l IH]; intro z; cbn [fold_left filter]; [cbn; lia|]. destruct (inlier c); rewrite IH; cbn [length]; lia.
Qed.
Section Tri.
Variables (svd : list R -> R * R * R * R) (junk : vec3) (P Q : mat34) (pt : pmatch -> vec3).
Lemma tri_loop : forall l i preX X preI ids,
  (forall c, In c l -> inlier c = true -> exists a b d w, svd (triangulation_constraints c P Q) = (a, b, d, w) /\ w <> 0 /\ V3 (a / w) (b / w) (d / w) = pt c) ->
  length preX = length preI -> (length (filter inlier l) <= length X)%nat -> (length (filter inlier l) <= length ids)%nat ->
  triangulate_loop svd junk i l P Q (length preX) (preX ++ X) (preI ++ ids) =
  Ok (length preX + length (filter inlier l), preX ++ map pt (filter inlier l) ++ skipn (length (filter inlier l)) X,
      preI ++ inlier_positions i l ++ skipn (length (filter inlier l)) ids)%nat.
Proof.
  induction l as [|c l IH]; intros i preX X preI ids H LE LX LI; cbn [triangulate_loop filter inlier_positions].
  - cbn. now rewrite Nat.add_0_r.
  - destruct (inlier c) eqn:E.
    + destruct (H c (or_introl eq_refl) E) as (a & b & d & w & ES & W & EP). rewrite ES. rewrite (is_zero_no w W), EP.
      cbn [filter] in LX, LI. rewrite E in LX, LI. cbn [length] in LX, LI. destruct X as [|x X]; [cbn in LX; lia|]. destruct ids as [|j ids]; [cbn in LI; lia|].
      rewrite aset_mid. cbn [bind]. rewrite LE, aset_mid. cbn [bind]. cbn [map length skipn app] in *.
      specialize (IH (i + 1)%Z (preX ++ [pt c]) X (preI ++ [i]) ids). rewrite !app_length in IH. cbn [length] in IH. rewrite <- !app_assoc in IH. cbn [app] in IH.
      replace (S (length preI)) with (length preX + 1)%nat by lia. rewrite IH; [f_equal; f_equal; f_equal; lia| |lia|lia|lia]. intros; apply H; auto. now right.
    + cbn [filter] in LX, LI. rewrite E in LX, LI. apply IH; auto. intros; apply H; auto. now right.
Qed.
Lemma tri_spec : forall n_pt X ids l,
  (forall c, In c l -> inlier c = true -> exists a b d w, svd (triangulation_constraints c P Q) = (a, b, d, w) /\ w <> 0 /\ V3 (a / w) (b / w) (d / w) = pt c) ->
  (count_inliers l <= n_pt)%Z -> Z.of_nat (length X) = n_pt -> Z.of_nat (length ids) = n_pt ->
  triangulate svd junk n_pt X ids l P Q =
  Ok (count_inliers l, map pt (filter inlier l) ++ skipn (length (filter inlier l)) X, inlier_positions 0 l ++ skipn (length (filter inlier l)) ids).
Proof.
  intros n_pt X ids l H LE LX LI. unfold triangulate. rewrite count_filter in *.
  rewrite (proj2 (Z.ltb_ge _ _)) by lia. pose proof (tri_loop l 0 [] X [] ids H eq_refl) as T. cbn [length app] in T. rewrite T by lia. cbn [bind Nat.add].
  now rewrite Z.eqb_refl.
Qed.
End Tri.

(** * A plane map is determined by four points in general position *)
Lemma fixed_4pt : forall a b c d A, general_position a b c d -> (forall p, p = a \/ p = b \/ p = c \/ p = d -> exists w, lin A (h3 p) = vscale w (h3 p)) ->
  exists w, forall u, lin A u = vscale w u.
Proof.
  intros a b c d A (GA & GB & GC & GD) H.
  destruct (H a) as (wa & Ea); [auto|]. destruct (H b) as (wb & Eb); [auto|]. destruct (H c) as (wc & Ec); [auto|]. destruct (H d) as (wd & Ed); [auto|]. clear H.
  set (z := area a b c) in *.
  assert (X : forall u, vscale z u = vadd (vadd (vscale (dot u (cross (h3 b) (h3 c))) (h3 a)) (vscale (dot u (cross (h3 c) (h3 a))) (h3 b))) (vscale (dot u (cross (h3 a) (h3 b))) (h3 c))).
  { unfold z, area, h3. intros [x y v]. destruct a, b, c. geoc. apply V3_eq; ring. }
  assert (L : forall u, vscale z (lin A u) = vadd (vadd (vscale (dot u (cross (h3 b) (h3 c)) * wa) (h3 a)) (vscale (dot u (cross (h3 c) (h3 a)) * wb) (h3 b))) (vscale (dot u (cross (h3 a) (h3 b)) * wc) (h3 c))).
  { intro u. rewrite <- lin_scale, X, !lin_add, !lin_scale, Ea, Eb, Ec, !vscale_vscale. reflexivity. }
  assert (K0 : dot (h3 d) (cross (h3 b) (h3 c)) = area b c d) by (unfold area, h3; destruct b, c, d; geoc; ring).
  assert (K1 : dot (h3 d) (cross (h3 c) (h3 a)) = area c a d) by (unfold area, h3; destruct a, c, d; geoc; ring).
  assert (K2 : dot (h3 d) (cross (h3 a) (h3 b)) = area a b d) by (unfold area, h3; destruct a, b, d; geoc; ring).
  assert (Z0 : dot (h3 a) (cross (h3 b) (h3 c)) = z) by (unfold z, area, h3; destruct a, b, c; geoc; ring).
  assert (Z1 : dot (h3 b) (cross (h3 c) (h3 a)) = z) by (unfold z, area, h3; destruct a, b, c; geoc; ring).
  assert (Z2 : dot (h3 c) (cross (h3 a) (h3 b)) = z) by (unfold z, area, h3; destruct a, b, c; geoc; ring).
  assert (LD := L (h3 d)). rewrite Ed, vscale_vscale, K0, K1, K2 in LD.
  assert (XD := X (h3 d)). rewrite K0, K1, K2 in XD.
  assert (W0 : wa = wd).
  { apply (f_equal (fun v => dot v (cross (h3 b) (h3 c)))) in LD. rewrite !dot_vadd, !dot_vscale, Z0, K0, dot_cross_l, dot_cross_r in LD.
    apply (Rmult_eq_reg_l (z * area b c d)); [|now apply mul_nz]. lra. }
  assert (W1 : wb = wd).
  { apply (f_equal (fun v => dot v (cross (h3 c) (h3 a)))) in LD. rewrite !dot_vadd, !dot_vscale, Z1, K1, dot_cross_l, dot_cross_r in LD.
    apply (Rmult_eq_reg_l (z * area c a d)); [|now apply mul_nz]. lra. }
  assert (W2 : wc = wd).
  { apply (f_equal (fun v => dot v (cross (h3 a) (h3 b)))) in LD. rewrite !dot_vadd, !dot_vscale, Z2, K2, dot_cross_l, dot_cross_r in LD.
    apply (Rmult_eq_reg_l (z * area a b d)); [|now apply mul_nz]. lra. }
  exists wd. intro u. subst wa wb wc.
  assert (Q : vscale z (lin A u) = vscale z (vscale wd u)).
  { transitivity (vscale wd (vscale z u)); [rewrite L, X; destruct (h3 a), (h3 b), (h3 c), u; geoc; apply V3_eq; ring|rewrite !vscale_vscale; f_equal; ring]. }
  destruct (lin A u), (vscale wd u). unfold vscale in Q. cbn in Q. injection Q as Q0 Q1 Q2. apply V3_eq; eapply Rmult_eq_reg_l; eauto.
Qed.
Lemma unique_4pt : forall a b c d h h' f, general_position a b c d -> det3 h <> 0 ->
  (forall p, p = a \/ p = b \/ p = c \/ p = d -> maps_to h p (f p) /\ maps_to h' p (f p)) ->
  exists w, w <> 0 /\ forall u, lin h' u = vscale w (lin h u).
Proof.
  intros a b c d h h' f G D H.
  destruct (fixed_4pt a b c d (dmat3_mul (fst (dmat3_inv h)) h') G) as (w & W).
  { intros p Hp. destruct (H p Hp) as [(k & K & E) (k' & K' & E')].
    exists (k' / k). rewrite mul_lin, E'. replace (vscale k' (h3 (f p))) with (vscale (k' / k) (vscale k (h3 (f p)))) by (rewrite vscale_vscale; f_equal; field; auto).
    rewrite <- E, lin_scale. destruct (inv_lin h (h3 p) D) as [I _]. now rewrite I. }
  assert (E : forall u, lin h' u = vscale w (lin h u)).
  { intro u. destruct (inv_lin h (lin h' u) D) as [_ I]. rewrite <- I. rewrite <- (mul_lin (fst (dmat3_inv h)) h'), W, lin_scale. reflexivity. }
  exists w. split; auto. intros ->. destruct (H a) as [_ (k & K & E')]; [auto|]. rewrite E in E'. unfold vscale, h3 in E'. cbn in E'. injection E' as _ _ Z. lra.
Qed.
