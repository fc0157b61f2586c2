(** Homographies: transfer, inlier marking, the four point estimate, linear constraints. *)
From Verif Require Import Base ProjModel GeoSpec ProjSpec GeoProofs NormProofs.
From Coq Require Import Lra Lia.
Local Open Scope R_scope.

(** * The map of a quadrilateral to the unit square, in closed form *)
Definition rows_comb (s0 s1 s2 : R) (r0 r1 r2 : vec3) : vec3 := vadd (vadd (vscale s0 r0) (vscale s1 r1)) (vscale s2 r2).
Section Unit.
Variables a b c d : vec2.
Let r0 := cross (h3 b) (h3 c).
Let r1 := cross (h3 c) (h3 a).
Let r2 := cross (h3 a) (h3 b).
Let k0 := dot (h3 d) r0.
Let k1 := dot (h3 d) r1.
Let k2 := dot (h3 d) r2.
(** The rows of the matrix sending a, b, c, d to multiples of (0,0,1), (1,0,1), (1,1,1), (0,1,1). *)
Definition nrow0 := rows_comb 0 (k0 * k2) (- (k0 * k1)) r0 r1 r2.
Definition nrow1 := rows_comb 0 0 (- (k0 * k1)) r0 r1 r2.
Definition nrow2 := rows_comb (- (k1 * k2)) (k0 * k2) (- (k0 * k1)) r0 r1 r2.
Definition unit_det := v2 nrow2.
End Unit.
Definition of_rows (t : R) (r0 r1 r2 : vec3) : mat3 :=
  M3 (t * v0 r0) (t * v0 r1) (t * v0 r2) (t * v1 r0) (t * v1 r1) (t * v1 r2) (t * v2 r0) (t * v2 r1) (t * v2 r2).
Ltac uopen := unfold estimate_unit, quad_of, of_rows, unit_det, nrow0, nrow1, nrow2, rows_comb, h3, dot, cross, vadd, vscale; cbn [px py v0 v1 v2 fst snd m0 m1 m2 m3 m4 m5 m6 m7 m8]; cbv zeta; cbn [fst snd].
Lemma unit_det_eq : forall a b c d, snd (estimate_unit (quad_of a b c d)) = unit_det a b c d.
Proof. intros [x0 x1] [x2 x3] [x4 x5] [x6 x7]. uopen. ring. Qed.
Lemma unit_mat_eq : forall a b c d, unit_det a b c d <> 0 ->
  fst (estimate_unit (quad_of a b c d)) = of_rows (1 / unit_det a b c d) (nrow0 a b c d) (nrow1 a b c d) (nrow2 a b c d).
Proof.
  intros a b c d D. pose proof (unit_det_eq a b c d) as E.
  assert (T : 1 / unit_det a b c d * v2 (nrow2 a b c d) = 1) by (fold (unit_det a b c d); field; auto).
  unfold of_rows. rewrite T. clear T. revert E.
  destruct a as [x0 x1], b as [x2 x3], c as [x4 x5], d as [x6 x7]. unfold estimate_unit, quad_of. cbn [px py fst snd]. cbv zeta. intro E. rewrite E. clear E D.
  set (t := 1 / unit_det _ _ _ _). clearbody t.
  unfold nrow0, nrow1, nrow2, rows_comb, h3, dot, cross, vadd, vscale. cbn [px py v0 v1 v2]. cbv zeta.
  apply M3_eq; try ring.
Qed.

Lemma lin_of_rows : forall t r0 r1 r2 u, lin (of_rows t r0 r1 r2) u = vscale t (V3 (dot r0 u) (dot r1 u) (dot r2 u)).
Proof. intros t [] [] [] []. unfold of_rows. geo. apply V3_eq; ring. Qed.
Definition e0 := V2 0 0. Definition e1 := V2 1 0. Definition e2 := V2 1 1. Definition e3 := V2 0 1.
Ltac aopen := unfold nrow0, nrow1, nrow2, rows_comb, h3, e0, e1, e2, e3, area; geo.
Lemma nrow_a : forall a b c d, V3 (dot (nrow0 a b c d) (h3 a)) (dot (nrow1 a b c d) (h3 a)) (dot (nrow2 a b c d) (h3 a)) =
  vscale (- (area c a d * area a b d * area a b c)) (h3 e0).
Proof. intros [x0 x1] [x2 x3] [x4 x5] [x6 x7]. aopen. apply V3_eq; ring. Qed.
Lemma nrow_b : forall a b c d, V3 (dot (nrow0 a b c d) (h3 b)) (dot (nrow1 a b c d) (h3 b)) (dot (nrow2 a b c d) (h3 b)) =
  vscale (area b c d * area a b d * area a b c) (h3 e1).
Proof. intros [x0 x1] [x2 x3] [x4 x5] [x6 x7]. aopen. apply V3_eq; ring. Qed.
Lemma nrow_c : forall a b c d, V3 (dot (nrow0 a b c d) (h3 c)) (dot (nrow1 a b c d) (h3 c)) (dot (nrow2 a b c d) (h3 c)) =
  vscale (- (area b c d * area c a d * area a b c)) (h3 e2).
Proof. intros [x0 x1] [x2 x3] [x4 x5] [x6 x7]. aopen. apply V3_eq; ring. Qed.
Lemma nrow_d : forall a b c d, V3 (dot (nrow0 a b c d) (h3 d)) (dot (nrow1 a b c d) (h3 d)) (dot (nrow2 a b c d) (h3 d)) =
  vscale (- (area b c d * area c a d * area a b d)) (h3 e3).
Proof. intros [x0 x1] [x2 x3] [x4 x5] [x6 x7]. aopen. apply V3_eq; ring. Qed.
Lemma nrow_det : forall t a b c d, det3 (of_rows t (nrow0 a b c d) (nrow1 a b c d) (nrow2 a b c d)) =
  t * t * t * ((area b c d * area c a d * area a b d * area a b c) * (area b c d * area c a d * area a b d * area a b c)).
Proof.
  intros t [x0 x1] [x2 x3] [x4 x5] [x6 x7]. unfold of_rows. 
  unfold nrow0, nrow1, nrow2, rows_comb. 
  assert (G : forall s0 s1 s2 s3 s4 s5 r0 r1 r2 : R, True) by auto. clear G.
  set (R0 := cross (h3 (V2 x2 x3)) (h3 (V2 x4 x5))). set (R1 := cross (h3 (V2 x4 x5)) (h3 (V2 x0 x1))). set (R2 := cross (h3 (V2 x0 x1)) (h3 (V2 x2 x3))).
  assert (D : dot R0 (cross R1 R2) = area (V2 x0 x1) (V2 x2 x3) (V2 x4 x5) * area (V2 x0 x1) (V2 x2 x3) (V2 x4 x5)) by (unfold R0, R1, R2; aopen; ring).
  assert (K0 : dot (h3 (V2 x6 x7)) R0 = area (V2 x2 x3) (V2 x4 x5) (V2 x6 x7)) by (unfold R0; aopen; ring).
  assert (K1 : dot (h3 (V2 x6 x7)) R1 = area (V2 x4 x5) (V2 x0 x1) (V2 x6 x7)) by (unfold R1; aopen; ring).
  assert (K2 : dot (h3 (V2 x6 x7)) R2 = area (V2 x0 x1) (V2 x2 x3) (V2 x6 x7)) by (unfold R2; aopen; ring).
  rewrite K0, K1, K2. clear K0 K1 K2. clearbody R0 R1 R2. revert D.
  generalize (area (V2 x0 x1) (V2 x2 x3) (V2 x4 x5)), (area (V2 x2 x3) (V2 x4 x5) (V2 x6 x7)), (area (V2 x4 x5) (V2 x0 x1) (V2 x6 x7)), (area (V2 x0 x1) (V2 x2 x3) (V2 x6 x7)).
  intros z k0 k1 k2 D. transitivity (t * t * t * (k0 * k0 * (k1 * k1) * (k2 * k2)) * (dot R0 (cross R1 R2))); [|rewrite D; ring].
  clear D. destruct R0 as [x y w], R1 as [x' y' w'], R2 as [x'' y'' w'']. geo. ring.
Qed.
Lemma mul_nz : forall a b, a <> 0 -> b <> 0 -> a * b <> 0.
Proof. intros a b A B H. apply Rmult_integral in H. tauto. Qed.
Lemma maps_row : forall t r0 r1 r2 w p q, t <> 0 -> w <> 0 -> V3 (dot r0 (h3 p)) (dot r1 (h3 p)) (dot r2 (h3 p)) = vscale w (h3 q) ->
  maps_to (of_rows t r0 r1 r2) p q.
Proof.
  intros. exists (t * w). split; [now apply mul_nz|]. rewrite lin_of_rows, H1. unfold vscale. cbn. apply V3_eq; ring.
Qed.
Lemma unit_maps : forall a b c d, general_position a b c d -> unit_det a b c d <> 0 ->
  let H := fst (estimate_unit (quad_of a b c d)) in
  maps_to H a e0 /\ maps_to H b e1 /\ maps_to H c e2 /\ maps_to H d e3.
Proof.
  intros a b c d (A & B & C & D) E H. unfold H. rewrite unit_mat_eq by auto.
  assert (T : 1 / unit_det a b c d <> 0) by (apply Rinv_neq_0_compat in E; unfold Rdiv; lra).
  assert (N : forall x, x <> 0 -> - x <> 0) by (intros; lra).
  split; [|split; [|split]].
  - eapply maps_row; [auto| |apply nrow_a]. auto using mul_nz.
  - eapply maps_row; [auto| |apply nrow_b]. auto using mul_nz.
  - eapply maps_row; [auto| |apply nrow_c]. auto using mul_nz.
  - eapply maps_row; [auto| |apply nrow_d]. auto using mul_nz.
Qed.
(** Only maps that send the origin to infinity are missed. *)
Lemma unit_complete : forall a b c d H, general_position a b c d -> m8 H <> 0 ->
  maps_to H a e0 -> maps_to H b e1 -> maps_to H c e2 -> maps_to H d e3 -> unit_det a b c d <> 0.
Proof.
  intros [x0 x1] [x2 x3] [x4 x5] [x6 x7] [h0 h1 h2 h3' h4 h5 h6 h7 h8] (GA & GB & GC & GD) M (wa & NA & A) (wb & NB & B) (wc & NC & C) (wd & ND & D) E.
  set (z := area (V2 x0 x1) (V2 x2 x3) (V2 x4 x5)) in *. set (k0 := area (V2 x2 x3) (V2 x4 x5) (V2 x6 x7)) in *.
  set (k1 := area (V2 x4 x5) (V2 x0 x1) (V2 x6 x7)) in *. set (k2 := area (V2 x0 x1) (V2 x2 x3) (V2 x6 x7)) in *.
  assert (U : unit_det (V2 x0 x1) (V2 x2 x3) (V2 x4 x5) (V2 x6 x7) =
    - (k1 * k2) * (x2 * x5 - x3 * x4) + k0 * k2 * (x4 * x1 - x5 * x0) - k0 * k1 * (x0 * x3 - x1 * x2)).
  { unfold unit_det, k0, k1, k2. aopen. ring. }
  rewrite U in E. clear U. unfold h3, e0, e1, e2, e3 in *. geo. injection A as A0 A1 A2. injection B as B0 B1 B2. injection C as C0 C1 C2. injection D as D0 D1 D2.
  assert (X0 : k0 * x0 + k1 * x2 + k2 * x4 = z * x6) by (unfold k0, k1, k2, z, area; cbn; ring).
  assert (X1 : k0 * x1 + k1 * x3 + k2 * x5 = z * x7) by (unfold k0, k1, k2, z, area; cbn; ring).
  assert (X2 : k0 + k1 + k2 = z) by (unfold k0, k1, k2, z, area; cbn; ring).
  assert (P0 : k1 * wb + k2 * wc = 0).
  { transitivity (z * 0); [|ring]. replace 0 with (wd * 0) by ring. rewrite <- D0.
    transitivity (h0 * (k0 * x0 + k1 * x2 + k2 * x4) + h3' * (k0 * x1 + k1 * x3 + k2 * x5) + h6 * (k0 + k1 + k2)).
    - transitivity (k0 * (wa * 0) + k1 * (wb * 1) + k2 * (wc * 1)); [ring|]. rewrite <- A0, <- B0, <- C0. ring.
    - rewrite X0, X1, X2. ring. }
  assert (P1 : k2 * wc = z * wd).
  { replace (z * wd) with (z * (wd * 1)) by ring. rewrite <- D1.
    transitivity (h1 * (k0 * x0 + k1 * x2 + k2 * x4) + h4 * (k0 * x1 + k1 * x3 + k2 * x5) + h7 * (k0 + k1 + k2)).
    - transitivity (k0 * (wa * 0) + k1 * (wb * 0) + k2 * (wc * 1)); [ring|]. rewrite <- A1, <- B1, <- C1. ring.
    - rewrite X0, X1, X2. ring. }
  assert (P2 : k0 * wa + k1 * wb + k2 * wc = z * wd).
  { replace (z * wd) with (z * (wd * 1)) by ring. rewrite <- D2.
    transitivity (h2 * (k0 * x0 + k1 * x2 + k2 * x4) + h5 * (k0 * x1 + k1 * x3 + k2 * x5) + h8 * (k0 + k1 + k2)).
    - transitivity (k0 * (wa * 1) + k1 * (wb * 1) + k2 * (wc * 1)); [ring|]. rewrite <- A2, <- B2, <- C2. ring.
    - rewrite X0, X1, X2. ring. }
  assert (Z8 : z * h8 = (x2 * x5 - x3 * x4) * wa + (x4 * x1 - x5 * x0) * wb + (x0 * x3 - x1 * x2) * wc).
  { transitivity ((x2 * x5 - x3 * x4) * (wa * 1) + (x4 * x1 - x5 * x0) * (wb * 1) + (x0 * x3 - x1 * x2) * (wc * 1)); [|ring].
    rewrite <- A2, <- B2, <- C2. unfold z, area. cbn. ring. }
  assert (K : k0 * k1 * k2 * (z * h8) = 0).
  { rewrite Z8. set (a0 := x2 * x5 - x3 * x4) in *. set (a1 := x4 * x1 - x5 * x0) in *. set (a2 := x0 * x3 - x1 * x2) in *.
    transitivity (a0 * (k1 * k2) * (k0 * wa) + a1 * (k0 * k2) * (k1 * wb) + a2 * (k0 * k1) * (k2 * wc)); [ring|].
    assert (Q0 : k0 * wa = z * wd) by lra. assert (Q1 : k1 * wb = - (z * wd)) by lra. rewrite Q0, Q1, P1.
    transitivity (- (z * wd) * (- (k1 * k2) * a0 + k0 * k2 * a1 - k0 * k1 * a2)); [ring|]. rewrite E. ring. }
  revert K. repeat apply mul_nz; auto.
Qed.

(** * Transfer *)
Lemma transfer_maps : forall H x y, transfer_fwd H x = Some y <-> maps_to H x y.
Proof.
  intros [h0 h1 h2 h3' h4 h5 h6 h7 h8] [x y] [x' y']. unfold transfer_fwd, maps_to, h3. geo. destruct (is_zero _) eqn:Z.
  - apply is_zero_spec in Z. split; [discriminate|]. intros (w & W & E). injection E as _ _ E. lra.
  - assert (S : h2 * x + h5 * y + h8 <> 0) by (intro A; apply is_zero_spec in A; congruence). split.
    + intro E. injection E as <- <-. exists (h2 * x + h5 * y + h8). split; auto. apply V3_eq; field; auto.
    + intros (w & W & E). injection E as E0 E1 E2. 
      assert (SW : h2 * x + h5 * y + h8 = w) by lra. rewrite SW. f_equal. apply V2_eq.
      * replace (h0 * x + h3' * y + h6) with (w * x') by lra. field. auto.
      * replace (h1 * x + h4 * y + h7) with (w * y') by lra. field. auto.
Qed.
Lemma transfer_none : forall H x, transfer_fwd H x = None <-> v2 (lin H (h3 x)) = 0.
Proof.
  intros [h0 h1 h2 h3' h4 h5 h6 h7 h8] [x y]. unfold transfer_fwd, h3. geo. destruct (is_zero _) eqn:Z.
  - apply is_zero_spec in Z. split; auto. intros _. lra.
  - split; [discriminate|]. intro E. assert (A : h2 * x + h5 * y + h8 = 0) by lra. apply is_zero_spec in A. congruence.
Qed.
Lemma lin_scale : forall A s u, lin A (vscale s u) = vscale s (lin A u).
Proof. intros [] s []. geo. apply V3_eq; ring. Qed.
Lemma vscale_vscale : forall a b u, vscale a (vscale b u) = vscale (a * b) u.
Proof. intros a b []. geo. apply V3_eq; ring. Qed.
Lemma maps_compose : forall A B p q r, maps_to A p q -> maps_to B q r -> maps_to (dmat3_mul B A) p r.
Proof.
  intros A B p q r (w & W & E) (w' & W' & E'). exists (w * w'). split; [now apply mul_nz|].
  now rewrite mul_lin, E, lin_scale, E', vscale_vscale.
Qed.
Lemma maps_inverse : forall A p q, det3 A <> 0 -> maps_to A p q -> maps_to (fst (dmat3_inv A)) q p.
Proof.
  intros A p q D (w & W & E). exists (1 / w). split; [unfold Rdiv; apply mul_nz; [lra|now apply Rinv_neq_0_compat]|].
  destruct (inv_lin A (h3 p) D) as [I _]. rewrite E, lin_scale in I. rewrite <- I, vscale_vscale.
  replace (1 / w * w) with 1 by (field; auto). destruct (lin (fst (dmat3_inv A)) (h3 q)) as [u v t]. unfold vscale. cbn [v0 v1 v2]. apply V3_eq; ring.
Qed.
Lemma maps_unique : forall A p q q', maps_to A p q -> maps_to A p q' -> q = q'.
Proof. intros A p q q' H H'. apply transfer_maps in H. apply transfer_maps in H'. congruence. Qed.

(** * Four point estimate *)
Lemma det_up : forall a b c d, unit_det a b c d <> 0 -> det3 (fst (estimate_unit (quad_of a b c d))) <> 0 -> general_position a b c d.
Proof.
  intros a b c d D E. rewrite unit_mat_eq, nrow_det in E by auto.
  repeat split; intro H; rewrite H in E; apply E; ring.
Qed.
Lemma det_up_nz : forall a b c d, unit_det a b c d <> 0 -> general_position a b c d -> det3 (fst (estimate_unit (quad_of a b c d))) <> 0.
Proof.
  intros a b c d D (A & B & C & E). rewrite unit_mat_eq, nrow_det by auto.
  assert (T : 1 / unit_det a b c d <> 0) by (apply Rinv_neq_0_compat in D; unfold Rdiv; lra).
  set (t := 1 / _) in *. clearbody t. auto 12 using mul_nz.
Qed.
Lemma inv_det_nz : forall A, det3 A <> 0 -> det3 (fst (dmat3_inv A)) <> 0.
Proof.
  intros A D K. assert (I : det3 (dmat3_mul (fst (dmat3_inv A)) A) = 1).
  { replace (dmat3_mul (fst (dmat3_inv A)) A) with dmat3_eye; [unfold dmat3_eye; geo; ring|].
    apply lin_ext. intro u. now rewrite eye_lin, mul_lin, (proj1 (inv_lin A u D)). }
  rewrite det_mul, K in I. lra.
Qed.
Lemma est_4pt : forall a b c d h det, estimate_4pt a b c d = Est h det ->
  general_position (mx a) (mx b) (mx c) (mx d) ->
  general_position (mxp a) (mxp b) (mxp c) (mxp d) /\
  maps_to h (mx a) (mxp a) /\ maps_to h (mx b) (mxp b) /\ maps_to h (mx c) (mxp c) /\ maps_to h (mx d) (mxp d) /\ det3 h <> 0.
Proof.
  intros a b c d h det. unfold estimate_4pt.
  pose proof (unit_det_eq (mx a) (mx b) (mx c) (mx d)) as EU. pose proof (unit_det_eq (mxp a) (mxp b) (mxp c) (mxp d)) as EUP.
  destruct (estimate_unit (quad_of (mx a) _ _ _)) as [hu du] eqn:U. destruct (estimate_unit (quad_of (mxp a) _ _ _)) as [hup dup] eqn:UP. cbn [snd] in EU, EUP. subst du dup.
  destruct (is_zero (unit_det (mxp a) _ _ _)) eqn:Z1; [discriminate|]. destruct (is_zero (dmat3_det hup)) eqn:Z2; [discriminate|].
  destruct (is_zero (unit_det (mx a) _ _ _)) eqn:Z3; [discriminate|]. intro E.
  assert (EH : h = dmat3_mul (fst (dmat3_inv hup)) hu) by congruence. subst h. clear E. intro G.
  assert (NZ : forall x, is_zero x = false -> x <> 0) by (intros x X Y; apply is_zero_spec in Y; congruence).
  apply NZ in Z1, Z2, Z3. rewrite det_det3 in Z2.
  assert (HU : hu = fst (estimate_unit (quad_of (mx a) (mx b) (mx c) (mx d)))) by now rewrite U.
  assert (HUP : hup = fst (estimate_unit (quad_of (mxp a) (mxp b) (mxp c) (mxp d)))) by now rewrite UP.
  assert (G' : general_position (mxp a) (mxp b) (mxp c) (mxp d)) by (apply det_up; auto; now rewrite <- HUP). split; auto.
  destruct (unit_maps _ _ _ _ G Z3) as (A & B & C & D). rewrite <- HU in A, B, C, D.
  destruct (unit_maps _ _ _ _ G' Z1) as (A' & B' & C' & D'). rewrite <- HUP in A', B', C', D'.
  repeat split; try (eapply maps_compose; [eassumption|]; now apply maps_inverse).
  rewrite det_mul. apply mul_nz.
  - now apply inv_det_nz.
  - rewrite HU. now apply det_up_nz.
Qed.
Lemma est_4pt_ok : forall a b c d, general_position (mx a) (mx b) (mx c) (mx d) -> general_position (mxp a) (mxp b) (mxp c) (mxp d) ->
  unit_det (mx a) (mx b) (mx c) (mx d) <> 0 -> unit_det (mxp a) (mxp b) (mxp c) (mxp d) <> 0 -> exists h det, estimate_4pt a b c d = Est h det /\ det <> 0.
Proof.
  intros a b c d G G' D D'. unfold estimate_4pt.
  pose proof (unit_det_eq (mx a) (mx b) (mx c) (mx d)) as EU. pose proof (unit_det_eq (mxp a) (mxp b) (mxp c) (mxp d)) as EUP.
  pose proof (det_up_nz _ _ _ _ D' G') as N. rewrite <- det_det3 in N.
  destruct (estimate_unit (quad_of (mx a) _ _ _)) as [hu du] eqn:U. destruct (estimate_unit (quad_of (mxp a) _ _ _)) as [hup dup] eqn:UP. cbn [fst snd] in EU, EUP, N. subst du dup.
  rewrite !is_zero_no by auto. eauto.
Qed.
