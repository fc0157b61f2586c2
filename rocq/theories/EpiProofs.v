(** Two-view geometry: essential matrices, their decomposition and the choice by depth signs. *)
From Verif Require Import Base ProjModel GeoSpec ProjSpec GeoProofs NormProofs HomoProofs MarkProofs.
From Coq Require Import Lra Lia.
Local Open Scope R_scope.

(** * Vector algebra *)
Ltac geoc := cbv beta iota zeta delta [lin det3 dot cross vadd vscale col0 col1 col2 transpose zero3 v0 v1 v2 m0 m1 m2 m3 m4 m5 m6 m7 m8 px py].
Lemma dot_ext : forall u v, (forall w, dot u w = dot v w) -> u = v.
Proof.
  intros [x y z] [x' y' z'] H. pose proof (H (V3 1 0 0)). pose proof (H (V3 0 1 0)). pose proof (H (V3 0 0 1)). geo. apply V3_eq; lra.
Qed.
Lemma dot_comm : forall u v, dot u v = dot v u.
Proof. intros [] []. geo. ring. Qed.
Lemma dot_vadd : forall u v w, dot (vadd u v) w = dot u w + dot v w.
Proof. intros [] [] []. geo. ring. Qed.
Lemma dot_vscale : forall s u w, dot (vscale s u) w = s * dot u w.
Proof. intros s [] []. geo. ring. Qed.
Lemma dot_vadd_r : forall u v w, dot w (vadd u v) = dot w u + dot w v.
Proof. intros [] [] []. geo. ring. Qed.
Lemma dot_vscale_r : forall s u w, dot w (vscale s u) = s * dot w u.
Proof. intros s [] []. geo. ring. Qed.
Lemma lin_add : forall A u v, lin A (vadd u v) = vadd (lin A u) (lin A v).
Proof. intros [] [] []. geo. apply V3_eq; ring. Qed.
Lemma vscale_1 : forall u, vscale 1 u = u.
Proof. intros []. geo. apply V3_eq; ring. Qed.
Lemma tr_dot : forall A u v, dot (lin (transpose A) u) v = dot u (lin A v).
Proof. intros [] [] []. geo. ring. Qed.
Lemma dot_cross_l : forall u v, dot u (cross u v) = 0.
Proof. intros [] []. geo. ring. Qed.
Lemma dot_cross_r : forall u v, dot v (cross u v) = 0.
Proof. intros [] []. geo. ring. Qed.
Lemma cross_anti : forall u v, cross u v = vscale (-1) (cross v u).
Proof. intros [] []. geo. apply V3_eq; ring. Qed.
Lemma cross_self : forall u, cross u u = zero3.
Proof. intros []. geo. apply V3_eq; ring. Qed.
Lemma cross_vscale_l : forall s u v, cross (vscale s u) v = vscale s (cross u v).
Proof. intros s [] []. geo. apply V3_eq; ring. Qed.
Lemma cross_vscale_r : forall s u v, cross u (vscale s v) = vscale s (cross u v).
Proof. intros s [] []. geo. apply V3_eq; ring. Qed.
Lemma cross_add_r : forall u v w, cross u (vadd v w) = vadd (cross u v) (cross u w).
Proof. intros [] [] []. geo. apply V3_eq; ring. Qed.
Lemma triple : forall u v w, dot u (cross v w) = dot w (cross u v).
Proof. intros [] [] []. geo. ring. Qed.

(** * Orthogonal matrices *)
Lemma tr_det : forall A, det3 (transpose A) = det3 A.
Proof. intros []. geo. ring. Qed.
Lemma orth_tr : forall A u, orthogonal A -> lin (transpose A) (lin A u) = u.
Proof. intros A u H. apply dot_ext. intro w. now rewrite tr_dot, H. Qed.
Lemma orth_det : forall A, orthogonal A -> det3 A * det3 A = 1.
Proof.
  intros A H. rewrite <- (tr_det A) at 1. rewrite <- det_mul.
  replace (dmat3_mul (transpose A) A) with dmat3_eye; [unfold dmat3_eye; geo; ring|].
  apply lin_ext. intro u. now rewrite eye_lin, mul_lin, orth_tr.
Qed.
Lemma orth_tr_r : forall A u, orthogonal A -> lin A (lin (transpose A) u) = u.
Proof.
  intros A u H. assert (D : det3 A <> 0) by (intro K; pose proof (orth_det A H); rewrite K in *; lra).
  destruct (inv_lin A u D) as [_ I]. rewrite <- I at 1. now rewrite orth_tr.
Qed.
Lemma tr_cross : forall A u v, lin (transpose A) (cross (lin A u) (lin A v)) = vscale (det3 A) (cross u v).
Proof. intros [] [] []. geoc. apply V3_eq; ring. Qed.
Lemma orth_cross : forall A u v, orthogonal A -> cross (lin A u) (lin A v) = vscale (det3 A) (lin A (cross u v)).
Proof. intros A u v H. rewrite <- lin_scale, <- tr_cross. symmetry. now apply orth_tr_r. Qed.
Lemma lin_negate : forall A u, lin (negate A) u = vscale (-1) (lin A u).
Proof. intros [] []. unfold negate. geo. apply V3_eq; ring. Qed.
Lemma rot_orth : forall A, is_rotation A -> orthogonal A.
Proof. intros A [H _]. exact H. Qed.
(** What the sign correction of the decomposition yields. *)
Definition proper (A : mat3) : mat3 := if r_lt (dmat3_det A) 0 then negate A else A.
Lemma proper_rotation : forall A, orthogonal A -> is_rotation (proper A).
Proof.
  intros A H. pose proof (orth_det A H) as D. unfold proper. rewrite det_det3.
  assert (E : (det3 A - 1) * (det3 A + 1) = 0) by lra. apply Rmult_integral in E. destruct (r_lt (det3 A) 0) eqn:L.
  - apply r_lt_spec in L. assert (DA : det3 A = -1) by (destruct E; lra). split; intros u v; rewrite !lin_negate.
    + rewrite dot_vscale, dot_vscale_r, H. ring.
    + rewrite cross_vscale_l, cross_vscale_r, orth_cross, DA, !vscale_vscale by auto. f_equal. ring.
  - apply r_lt_no in L. assert (DA : det3 A = 1) by (destruct E; lra). split; auto. intros u v. now rewrite orth_cross, DA, vscale_1.
Qed.
Lemma proper_sign : forall A, exists e, (e = 1 \/ e = -1) /\ forall u, lin A u = vscale e (lin (proper A) u).
Proof.
  intro A. unfold proper. destruct (r_lt _ _); [exists (-1)|exists 1]; split; auto; intro u; [rewrite lin_negate, vscale_vscale|];
  [replace (-1 * -1) with 1 by ring|]; now rewrite vscale_1.
Qed.
Lemma rot_tr : forall A, is_rotation A -> is_rotation (transpose A).
Proof.
  intros A H. pose proof (rot_orth A H) as O'. split; intros u v.
  - rewrite tr_dot, orth_tr_r; auto.
  - rewrite <- (orth_tr_r A u O') at 1. rewrite <- (orth_tr_r A v O') at 1. rewrite <- (proj2 H). now apply orth_tr.
Qed.
(** The axes in the directions of the columns of a rotation. *)
Lemma rot_expand : forall U v, is_rotation U ->
  v = vadd (vadd (vscale (dot v (col0 U)) (col0 U)) (vscale (dot v (col1 U)) (col1 U))) (vscale (dot v (col2 U)) (col2 U)).
Proof.
  intros U v H. transitivity (lin U (lin (transpose U) v)); [symmetry; apply orth_tr_r, rot_orth, H|]. destruct U, v; geo. apply V3_eq; ring.
Qed.

(** * Essential matrices *)
Lemma essential_Rt : forall A t u, lin (essential_from_Rt A t) u = cross t (lin A u).
Proof. intros [] [] []. unfold essential_from_Rt. geo. apply V3_eq; ring. Qed.
Lemma essential_lower : forall F K Kp u, upper_triangular K -> m8 K = 1 -> upper_triangular (transpose Kp) -> m8 Kp = 1 ->
  lin (essential_from_fundamental F K Kp) u = lin Kp (lin F (lin K u)).
Proof.
  intros [f0 f1 f2 f3 f4 f5 f6 f7 f8] [k0 k1 k2 k3 k4 k5 k6 k7 k8] [l0 l1 l2 l3 l4 l5 l6 l7 l8] [x y z] H D H' D'.
  unfold upper_triangular, transpose in *. cbn [m1 m2 m5 m8 m3 m6 m7] in *. destruct H as (A & B & C), H' as (A' & B' & C'). subst. unfold essential_from_fundamental. geoc. apply V3_eq; ring.
Qed.

(** The two rotations of the decomposition, as maps. *)
Definition twist (e : R) (U V : mat3) (u : vec3) : vec3 :=
  let w := lin V u in vadd (vadd (vscale (- e * v1 w) (col0 U)) (vscale (e * v0 w) (col1 U))) (vscale (v2 w) (col2 U)).
Definition candidate (e : R) (U V : mat3) : mat3 :=
  M3 (e * m3 U * m0 V - e * m0 U * m1 V + m6 U * m2 V) (e * m4 U * m0 V - e * m1 U * m1 V + m7 U * m2 V) (e * m5 U * m0 V - e * m2 U * m1 V + m8 U * m2 V)
     (e * m3 U * m3 V - e * m0 U * m4 V + m6 U * m5 V) (e * m4 U * m3 V - e * m1 U * m4 V + m7 U * m5 V) (e * m5 U * m3 V - e * m2 U * m4 V + m8 U * m5 V)
     (e * m3 U * m6 V - e * m0 U * m7 V + m6 U * m8 V) (e * m4 U * m6 V - e * m1 U * m7 V + m7 U * m8 V) (e * m5 U * m6 V - e * m2 U * m7 V + m8 U * m8 V).
Lemma decompose_eq : forall U Vt, decompose_to_Rt U Vt =
  let U := proper U in let V := proper Vt in
  [(candidate 1 U V, col2 U); (candidate 1 U V, vscale (-1) (col2 U)); (candidate (-1) U V, col2 U); (candidate (-1) U V, vscale (-1) (col2 U))].
Proof.
  intros U Vt. unfold decompose_to_Rt. fold (proper U) (proper Vt). cbv zeta. destruct (proper U) as [a b c d e f g h i], (proper Vt) as [a' b' c' d' e' f' g' h' i']. unfold candidate, col2, vscale. cbn [m0 m1 m2 m3 m4 m5 m6 m7 m8 v0 v1 v2].
  assert (P : forall A B C D E F G H : mat3 * vec3, A = E -> B = F -> C = G -> D = H -> [A; B; C; D] = [E; F; G; H]) by congruence.
  apply P; f_equal; first [apply M3_eq; ring|apply V3_eq; ring].
Qed.
Lemma candidate_lin : forall e U V u, lin (candidate e U V) u = twist e U V u.
Proof. intros e [] [] []. unfold candidate, twist. geoc. apply V3_eq; ring. Qed.
Section Twist.
Variables (e : R) (U V : mat3).
Hypothesis (He : e = 1 \/ e = -1) (HU : is_rotation U) (HV : is_rotation V).
Let ee : e * e = 1. Proof. destruct He as [-> | ->]; ring. Qed.
Lemma cand_dot0 : forall u, dot (lin (candidate e U V) u) (col0 U) = - e * v1 (lin V u).
Proof.
  intro u. rewrite candidate_lin. unfold twist. cbv zeta. destruct (rotation_cols U HU) as (A1 & A2 & A3 & A4 & A5 & A6 & _).
  rewrite !dot_vadd, !dot_vscale, A1, (dot_comm (col1 U)), (dot_comm (col2 U)), A4, A5. ring.
Qed.
Lemma cand_dot1 : forall u, dot (lin (candidate e U V) u) (col1 U) = e * v0 (lin V u).
Proof.
  intro u. rewrite candidate_lin. unfold twist. cbv zeta. destruct (rotation_cols U HU) as (A1 & A2 & A3 & A4 & A5 & A6 & _).
  rewrite !dot_vadd, !dot_vscale, A2, A4, (dot_comm (col2 U)), A6. ring.
Qed.
Lemma cand_dot2 : forall u, dot (lin (candidate e U V) u) (col2 U) = v2 (lin V u).
Proof.
  intro u. rewrite candidate_lin. unfold twist. cbv zeta. destruct (rotation_cols U HU) as (A1 & A2 & A3 & A4 & A5 & A6 & _).
  rewrite !dot_vadd, !dot_vscale, A3, A5, A6. ring.
Qed.
Lemma candidate_rotation : is_rotation (candidate e U V).
Proof.
  assert (Q : exists W, is_rotation W /\ forall u, lin (candidate e U V) u = lin U (lin W (lin V u))).
  { exists (M3 0 e 0 (- e) 0 0 0 0 1). split.
    - apply orthonormal_rotation; geo; try apply V3_eq; lra.
    - intro u. rewrite candidate_lin. unfold twist. cbv zeta. destruct (lin V u), U. geoc. apply V3_eq; ring. }
  destruct Q as (W & HW & Q). eapply (rotation_comp _ (fun u => lin U (lin W u)) (lin V)); auto; intros u v.
  - now rewrite (proj1 HU), (proj1 HW).
  - now rewrite (proj2 HW), (proj2 HU).
  - apply HV.
  - apply HV.
Qed.
(** The essential matrix of a candidate is that of the decomposition, up to sign. *)
Lemma candidate_essential : forall s u,
  cross (col2 U) (lin (candidate e U V) u) = vscale (- e) (vadd (vscale (v0 (lin V u)) (col0 U)) (vscale (v1 (lin V u)) (col1 U))) /\
  lin U (lin (diag s s 0) (lin V u)) = vscale s (vadd (vscale (v0 (lin V u)) (col0 U)) (vscale (v1 (lin V u)) (col1 U))).
Proof.
  intros s u. split.
  - rewrite candidate_lin. unfold twist. cbv zeta. destruct (rotation_cols U HU) as (_ & _ & _ & _ & _ & _ & C1 & C2 & C3).
    rewrite !cross_add_r, !cross_vscale_r, C3, cross_self, (cross_anti (col2 U) (col1 U)), C2.
    destruct (lin V u), U. geoc. apply V3_eq; ring.
  - destruct (lin V u), U. unfold diag. geo. apply V3_eq; ring.
Qed.
End Twist.

(** Every rotation and unit translation with the given essential matrix is among the candidates. *)
Lemma decompose_complete : forall k s A t U V, is_rotation A -> dot t t = 1 -> is_rotation U -> is_rotation V -> k <> 0 -> s <> 0 ->
  (forall u, vscale k (cross t (lin A u)) = lin U (lin (diag s s 0) (lin V u))) ->
  exists e sg, (e = 1 \/ e = -1) /\ (sg = 1 \/ sg = -1) /\ A = candidate e U V /\ t = vscale sg (col2 U).
Proof.
  intros k s A t U V HA Ht HU HV K S E.
  assert (E' : forall u, vscale k (cross t (lin A u)) = vscale s (vadd (vscale (v0 (lin V u)) (col0 U)) (vscale (v1 (lin V u)) (col1 U)))).
  { intro u. rewrite E. apply (candidate_essential 1 U V HU). }
  destruct (rotation_cols U HU) as (A1 & A2 & A3 & A4 & A5 & A6 & C1 & C2 & C3).
  assert (T : forall a b, s * (a * dot t (col0 U) + b * dot t (col1 U)) = 0).
  { intros a b. specialize (E' (lin (transpose V) (V3 a b 0))). rewrite orth_tr_r in E' by now apply rot_orth. cbn [v0 v1] in E'.
    apply (f_equal (dot t)) in E'. rewrite !dot_vscale_r, dot_cross_l, dot_vadd_r, !dot_vscale_r in E'. lra. }
  assert (T0 : dot t (col0 U) = 0). { specialize (T 1 0). destruct (Rmult_integral _ _ T); [contradiction|lra]. }
  assert (T1 : dot t (col1 U) = 0). { specialize (T 0 1). destruct (Rmult_integral _ _ T); [contradiction|lra]. }
  set (sg := dot t (col2 U)).
  assert (TE : t = vscale sg (col2 U)).
  { rewrite (rot_expand U t HU) at 1. rewrite T0, T1. fold sg. destruct U. geoc. apply V3_eq; ring. }
  assert (SG : sg = 1 \/ sg = -1).
  { assert (Q : sg * sg = 1) by (rewrite TE, dot_vscale, dot_vscale_r, A3 in Ht; lra).
    assert (Q' : (sg - 1) * (sg + 1) = 0) by lra. apply Rmult_integral in Q'. destruct Q'; [left|right]; lra. }
  assert (SS : sg * sg = 1) by (destruct SG as [-> | ->]; ring).
  (* coordinates of A u along the columns of U *)
  assert (P1 : forall u, k * sg * dot (lin A u) (col0 U) = s * v1 (lin V u)).
  { intro u. specialize (E' u). rewrite TE, cross_vscale_l, vscale_vscale in E'.
    apply (f_equal (dot (col1 U))) in E'. rewrite !dot_vscale_r, dot_vadd_r, !dot_vscale_r, A2, (dot_comm (col1 U) (col0 U)), A4 in E'.
    rewrite triple, (cross_anti (col1 U)), (cross_anti (col2 U) (col1 U)), C2 in E' || rewrite triple in E'.
    replace (cross (col1 U) (col2 U)) with (col0 U) in E' by now rewrite C2.
    rewrite ?vscale_vscale, ?dot_vscale_r in E'. lra. }
  assert (P0 : forall u, - (k * sg) * dot (lin A u) (col1 U) = s * v0 (lin V u)).
  { intro u. specialize (E' u). rewrite TE, cross_vscale_l, vscale_vscale in E'.
    apply (f_equal (dot (col0 U))) in E'. rewrite !dot_vscale_r, dot_vadd_r, !dot_vscale_r, A1, A4 in E'.
    rewrite triple, (cross_anti (col0 U) (col2 U)), C3, dot_vscale_r in E'. lra. }
  assert (KS : k * k = s * s).
  { pose proof (P1 (lin (transpose V) (V3 0 1 0))) as Q. rewrite orth_tr_r in Q by now apply rot_orth. cbn [v1] in Q.
    pose proof (P1 (lin (transpose A) (col0 U))) as Q'. rewrite orth_tr_r, A1 in Q' by now apply rot_orth.
    set (x := dot (lin A (lin (transpose V) (V3 0 1 0))) (col0 U)) in *. set (y := v1 (lin V (lin (transpose A) (col0 U)))) in *.
    assert (XY : x = y).
    { unfold x, y. rewrite (dot_comm _ (col0 U)), <- tr_dot, dot_comm, tr_dot. destruct (lin V _). unfold dot. cbn. ring. }
    rewrite XY in Q. transitivity ((k * sg) * (k * sg)); [transitivity (k * k * (sg * sg)); [rewrite SS|]; ring|].
    transitivity ((k * sg) * (s * y)); [f_equal; lra|]. transitivity (s * (k * sg * y)); [ring|]. rewrite Q. ring. }
  set (e := - (s / (k * sg))).
  assert (NK : k * sg <> 0) by (apply mul_nz; auto; destruct SG; lra).
  assert (EE : e = 1 \/ e = -1).
  { assert (Q : e * e = 1). { unfold e. replace (- (s / (k * sg)) * - (s / (k * sg))) with (s * s / (k * k * (sg * sg))) by (field; split; auto; intros ->; lra).
      rewrite SS, KS. field. auto. }
    assert (Q' : (e - 1) * (e + 1) = 0) by lra. apply Rmult_integral in Q'. destruct Q'; [left|right]; lra. }
  exists e, sg. split; auto. split; auto. split; [|exact TE].
  assert (D0 : forall u, dot (lin A u) (col0 U) = dot (lin (candidate e U V) u) (col0 U)).
  { intro u. rewrite cand_dot0 by auto. apply (Rmult_eq_reg_l (k * sg)); auto. rewrite P1. unfold e. field. split; auto. intros ->. lra. }
  assert (D1 : forall u, dot (lin A u) (col1 U) = dot (lin (candidate e U V) u) (col1 U)).
  { intro u. rewrite cand_dot1 by auto. apply (Rmult_eq_reg_l (- (k * sg))); [|lra]. rewrite P0. unfold e. field. split; auto. intros ->. lra. }
  set (B := candidate e U V) in *. assert (HB : is_rotation B) by now apply candidate_rotation.
  assert (F0 : lin (transpose A) (col0 U) = lin (transpose B) (col0 U)).
  { apply dot_ext. intro w. rewrite !tr_dot, (dot_comm (col0 U)), D0. apply dot_comm. }
  assert (F1 : lin (transpose A) (col1 U) = lin (transpose B) (col1 U)).
  { apply dot_ext. intro w. rewrite !tr_dot, (dot_comm (col1 U)), D1. apply dot_comm. }
  assert (F2 : lin (transpose A) (col2 U) = lin (transpose B) (col2 U)).
  { rewrite <- C1, !(proj2 (rot_tr _ HA)), !(proj2 (rot_tr _ HB)). now rewrite F0, F1. }
  assert (F : transpose A = transpose B).
  { apply lin_ext. intro v. rewrite (rot_expand U v HU). rewrite !lin_add, !lin_scale. now rewrite F0, F1, F2. }
  destruct A, B. unfold transpose in F. cbn in F. injection F. intros. apply M3_eq; auto.
Qed.

(** * Signs of depths *)
Lemma signum_pos : forall d, 0 < d -> signum d = 1%Z.
Proof. intros. unfold signum. rewrite (proj2 (r_lt_spec 0 d)) by auto. rewrite (proj2 (r_lt_no d 0)) by lra. reflexivity. Qed.
Lemma signum_neg : forall d, d < 0 -> signum d = (-1)%Z.
Proof. intros. unfold signum. rewrite (proj2 (r_lt_spec d 0)) by auto. rewrite (proj2 (r_lt_no 0 d)) by lra. reflexivity. Qed.
Lemma signum_0 : signum 0 = 0%Z.
Proof. unfold signum. rewrite (proj2 (r_lt_no 0 0)) by lra. reflexivity. Qed.
Lemma signum_mul : forall a b, signum (a * b) = (signum a * signum b)%Z.
Proof.
  intros. destruct (Rtotal_order a 0) as [A|[->|A]]; [| rewrite Rmult_0_l, signum_0; reflexivity |];
  (destruct (Rtotal_order b 0) as [B|[->|B]]; [| rewrite Rmult_0_r, signum_0; now rewrite Z.mul_0_r |]).
  - rewrite (signum_neg a), (signum_neg b), signum_pos; auto. replace (a * b) with ((- a) * (- b)) by ring. apply Rmult_lt_0_compat; lra.
  - rewrite (signum_neg a), (signum_pos b), signum_neg; auto. assert (0 < (- a) * b) by (apply Rmult_lt_0_compat; lra). lra.
  - rewrite (signum_pos a), (signum_neg b), signum_neg; auto. assert (0 < a * (- b)) by (apply Rmult_lt_0_compat; lra). lra.
  - rewrite (signum_pos a), (signum_pos b), signum_pos; auto. now apply Rmult_lt_0_compat.
Qed.
Lemma signum_scale : forall k d, 0 < k -> signum (k * d) = signum d.
Proof. intros. rewrite signum_mul, (signum_pos k) by auto. lia. Qed.
Lemma signum_opp : forall d, signum (- d) = (- signum d)%Z.
Proof. intros. replace (- d) with (-1 * d) by ring. rewrite signum_mul, (signum_neg (-1)) by lra. lia. Qed.
Lemma signum_inv : forall d, signum (/ d) = signum d.
Proof.
  intros d. destruct (Rtotal_order d 0) as [A|[->|A]]; [|now rewrite Rinv_0|].
  - rewrite !signum_neg; auto. now apply Rinv_lt_0_compat.
  - rewrite !signum_pos; auto. now apply Rinv_0_lt_compat.
Qed.

Lemma cross_zero_dot : forall u, u <> zero3 -> 0 < dot u u.
Proof. intros u H. pose proof (dot_nonneg u). destruct (Rle_lt_or_eq_dec _ _ H0); auto. elim H. apply dot_zero. auto. Qed.
Lemma vt_cross : forall b u, dot (cross (cross b u) b) u = dot (cross b u) (cross b u).
Proof. intros [] []. geoc. ring. Qed.
Lemma vt_cross_b : forall b u, dot (cross (cross b u) b) b = 0.
Proof. intros [] []. geoc. ring. Qed.
Lemma vt_det : forall b u w, det3 (M3 (v0 b) (v1 b) (v2 b) (v0 (cross (cross b u) b)) (v1 (cross (cross b u) b)) (v2 (cross (cross b u) b)) (v0 w) (v1 w) (v2 w)) = dot b b * dot (cross b u) w.
Proof. intros [] [] []. geoc. ring. Qed.
Lemma det_mid_scale : forall b k n w, det3 (M3 (v0 b) (v1 b) (v2 b) (v0 (vscale k n)) (v1 (vscale k n)) (v2 (vscale k n)) (v0 w) (v1 w) (v2 w)) =
  k * det3 (M3 (v0 b) (v1 b) (v2 b) (v0 n) (v1 n) (v2 n) (v0 w) (v1 w) (v2 w)).
Proof. intros [] k [] []. geoc. ring. Qed.
Lemma dvec_cross : forall a b, dvec3_cross a b = cross a b.
Proof. reflexivity. Qed.
Lemma dvec_dot : forall a b, dvec3_dot a b = dot a b.
Proof. reflexivity. Qed.
Lemma cc_nonzero : forall b u, cross b u <> zero3 -> cross (cross b u) b <> zero3.
Proof.
  intros b u H K. pose proof (cross_zero_dot _ H) as P. rewrite <- vt_cross, K in P. destruct u. geo. lra.
Qed.
Lemma z_signs_eq : forall b A c, let u := h3 (mx c) in let rtv := lin (transpose A) (h3 (mxp c)) in
  cross b u <> zero3 ->
  z_signs b A c = ((signum (dot (cross b u) (cross u rtv)) * signum (dot (cross (cross b u) b) rtv))%Z, signum (dot (cross b u) (cross u rtv))).
Proof.
  intros b A c u rtv H. unfold z_signs. cbv zeta. change dvec3_cross with cross. change dvec3_dot with dot. rewrite det_det3. fold (h3 (mx c)). fold u.
  replace (V3 (m0 A * px (mxp c) + m1 A * py (mxp c) + m2 A) _ _) with rtv by (unfold rtv, h3; destruct A; geoc; apply V3_eq; ring).
  pose proof (cc_nonzero b u H) as N. destruct (to_unit_spec _ N) as [U _]. rewrite U. unfold unit_of.
  set (n := cross (cross b u) b) in *. assert (P : 0 < 1 / sqrt (dot n n)) by (apply Rdiv_lt_0_compat; [lra|now apply norm_pos]).
  rewrite det_mid_scale, signum_scale by auto. pose proof (vt_det b u (cross u rtv)) as D. fold n in D. rewrite D.
  assert (B : 0 < dot b b). { apply cross_zero_dot. intros ->. apply H. destruct u. geo. apply V3_eq; ring. }
  rewrite signum_scale, dot_vscale, signum_scale by auto. reflexivity.
Qed.
Definition base (A : mat3) (t : vec3) : vec3 := vscale (-1) (lin (transpose A) t).
Lemma sum_fold : forall b A l s sp, fold_left (fun '(s_sum, sp_sum) c => let '(s, sp) := z_signs b A c in (s_sum + s, sp_sum + sp)%Z) l (s, sp) =
  (s + fold_right Z.add 0 (map (fun c => fst (z_signs b A c)) l), sp + fold_right Z.add 0 (map (fun c => snd (z_signs b A c)) l))%Z.
Proof.
  induction l; intros; cbn [fold_left map fold_right]; [f_equal; lia|]. destruct (z_signs b A a) as [x y] eqn:E. rewrite IHl. cbn [fst snd]. f_equal; lia.
Qed.
Lemma z_sum_eq : forall l A t, z_sign_sum l A t = fold_right Z.add 0%Z (map (fun c => (fst (z_signs (base A t) A c) + snd (z_signs (base A t) A c))%Z) l).
Proof.
  intros l A t. unfold z_sign_sum.
  replace (V3 (- m0 A * v0 t - m1 A * v1 t - m2 A * v2 t) _ _) with (base A t) by (unfold base; destruct A, t; geoc; apply V3_eq; ring).
  rewrite sum_fold. clear. induction l; cbn [map fold_right]; [reflexivity|]. cbn [fst snd] in *. lia.
Qed.
Lemma base_cross : forall A t u, is_rotation A -> lin A (cross (base A t) u) = vscale (-1) (cross t (lin A u)).
Proof. intros A t u H. rewrite (proj2 H). unfold base. rewrite lin_scale, orth_tr_r by now apply rot_orth. now rewrite cross_vscale_l. Qed.
Lemma base_cross_nz : forall A t u, is_rotation A -> cross t (lin A u) <> zero3 -> cross (base A t) u <> zero3.
Proof.
  intros A t u H N K. apply N. assert (Q := base_cross A t u H). rewrite K in Q.
  replace (cross t (lin A u)) with (vscale (-1) (vscale (-1) (cross t (lin A u)))) by (rewrite vscale_vscale; replace (-1 * -1) with 1 by ring; apply vscale_1).
  rewrite <- Q. destruct A. geoc. apply V3_eq; ring.
Qed.
Section Depths.
Variables (A : mat3) (t : vec3) (c : pmatch) (al be : R).
Hypothesis (HA : is_rotation A) (HD : depths A t c al be) (HN : cross t (lin A (h3 (mx c))) <> zero3).
Let u := h3 (mx c).
Let rtv := lin (transpose A) (h3 (mxp c)).
Let b := base A t.
Lemma depth_eq : vscale al u = vadd b (vscale be rtv).
Proof.
  unfold rtv, b, base. rewrite <- (lin_scale _ be). unfold depths in HD. rewrite <- HD, lin_add, lin_scale, orth_tr by now apply rot_orth.
  fold u. destruct (lin (transpose A) t), u. geoc. apply V3_eq; ring.
Qed.
Lemma depth_cross : vscale be (cross u rtv) = cross b u.
Proof.
  rewrite <- cross_vscale_r. assert (Q : cross u (vscale al u) = cross u (vadd b (vscale be rtv))) by now rewrite depth_eq.
  rewrite cross_vscale_r, cross_self, cross_add_r, (cross_anti u b) in Q.
  destruct (cross u (vscale be rtv)), (cross b u). geo. injection Q as Q0 Q1 Q2. apply V3_eq; lra.
Qed.
Lemma depth_be : be <> 0.
Proof. intros Z. apply (base_cross_nz A t u HA HN). fold b. rewrite <- depth_cross, Z. destruct (cross u rtv). geo. apply V3_eq; ring. Qed.
Lemma depth_sp : signum (dot (cross b u) (cross u rtv)) = signum be.
Proof.
  pose proof depth_be as N. assert (P := cross_zero_dot _ (base_cross_nz A t u HA HN)). fold b in P.
  assert (Q : be * dot (cross b u) (cross u rtv) = dot (cross b u) (cross b u)) by (rewrite <- dot_vscale_r, depth_cross; reflexivity).
  replace (dot (cross b u) (cross u rtv)) with (dot (cross b u) (cross b u) * / be) by (rewrite <- Q; field; auto).
  now rewrite signum_scale, signum_inv.
Qed.
Lemma depth_m : (signum be * signum (dot (cross (cross b u) b) rtv))%Z = signum al.
Proof.
  assert (P := cross_zero_dot _ (base_cross_nz A t u HA HN)). fold b in P.
  assert (Q : be * dot (cross (cross b u) b) rtv = al * dot (cross b u) (cross b u)).
  { rewrite <- (vt_cross b u), <- dot_vscale_r, <- dot_vscale_r, depth_eq, dot_vadd_r, vt_cross_b. ring. }
  rewrite <- signum_mul, Q, signum_mul, (signum_pos (dot _ _)) by auto. lia.
Qed.
Lemma z_signs_true : z_signs b A c = (signum al, signum be).
Proof.
  pose proof (z_signs_eq b A c) as Z. cbv zeta in Z. fold u rtv in Z. rewrite Z by now apply base_cross_nz. rewrite depth_sp. f_equal. apply depth_m.
Qed.
End Depths.

(** * The wrong candidates *)
Lemma z_signs_flip : forall A t c al be, is_rotation A -> depths A t c al be -> cross t (lin A (h3 (mx c))) <> zero3 ->
  z_signs (base A (vscale (-1) t)) A c = (- signum al, - signum be)%Z.
Proof.
  intros A t c al be HA HD HN. rewrite <- !signum_opp. apply z_signs_true; auto.
  - unfold depths in *. replace (vscale (- be) (h3 (mxp c))) with (vscale (-1) (vscale be (h3 (mxp c)))) by (rewrite vscale_vscale; f_equal; ring).
    rewrite <- HD. destruct (lin A (h3 (mx c))), t. geoc. apply V3_eq; ring.
  - rewrite cross_vscale_l. intro K. apply HN. destruct (cross t (lin A (h3 (mx c)))). geo. injection K as K0 K1 K2. apply V3_eq; lra.
Qed.
(** B turns half round the baseline after A. *)
Definition twisted (A B : mat3) (t : vec3) : Prop :=
  forall v, lin (transpose B) v = vadd (vscale (2 * dot t v) (lin (transpose A) t)) (vscale (-1) (lin (transpose A) v)).
Lemma z_signs_twist : forall A B t sg c al be, is_rotation A -> dot t t = 1 -> (sg = 1 \/ sg = -1) -> twisted A B t ->
  depths A t c al be -> cross t (lin A (h3 (mx c))) <> zero3 -> 0 < al -> 0 < be ->
  (fst (z_signs (base B (vscale sg t)) B c) + snd (z_signs (base B (vscale sg t)) B c) = 0)%Z.
Proof.
  intros A B t sg c al be HA Ht Hs HB HD HN Pa Pb.
  set (b := base A t). set (u := h3 (mx c)). set (rtv := lin (transpose A) (h3 (mxp c))).
  assert (EB : base B (vscale sg t) = vscale sg b).
  { unfold base, b. rewrite HB. rewrite dot_vscale_r, Ht. unfold base. rewrite lin_scale. destruct (lin (transpose A) t). geoc. apply V3_eq; ring. }
  assert (ER : lin (transpose B) (h3 (mxp c)) = vadd (vscale (-2 * dot t (h3 (mxp c))) b) (vscale (-1) rtv)).
  { rewrite HB. unfold b, base, rtv. rewrite vscale_vscale. do 2 f_equal. ring. }
  assert (NB : cross b u <> zero3) by now apply base_cross_nz.
  pose proof (z_signs_eq (vscale sg b) B c) as Z. cbv zeta in Z. fold u in Z. rewrite EB, Z, ER.
  2: { rewrite cross_vscale_l. intro K. apply NB. destruct (cross b u). geo. injection K as K0 K1 K2. destruct Hs as [-> | ->]; apply V3_eq; lra. }
  cbn [fst snd]. rewrite cross_vscale_l.
  set (x := signum (dot (vscale sg (cross b u)) _)).
  assert (M : signum (dot (cross (vscale sg (cross b u)) (vscale sg b)) (vadd (vscale (-2 * dot t (h3 (mxp c))) b) (vscale (-1) rtv))) = (-1)%Z).
  { rewrite cross_vscale_l, cross_vscale_r, !dot_vscale, dot_vadd_r, !dot_vscale_r, vt_cross_b.
    pose proof (depth_m A t c al be HA HD HN) as DM. fold b u rtv in DM. rewrite (signum_pos al), (signum_pos be) in DM by auto.
    replace (sg * (sg * (-2 * dot t (h3 (mxp c)) * 0 + -1 * dot (cross (cross b u) b) rtv))) with (- ((sg * sg) * dot (cross (cross b u) b) rtv)) by ring.
    rewrite signum_opp. replace (sg * sg) with 1 by (destruct Hs as [-> | ->]; ring). rewrite Rmult_1_l. lia. }
  rewrite M. lia.
Qed.
Lemma candidate_twisted : forall e U V sg, (e = 1 \/ e = -1) -> is_rotation U -> is_rotation V -> (sg = 1 \/ sg = -1) ->
  twisted (candidate e U V) (candidate (- e) U V) (vscale sg (col2 U)).
Proof.
  intros e U V sg He HU HV Hs v. set (A := candidate e U V). set (B := candidate (- e) U V).
  assert (He' : - e = 1 \/ - e = -1) by (destruct He; [right|left]; lra).
  assert (B0 : lin (transpose B) (col0 U) = vscale (-1) (lin (transpose A) (col0 U))).
  { apply dot_ext. intro w. rewrite dot_vscale, !tr_dot, !(dot_comm (col0 U)). unfold A, B. rewrite !cand_dot0 by auto. ring. }
  assert (B1 : lin (transpose B) (col1 U) = vscale (-1) (lin (transpose A) (col1 U))).
  { apply dot_ext. intro w. rewrite dot_vscale, !tr_dot, !(dot_comm (col1 U)). unfold A, B. rewrite !cand_dot1 by auto. ring. }
  assert (B2 : lin (transpose B) (col2 U) = lin (transpose A) (col2 U)).
  { apply dot_ext. intro w. rewrite !tr_dot, !(dot_comm (col2 U)). unfold A, B. now rewrite !cand_dot2 by auto. }
  rewrite dot_vscale, lin_scale, vscale_vscale. replace (2 * (sg * dot (col2 U) v) * sg) with (2 * dot (col2 U) v) by (destruct Hs as [-> | ->]; ring).
  assert (X : forall M, lin M v = vadd (vadd (vscale (dot v (col0 U)) (lin M (col0 U))) (vscale (dot v (col1 U)) (lin M (col1 U)))) (vscale (dot v (col2 U)) (lin M (col2 U)))).
  { intro M. rewrite <- !lin_scale, <- !lin_add. now rewrite <- (rot_expand U v HU). }
  rewrite (X (transpose B)), (X (transpose A)), B0, B1, B2, (dot_comm (col2 U) v).
  destruct (lin (transpose A) (col0 U)), (lin (transpose A) (col1 U)), (lin (transpose A) (col2 U)). geoc. apply V3_eq; ring.
Qed.
(** * Picking the pose *)
Lemma sum_const : forall (l : list pmatch) f k, (forall c, In c l -> f c = k) -> fold_right Z.add 0%Z (map f l) = (k * Z.of_nat (length l))%Z.
Proof. induction l; intros f k H; cbn [map fold_right length]; [lia|]. rewrite (H a), (IHl f k); [lia|intros; apply H; now right|now left]. Qed.
Lemma pick_spec : forall cands l, length cands = 4%nat -> l <> [] ->
  exists i s A t, pick_best_Rt cands l = Ok (i, s) /\ nth_error cands i = Some (A, t) /\ z_sign_sum l A t = s /\
    (forall j B u, nth_error cands j = Some (B, u) -> (z_sign_sum l B u <= s)%Z /\ ((j < i)%nat -> (z_sign_sum l B u < s)%Z)).
Proof.
  intros cands l L N. destruct cands as [|[A0 t0] [|[A1 t1] [|[A2 t2] [|[A3 t3] [|? ?]]]]]; try discriminate.
  destruct l as [|c l]; [easy|]. unfold pick_best_Rt. cbn [fold_left]. set (L' := c :: l). clearbody L'. clear L N c l.
  set (s0 := z_sign_sum L' A0 t0). set (s1 := z_sign_sum L' A1 t1). set (s2 := z_sign_sum L' A2 t2). set (s3 := z_sign_sum L' A3 t3).
  assert (Q : forall i s A t, nth_error [(A0, t0); (A1, t1); (A2, t2); (A3, t3)] i = Some (A, t) -> z_sign_sum L' A t = s ->
     (nth i [s0; s1; s2; s3] 0%Z = s) -> (s0 <= s /\ s1 <= s /\ s2 <= s /\ s3 <= s)%Z ->
     (forall j, (j < i)%nat -> (nth j [s0; s1; s2; s3] 0 < s)%Z) ->
     exists i' s' A t, @Ok (nat * Z) (i, s) = Ok (i', s') /\ nth_error [(A0, t0); (A1, t1); (A2, t2); (A3, t3)] i' = Some (A, t) /\ z_sign_sum L' A t = s' /\
    (forall j B u, nth_error [(A0, t0); (A1, t1); (A2, t2); (A3, t3)] j = Some (B, u) -> (z_sign_sum L' B u <= s')%Z /\ ((j < i')%nat -> (z_sign_sum L' B u < s')%Z))).
  { intros i s A t E1 E2 E3 E4 E5. exists i, s, A, t. repeat split; auto; destruct j as [|[|[|[|[|j]]]]]; cbn in H; try discriminate; injection H as <- <-.
    all: try (unfold s0, s1, s2, s3 in *; lia). all: intro K; specialize (E5 _ K); cbn [nth] in E5; exact E5. }
  destruct (s0 <? s1)%Z eqn:E1; fold s2; [apply Z.ltb_lt in E1|apply Z.ltb_ge in E1];
    match goal with |- context [(?x <? s2)%Z] => destruct (x <? s2)%Z eqn:E2 end; fold s3; [apply Z.ltb_lt in E2|apply Z.ltb_ge in E2|apply Z.ltb_lt in E2|apply Z.ltb_ge in E2];
    match goal with |- context [(?x <? s3)%Z] => destruct (x <? s3)%Z eqn:E3 end; try apply Z.ltb_lt in E3; try apply Z.ltb_ge in E3;
    (eapply Q; [reflexivity|reflexivity|reflexivity|lia|intros [|[|[|j]]] K; cbn [nth]; lia]).
Qed.
Lemma decompose_members : forall U Vt A t, In (A, t) (decompose_to_Rt U Vt) <->
  exists e sg, (e = 1 \/ e = -1) /\ (sg = 1 \/ sg = -1) /\ A = candidate e (proper U) (proper Vt) /\ t = vscale sg (col2 (proper U)).
Proof.
  intros U Vt A t. rewrite decompose_eq. cbv zeta. set (PU := proper U). set (PV := proper Vt). cbn [In]. split.
  - intros [H|[H|[H|[H|[]]]]]; injection H as <- <-; [exists 1, 1|exists 1, (-1)|exists (-1), 1|exists (-1), (-1)]; rewrite ?vscale_1; auto 10.
  - intros (e & sg & [-> | ->] & [-> | ->] & -> & ->); rewrite ?vscale_1; auto.
Qed.
Lemma decompose_sound : forall U Vt A t s, orthogonal U -> orthogonal Vt -> In (A, t) (decompose_to_Rt U Vt) ->
  is_rotation A /\ dot t t = 1 /\ exists k, (k = 1 \/ k = -1) /\ forall u, vscale (k * s) (cross t (lin A u)) = lin U (lin (diag s s 0) (lin Vt u)).
Proof.
  intros U Vt A t s HU HV HI. apply decompose_members in HI. destruct HI as (e & sg & He & Hs & -> & ->).
  pose proof (proper_rotation U HU) as RU. pose proof (proper_rotation Vt HV) as RV.
  destruct (proper_sign U) as (a & Ha & EU). destruct (proper_sign Vt) as (b & Hb & EV).
  split; [now apply candidate_rotation|]. split.
  - destruct (rotation_cols _ RU) as (_ & _ & A3 & _). rewrite dot_vscale, dot_vscale_r, A3. destruct Hs as [-> | ->]; ring.
  - exists (- (a * b * e * sg)). split; [destruct Ha as [-> | ->], Hb as [-> | ->], He as [-> | ->], Hs as [-> | ->]; lra|].
    intro u. rewrite EU, EV, cross_vscale_l. destruct (candidate_essential e (proper U) (proper Vt) RU s u) as [C D]. rewrite C, !lin_scale, D, !vscale_vscale.
    f_equal. destruct He as [-> | ->], Hs as [-> | ->]; ring.
Qed.
Section Pose.
Variables (A : mat3) (t : vec3) (l : list pmatch).
Hypothesis (HA : is_rotation A) (Ht : dot t t = 1)
  (HD : forall c, In c l -> exists al be, 0 < al /\ 0 < be /\ depths A t c al be /\ cross t (lin A (h3 (mx c))) <> zero3).
Lemma sum_true : z_sign_sum l A t = (2 * Z.of_nat (length l))%Z.
Proof.
  rewrite z_sum_eq. apply sum_const. intros c Hc. destruct (HD c Hc) as (al & be & Pa & Pb & D & N).
  rewrite (z_signs_true A t c al be) by auto. cbn [fst snd]. rewrite !signum_pos; auto.
Qed.
Lemma sum_flip : z_sign_sum l A (vscale (-1) t) = (-2 * Z.of_nat (length l))%Z.
Proof.
  rewrite z_sum_eq. apply sum_const. intros c Hc. destruct (HD c Hc) as (al & be & Pa & Pb & D & N).
  rewrite (z_signs_flip A t c al be) by auto. cbn [fst snd]. rewrite !signum_pos; auto.
Qed.
Lemma sum_twist : forall B sg, (sg = 1 \/ sg = -1) -> twisted A B t -> z_sign_sum l B (vscale sg t) = 0%Z.
Proof.
  intros B sg Hs HB. rewrite z_sum_eq, (sum_const l _ 0%Z); [reflexivity|]. intros c Hc. destruct (HD c Hc) as (al & be & Pa & Pb & D & N).
  now apply (z_signs_twist A B t sg c al be).
Qed.
End Pose.
Lemma recover_pose : forall k s A t U Vt l, is_rotation A -> dot t t = 1 -> orthogonal U -> orthogonal Vt -> k <> 0 -> s <> 0 ->
  (forall u, vscale k (cross t (lin A u)) = lin U (lin (diag s s 0) (lin Vt u))) -> l <> [] ->
  (forall c, In c l -> exists al be, 0 < al /\ 0 < be /\ depths A t c al be /\ cross t (lin A (h3 (mx c))) <> zero3) ->
  exists i, pick_best_Rt (decompose_to_Rt U Vt) l = Ok (i, 2 * Z.of_nat (length l))%Z /\ nth_error (decompose_to_Rt U Vt) i = Some (A, t).
Proof.
  intros k s A t U Vt l HA Ht HU HV K S' E N HD.
  pose proof (proper_rotation U HU) as RU. pose proof (proper_rotation Vt HV) as RV.
  destruct (proper_sign U) as (a & Ha & EU). destruct (proper_sign Vt) as (b & Hb & EV).
  assert (AA : a * a = 1) by (destruct Ha as [-> | ->]; ring). assert (BB : b * b = 1) by (destruct Hb as [-> | ->]; ring).
  assert (Q : exists e sg, (e = 1 \/ e = -1) /\ (sg = 1 \/ sg = -1) /\ A = candidate e (proper U) (proper Vt) /\ t = vscale sg (col2 (proper U))).
  { apply (decompose_complete (k * (a * b)) s); auto.
    - apply mul_nz; auto. apply mul_nz; intro Z; rewrite Z in *; lra.
    - intro u. replace (vscale (k * (a * b)) (cross t (lin A u))) with (vscale (a * b) (vscale k (cross t (lin A u)))) by (rewrite vscale_vscale; f_equal; ring).
      rewrite E, EU, EV, !lin_scale, !vscale_vscale. etransitivity; [|apply vscale_1]. f_equal. transitivity (a * a * (b * b)); [ring|rewrite AA, BB; ring]. }
  destruct Q as (e & sg & He & Hs & EA & ET).
  assert (L4 : length (decompose_to_Rt U Vt) = 4%nat) by now rewrite decompose_eq.
  destruct (pick_spec _ l L4 N) as (i & s' & A' & t' & P & NE & SE & MX).
  pose proof (sum_true A t l HA HD) as ST.
  assert (LP : (0 < Z.of_nat (length l))%Z) by (destruct l; [easy|cbn [length]; lia]).
  assert (IN : In (A, t) (decompose_to_Rt U Vt)) by (apply decompose_members; eauto 10).
  apply In_nth_error in IN. destruct IN as (j & J). destruct (MX j A t J) as [GE _]. rewrite ST in GE.
  assert (IN' := nth_error_In _ _ NE). apply decompose_members in IN'. destruct IN' as (e' & sg' & He' & Hs' & EA' & ET').
  assert (EQ : A' = A /\ t' = t).
  { assert (CE : e' = e \/ e' = - e) by (destruct He as [-> | ->], He' as [-> | ->]; lra).
    assert (CS : sg' = sg \/ sg' = - sg) by (destruct Hs as [-> | ->], Hs' as [-> | ->]; lra).
    destruct CE as [-> | ->].
    - destruct CS as [-> | ->]; [split; congruence|]. exfalso.
      assert (X : t' = vscale (-1) t) by (rewrite ET', ET, vscale_vscale; f_equal; ring).
      replace A' with A in SE by congruence. rewrite X, (sum_flip A t l HA HD) in SE. lia.
    - exfalso. assert (SS : sg * sg = 1) by (destruct Hs as [-> | ->]; ring).
      assert (X : t' = vscale (sg' * sg) t) by (rewrite ET', ET, vscale_vscale; f_equal; rewrite Rmult_assoc, SS; ring).
      assert (W : twisted A A' t) by (rewrite EA, EA', ET; now apply candidate_twisted).
      assert (Hss : sg' * sg = 1 \/ sg' * sg = -1) by (destruct Hs as [-> | ->], Hs' as [-> | ->]; lra).
      rewrite X, (sum_twist A t l HA Ht HD A' _ Hss W) in SE. lia. }
  destruct EQ as [-> ->]. exists i. split; auto. rewrite P. congruence.
Qed.
