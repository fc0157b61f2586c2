(** Lemmas for C162. *)
From Coq Require Import Reals Lra Permutation.
From Verif Require Import Base ProjModel GeoSpec ProjSpec NormProofs ProjProps NrModel NrSpec.
Local Open Scope R_scope.

Definition dn (st : stats) (c : pmatch) : pmatch :=
  PM (from_norm (sm st) (sd st) (mx c)) (from_norm (smp st) (sdp st) (mxp c)) (cost c) (sigma c * sd st) (sigmap c * sdp st) (mid c) (midp c) (inlier c).
Lemma dn_list st l : denormalize_matches st l = map (dn st) l.
Proof. reflexivity. Qed.
Lemma to_from c d p : d <> 0 -> to_norm c d (from_norm c d p) = p.
Proof. intro D. destruct p. unfold to_norm, from_norm. cbn. f_equal; field; auto. Qed.
Lemma from_to c d p : d <> 0 -> from_norm c d (to_norm c d p) = p.
Proof. intro D. destruct p. unfold to_norm, from_norm. cbn. f_equal; field; auto. Qed.
Lemma dist_from c d p q : 0 < d -> distance (from_norm c d p) (from_norm c d q) = d * distance p q.
Proof.
  intro D. unfold distance, from_norm. cbn [px py].
  transitivity (sqrt (d * d) * sqrt ((px p - px q) * (px p - px q) + (py p - py q) * (py p - py q))); [|now rewrite sqrt_square by lra].
  rewrite <- sqrt_mult_alt by nra. f_equal. ring.
Qed.
Lemma dist_tol c d p q tol : 0 < d -> distance (from_norm c d p) (from_norm c d q) < tol <-> distance p q < tol / d.
Proof.
  intro D. rewrite dist_from by auto. split; intro H.
  - apply (Rmult_lt_reg_l d); [auto|]. replace (d * (tol / d)) with tol by (field; lra). exact H.
  - apply (Rmult_lt_compat_l d) in H; [|auto]. replace (d * (tol / d)) with tol in H by (field; lra). exact H.
Qed.
Lemma agrees_h_dn st h tol c : 0 < sd st -> 0 < sdp st -> agrees_h (denormalize_homography st h) tol (dn st c) <-> agrees_h h (tol / sdp st) c.
Proof.
  intros D D'. unfold agrees_h. cbn [dn mx mxp]. split.
  - intros (y & M & L). rewrite C61_homography, to_from in M by lra. exists (to_norm (smp st) (sdp st) y). split; [exact M|].
    apply (dist_tol (smp st)); [auto|]. now rewrite from_to by lra.
  - intros (y & M & L). exists (from_norm (smp st) (sdp st) y). split; [rewrite C61_homography, !to_from by lra; exact M|]. now apply dist_tol.
Qed.
Lemma line_dn st f x : 0 < sd st -> 0 < sdp st ->
  let L' := lin (denormalize_fundamental st f) (h3 x) in let L := lin f (h3 (to_norm (sm st) (sd st) x)) in
  v0 L' = v0 L / sdp st /\ v1 L' = v1 L / sdp st.
Proof.
  intros D D'. cbv zeta. set (L' := lin (denormalize_fundamental st f) (h3 x)). set (L := lin f (h3 (to_norm (sm st) (sd st) x))).
  assert (Q : forall a b, dot (h3 (V2 a b)) L' = dot (h3 (to_norm (smp st) (sdp st) (V2 a b))) L) by (intros; apply C61_fundamental; lra).
  pose proof (Q 0 0) as Q0. pose proof (Q 1 0) as Q1. pose proof (Q 0 1) as Q2. clear Q. clearbody L L'.
  unfold dot, h3, to_norm in *. cbn [v0 v1 v2 px py] in *. unfold Rdiv in *. split; nra.
Qed.
Lemma agrees_f_dn st f tol c : 0 < sd st -> 0 < sdp st -> agrees_f (denormalize_fundamental st f) tol (dn st c) <-> agrees_f f (tol / sdp st) c.
Proof.
  intros D D'. unfold agrees_f. cbn [dn mx mxp]. cbv zeta.
  destruct (line_dn st f (from_norm (sm st) (sd st) (mx c)) D D') as [E0 E1]. rewrite E0, E1, !to_from by lra. clear E0 E1.
  assert (N : forall a, a / sdp st <> 0 <-> a <> 0).
  { intro a. split; intros H Z; apply H; [rewrite Z; unfold Rdiv; ring|]. replace a with (sdp st * (a / sdp st)) by (field; lra). rewrite Z. ring. }
  rewrite !N. split; intros (A & q & B & C); (split; [exact A|]).
  - rewrite C61_fundamental, to_from in B by lra. exists (to_norm (smp st) (sdp st) q). split; [exact B|]. apply (dist_tol (smp st)); [auto|]. now rewrite from_to by lra.
  - exists (from_norm (smp st) (sdp st) q). split; [rewrite C61_fundamental, !to_from by lra; exact B|]. now apply dist_tol.
Qed.
Lemma flagged_dn (agrees : mat3 -> R -> pmatch -> Prop) (den : stats -> mat3 -> mat3) l tol h l2 n :
  (forall st A c, 0 < sd st -> 0 < sdp st -> agrees (den st A) tol (dn st c) <-> agrees A (tol / sdp st) c) ->
  spread mx l -> spread mxp l ->
  let '(st, l1) := normalize_matches l in
  flagged agrees l1 (tol / sdp st) (h, l2, n) -> flagged agrees l tol (den st h, denormalize_matches st l2, n).
Proof.
  intros Hd S S'. pose proof (sd_pos l S) as D. pose proof (sdp_pos l S') as D'. pose proof (roundtrip l S S') as RT.
  destruct (normalize_matches l) as [st l1]. cbn [fst snd] in *. intros (P & F & N).
  rewrite dn_list in *. split; [|split].
  - rewrite <- RT. assert (C : forall k, map (set_inlier true) (map (dn st) k) = map (dn st) (map (set_inlier true) k)) by (intro k; rewrite !map_map; reflexivity).
    rewrite !C. now apply Permutation_map.
  - intros c I. apply in_map_iff in I as (c0 & <- & I). rewrite Hd by auto. cbn [dn inlier]. now apply F.
  - destruct N as [N|N]; [now left|right]. rewrite N. f_equal. clear. induction l2 as [|c k IH]; [reflexivity|]. cbn [map filter]. cbn [dn inlier] in *. destruct (inlier c); cbn [length]; now rewrite IH.
Qed.
