(** C162: estimation from normalized matches. *)
From Coq Require Import Reals Lra Permutation.
From Verif Require Import Base ProjModel GeoSpec ProjSpec NormProofs ProjProps MarkProofs NrModel NrSpec NrProofs.
Local Open Scope R_scope.

(** Whatever estimation is used, if it flags the matches that agree with its result up
    to the tolerance, so does the estimation from normalized matches, with the tolerance
    in the units of the caller; the matches come back with their coordinates. *)
Theorem C162_homography : forall ransac l tol, 0 < tol -> spread mx l -> spread mxp l ->
  (forall l t, 0 < t -> flagged agrees_h l t (ransac l t)) -> flagged agrees_h l tol (homography_norm_ransac ransac l tol).
Proof.
  intros ransac l tol T S S' H. unfold homography_norm_ransac.
  pose proof (fun h l2 n => flagged_dn agrees_h denormalize_homography l tol h l2 n (fun st A c => agrees_h_dn st A tol c) S S') as Q.
  pose proof (sdp_pos l S') as D'. destruct (normalize_matches l) as [st l1]. cbn [fst] in D'.
  specialize (H l1 (tol / sdp st) ltac:(now apply Rdiv_lt_0_compat)). destruct (ransac l1 (tol / sdp st)) as [[h l2] n]. now apply Q.
Qed.
Print Assumptions C162_homography.
Theorem C162_fundamental : forall ransac l tol, 0 < tol -> spread mx l -> spread mxp l ->
  (forall l t, 0 < t -> flagged agrees_f l t (ransac l t)) -> flagged agrees_f l tol (fundamental_norm_ransac ransac l tol).
Proof.
  intros ransac l tol T S S' H. unfold fundamental_norm_ransac.
  pose proof (fun h l2 n => flagged_dn agrees_f denormalize_fundamental l tol h l2 n (fun st A c => agrees_f_dn st A tol c) S S') as Q.
  pose proof (sdp_pos l S') as D'. destruct (normalize_matches l) as [st l1]. cbn [fst] in D'.
  specialize (H l1 (tol / sdp st) ltac:(now apply Rdiv_lt_0_compat)). destruct (ransac l1 (tol / sdp st)) as [[h l2] n]. now apply Q.
Qed.
Print Assumptions C162_fundamental.

(** Estimations as demanded exist: any matrix, and the marking of C86 or C92 for it. *)
Lemma marked (agrees : mat3 -> R -> pmatch -> Prop) A t l l' n :
  (forall c c', same_match c c' -> agrees A t c <-> agrees A t c') ->
  Forall2 (fun c c' => same_match c c' /\ (inlier c' = true <-> agrees A t c)) l l' -> n = Z.of_nat (length (filter inlier l')) -> flagged agrees l t (A, l', n).
Proof.
  intros Cg F N. split; [|split; [|now right]].
  - clear N. induction F as [|c c' l l' [E _] F IH]; [constructor|]. cbn [map]. unfold same_match in E. rewrite E. now constructor.
  - clear N. induction F as [|c c' l l' [E G] F IH]; [easy|]. intros d [<-|I]; [|now apply IH]. rewrite G. now apply Cg.
Qed.
Example C162_example : (forall A l t, 0 < t -> flagged agrees_h l t (A, fst (homography_mark_inliers A l t), snd (homography_mark_inliers A l t))) /\
  (forall A l t, 0 < t -> flagged agrees_f l t (A, fst (fundamental_mark_inliers A l t), snd (fundamental_mark_inliers A l t))).
Proof.
  assert (Sm : forall c c', same_match c c' -> mx c = mx c' /\ mxp c = mxp c') by (intros c c' E; split; [now apply (f_equal mx) in E|now apply (f_equal mxp) in E]).
  split; intros A l t T.
  - pose proof (C86_mark A l t T) as M. destruct (homography_mark_inliers A l t) as [l' n]. destruct M as [M N]. apply marked; auto.
    intros c c' E. destruct (Sm _ _ E) as [E1 E2]. unfold agrees_h. now rewrite E1, E2.
  - pose proof (C92_mark A l t) as M. destruct (fundamental_mark_inliers A l t) as [l' n]. destruct M as [M N]. apply marked; auto.
    intros c c' E. destruct (Sm _ _ E) as [E1 E2]. unfold agrees_f. now rewrite E1, E2.
Qed.
