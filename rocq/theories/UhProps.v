(** C140: nx_usac_estimate_homography. *)
From Coq Require Import Permutation.
From Verif Require Import Base BaseLemmas Dbl UsacModel UsacSpec UsacProofs SiftProofs Gray RansacModel RansacSpec RansacProofs RansacMore UhModel UhSpec UhProofs UhEnds UhMain.
Local Open Scope Z_scope.

(** With fewer than four matches nothing is touched. *)
Theorem C140_few : forall P (good : model -> P -> bool) fit estimate_4pt check qsort cvt h junk junk_ids l max_n_iter rnd,
  Z.of_nat (length l) < 4 -> estimate good fit estimate_4pt check qsort cvt h junk junk_ids l max_n_iter rnd = Ok (h, l, 0, [], rnd).
Proof. intros P good fit e4 check qsort cvt h junk junk_ids l mx rnd L. unfold estimate. destruct (Z.ltb_spec (Z.of_nat (length l)) 4); [reflexivity|lia]. Qed.
Print Assumptions C140_few.

(** With at least four: the matches are kept (reordered), their flags are those of
    the returned matrix, the returned number counts them or is zero when the matrix
    fails the check.  The returned matrix is an accepted sample with the most
    inliers or what repeated estimation from its inliers gives, whichever has more;
    only when no sample was accepted it comes from the zero matrix.  At most
    max_n_iter - 1 samples are drawn, fewer only when the returned matrix has 200
    inliers.  [cvt] is the conversion of -DBL_MAX to int, undefined in C
    (C40_first_check_refuted). *)
Theorem C140_result : forall P (good : model -> P -> bool) fit estimate_4pt check qsort cvt h junk junk_ids l max_n_iter rnd h' l' n log rnd',
  (forall l, Permutation l (qsort l)) -> 4 <= Z.of_nat (length l) <= 2 ^ 24 -> cvt D_MINUS_MAX < 200 ->
  estimate good fit estimate_4pt check qsort cvt h junk junk_ids l max_n_iter rnd = Ok (h', l', n, log, rnd') ->
  exists ps, ps = map fst (qsort l) /\ Permutation (map fst l) ps /\ map fst l' = ps /\
    (forall p b, In (p, b) l' -> b = good h' p) /\
    n = (if check h' then Z.of_nat (length (filter snd l')) else 0) /\
    ((exists b g, accepted log b /\ (forall mo, accepted log mo -> check mo = true /\ support good mo ps <= support good b ps) /\
        refined good fit 4 ps 1 b g /\ h' = if support good b ps <? support good g ps then g else b) \/
     ((forall mo, ~ accepted log mo) /\ refined good fit 4 ps 1 (repeat D_ZERO 9) h')) /\
    n_samples log <= Z.max 0 (max_n_iter - 1) /\
    (n_samples log < max_n_iter - 1 -> 200 <= support good h' ps).
Proof. exact @uh_result. Qed.
Print Assumptions C140_result.

(** Every accepted sample comes from four of the best matches.  Partial: the third
    and the fourth may be the same, and random numbers that become 1.0f are
    excluded. *)
Theorem C140_sampled_partial : forall P (good : model -> P -> bool) fit estimate_4pt check qsort cvt h junk junk_ids l max_n_iter rnd h' l' n log rnd',
  (forall l, Permutation l (qsort l)) -> 4 <= Z.of_nat (length l) <= 2 ^ 24 -> Forall (fun r => 0 <= r < 2 ^ 32 - 128) rnd ->
  estimate good fit estimate_4pt check qsort cvt h junk junk_ids l max_n_iter rnd = Ok (h', l', n, log, rnd') ->
  forall mo, accepted log mo ->
  exists a b c d ps m0, NoDup [a; b; c] /\ d <> a /\ d <> b /\
    Forall (fun j => 0 <= j < Z.min (Z.of_nat (length l)) (9 + max_n_iter)) [a; b; c; d] /\
    Forall2 (fun j p => nth_error (map fst (qsort l)) (Z.to_nat j) = Some p) [a; b; c; d] ps /\
    estimate_4pt m0 ps = (mo, false).
Proof. exact @uh_sampled. Qed.
Print Assumptions C140_sampled_partial.

(** No access outside of the matches and no overflow: the call returns unless the
    random numbers run out in a loop that draws until the indices differ. *)
Theorem C140_safe_partial : forall P (good : model -> P -> bool) fit estimate_4pt check qsort cvt h junk junk_ids l max_n_iter rnd,
  (forall l, Permutation l (qsort l)) -> Z.of_nat (length l) <= 2 ^ 24 -> max_n_iter <= INT_MAX -> Forall (fun r => 0 <= r < 2 ^ 32 - 128) rnd ->
  estimate good fit estimate_4pt check qsort cvt h junk junk_ids l max_n_iter rnd = NoFuel \/
  exists r, estimate good fit estimate_4pt check qsort cvt h junk junk_ids l max_n_iter rnd = Ok r.
Proof. exact @uh_safe. Qed.
Print Assumptions C140_safe_partial.

(** And they do not run out with a source that brings all indices again and again:
    the call returns. *)
Theorem C140_ends : forall P (good : model -> P -> bool) fit estimate_4pt check qsort cvt h junk junk_ids l max_n_iter rnd,
  (forall l, Permutation l (qsort l)) -> Z.of_nat (length l) <= 2 ^ 24 -> max_n_iter <= INT_MAX -> Forall (fun r => 0 <= r < 2 ^ 32 - 128) rnd ->
  rich (Z.of_nat (length l)) (Z.to_nat max_n_iter) rnd ->
  exists r, estimate good fit estimate_4pt check qsort cvt h junk junk_ids l max_n_iter rnd = Ok r.
Proof. exact @uh_ends. Qed.
Print Assumptions C140_ends.

(** A run on eight matches: one sample, accepted, with seven inliers; estimation
    from these gives a matrix with all eight. *)
Definition ex_good (m : model) (p : Z) : bool := match m with [1%N] => p <? 7 | [2%N] => true | _ => false end.
Definition ex_run (check : model -> bool) : res (model * list (Z * bool) * Z * list event * list Z) :=
  estimate ex_good (fun _ _ => [2%N]) (fun _ _ => ([1%N], false)) check (fun l => l) (fun _ => INT_MIN) [] [0%N] []
    (map (fun p => (p, false)) [0; 1; 2; 3; 4; 5; 6; 7]) 2 [0; 1000000000; 2000000000; 3000000000].
Example C140_example : exists log, ex_run (fun _ => true) = Ok ([2%N], map (fun p => (p, true)) [0; 1; 2; 3; 4; 5; 6; 7], 8, log, []) /\
  accepted log [1%N] /\ n_samples log = 1.
Proof. eexists. split; [vm_compute; reflexivity|]. split; [cbn; auto 10|reflexivity]. Qed.
(** A rich source: for four matches the pool is always the four. *)
Example C140_rich_example : rich 4 1 (let b := [0; 1073741824; 2147483648; 3221225472] in b ++ b ++ b ++ b ++ []).
Proof.
  assert (C : covers 4 [0; 1073741824; 2147483648; 3221225472]).
  { intros top i T I. replace top with 4 in * by lia. assert (E : i = 0 \/ i = 1 \/ i = 2 \/ i = 3) by lia.
    destruct E as [->|[->|[->| ->]]]; [exists 0|exists 1073741824|exists 2147483648|exists 3221225472]; (split; [cbn; auto|vm_compute; reflexivity]). }
  apply rich_S; auto. constructor.
Qed.

(** An accepted matrix with inliers does not imply a result: the estimation from the
    inliers is not checked before it replaces the accepted matrix, so the call can
    answer 0 with a matrix that fails the check although it had one that passes. *)
Theorem C140_refinement_refuted : exists P (good : model -> P -> bool) fit estimate_4pt check qsort cvt h junk junk_ids l max_n_iter rnd h' l' log rnd' b,
  (forall l, Permutation l (qsort l)) /\ 4 <= Z.of_nat (length l) <= 2 ^ 24 /\
  estimate good fit estimate_4pt check qsort cvt h junk junk_ids l max_n_iter rnd = Ok (h', l', 0, log, rnd') /\
  accepted log b /\ check b = true /\ support good b (map fst l) = 7 /\ check h' = false.
Proof.
  exists Z, ex_good, (fun _ _ => [2%N]), (fun _ _ => ([1%N], false)), (fun m => match m with [1%N] => true | _ => false end), (fun l => l), (fun _ => INT_MIN), [], [0%N], [],
    (map (fun p => (p, false)) [0; 1; 2; 3; 4; 5; 6; 7]), 2, [0; 1000000000; 2000000000; 3000000000]. eexists. eexists. eexists. eexists. exists [1%N].
  split; [intro; apply Permutation_refl|]. split; [cbn; lia|]. split; [vm_compute; reflexivity|]. split; [cbn; auto 10|]. split; [reflexivity|]. split; reflexivity.
Qed.
Print Assumptions C140_refinement_refuted.
