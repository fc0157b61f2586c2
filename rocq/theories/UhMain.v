From Coq Require Import Permutation.
From Verif Require Import Base BaseLemmas Dbl UsacModel UsacSpec UsacProofs SiftProofs Gray RansacModel RansacSpec RansacProofs RansacMore UhModel UhSpec UhProofs UhEnds.
Local Open Scope Z_scope.

Section G.
Context {P : Type}.
Notation corr := (P * bool)%type.
Variable good : model -> P -> bool.
Variable fit : model -> list P -> model.
Variable estimate_4pt : model -> list P -> model * bool.
Variable check : model -> bool.
Variable qsort : list corr -> list corr.
Variable cvt : dbl -> Z.
Hypothesis PM : forall l, Permutation l (qsort l).
Notation data := (res (list corr * hdata * list Z)).

Lemma sup31 mo (ps : list P) : Z.of_nat (length ps) <= 2 ^ 24 -> 0 <= support good mo ps < 2 ^ 31.
Proof. intro L. pose proof (support_range good mo ps). lia. Qed.

Lemma uh_core okr (From : model -> Prop) h junk junk_ids l mx rnd h' l' n log rnd' :
  4 <= Z.of_nat (length l) <= 2 ^ 24 -> Forall okr rnd ->
  (forall top l0 rnd ids rnd' q m0 mo, Forall okr rnd -> top <= Z.min (Z.of_nat (length l)) (9 + mx) -> 1 <= top -> map fst l0 = map fst (qsort l) ->
     homography_sampling top rnd = Ok (ids, rnd') -> sample_matches l0 ids = Ok q -> estimate_4pt m0 q = (mo, false) -> From mo) ->
  estimate good fit estimate_4pt check qsort cvt h junk junk_ids l mx rnd = Ok (h', l', n, log, rnd') ->
  let ps := map fst (qsort l) in
  map fst l' = ps /\ flags_of good h' l' /\ n = (if check h' then support good h' ps else 0) /\
  (forall mo, accepted log mo -> check mo = true /\ From mo) /\
  ((exists b g, accepted log b /\ (forall mo, accepted log mo -> support good mo ps <= support good b ps) /\
        refined good fit 4 ps 1 b g /\ h' = if support good b ps <? support good g ps then g else b) \/
     ((forall mo, ~ accepted log mo) /\ refined good fit 4 ps 1 (repeat D_ZERO 9) h')) /\
  n_samples log <= Z.max 0 (mx - 1) /\
  (cvt D_MINUS_MAX < 200 -> n_samples log < mx - 1 -> 200 <= support good h' ps).
Proof.
  intros L R FH E ps. unfold estimate in E. destruct (Z.ltb_spec (Z.of_nat (length l)) 4); [lia|].
  assert (PL : length ps = length l) by (unfold ps; rewrite map_length; symmetry; apply Permutation_length, PM).
  apply bind_ok in E as ([[[bs best] d] lg] & EU & E). apply bind_ok in E as ([[l1 hd1] rnd1] & -> & E).
  rewrite mark_eq in E. injection E as <- <- <- <- <-.
  unfold usac in EU. cbn [Nat.eqb] in EU. apply bind_ok in EU as (s & EL & EU).
  pose proof EL as UV. apply (main_loop_inv _ _ _ _ _ _ _ _ _ 9) in UV.
  2: { constructor; cbn; auto. split; constructor. }
  apply (loop_ui good fit estimate_4pt check cvt ps mx okr From) in EL; [|rewrite PL; exact FH|lia|].
  2: { intros l0 hd0 r0 D. cbn [u_data] in D. injection D as <- <- <-. cbn [u_log n_samples homography_data h_max_iter h_ncorr h_top h_iter]. split; [reflexivity|]. rewrite PL.
       split; [split; [reflexivity|]; split; [reflexivity|]; split; [destruct (Z.ltb_spec (Z.of_nat (length l)) 10); lia|exact R]|]. split; [reflexivity|]. split; [lia|]. unfold good_es, accepted. cbn. tauto. }
  destruct EL as [UI1 ST].
  destruct (cb_global good fit (u_refined _ s) (u_best _ s) (u_data _ s)) as [g dg] eqn:EG.
  cbn [u_data say with_refined with_data u_ids u_score u_best u_log take] in EU.
  destruct (cb_score good g (u_ids _ s) dg) as [[gs g2] d2] eqn:ES. apply (score_ok good ps) in ES as (-> & SD).
  assert (D2 : d2 = Ok (l1, hd1, rnd1)) by (destruct (d_gt gs (u_score _ s)); injection EU; auto).
  destruct (SD _ _ _ D2) as (l2 & -> & M2 & GS). apply (global_ok good fit estimate_4pt check ps okr From) in EG as (l3 & D3 & G3); [|lia].
  destruct (UI1 _ _ _ D3) as (A & (B1 & B2 & B3 & B4) & C & D & (F1 & F2 & F3)). destruct (G3 A) as (L2 & RF). specialize (GS L2).
  specialize (ST _ _ _ D3).
  assert (BL : best = (if d_gt gs (u_score _ s) then g else u_best _ s)) by (destruct (d_gt gs (u_score _ s)); injection EU; auto).
  assert (LG : lg = (u_log _ s ++ [EGlobal (u_best _ s) g]) ++ [EScore g gs]) by (destruct (d_gt gs (u_score _ s)); injection EU; auto).
  assert (AC : forall mo, accepted lg mo <-> accepted (u_log _ s) mo).
  { intro mo. unfold accepted. rewrite LG, !in_app_iff. cbn [In]. intuition discriminate. }
  assert (NS : n_samples lg = n_samples (u_log _ s)) by (rewrite LG, !n_samples_app; cbn [n_samples]; lia).
  assert (L24 : Z.of_nat (length ps) <= 2 ^ 24) by lia.
  assert (L1 : map fst l1 = ps) by congruence. rewrite marked_fst, L1.
  split; [reflexivity|]. split; [apply marked_flags|]. split; [reflexivity|].
  split; [intros mo X; apply AC in X; apply F2 in X; tauto|]. rewrite NS.
  assert (SCO : forall mo, accepted (u_log _ s) mo -> d_gt (d_of_int (support good mo ps)) (u_score _ s) = false).
  { intros mo X. destruct (F2 _ X) as (_ & x & Y). destruct (F1 _ _ Y) as (-> & _). destruct UV as [UB0 _ _ _]. rewrite Forall_forall in UB0. apply UB0.
    unfold standing_scores. apply in_map_iff. exists (mo, d_of_int (support good mo ps)). split; [reflexivity|]. apply in_standing; auto. }
  pose proof (sup31 g ps L24) as SG.
  destruct UV as [_ _ _ SB]. specialize (SB ltac:(reflexivity)). destruct SB as [SB|[SB1 SB2]].
  - apply standing_in in SB. destruct (F1 _ _ SB) as (SX & SA). pose proof (sup31 (u_best _ s) ps L24) as SS. rewrite SX, GS in BL. rewrite d_of_int_gt in BL by auto.
    split; [|split; [exact D|]].
    + left. exists (u_best _ s), g. split; [apply AC; exact SA|]. split; [|split; [exact RF|exact BL]].
      intros mo X. apply AC in X. apply SCO in X. rewrite SX in X. rewrite d_of_int_gt in X by (auto; apply sup31; exact L24). lia.
    + intros _ LT. destruct ST as [ST|ST]; [lia|]. unfold seen in ST. rewrite SX, d_of_int_back in ST by exact SS. rewrite BL.
      destruct (Z.ltb_spec (support good (u_best _ s) ps) (support good g ps)); lia.
  - assert (NA : forall mo, ~ accepted (u_log _ s) mo).
    { intros mo X. apply SCO in X. rewrite SB2, d_of_int_min in X by (apply sup31; exact L24). discriminate. }
    rewrite SB2, GS, d_of_int_min in BL by exact SG.
    split; [|split; [exact D|]].
    + right. split; [intros mo X; apply AC in X; apply (NA mo X)|]. rewrite BL, <- SB1. exact RF.
    + intros CV LT. destruct ST as [ST|ST]; [lia|]. rewrite SB2 in ST. unfold seen in ST.
      assert (E : d_to_int D_MINUS_MAX = UB) by (vm_compute; reflexivity). rewrite E in ST. lia.
Qed.
End G.

Lemma uh_result P (good : model -> P -> bool) fit estimate_4pt check qsort cvt h junk junk_ids l max_n_iter rnd h' l' n log rnd' :
  (forall l, Permutation l (qsort l)) -> 4 <= Z.of_nat (length l) <= 2 ^ 24 -> cvt D_MINUS_MAX < 200 ->
  estimate good fit estimate_4pt check qsort cvt h junk junk_ids l max_n_iter rnd = Ok (h', l', n, log, rnd') ->
  exists ps, ps = map fst (qsort l) /\ Permutation (map fst l) ps /\ map fst l' = ps /\
    (forall p b, In (p, b) l' -> b = good h' p) /\
    n = (if check h' then Z.of_nat (length (filter snd l')) else 0) /\
    ((exists b g, accepted log b /\ (forall mo, accepted log mo -> check mo = true /\ support good mo ps <= support good b ps) /\
        refined good fit 4 ps 1 b g /\ h' = if support good b ps <? support good g ps then g else b) \/
     ((forall mo, ~ accepted log mo) /\ refined good fit 4 ps 1 (repeat D_ZERO 9) h')) /\
    n_samples log <= Z.max 0 (max_n_iter - 1) /\
    (n_samples log < max_n_iter - 1 -> 200 <= support good h' ps).
Proof.
  intros PM L CV E. apply (uh_core good fit estimate_4pt check qsort cvt PM (fun _ => True) (fun _ => True)) in E as (A & B & C & D & F & G & I); [|exact L|apply Forall_forall; auto|auto].
  exists (map fst (qsort l)). split; [reflexivity|]. split; [apply Permutation_map, PM|]. split; [exact A|]. split; [exact B|]. split; [rewrite (flags_support good h' l' B), A; exact C|].
  split; [|split; [exact G|apply I; exact CV]]. destruct F as [(b & g & F1 & F2 & F3 & F4)|F]; [left|right; exact F]. exists b, g. split; [exact F1|]. split; [|auto]. intros mo X. split; [apply D; exact X|auto].
Qed.
Lemma uh_sampled P (good : model -> P -> bool) fit estimate_4pt check qsort cvt h junk junk_ids l max_n_iter rnd h' l' n log rnd' :
  (forall l, Permutation l (qsort l)) -> 4 <= Z.of_nat (length l) <= 2 ^ 24 -> Forall (fun r => 0 <= r < 2 ^ 32 - 128) rnd ->
  estimate good fit estimate_4pt check qsort cvt h junk junk_ids l max_n_iter rnd = Ok (h', l', n, log, rnd') ->
  forall mo, accepted log mo ->
  exists a b c d ps m0, NoDup [a; b; c] /\ d <> a /\ d <> b /\
    Forall (fun j => 0 <= j < Z.min (Z.of_nat (length l)) (9 + max_n_iter)) [a; b; c; d] /\
    Forall2 (fun j p => nth_error (map fst (qsort l)) (Z.to_nat j) = Some p) [a; b; c; d] ps /\
    estimate_4pt m0 ps = (mo, false).
Proof.
  intros PM L R E. pose proof (uh_core good fit estimate_4pt check qsort cvt PM low (fun mo => exists a b c d ps m0, NoDup [a; b; c] /\ d <> a /\ d <> b /\
    Forall (fun j => 0 <= j < Z.min (Z.of_nat (length l)) (9 + max_n_iter)) [a; b; c; d] /\
    Forall2 (fun j p => nth_error (map fst (qsort l)) (Z.to_nat j) = Some p) [a; b; c; d] ps /\
    estimate_4pt m0 ps = (mo, false)) h junk junk_ids l max_n_iter rnd h' l' n log rnd' L R) as U.
  cbv zeta in U. destruct U as (_ & _ & _ & D & _); [|exact E|intros mo X; apply D; exact X].
  intros top l0 r0 ids r1 q m0 mo R0 T1 T2 ML HS SM E4. destruct (sampling_four top r0 ids r1 ltac:(lia) R0 HS) as (_ & a & b & c & d & -> & ND & D1 & D2 & RG).
  exists a, b, c, d, q, m0. split; [exact ND|]. split; [exact D1|]. split; [exact D2|]. split; [eapply Forall_impl; [|exact RG]; intros j J; cbv beta in J; lia|].
  split; [rewrite <- ML; apply sample_values; exact SM|exact E4].
Qed.
Lemma few_or n : n < 4 \/ 4 <= n. Proof. lia. Qed.
Lemma uh_safe P (good : model -> P -> bool) fit estimate_4pt check qsort cvt h junk junk_ids l max_n_iter rnd :
  (forall l, Permutation l (qsort l)) -> Z.of_nat (length l) <= 2 ^ 24 -> max_n_iter <= INT_MAX -> Forall (fun r => 0 <= r < 2 ^ 32 - 128) rnd ->
  estimate good fit estimate_4pt check qsort cvt h junk junk_ids l max_n_iter rnd = NoFuel \/
  exists r, estimate good fit estimate_4pt check qsort cvt h junk junk_ids l max_n_iter rnd = Ok r.
Proof.
  intros PM L MX R. destruct (few_or (Z.of_nat (length l))) as [F|F].
  { right. unfold estimate. destruct (Z.ltb_spec (Z.of_nat (length l)) 4); [eauto|lia]. }
  destruct (estimate_fine good fit estimate_4pt check cvt (Z.of_nat (length l)) max_n_iter ltac:(lia) MX True (fun _ rs => Forall low rs)) with (qsort := qsort) (h := h) (junk := junk) (junk_ids := junk_ids) (l := l) (rnd := rnd) as [(_ & E)|E]; auto.
  intros _ top rs T Q. destruct (sampling_safe top rs ltac:(lia) Q) as [E|(ids & rs' & E & _)]; [left; auto|right]. exists ids, rs'. split; [exact E|].
  destruct (sampling_four top rs ids rs' ltac:(lia) Q E) as (Q' & a & b & c & d & -> & _ & _ & _ & RG). split; [exact Q'|]. eapply Forall_impl; [|exact RG]. intros j J. cbv beta in J. lia.
Qed.
Lemma uh_ends P (good : model -> P -> bool) fit estimate_4pt check qsort cvt h junk junk_ids l max_n_iter rnd :
  (forall l, Permutation l (qsort l)) -> Z.of_nat (length l) <= 2 ^ 24 -> max_n_iter <= INT_MAX -> Forall (fun r => 0 <= r < 2 ^ 32 - 128) rnd ->
  rich (Z.of_nat (length l)) (Z.to_nat max_n_iter) rnd ->
  exists r, estimate good fit estimate_4pt check qsort cvt h junk junk_ids l max_n_iter rnd = Ok r.
Proof.
  intros PM L MX R RI. destruct (few_or (Z.of_nat (length l))) as [F|F].
  { unfold estimate. destruct (Z.ltb_spec (Z.of_nat (length l)) 4); [eauto|lia]. }
  destruct (estimate_fine good fit estimate_4pt check cvt (Z.of_nat (length l)) max_n_iter ltac:(lia) MX False (fun k rs => Forall low rs /\ rich (Z.of_nat (length l)) k rs)) with (qsort := qsort) (h := h) (junk := junk) (junk_ids := junk_ids) (l := l) (rnd := rnd) as [(X & _)|E]; auto; [|contradiction].
  intros k top rs T (Q & RK). right. destruct (sampling_rich _ k top rs T RK) as (ids & rs' & E & RK'). exists ids, rs'. split; [exact E|].
  destruct (sampling_four top rs ids rs' ltac:(lia) Q E) as (Q' & a & b & c & d & -> & _ & _ & _ & RG). split; [split; assumption|]. eapply Forall_impl; [|exact RG]. intros j J. cbv beta in J. lia.
Qed.
