(** C113, C114: estimation of homographies and fundamental matrices by random
    sampling. *)
From Coq Require Import Permutation.
From Verif Require Import Base BaseLemmas UsacModel UsacProofs SiftProofs Gray RansacModel RansacSpec RansacProofs RansacMore.
Local Open Scope Z_scope.

(** C113, with at least four matches: the matches are kept (reordered), their
    flags are those of the returned matrix and the returned number counts them
    (or is zero when the matrix fails the check).  At most max_n_iter matrices are
    sampled, fewer only after one with 200 inliers; the returned matrix comes by
    repeated estimation from the inliers of the first of those with the most
    inliers.  Partial: when no sampled matrix has an inlier it comes from the
    uninitialised [junk]. *)
Theorem C113_result_partial : forall M P (good : M -> P -> bool) fit estimate_4pt check qsort (h junk : M) l max_n_iter rnd h' l' n log rnd',
  (forall l, Permutation l (qsort l)) -> 4 <= Z.of_nat (length l) <= 2 ^ 24 ->
  homography_ransac good fit estimate_4pt check qsort h junk l max_n_iter rnd = Ok (h', l', n, log, rnd') ->
  exists ps start, ps = map fst (qsort l) /\ Permutation (map fst l) ps /\ map fst l' = ps /\
    (forall p b, In (p, b) l' -> b = good h' p) /\
    n = (if check h' then Z.of_nat (length (filter snd l')) else 0) /\
    (Forall (fun e => snd e = support good (fst e) ps) log /\
     Z.of_nat (length log) <= Z.max 0 max_n_iter /\
     Forall (fun e => snd e < 200) (removelast log) /\
     (Z.of_nat (length log) < max_n_iter -> exists l g k, log = l ++ [(g, k)] /\ 200 <= k)) /\
    (first_best good ps (map fst log) start \/ start = junk /\ Forall (fun g => support good g ps = 0) (map fst log)) /\
    refined good fit 4 ps 1 start h'.
Proof.
  intros M P good fit estimate_4pt check qsort h junk l max_n_iter rnd h' l' n log rnd' QS L E. unfold homography_ransac in E. destruct (Z.ltb_spec (Z.of_nat (length l)) 4); [lia|].
  apply bind_ok in E as ([[[[h1 l1] n1] log1] rnd1] & E1 & E). injection E as <- <- <- <- <-.
  apply ransac_ok in E1 as (ps & start & PM & L1 & F1 & N1 & LG & (S1 & S2 & S3) & B & RF); try lia; [|exact QS].
  exists ps, start. split; [exact PM|]. split; [rewrite PM; apply Permutation_map, QS|]. split; [exact L1|]. split; [exact F1|]. split; [rewrite (flags_support good h1 l1 F1), L1, N1; reflexivity|].
  split; [auto|]. split; [tauto|exact RF].
Qed.
Print Assumptions C113_result_partial.
(** The matrix sampled in iteration i comes from four of the best 10 + i matches.
    Partial: the third and the fourth may be the same, and random numbers that
    become 1.0f are excluded. *)
Theorem C113_sampled_partial : forall M P (good : M -> P -> bool) fit estimate_4pt check qsort (h junk : M) l max_n_iter rnd h' l' n log rnd',
  (forall l, Permutation l (qsort l)) -> 4 <= Z.of_nat (length l) <= 2 ^ 24 -> Forall (fun r => 0 <= r < 2 ^ 32 - 128) rnd ->
  homography_ransac good fit estimate_4pt check qsort h junk l max_n_iter rnd = Ok (h', l', n, log, rnd') ->
  forall i g k, nth_error log i = Some (g, k) ->
  exists a b c d ps h0 det_zero, NoDup [a; b; c] /\ d <> a /\ d <> b /\
    Forall (fun j => 0 <= j < Z.min (Z.of_nat (length l)) (10 + Z.of_nat i)) [a; b; c; d] /\
    Forall2 (fun j p => nth_error (map fst (qsort l)) (Z.to_nat j) = Some p) [a; b; c; d] ps /\
    estimate_4pt h0 ps = (g, det_zero).
Proof.
  intros M P good fit estimate_4pt check qsort h junk l max_n_iter rnd h' l' n log rnd' QS L F E i g k NE. unfold homography_ransac in E. destruct (Z.ltb_spec (Z.of_nat (length l)) 4); [lia|].
  apply bind_ok in E as ([[[[h1 l1] n1] log1] rnd1] & E1 & E). injection E as <- <- <- <- <-.
  pose proof (ransac_from good 4 fit (tries_loop estimate_4pt check 10) 200 qsort QS low
    (fun top g ps => top <= 2 ^ 24 -> exists a b c d ps0 h0 dz, NoDup [a; b; c] /\ d <> a /\ d <> b /\ Forall (fun j => 0 <= j < top) [a; b; c; d] /\
       Forall2 (fun j p => nth_error ps (Z.to_nat j) = Some p) [a; b; c; d] ps0 /\ estimate_4pt h0 ps0 = (g, dz))) as FR.
  refine (FR _ _ _ _ _ _ _ _ _ _ _ _ F E1 i (g, k) NE _); [|lia|lia].
  intros top g0 l0 r0 g1 r1 F0 T0 EP. destruct (Z.le_gt_cases top (2 ^ 24)) as [C|C].
  - destruct (tries_from estimate_4pt check 10 _ _ _ _ _ _ (conj (proj1 T0) C) F0 EP) as (F1 & ids & ps0 & h0 & dz & (a & b & c & d & -> & ND & D1 & D2 & R) & VS & EE).
    split; [exact F1|]. intros _. exists a, b, c, d, ps0, h0, dz. auto 10.
  - split; [|lia]. clear -EP F0. revert g0 r0 F0 EP. generalize 10%nat. intro k. 
    induction k as [|k IH]; intros g0 r0 F0 EP; cbn [tries_loop] in EP; [discriminate|].
    apply bind_ok in EP as ([ids r2] & E1 & E). apply bind_ok in E as (ps & E2 & E).
    assert (F2 : Forall low r2). { apply Forall_forall. intros x X. rewrite Forall_forall in F0. apply F0. unfold homography_sampling in E1.
      apply bind_ok in E1 as ([a q1] & H1 & H). apply bind_ok in H as ([b q2] & H2 & H). apply bind_ok in H as ([c q3] & H3 & H). apply bind_ok in H as ([e q4] & H4 & H). injection H as <- <-.
      apply draw_until_spec in H1 as (_ & _ & _ & _ & S1). apply draw_until_spec in H2 as (_ & _ & _ & _ & S2). apply draw_until_spec in H3 as (_ & _ & _ & _ & S3). apply draw_until_spec in H4 as (_ & _ & _ & _ & S4). auto. }
    destruct (estimate_4pt g0 ps) as [h' dz]. destruct dz; [|injection E as <- <-; exact F2]. destruct k; [injection E as <- <-; exact F2|]. destruct (negb (check h')); [|injection E as <- <-; exact F2]. exact (IH _ _ F2 E).
Qed.
Print Assumptions C113_sampled_partial.
(** Fewer than four matches: nothing is changed. *)
Theorem C113_few : forall M P (good : M -> P -> bool) fit estimate_4pt check qsort (h junk : M) l max_n_iter rnd, Z.of_nat (length l) < 4 ->
  homography_ransac good fit estimate_4pt check qsort h junk l max_n_iter rnd = Ok (h, l, 0, [], rnd).
Proof. intros. unfold homography_ransac. destruct (Z.ltb_spec (Z.of_nat (length l)) 4); [reflexivity|lia]. Qed.
Print Assumptions C113_few.
(** No access outside of the matches and no overflow; the function returns unless
    the random numbers never give an acceptable sample.  Partial: without the
    random numbers that become 1.0f. *)
Theorem C113_safe_partial : forall M P (good : M -> P -> bool) fit estimate_4pt check qsort (h junk : M) l max_n_iter rnd,
  (forall l, Permutation l (qsort l)) -> Z.of_nat (length l) <= 2 ^ 24 -> Forall (fun r => 0 <= r < 2 ^ 32 - 128) rnd ->
  homography_ransac good fit estimate_4pt check qsort h junk l max_n_iter rnd = NoFuel \/
  exists r, homography_ransac good fit estimate_4pt check qsort h junk l max_n_iter rnd = Ok r.
Proof.
  intros M P good fit estimate_4pt check qsort h junk l max_n_iter rnd QS L F. unfold homography_ransac. destruct (Z.of_nat (length l) <? 4); [right; eauto|].
  destruct (ransac_safe good 4 fit (tries_loop estimate_4pt check 10) 200 qsort QS h junk l max_n_iter rnd) as [->|([[[[h1 l1] n1] log1] rnd1] & ->)]; [lia|exact L|exact F| |left; reflexivity|right; cbn [bind]; eauto].
  intros _ top g l' rnd' T EL F'. apply tries_safe; [exact T|rewrite EL; exact L|exact F'].
Qed.
Print Assumptions C113_safe_partial.

(** A small world for the examples: matrices are numbers, so are matches; a match
    agrees with a matrix when it is not larger. *)
Definition ex_good (h p : Z) : bool := p <=? h.
Definition ex_list (n : nat) : list (Z * bool) := map (fun i => (Z.of_nat i, false)) (seq 0 n).
Definition ex_4pt (h : Z) (ps : list Z) : Z * bool := (fold_left Z.max ps 0, false).
Definition ex_rnd : list Z := [0; 429496730; 858993460; 1288490189; 0; 429496730; 858993460; 4294967000].
Example C113_example : exists log rnd, homography_ransac ex_good (fun h ps => Z.of_nat (length ps)) ex_4pt (fun _ => true) (fun l => l) 7 99 (ex_list 10) 2 ex_rnd =
  Ok (10, map (fun i => (Z.of_nat i, true)) (seq 0 10), 10, log, rnd) /\ log = [(3, 4); (9, 10)].
Proof. do 2 eexists. split; [vm_compute; reflexivity|reflexivity]. Qed.
(** With no inlier anywhere the caller gets whatever was on the stack. *)
Theorem C113_uninitialised_refuted : exists (good : Z -> Z -> bool) fit est check l rnd, 4 <= Z.of_nat (length l) /\
  forall junk h, exists l' log rnd', homography_ransac good fit est check (fun l => l) h junk l 2 rnd = Ok (junk, l', 0, log, rnd').
Proof.
  exists (fun _ _ => false), (fun h _ => h), ex_4pt, (fun _ => true), (ex_list 10), ex_rnd. split; [vm_compute; discriminate|]. intros junk h. do 3 eexists. vm_compute. reflexivity.
Qed.
Print Assumptions C113_uninitialised_refuted.
(** The last estimation is kept although it is worse: the result can have fewer
    inliers than the best sampled matrix. *)
Theorem C113_best_kept_refuted : exists (good : Z -> Z -> bool) fit est check l rnd h junk h' l' n log rnd', 4 <= Z.of_nat (length l) /\
  homography_ransac good fit est check (fun l => l) h junk l 2 rnd = Ok (h', l', n, log, rnd') /\ check h' = true /\ exists g k, In (g, k) log /\ check g = true /\ n < k.
Proof.
  exists ex_good, (fun h ps => 2), ex_4pt, (fun _ => true), (ex_list 10), ex_rnd, 0, 0. do 5 eexists. split; [vm_compute; discriminate|]. split; [vm_compute; reflexivity|]. split; [reflexivity|]. exists 9, 10. split; [right; left; reflexivity|]. split; [reflexivity|lia].
Qed.
Print Assumptions C113_best_kept_refuted.
(** A sampled matrix that fails the check is used although tries are left. *)
Theorem C113_retry_refuted : exists (good : Z -> Z -> bool) fit est check l rnd h junk h' l' n log rnd', 4 <= Z.of_nat (length l) /\
  homography_ransac good fit est check (fun l => l) h junk l 1 rnd = Ok (h', l', n, log, rnd') /\ exists g k, In (g, k) log /\ check g = false /\ rnd' <> [].
Proof.
  exists ex_good, (fun h ps => 2), ex_4pt, (fun g => g =? 2), (ex_list 10), ex_rnd, 0, 0. do 5 eexists. split; [vm_compute; discriminate|]. split; [vm_compute; reflexivity|]. exists 3, 4. split; [left; reflexivity|]. split; [reflexivity|discriminate].
Qed.
Print Assumptions C113_retry_refuted.

(** C114: the same for fundamental matrices, from eight matches on. *)
Theorem C114_result_partial : forall M P (good : M -> P -> bool) fit estimate_8pt qsort (h junk : M) l max_n_iter rnd h' l' n log rnd',
  (forall l, Permutation l (qsort l)) -> 8 <= Z.of_nat (length l) <= 2 ^ 24 ->
  fundamental_ransac good fit estimate_8pt qsort h junk l max_n_iter rnd = Ok (h', l', n, log, rnd') ->
  exists ps start, ps = map fst (qsort l) /\ Permutation (map fst l) ps /\ map fst l' = ps /\
    (forall p b, In (p, b) l' -> b = good h' p) /\
    n = Z.of_nat (length (filter snd l')) /\
    (Forall (fun e => snd e = support good (fst e) ps) log /\
     Z.of_nat (length log) <= Z.max 0 max_n_iter /\
     Forall (fun e => snd e < 100) (removelast log) /\
     (Z.of_nat (length log) < max_n_iter -> exists l g k, log = l ++ [(g, k)] /\ 100 <= k)) /\
    (first_best good ps (map fst log) start \/ start = junk /\ Forall (fun g => support good g ps = 0) (map fst log)) /\
    refined good fit 8 ps 1 start h'.
Proof.
  intros M P good fit estimate_8pt qsort h junk l max_n_iter rnd h' l' n log rnd' QS L E.
  apply ransac_ok in E as (ps & start & PM & L1 & F1 & N1 & LG & (S1 & S2 & S3) & B & RF); try lia; [|exact QS].
  exists ps, start. split; [exact PM|]. split; [rewrite PM; apply Permutation_map, QS|]. split; [exact L1|]. split; [exact F1|]. split; [rewrite (flags_support good h' l' F1), L1, N1; reflexivity|].
  split; [auto|]. split; [tauto|exact RF].
Qed.
Print Assumptions C114_result_partial.
Theorem C114_sampled_partial : forall M P (good : M -> P -> bool) fit estimate_8pt qsort (h junk : M) l max_n_iter rnd h' l' n log rnd',
  (forall l, Permutation l (qsort l)) -> 8 <= Z.of_nat (length l) <= 2 ^ 24 -> Forall (fun r => 0 <= r < 2 ^ 32 - 128) rnd ->
  fundamental_ransac good fit estimate_8pt qsort h junk l max_n_iter rnd = Ok (h', l', n, log, rnd') ->
  forall i g k, nth_error log i = Some (g, k) ->
  exists a more ps, length more = 7%nat /\ NoDup more /\
    Forall (fun j => 0 <= j < Z.min (Z.of_nat (length l)) (10 + Z.of_nat i)) (a :: more) /\
    Forall2 (fun j p => nth_error (map fst (qsort l)) (Z.to_nat j) = Some p) (a :: more) ps /\ g = estimate_8pt ps.
Proof.
  intros M P good fit estimate_8pt qsort h junk l max_n_iter rnd h' l' n log rnd' QS L F E i g k NE.
  pose proof (ransac_from good 8 fit (propose_8 estimate_8pt) 100 qsort QS low
    (fun top g ps => top <= 2 ^ 24 -> exists a more ps0, length more = 7%nat /\ NoDup more /\ Forall (fun j => 0 <= j < top) (a :: more) /\
       Forall2 (fun j p => nth_error ps (Z.to_nat j) = Some p) (a :: more) ps0 /\ g = estimate_8pt ps0)) as FR.
  refine (FR _ _ _ _ _ _ _ _ _ _ _ _ F E i (g, k) NE _); [|lia|lia].
  intros top g0 l0 r0 g1 r1 F0 T0 EP. unfold propose_8 in EP. apply bind_ok in EP as ([ids r2] & E1 & EP). apply bind_ok in EP as (ps & E2 & EP). injection EP as <- <-.
  pose proof (select_8_ok _ _ _ _ E1) as (I & a & more & EI & LM & ND & _). split.
  - apply Forall_forall. intros x X. rewrite Forall_forall in F0. apply F0, I, X.
  - intro C. pose proof (select_8_safe top r0 (conj (proj1 T0) C) F0) as SS. rewrite E1 in SS. destruct SS as [|(i0 & q & EQ & _ & R)]; [discriminate|]. injection EQ as <- <-. subst ids.
    apply sample_values in E2. exists a, more, ps. auto.
Qed.
Print Assumptions C114_sampled_partial.
Theorem C114_few : forall M P (good : M -> P -> bool) fit estimate_8pt qsort (h junk : M) l max_n_iter rnd, Z.of_nat (length l) < 8 ->
  fundamental_ransac good fit estimate_8pt qsort h junk l max_n_iter rnd = Ok (h, l, 0, [], rnd).
Proof. intros. unfold fundamental_ransac, ransac. destruct (Z.ltb_spec (Z.of_nat (length l)) 8); [reflexivity|lia]. Qed.
Print Assumptions C114_few.
Theorem C114_safe_partial : forall M P (good : M -> P -> bool) fit estimate_8pt qsort (h junk : M) l max_n_iter rnd,
  (forall l, Permutation l (qsort l)) -> Z.of_nat (length l) <= 2 ^ 24 -> Forall (fun r => 0 <= r < 2 ^ 32 - 128) rnd ->
  fundamental_ransac good fit estimate_8pt qsort h junk l max_n_iter rnd = NoFuel \/
  exists r, fundamental_ransac good fit estimate_8pt qsort h junk l max_n_iter rnd = Ok r.
Proof.
  intros M P good fit estimate_8pt qsort h junk l max_n_iter rnd QS L F. apply ransac_safe; [exact QS|lia|exact L|exact F|].
  intros _ top g l' rnd' T EL F'. unfold propose_8. destruct (select_8_safe top rnd' ltac:(lia) F') as [->|(ids & r1 & -> & I1 & R1)]; [left; reflexivity|]. cbn [bind].
  destruct (sample_ok l' ids) as (ps & ->); [eapply Forall_impl; [|exact R1]; cbv beta; lia|]. right. cbn [bind]. eauto.
Qed.
Print Assumptions C114_safe_partial.
(** The sample: eight indices from the top group; all but the first are different.
    Partial: the first may come again, see below. *)
Theorem C114_sample_partial : forall top rnd ids rnd', 1 <= top <= 2 ^ 24 -> Forall (fun r => 0 <= r < 2 ^ 32 - 128) rnd ->
  select_8 top rnd = Ok (ids, rnd') ->
  exists a more, ids = a :: more /\ length more = 7%nat /\ NoDup more /\ Forall (fun i => 0 <= i < top) ids.
Proof.
  intros top rnd ids rnd' T F E. pose proof (select_8_safe top rnd T F) as S0. rewrite E in S0. destruct S0 as [|(i & r & EI & _ & R)]; [discriminate|]. injection EI as <- <-.
  apply select_8_ok in E as (_ & a & more & -> & L & N & _). exists a, more. auto.
Qed.
Print Assumptions C114_sample_partial.
Theorem C114_distinct_refuted : exists top rnd a more rnd', 8 <= top <= 2 ^ 24 /\ Forall (fun r => 0 <= r < 2 ^ 32 - 128) rnd /\
  select_8 top rnd = Ok (a :: a :: more, rnd').
Proof.
  exists 10, [0; 0; 429496730; 858993460; 1288490189; 1717986919; 2147483648; 2576980378], 0, [1; 2; 3; 4; 5; 6], [].
  split; [lia|]. split; [repeat (apply Forall_cons; [lia|]); apply Forall_nil|]. vm_compute. reflexivity.
Qed.
Print Assumptions C114_distinct_refuted.
(** Sampling ends when every index of the top group keeps coming up. *)
Theorem C114_sample_ends : forall top first blocks rest, 8 <= top -> length blocks = 7%nat ->
  Forall (fun b => forall i, 0 <= i < top -> exists r, In r b /\ draw top r = i) blocks ->
  exists ids rnd', select_8 top (first :: concat blocks ++ rest) = Ok (ids, rnd').
Proof. intros top first blocks rest T L F. apply (select_more_ends top T 7 [] [draw top first] rest blocks); [reflexivity|lia|exact F]. Qed.
Print Assumptions C114_sample_ends.
Theorem C114_uninitialised_refuted : exists (good : Z -> Z -> bool) fit est l rnd, 8 <= Z.of_nat (length l) /\
  forall junk h, exists l' log rnd', fundamental_ransac good fit est (fun l => l) h junk l 1 rnd = Ok (junk, l', 0, log, rnd').
Proof.
  exists (fun _ _ => false), (fun h _ => h), (fun _ => 5), (ex_list 10), [0; 429496730; 858993460; 1288490189; 1717986919; 2147483648; 2576980378; 3006477107].
  split; [vm_compute; discriminate|]. intros junk h. do 3 eexists. vm_compute. reflexivity.
Qed.
Print Assumptions C114_uninitialised_refuted.
Theorem C114_best_kept_refuted : exists (good : Z -> Z -> bool) fit est l rnd h junk h' l' n log rnd', 8 <= Z.of_nat (length l) /\
  fundamental_ransac good fit est (fun l => l) h junk l 1 rnd = Ok (h', l', n, log, rnd') /\ exists g k, In (g, k) log /\ n < k.
Proof.
  exists ex_good, (fun h ps => 2), (fun ps => fold_left Z.max ps 0), (ex_list 10), [0; 429496730; 858993460; 1288490189; 1717986919; 2147483648; 2576980378; 4294967000], 0, 0.
  do 5 eexists. split; [vm_compute; discriminate|]. split; [vm_compute; reflexivity|]. exists 9, 10. split; [left; reflexivity|lia].
Qed.
Print Assumptions C114_best_kept_refuted.
Example C114_example : exists log rnd, fundamental_ransac ex_good (fun h ps => Z.of_nat (length ps)) (fun ps => fold_left Z.max ps 0) (fun l => l) 7 99 (ex_list 10) 1
    [0; 429496730; 858993460; 1288490189; 1717986919; 2147483648; 2576980378; 4294967000] =
  Ok (10, map (fun i => (Z.of_nat i, true)) (seq 0 10), 10, log, rnd) /\ log = [(9, 10)].
Proof. do 2 eexists. split; [vm_compute; reflexivity|reflexivity]. Qed.
(** A random number that becomes 1.0f makes both functions read past the matches
    when there are at most ten of them. *)
Theorem C113_out_of_range_refuted : exists rnd, Forall (fun r => 0 <= r < 2 ^ 32) rnd /\
  homography_ransac ex_good (fun h ps => Z.of_nat (length ps)) ex_4pt (fun _ => true) (fun l => l) 7 99 (ex_list 10) 2 rnd = UB.
Proof. exists [0; 429496730; 858993460; 4294967295]. split; [repeat (apply Forall_cons; [lia|]); apply Forall_nil|]. vm_compute. reflexivity. Qed.
Print Assumptions C113_out_of_range_refuted.
Theorem C114_out_of_range_refuted : exists rnd, Forall (fun r => 0 <= r < 2 ^ 32) rnd /\
  fundamental_ransac ex_good (fun h ps => Z.of_nat (length ps)) (fun ps => fold_left Z.max ps 0) (fun l => l) 7 99 (ex_list 10) 1 rnd = UB.
Proof. exists [0; 429496730; 858993460; 1288490189; 1717986919; 2147483648; 2576980378; 4294967295]. split; [repeat (apply Forall_cons; [lia|]); apply Forall_nil|]. vm_compute. reflexivity. Qed.
Print Assumptions C114_out_of_range_refuted.
