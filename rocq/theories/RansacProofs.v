(** Proofs about the random sampling estimators. *)
From Coq Require Import Permutation.
From Verif Require Import Base BaseLemmas UsacModel UsacProofs SiftProofs Gray RansacModel RansacSpec.
Local Open Scope Z_scope.

Section G.
Context {M P : Type}.
Variable good : M -> P -> bool.
Notation corr := (P * bool)%type.
Notation mark := (mark_inliers good).
Lemma mark_loop_eq h (l : list corr) n : mark_loop good h l n = (map (fun c => (fst c, good h (fst c))) l, n + support good h (map fst l)).
Proof.
  revert n. induction l as [|[p b] l IH]; intro n; cbn [mark_loop map fst]; [unfold support; cbn; f_equal; lia|]. rewrite IH. unfold support. cbn [filter]. destruct (good h p); cbn [length]; f_equal; lia.
Qed.
Lemma mark_eq h (l : list corr) : mark h l = (map (fun c => (fst c, good h (fst c))) l, support good h (map fst l)).
Proof. unfold mark_inliers. rewrite mark_loop_eq. f_equal. Qed.
Lemma marked_fst h (l : list corr) : map fst (map (fun c => (fst c, good h (fst c))) l) = map fst l.
Proof. rewrite map_map. reflexivity. Qed.
Lemma marked_flags h (l : list corr) : flags_of good h (map (fun c => (fst c, good h (fst c))) l).
Proof. intros p b I. apply in_map_iff in I as ([q c] & E & _). injection E as <- <-. reflexivity. Qed.
Lemma marked_filter h (l : list corr) : map fst (filter snd (map (fun c => (fst c, good h (fst c))) l)) = filter (good h) (map fst l).
Proof. induction l as [|[p b] l IH]; [reflexivity|]. cbn [map fst filter snd]. destruct (good h p); cbn [map fst]; rewrite IH; reflexivity. Qed.
Lemma support_range h (ps : list P) : 0 <= support good h ps <= Z.of_nat (length ps).
Proof. unfold support. assert (length (filter (good h) ps) <= length ps)%nat by (induction ps as [|p ps IH]; [reflexivity|cbn [filter length]; destruct (good h p); cbn [length]; lia]). lia. Qed.
Lemma flags_support h (l : list corr) : flags_of good h l -> Z.of_nat (length (filter snd l)) = support good h (map fst l).
Proof.
  intro F. unfold support. f_equal. induction l as [|[p b] l IH]; [reflexivity|]. cbn [map fst filter snd]. rewrite (F p b) by (left; reflexivity).
  destruct (good h p); cbn [length]; rewrite IH by (intros q c I; apply F; right; exact I); reflexivity.
Qed.

Variable least : Z.
Variable fit : M -> list P -> M.
Variable propose : Z -> M -> list corr -> list Z -> res (M * list Z).
Variable enough : Z.
Variable ps : list P.
Definition inv (junk : M) (v : vars) : Prop :=
  map fst (v_list v) = ps /\ log_of good ps (v_log v) /\
  (v_best v = junk /\ v_n_best v = 0 /\ Forall (fun g => support good g ps = 0) (map fst (v_log v)) \/
   first_best good ps (map fst (v_log v)) (v_best v) /\ v_n_best v = support good (v_best v) ps) /\
  (v_log v = [] /\ v_n v = 0 \/ exists l g, v_log v = l ++ [(g, v_n v)]) /\
  Forall (fun e => snd e < enough) (removelast (v_log v)).
Lemma Forall_app_iff {A} (Q : A -> Prop) l l' : Forall Q (l ++ l') <-> Forall Q l /\ Forall Q l'.
Proof. apply Forall_app. Qed.
Lemma main_ok junk k : forall v v', inv junk v -> main_loop good propose enough k v = Ok v' ->
  inv junk v' /\ (length (v_log v') <= length (v_log v) + k)%nat /\
  ((length (v_log v') < length (v_log v) + k)%nat -> enough <= v_n v').
Proof.
  clear least fit. induction k as [|k IH]; intros v v' I E; cbn [main_loop] in E.
  - injection E as <-. split; [exact I|]. split; lia.
  - destruct (Z.ltb_spec (v_n v) enough) as [LT|GE].
    2: { injection E as <-. split; [exact I|]. split; lia. }
    apply bind_ok in E as ([h rnd] & EP & E). rewrite mark_eq in E. destruct I as (L & LG & B & NL & EN). rewrite L in E.
    destruct (if v_n_best v <? support good h ps then (h, support good h ps) else (v_best v, v_n_best v)) as [best n_best] eqn:EB.
    apply bind_ok in E as (top & ET & E). apply IH in E.
    + cbn [v_log] in E. rewrite app_length in E. cbn [length] in E. destruct E as (I' & LE & S1). split; [exact I'|]. split; [lia|]. intro LT'. apply S1. lia.
    + unfold inv. cbn [v_list v_log v_best v_n_best v_n]. split; [rewrite marked_fst; exact L|]. split; [apply Forall_app; split; [exact LG|constructor; [reflexivity|constructor]]|]. split; [|split].
      * rewrite map_app. cbn [map fst]. pose proof (support_range h ps) as R. destruct (Z.ltb_spec (v_n_best v) (support good h ps)) as [C|C]; injection EB as <- <-.
        -- right. split; [|reflexivity]. exists (map fst (v_log v)), []. split; [reflexivity|]. split; [destruct B as [(_ & N0 & _)|(_ & N0)]; [lia|pose proof (support_range (v_best v) ps); lia]|]. split; [|constructor].
           destruct B as [(_ & N0 & Z0)|((be & af & EQ & S0 & F1 & F2) & N0)].
           ++ eapply Forall_impl; [|exact Z0]. intros g G. cbv beta in G. lia.
           ++ rewrite EQ. apply Forall_app. split; [eapply Forall_impl; [|exact F1]; intros g G; cbv beta in G; lia|]. constructor; [lia|]. eapply Forall_impl; [|exact F2]. intros g G. cbv beta in G. lia.
        -- destruct B as [(J & N0 & Z0)|((be & af & EQ & S0 & F1 & F2) & N0)].
           ++ left. split; [exact J|]. split; [exact N0|]. apply Forall_app. split; [exact Z0|]. constructor; [lia|constructor].
           ++ right. split; [|exact N0]. exists be, (af ++ [h]). split; [rewrite EQ, <- app_assoc; reflexivity|]. split; [exact S0|]. split; [exact F1|]. apply Forall_app. split; [exact F2|]. constructor; [lia|constructor].
      * right. exists (v_log v), h. reflexivity.
      * rewrite removelast_last. destruct NL as [(E0 & _)|(l0 & g & E0)]; rewrite E0; [constructor|]. rewrite E0, removelast_last in EN. apply Forall_app. split; [exact EN|]. constructor; [exact LT|constructor].
Qed.
Lemma refine_ok : Z.of_nat (length ps) <= 2 ^ 24 -> forall fuel h l n, map fst l = ps -> flags_of good h l -> 0 <= n <= 2 ^ 24 ->
  (Z.to_nat (Z.of_nat (length ps) - n) < fuel)%nat ->
  exists h' l', refine good least fit fuel h l (support good h ps) n = Ok (h', l', support good h' ps) /\ map fst l' = ps /\ flags_of good h' l' /\ refined good fit least ps n h h'.
Proof.
  clear propose enough. intro LN. induction fuel as [|fuel IH]; intros h l n L F N FU; [lia|]. cbn [refine]. rewrite chk_small by lia. cbn [bind].
  pose proof (support_range h ps) as R. destruct (Z.ltb_spec (n + 5) (support good h ps)) as [LT|GE].
  - unfold estimate_inliers. set (g := if _ <? least then h else _). rewrite mark_eq, L.
    destruct (IH g (map (fun c => (fst c, good g (fst c))) l) (support good h ps)) as (h' & l' & E & L' & F' & RF).
    { rewrite marked_fst. exact L. }
    { apply marked_flags. }
    { lia. }
    { lia. }
    exists h', l'. split; [exact E|]. split; [exact L'|]. split; [exact F'|].
    assert (FE : map fst (filter snd l) = filter (good h) ps).
    { rewrite <- L. clear -F. induction l as [|[p b] l I]; [reflexivity|]. cbn [map fst filter snd]. rewrite (F p b) by (left; reflexivity).
      destruct (good h p); cbn [map fst]; rewrite I by (intros q c Q; apply F; right; exact Q); reflexivity. }
    unfold g in RF. rewrite FE in RF. apply refined_more; [exact LT|exact RF].
  - exists h, l. split; [reflexivity|]. split; [exact L|]. split; [exact F|apply refined_stop; lia].
Qed.
End G.

Section R.
Context {M P : Type}.
Variable good : M -> P -> bool.
Variable least : Z.
Variable fit : M -> list P -> M.
Variable propose : Z -> M -> list (P * bool) -> list Z -> res (M * list Z).
Variable enough : Z.
Variable qsort : list (P * bool) -> list (P * bool).
Hypothesis QS : forall l, Permutation l (qsort l).
Definition searched (enough max_n_iter : Z) (log : list (M * Z)) : Prop :=
  Z.of_nat (length log) <= Z.max 0 max_n_iter /\
  Forall (fun e => snd e < enough) (removelast log) /\
  (Z.of_nat (length log) < max_n_iter -> exists l g n, log = l ++ [(g, n)] /\ enough <= n).
Lemma ransac_ok h junk l max_n_iter rnd h' l' n log rnd' : 0 < least <= Z.of_nat (length l) -> Z.of_nat (length l) <= 2 ^ 24 -> 0 < enough ->
  ransac good least fit propose enough qsort h junk l max_n_iter rnd = Ok (h', l', n, log, rnd') ->
  exists ps start, ps = map fst (qsort l) /\ map fst l' = ps /\ flags_of good h' l' /\ n = support good h' ps /\
    log_of good ps log /\ searched enough max_n_iter log /\
    (start = junk /\ Forall (fun g => support good g ps = 0) (map fst log) \/ first_best good ps (map fst log) start) /\
    refined good fit least ps 1 start h'.
Proof.
  intros LE L24 EP E. unfold ransac in E. destruct (Z.ltb_spec (Z.of_nat (length l)) least); [lia|]. cbv zeta in E.
  apply bind_ok in E as (v & EM & E). set (ps := map fst (qsort l)) in *.
  assert (PL : length ps = length l) by (unfold ps; rewrite map_length; symmetry; apply Permutation_length, QS).
  apply (main_ok good propose enough ps junk) in EM.
  2: { unfold inv, log_of. cbn [v_list v_log v_best v_n_best v_n map removelast]. auto 10. }
  destruct EM as ((L & LG & B & NL & EN) & LL & ST).
  cbn [v_log length] in LL, ST. rewrite mark_eq in E. rewrite L in E.
  destruct (refine_ok good least fit ps ltac:(lia) (S (length (map (fun c => (fst c, good (v_best v) (fst c))) (v_list v)))) (v_best v) (map (fun c => (fst c, good (v_best v) (fst c))) (v_list v)) 1) as (h1 & l1 & ER & L1 & F1 & RF).
  { rewrite marked_fst. exact L. }
  { apply marked_flags. }
  { lia. }
  { rewrite map_length. assert (length (v_list v) = length ps) by (rewrite <- L, map_length; reflexivity). lia. }
  rewrite ER in E. cbn [bind] in E. injection E as <- <- <- <- <-.
  exists ps, (v_best v). split; [reflexivity|]. split; [exact L1|]. split; [exact F1|]. split; [reflexivity|]. split; [exact LG|]. split; [|split].
  - split; [lia|]. split; [exact EN|]. intro LT. specialize (ST ltac:(lia)). destruct NL as [(_ & N0)|(l0 & g & E0)]; [lia|]. exists l0, g, (v_n v). auto.
  - destruct B as [(J & _ & Z0)|(FB & _)]; [left; auto|right; exact FB].
  - exact RF.
Qed.
(** Nothing is read outside of the matches. *)
Lemma main_safe k : forall v, Forall (fun r => 0 <= r < 2 ^ 32 - 128) (v_rnd v) -> 1 <= v_top v <= Z.of_nat (length (v_list v)) -> Z.of_nat (length (v_list v)) <= 2 ^ 24 ->
  (forall top h l rnd, 1 <= top <= Z.of_nat (length l) -> Z.of_nat (length l) = Z.of_nat (length (v_list v)) -> Forall (fun r => 0 <= r < 2 ^ 32 - 128) rnd ->
     propose top h l rnd = NoFuel \/ exists h' rnd', propose top h l rnd = Ok (h', rnd') /\ incl rnd' rnd) ->
  main_loop good propose enough k v = NoFuel \/ exists v', main_loop good propose enough k v = Ok v' /\ length (v_list v') = length (v_list v).
Proof.
  clear QS qsort least fit. induction k as [|k IH]; intros v R T L24 PS; cbn [main_loop]; [right; eauto|]. destruct (v_n v <? enough); [|right; eauto].
  destruct (PS (v_top v) (v_h v) (v_list v) (v_rnd v) T eq_refl R) as [->|(h & rnd & -> & IN)]; cbn [bind]; [left; reflexivity|].
  rewrite mark_eq. destruct (if v_n_best v <? _ then _ else _) as [best n_best]. rewrite chk_small by lia. cbn [bind].
  set (top := if _ <=? v_top v + 1 then _ else _).
  assert (T' : 1 <= top <= Z.of_nat (length (v_list v))) by (unfold top; destruct (Z.leb_spec (Z.of_nat (length (v_list v))) (v_top v + 1)); lia).
  match goal with |- context [main_loop _ _ _ k ?w0] => set (w := w0) end.
  assert (LW : length (v_list w) = length (v_list v)) by (unfold w; cbn [v_list]; apply map_length).
  destruct (IH w) as [E|(v' & E & L')].
  - unfold w. cbn [v_rnd]. apply Forall_forall. intros r I. rewrite Forall_forall in R. apply R, IN, I.
  - rewrite LW. exact T'.
  - rewrite LW. exact L24.
  - intros t h0 l0 r0 A B C. apply PS; [exact A|rewrite B, LW; reflexivity|exact C].
  - left. exact E.
  - right. exists v'. split; [exact E|rewrite L'; exact LW].
Qed.
Lemma ransac_safe h junk l max_n_iter rnd : 0 < least -> Z.of_nat (length l) <= 2 ^ 24 -> Forall (fun r => 0 <= r < 2 ^ 32 - 128) rnd ->
  (least <= Z.of_nat (length l) -> forall top h l' rnd, 1 <= top <= Z.of_nat (length l') -> length l' = length l -> Forall (fun r => 0 <= r < 2 ^ 32 - 128) rnd ->
     propose top h l' rnd = NoFuel \/ exists h' rnd', propose top h l' rnd = Ok (h', rnd') /\ incl rnd' rnd) ->
  ransac good least fit propose enough qsort h junk l max_n_iter rnd = NoFuel \/
  exists r, ransac good least fit propose enough qsort h junk l max_n_iter rnd = Ok r.
Proof.
  intros LE L24 R PS. unfold ransac. destruct (Z.ltb_spec (Z.of_nat (length l)) least) as [LT|GE]; [right; eauto|].
  assert (QL : length (qsort l) = length l) by (symmetry; apply Permutation_length, QS).
  match goal with |- context [main_loop good propose enough (Z.to_nat max_n_iter) ?w] => destruct (main_safe (Z.to_nat max_n_iter) w) as [E|(v & E & L)] end; cbn [v_rnd v_top v_list]; rewrite ?QL.
  - exact R.
  - destruct (Z.ltb_spec (Z.of_nat (length l)) 10); lia.
  - exact L24.
  - intros t h0 l0 r0 A B C. apply PS; [exact GE|exact A|lia|exact C].
  - left. rewrite E. reflexivity.
  - right. cbv zeta. rewrite E. cbn [bind]. rewrite mark_eq. cbn [v_list] in L.
    destruct (refine_ok good least fit (map fst (v_list v))) with (fuel := S (length (map (fun c => (fst c, good (v_best v) (fst c))) (v_list v)))) (h := v_best v) (l := map (fun c => (fst c, good (v_best v) (fst c))) (v_list v)) (n := 1) as (h1 & l1 & ER & _).
    { rewrite map_length. lia. }
    { apply marked_fst. }
    { apply marked_flags. }
    { lia. }
    { rewrite !map_length. lia. }
    rewrite ER. cbn [bind]. eauto.
Qed.
Lemma sample_ok (l : list (P * bool)) ids : Forall (fun i => 0 <= i < Z.of_nat (length l)) ids -> exists ps, sample_matches l ids = Ok ps.
Proof.
  clear QS qsort least fit propose enough good. induction 1 as [|i ids I _ IH]; cbn [sample_matches]; [eauto|]. destruct l as [|d l]; [cbn in I; lia|]. rewrite (zget_lt _ i d I). cbn [bind]. destruct IH as (ps & ->). cbn [bind]. eauto.
Qed.
(** Where the sampled matrices come from: [from top g ps] holds of a matrix proposed
    from the first [top] matches. *)
Variable okr : Z -> Prop.
Variable from : Z -> M -> list P -> Prop.
Hypothesis PR : forall top h (l : list (P * bool)) rnd g rnd', Forall okr rnd -> 1 <= top <= Z.of_nat (length l) ->
  propose top h l rnd = Ok (g, rnd') -> Forall okr rnd' /\ from top g (map fst l).
Lemma main_from ps0 n0 k : n0 = Z.of_nat (length ps0) -> 1 <= n0 -> forall v v', Forall okr (v_rnd v) -> map fst (v_list v) = ps0 ->
  v_top v = Z.min n0 (10 + Z.of_nat (length (v_log v))) ->
  (forall i e, nth_error (v_log v) i = Some e -> from (Z.min n0 (10 + Z.of_nat i)) (fst e) ps0) ->
  main_loop good propose enough k v = Ok v' ->
  forall i e, nth_error (v_log v') i = Some e -> from (Z.min n0 (10 + Z.of_nat i)) (fst e) ps0.
Proof.
  clear QS qsort. intros N0 N1. induction k as [|k IH]; intros v v' F L T G E i e NE; cbn [main_loop] in E; [injection E as <-; eapply G, NE|].
  destruct (v_n v <? enough); [|injection E as <-; eapply G, NE].
  apply bind_ok in E as ([h rnd] & EP & E). rewrite mark_eq in E.
  assert (LL : Z.of_nat (length (v_list v)) = n0) by (rewrite N0, <- L, map_length; reflexivity).
  assert (TT : 1 <= v_top v <= Z.of_nat (length (v_list v))) by lia. destruct (PR _ _ _ _ _ _ F TT EP) as (F' & FR). rewrite L in FR.
  destruct (if v_n_best v <? _ then _ else _) as [best n_best].
  apply bind_ok in E as (top & ET & E). unfold chk_int in ET. destruct (in_int (v_top v + 1)) eqn:II; [|discriminate]. injection ET as <-.
  refine (IH _ _ _ _ _ _ E i e NE); cbn [v_rnd v_list v_top v_log].
  - exact F'.
  - rewrite marked_fst. exact L.
  - rewrite LL, T, app_length. cbn [length]. destruct (Z.leb_spec n0 (Z.min n0 (10 + Z.of_nat (length (v_log v))) + 1)); lia.
  - intros j x J. destruct (Nat.lt_ge_cases j (length (v_log v))) as [C|C].
    + rewrite nth_error_app1 in J by exact C. eapply G, J.
    + rewrite nth_error_app2 in J by exact C. destruct (j - length (v_log v))%nat as [|m] eqn:D; [|destruct m; discriminate]. injection J as <-. cbn [fst]. replace j with (length (v_log v)) by lia. rewrite <- T. exact FR.
Qed.
Lemma ransac_from h junk l max_n_iter rnd h' l' n log rnd' : 0 < least <= Z.of_nat (length l) -> Forall okr rnd ->
  ransac good least fit propose enough qsort h junk l max_n_iter rnd = Ok (h', l', n, log, rnd') ->
  forall i e, nth_error log i = Some e -> from (Z.min (Z.of_nat (length l)) (10 + Z.of_nat i)) (fst e) (map fst (qsort l)).
Proof.
  intros LE F E. unfold ransac in E. destruct (Z.ltb_spec (Z.of_nat (length l)) least); [lia|]. cbv zeta in E.
  apply bind_ok in E as (v & EM & E). destruct (mark_inliers good (v_best v) (v_list v)) as [l1 nb]. apply bind_ok in E as ([[h2 l2] n2] & _ & E). injection E as <- <- <- <- <-.
  refine (main_from (map fst (qsort l)) _ _ _ _ _ _ _ _ _ _ EM); cbn [v_rnd v_list v_top v_log].
  - rewrite map_length. f_equal. apply Permutation_length, QS.
  - lia.
  - exact F.
  - reflexivity.
  - cbn [length]. destruct (Z.ltb_spec (Z.of_nat (length l)) 10); lia.
  - intros j x J. destruct j; discriminate.
Qed.
End R.
