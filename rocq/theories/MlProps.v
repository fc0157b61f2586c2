(** C142: lists of point matches (over the reals). *)
From Verif Require Import Base BaseLemmas ProjModel GeoSpec ProjSpec GeoProofs NormProofs ProjProps MlModel MlSpec MlProofs.
From Coq Require Import Permutation Sorted Lra Lia.
Local Open Scope R_scope.

(** Along a history without plain copies every list behaves as a value of its
    own: one call changes one list, and as its name says.  Missing: lists made
    by the copy constructor, see C142_copy_refuted. *)
Theorem C142_histories_partial : forall sort cs A, history sort [] cs A -> exists w, ml_run sort (W [] []) cs = Ok w /\ holds w A.
Proof. intros sort cs A H. destruct (history_ok sort [] cs A H _ winv_nil) as (w & E & Hw & _). eauto. Qed.
Print Assumptions C142_histories_partial.

(** Every sensible call has such an effect. *)
Theorem C142_progress : forall sort A c, allowed A c -> exists A', effect sort A c A'.
Proof.
  assert (forall (A : list mlist) i m, nth_error A i = Some m -> exists A1 B1, A = A1 ++ m :: B1 /\ i = length A1) as Hs.
  { intros A i m H. apply nth_error_split in H as (A1 & B1 & -> & <-). eauto. }
  assert (forall (A : list mlist) i, (i < length A)%nat -> exists A1 l s B1, A = A1 ++ (l, s) :: B1 /\ i = length A1) as Hl.
  { intros A i H. destruct (nth_error A i) as [[l s]|] eqn:E; [|apply nth_error_None in E; lia]. apply Hs in E as (A1 & B1 & -> & ->). eauto 6. }
  intros sort A [|i|i|i|i c|i idx b|i|i|i] H; cbn [allowed] in H.
  - eexists. constructor.
  - contradiction.
  - apply Hl in H as (A1 & l & s & B1 & -> & ->). eexists. constructor.
  - apply Hl in H as (A1 & l & s & B1 & -> & ->). eexists. constructor.
  - apply Hl in H as (A1 & l & s & B1 & -> & ->). eexists. constructor.
  - destruct H as (l & s & E & Hi). apply Hs in E as (A1 & B1 & -> & ->). destruct (nth_error l (Z.to_nat idx)) as [c|] eqn:Ec; [|apply nth_error_None in Ec; lia].
    apply nth_error_split in Ec as (l1 & l2 & -> & El). replace idx with (Z.of_nat (length l1)) by lia. eexists. constructor.
  - destruct H as (l & s & E & H1 & H2). apply Hs in E as (A1 & B1 & -> & ->). pose proof (norm_stats l) as Es. pose proof (norm_list l) as El. destruct (normalize_matches l) as [st l']. cbn [fst snd] in *.
    exists (A1 ++ (l', st) :: B1). constructor; auto. split; [rewrite Es; reflexivity|]. split; [rewrite Es; reflexivity|]. split; [|split; [|exact El]].
    + transitivity (total (fun c => len2 (V2 (px (mx c) - px (sm st)) (py (mx c) - py (sm st)))) l / INR (length l)); [rewrite Es at 1|]; reflexivity.
    + transitivity (total (fun c => len2 (V2 (px (mxp c) - px (smp st)) (py (mxp c) - py (smp st)))) l / INR (length l)); [rewrite Es at 1|]; reflexivity.
  - apply Hl in H as (A1 & l & s & B1 & -> & ->). eexists. constructor. reflexivity.
  - apply Hl in H as (A1 & l & s & B1 & -> & ->). eexists. constructor.
Qed.
Print Assumptions C142_progress.

(** Adding returns the new number of matches. *)
Theorem C142_add : forall sort cs A w i l s c, history sort [] cs A -> ml_run sort (W [] []) cs = Ok w -> nth_error A i = Some (l, s) ->
  exists w', ml_add w i c = Ok (w', S (length l)).
Proof.
  intros sort cs A w i l s c H R Hn. destruct (history_ok sort [] cs A H _ winv_nil) as (w0 & E & Hw). rewrite R in E. injection E as <-.
  apply nth_error_split in Hn as (A1 & B1 & -> & <-). apply F2_split in Hw as (OA & o & OB & E & Hl & _ & [Ho _] & _). unfold ml_add. rewrite E, <- Hl, mid_get. cbn [bind fst] in *. rewrite Ho, app_length. cbn [length].
  replace (length l + 1)%nat with (S (length l)) by lia. eauto.
Qed.
Print Assumptions C142_add.

(** Normalizing a list and undoing it gives the matches back, whatever happened
    to other lists and however this one was sorted and flagged in between. *)
Theorem C142_roundtrip : forall sort cs1 cs2 A A' i l s, sorts sort ->
  history sort [] cs1 A -> nth_error A i = Some (l, s) -> Forall (harmless i) cs2 ->
  history sort A (MNormalize i :: cs2 ++ [MDenormalize i]) A' ->
  exists w l', ml_run sort (W [] []) (cs1 ++ MNormalize i :: cs2 ++ [MDenormalize i]) = Ok w /\ holds w A' /\
    nth_error A' i = Some (l', neutral) /\ Permutation (map unflagged l) (map unflagged l').
Proof.
  intros sort cs1 cs2 A A' i l s Hso H1 Hn Hf H2. destruct (round_ok sort A cs2 A' i l s Hso H2 Hf Hn) as (l' & Hn' & P).
  assert (history sort [] (cs1 ++ MNormalize i :: cs2 ++ [MDenormalize i]) A') as H.
  { clear - H1 H2. revert H2. generalize (MNormalize i :: cs2 ++ [MDenormalize i]). induction H1 as [A|A c A1 cs A2 He Hh IH]; intros cs' H2; [exact H2|]. cbn [app]. econstructor; eauto. }
  destruct (history_ok sort [] _ A' H _ winv_nil) as (w & E & Hw & _). exists w, l'. auto.
Qed.
Print Assumptions C142_roundtrip.

Definition ma : pmatch := PM (V2 1 1) (V2 0 0) 0 1 1 0 0 true.
Definition mb : pmatch := PM (V2 3 1) (V2 0 4) 0 1 1 0 0 false.
Lemma ma_neq : spread mx [ma; mb] /\ spread mxp [ma; mb].
Proof. split; exists ma, mb; cbn; (split; [auto|]; split; [auto|]); intro E; injection E; lra. Qed.

(** A copy made by the copy constructor shares the statistics: normalizing the
    copy changes what undoing does to the original, which was never normalized. *)
Theorem C142_copy_refuted : forall sort, exists cs w o, cs = [MNew; MAdd 0 ma; MAdd 0 mb; MCopy 0; MNormalize 1; MDenormalize 0] /\
  ml_run sort (W [] []) cs = Ok w /\ nth_error (w_objs w) 0 = Some o /\ map mx (snd o) = [V2 3 2; V2 5 2] /\ map mx [ma; mb] = [V2 1 1; V2 3 1].
Proof.
  intros sort. destruct C61_example as (_ & _ & E). fold ma mb in E. exists [MNew; MAdd 0 ma; MAdd 0 mb; MCopy 0; MNormalize 1; MDenormalize 0].
  unfold ml_run, ml_do, ml_new, ml_add, ml_copy, ml_normalize. cbn [aget nth_error w_objs w_stats app length bind fst snd lset].
  change (fst (normalize_matches [ma; mb]) = St (V2 2 1) (V2 0 2) 1 2) in E. destruct (normalize_matches [ma; mb]) as [st l']. cbn [fst] in E. subst st.
  unfold ml_denormalize. cbn. eexists _, _. split; [reflexivity|]. split; [reflexivity|]. split; [reflexivity|]. split; [|reflexivity]. cbn. repeat f_equal; lra.
Qed.
Print Assumptions C142_copy_refuted.

(** Normalizing twice loses the way back: the second call replaces the
    statistics of the first, and undoing gives the normalized matches. *)
Theorem C142_twice_refuted : forall sort A A' i l s, nth_error A i = Some (l, s) -> history sort A [MNormalize i; MNormalize i; MDenormalize i] A' ->
  exists l1 s1, normalized l s1 l1 /\ nth_error A' i = Some (l1, neutral).
Proof.
  intros sort A A' i l s Hn H. inversion H as [|? ? A1 ? ? E1 H1]; subst. inversion H1 as [|? ? A2 ? ? E2 H2]; subst. inversion H2 as [|? ? A3 ? ? E3 H3]; subst. inversion H3; subst.
  destruct (norm_inv _ _ _ _ _ _ E1 Hn) as (l1 & s1 & N1 & S1 & S1' & M1). destruct (norm_inv _ _ _ _ _ _ E2 N1) as (l2 & s2 & N2 & S2 & S2' & M2). destruct (denorm_inv _ _ _ _ _ _ E3 N2) as (l3 & N3 & D3).
  exists l1, s1. split; [exact M1|]. rewrite N3. f_equal. f_equal. apply denormalize_spec in D3. apply normalize_spec in M2. pose proof (roundtrip l1 S2 S2') as R. rewrite M2 in R. cbn [fst snd] in R. congruence.
Qed.
Print Assumptions C142_twice_refuted.

Example C142_example : forall sort, exists A A', history sort [] [MNew; MAdd 0 ma; MAdd 0 mb; MClone 0; MInlier 1 1 true] A /\
  history sort A (MNormalize 0 :: [MSort 0; MClear 1] ++ [MDenormalize 0]) A' /\ nth_error A 0 = Some ([ma; mb], neutral) /\ Forall (harmless 0) [MSort 0; MClear 1].
Proof.
  intros sort. eexists. assert (exists st l', normalized [ma; mb] st l') as (st & l' & Hn).
  { destruct (C142_progress sort [([ma; mb], neutral)] (MNormalize 0)) as (A' & He); [eexists _, _; split; [reflexivity|apply ma_neq]|]. destruct (norm_inv _ _ _ _ _ _ He eq_refl) as (l' & s' & _ & _ & _ & Hn). eauto. }
  eexists. split; [|split; [|split]].
  - econstructor; [apply (e_new sort [])|]. econstructor; [apply (e_add sort [] [])|]. econstructor; [apply (e_add sort [] [])|]. econstructor; [apply (e_clone sort [] [])|].
    econstructor; [apply (e_inlier sort [([ma; mb], neutral)] [] [ma] mb [])|]. constructor.
  - cbn [app]. econstructor; [apply (e_norm sort [] _ _ _ l' st); [apply ma_neq|apply ma_neq|exact Hn]|]. econstructor; [apply (e_sort sort [])|]. econstructor; [apply (e_clear sort [_])|]. econstructor; [apply (e_denorm sort [] ); reflexivity|]. constructor.
  - reflexivity.
  - repeat constructor. cbn. lia.
Qed.
