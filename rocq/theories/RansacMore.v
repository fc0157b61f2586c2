(** The two samplers and the two estimators. *)
From Coq Require Import Permutation.
From Verif Require Import Base BaseLemmas UsacModel UsacProofs SiftProofs Gray RansacModel RansacSpec RansacProofs.
Local Open Scope Z_scope.

Definition low (r : Z) : Prop := 0 <= r < 2 ^ 32 - 128.
Lemma until_cases n c rs : draw_until n c rs = NoFuel \/ exists x rs', draw_until n c rs = Ok (x, rs').
Proof. induction rs as [|r rs IH]; cbn [draw_until]; [left; reflexivity|]. destruct (c (draw n r)); [exact IH|right; eauto]. Qed.
Lemma sampling_safe top rs : 1 <= top <= 2 ^ 24 -> Forall low rs ->
  homography_sampling top rs = NoFuel \/ exists ids rs', homography_sampling top rs = Ok (ids, rs') /\ incl rs' rs /\ Forall (fun i => 0 <= i < top) ids.
Proof.
  intros T F. rewrite Forall_forall in F. assert (R : forall x, In x rs -> 0 <= draw top x < top) by (intros x X; apply draw_range; [exact T|apply F; exact X]).
  unfold homography_sampling.
  destruct (until_cases top (fun _ => false) rs) as [->|(a & r1 & E1)]; [left; reflexivity|]. rewrite E1. cbn [bind]. apply draw_until_spec in E1 as (_ & x1 & I1 & X1 & S1).
  destruct (until_cases top (fun x => x =? a) r1) as [->|(b & r2 & E2)]; [left; reflexivity|]. rewrite E2. cbn [bind]. apply draw_until_spec in E2 as (_ & x2 & I2 & X2 & S2).
  destruct (until_cases top (fun x => (x =? b) || (x =? a)) r2) as [->|(c & r3 & E3)]; [left; reflexivity|]. rewrite E3. cbn [bind]. apply draw_until_spec in E3 as (_ & x3 & I3 & X3 & S3).
  destruct (until_cases top (fun x => (x =? b) || (x =? b) || (x =? a)) r3) as [->|(d & r4 & E4)]; [left; reflexivity|]. rewrite E4. cbn [bind]. apply draw_until_spec in E4 as (_ & x4 & I4 & X4 & S4).
  right. exists [a; b; c; d], r4. split; [reflexivity|]. split; [intros y Y; auto|]. subst. repeat (apply Forall_cons; [apply R; auto 10|]). apply Forall_nil.
Qed.

Section H.
Context {M P : Type}.
Variable good : M -> P -> bool.
Variable fit : M -> list P -> M.
Variable estimate_4pt : M -> list P -> M * bool.
Variable check : M -> bool.
Lemma tries_safe k : forall top h (l : list (P * bool)) rnd, 1 <= top <= Z.of_nat (length l) -> Z.of_nat (length l) <= 2 ^ 24 -> Forall low rnd ->
  tries_loop estimate_4pt check k top h l rnd = NoFuel \/ exists h' rnd', tries_loop estimate_4pt check k top h l rnd = Ok (h', rnd') /\ incl rnd' rnd.
Proof.
  clear good fit. induction k as [|k IH]; intros top h l rnd T L24 F; cbn [tries_loop]; [left; reflexivity|].
  destruct (sampling_safe top rnd ltac:(lia) F) as [->|(ids & r1 & -> & I1 & R1)]; [left; reflexivity|]. cbn [bind].
  destruct (sample_ok l ids) as (ps & ->); [eapply Forall_impl; [|exact R1]; cbv beta; lia|]. cbn [bind]. destruct (estimate_4pt h ps) as [h' dz].
  destruct dz; [|right; exists h', r1; auto]. destruct k as [|k]; [right; exists h', r1; auto|]. destruct (negb (check h')); [|right; exists h', r1; auto].
  destruct (IH top h' l r1 T L24) as [E|(h2 & r2 & E & I2)].
  - apply Forall_forall. intros r I. rewrite Forall_forall in F. apply F, I1, I.
  - left. exact E.
  - right. exists h2, r2. split; [exact E|]. intros y Y. apply I1, I2, Y.
Qed.
(** The indices of a sample of four. *)
Definition four (top : Z) (ids : list Z) : Prop := exists a b c d, ids = [a; b; c; d] /\ NoDup [a; b; c] /\ d <> a /\ d <> b /\ Forall (fun i => 0 <= i < top) ids.
Lemma sampling_four top rs ids rs' : 1 <= top <= 2 ^ 24 -> Forall low rs -> homography_sampling top rs = Ok (ids, rs') -> Forall low rs' /\ four top ids.
Proof.
  clear good fit estimate_4pt check. intros T F H. pose proof (sampling_safe top rs T F) as SS. rewrite H in SS. destruct SS as [|(i & r & E & I & R)]; [discriminate|]. injection E as <- <-. split.
  { apply Forall_forall. intros x X. rewrite Forall_forall in F. apply F, I, X. }
  unfold homography_sampling in H.
  apply bind_ok in H as ([a r1] & H1 & H). apply bind_ok in H as ([b r2] & H2 & H).
  apply bind_ok in H as ([c r3] & H3 & H). apply bind_ok in H as ([e r4] & H4 & H). injection H as <- <-.
  apply draw_until_spec in H2 as (C2 & _). apply draw_until_spec in H3 as (C3 & _). apply draw_until_spec in H4 as (C4 & _).
  exists a, b, c, e. split; [reflexivity|]. split; [|split; [lia|split; [lia|exact R]]].
  constructor; [cbn; lia|]. constructor; [cbn; lia|]. constructor; [easy|constructor].
Qed.
Lemma sample_values (l : list (P * bool)) : forall ids ps, sample_matches l ids = Ok ps -> Forall2 (fun i p => nth_error (map fst l) (Z.to_nat i) = Some p) ids ps.
Proof.
  clear good fit estimate_4pt check. induction ids as [|i ids IH]; intros ps E; cbn [sample_matches] in E; [injection E as <-; constructor|].
  apply bind_ok in E as (c & EC & E). apply bind_ok in E as (q & EQ & E). injection E as <-. constructor; [|apply IH; exact EQ].
  unfold zget in EC. destruct (i <? 0); [discriminate|]. unfold aget in EC. destruct (nth_error l (Z.to_nat i)) eqn:NE; [|discriminate]. injection EC as <-. apply map_nth_error. exact NE.
Qed.
Lemma tries_from k : forall top h (l : list (P * bool)) rnd g rnd', 1 <= top <= 2 ^ 24 -> Forall low rnd -> tries_loop estimate_4pt check k top h l rnd = Ok (g, rnd') ->
  Forall low rnd' /\ exists ids ps h0 dz, four top ids /\ Forall2 (fun i p => nth_error (map fst l) (Z.to_nat i) = Some p) ids ps /\ estimate_4pt h0 ps = (g, dz).
Proof.
  clear good fit. induction k as [|k IH]; intros top h l rnd g rnd' T F E; cbn [tries_loop] in E; [discriminate|].
  apply bind_ok in E as ([ids r1] & E1 & E). apply bind_ok in E as (ps & E2 & E). destruct (sampling_four _ _ _ _ T F E1) as (F1 & I1). apply sample_values in E2.
  destruct (estimate_4pt h ps) as [h' dz] eqn:E4. destruct dz; [|injection E as <- <-; split; [exact F1|exists ids, ps, h, false; auto]].
  destruct k as [|k]; [injection E as <- <-; split; [exact F1|exists ids, ps, h, true; auto]|]. destruct (negb (check h')); [|injection E as <- <-; split; [exact F1|exists ids, ps, h, true; auto]].
  exact (IH _ _ _ _ _ _ T F1 E).
Qed.
End H.

(** Eight indices. *)
Lemma last_removelast {A} (l : list A) d : l <> [] -> l = removelast l ++ [last l d].
Proof. apply app_removelast_last. Qed.
Lemma select_more_ok top a : forall rnd ids ids' rnd', (length ids <= 7)%nat -> NoDup ids -> select_more top (ids ++ [a]) rnd = Ok (ids', rnd') ->
  incl rnd' rnd /\ exists more, length more = 7%nat /\ NoDup more /\ ids' = a :: more /\ (exists extra, more = rev ids ++ extra /\ forall x, In x extra -> exists r, In r rnd /\ x = draw top r).
Proof.
  induction rnd as [|r rnd IH]; intros ids ids' rnd' L ND E; cbn [select_more] in E; rewrite app_length in E; cbn [length] in E; destruct (Nat.leb_spec 8 (length ids + 1)) as [G|G]; try discriminate.
  1,2: injection E as <- <-; split; [intros y Y; exact Y|]; exists (rev ids); rewrite rev_app_distr; split; [rewrite rev_length; lia|]; split; [apply NoDup_rev; exact ND|]; split; [reflexivity|]; exists []; split; [rewrite app_nil_r; reflexivity|intros x []].
  rewrite removelast_last in E. destruct (existsb (Z.eqb (draw top r)) ids) eqn:EX.
  - apply IH in E as (I & more & LM & NM & EM & extra & EE & EI); [|exact L|exact ND]. split; [intros y Y; right; apply I, Y|]. exists more. split; [exact LM|]. split; [exact NM|]. split; [exact EM|].
    exists extra. split; [exact EE|]. intros x X. destruct (EI x X) as (q & Q & EQ). exists q. split; [right; exact Q|exact EQ].
  - change (draw top r :: ids ++ [a]) with ((draw top r :: ids) ++ [a]) in E.
    apply IH in E as (I & more & LM & NM & EM & extra & EE & EI).
    + split; [intros y Y; right; apply I, Y|]. exists more. split; [exact LM|]. split; [exact NM|]. split; [exact EM|]. exists (draw top r :: extra). split.
      * rewrite EE. cbn [rev]. rewrite <- app_assoc. reflexivity.
      * intros x [<-|X]; [exists r; split; [left; reflexivity|reflexivity]|]. destruct (EI x X) as (q & Q & EQ). exists q. split; [right; exact Q|exact EQ].
    + cbn [length]. lia.
    + constructor; [|exact ND]. intro IN. assert (existsb (Z.eqb (draw top r)) ids = true) by (apply existsb_exists; exists (draw top r); split; [exact IN|apply Z.eqb_refl]). congruence.
Qed.
Lemma select_8_ok top rnd ids rnd' : select_8 top rnd = Ok (ids, rnd') ->
  incl rnd' rnd /\ exists a more, ids = a :: more /\ length more = 7%nat /\ NoDup more /\ forall x, In x ids -> exists r, In r rnd /\ x = draw top r.
Proof.
  intro E. destruct rnd as [|r rnd]; [discriminate|]. cbn [select_8] in E. change [draw top r] with ([] ++ [draw top r]) in E.
  apply select_more_ok in E as (I & more & LM & NM & -> & extra & EE & EI); [|cbn; lia|constructor]. split; [intros y Y; right; apply I, Y|]. exists (draw top r), more. split; [reflexivity|]. split; [exact LM|]. split; [exact NM|].
  intros x [<-|X]; [exists r; split; [left; reflexivity|reflexivity]|]. rewrite EE in X. destruct (EI x X) as (q & Q & EQ). exists q. split; [right; exact Q|exact EQ].
Qed.
Lemma select_more_cases top : forall rnd ids, select_more top ids rnd = NoFuel \/ exists r, select_more top ids rnd = Ok r.
Proof.
  induction rnd as [|r rnd IH]; intro ids; cbn [select_more]; destruct (8 <=? length ids)%nat; eauto. destruct (existsb _ _); apply IH.
Qed.
Lemma select_8_safe top rnd : 1 <= top <= 2 ^ 24 -> Forall low rnd ->
  select_8 top rnd = NoFuel \/ exists ids rnd', select_8 top rnd = Ok (ids, rnd') /\ incl rnd' rnd /\ Forall (fun i => 0 <= i < top) ids.
Proof.
  intros T F. assert (C : select_8 top rnd = NoFuel \/ exists r, select_8 top rnd = Ok r) by (destruct rnd as [|r rnd]; [left; reflexivity|apply select_more_cases]).
  destruct C as [->|((ids & rnd') & E)]; [left; reflexivity|]. right. exists ids, rnd'. split; [exact E|]. apply select_8_ok in E as (I & a & more & _ & _ & _ & D). split; [exact I|].
  apply Forall_forall. intros x X. destruct (D x X) as (r & IN & ->). rewrite Forall_forall in F. apply draw_range; [exact T|apply F; exact IN].
Qed.
(** A stream in which every index comes up again and again. *)
Lemma free_index top ids : 8 <= top -> (length ids <= 7)%nat -> exists i, 0 <= i < top /\ ~ In i ids.
Proof.
  intros T RL. destruct (existsb (fun i => negb (existsb (Z.eqb i) ids)) (map Z.of_nat (seq 0 8))) eqn:EX.
  - apply existsb_exists in EX as (i & I & N). apply in_map_iff in I as (j & <- & J). apply in_seq in J. exists (Z.of_nat j). split; [lia|]. intro IN.
    assert (existsb (Z.eqb (Z.of_nat j)) ids = true) by (apply existsb_exists; exists (Z.of_nat j); split; [exact IN|apply Z.eqb_refl]). rewrite H in N. discriminate.
  - exfalso. assert (INC : incl (map Z.of_nat (seq 0 8)) ids).
    { intros i I. destruct (existsb (Z.eqb i) ids) eqn:EI; [apply existsb_exists in EI as (y & Y & E); apply Z.eqb_eq in E; subst; exact Y|].
      exfalso. assert (existsb (fun i => negb (existsb (Z.eqb i) ids)) (map Z.of_nat (seq 0 8)) = true) by (apply existsb_exists; exists i; split; [exact I|rewrite EI; reflexivity]). congruence. }
    apply NoDup_incl_length in INC; [rewrite map_length, seq_length in INC; lia|]. apply FinFun.Injective_map_NoDup; [intros x y E; lia|apply seq_NoDup].
Qed.
Lemma removelast_length {A} (l : list A) : length (removelast l) = (length l - 1)%nat.
Proof. induction l as [|x [|y l] IH]; [reflexivity|reflexivity|]. change (removelast (x :: y :: l)) with (x :: removelast (y :: l)). cbn [length]. rewrite IH. cbn [length]. lia. Qed.
Lemma select_more_ends top : 8 <= top -> forall k pre ids rest blocks, (length ids + k = 8)%nat -> (k <= length blocks)%nat ->
  Forall (fun b => forall i, 0 <= i < top -> exists r, In r b /\ draw top r = i) blocks ->
  exists ids' rest', select_more top ids (pre ++ concat blocks ++ rest) = Ok (ids', rest').
Proof.
  intros T. induction k as [|k IH]; intros pre ids rest blocks L LB F.
  - assert (E : (8 <=? length ids)%nat = true) by (apply Nat.leb_le; lia). exists (rev ids), (pre ++ concat blocks ++ rest). destruct (pre ++ concat blocks ++ rest); cbn [select_more]; rewrite E; reflexivity.
  - destruct (8 <=? length ids)%nat eqn:E8.
    { exists (rev ids), (pre ++ concat blocks ++ rest). destruct (pre ++ concat blocks ++ rest); cbn [select_more]; rewrite E8; reflexivity. }
    apply Nat.leb_gt in E8 as L8. induction pre as [|q pre IHp].
    + destruct blocks as [|b blocks]; [cbn in LB; lia|]. apply Forall_cons_iff in F as [Fb F]. cbn [app concat]. rewrite <- app_assoc.
      destruct (free_index top (removelast ids) T) as (i & IR & NI); [rewrite removelast_length; lia|]. destruct (Fb i IR) as (r & RI & DR).
      assert (HIT : exists x b', select_more top ids (b ++ concat blocks ++ rest) = select_more top (x :: ids) (b' ++ concat blocks ++ rest)).
      { clear -E8 RI DR NI. generalize (concat blocks ++ rest). intro tail. induction b as [|q b IHb]; [destruct RI|]. cbn [app select_more]. rewrite E8.
        destruct (existsb (Z.eqb (draw top q)) (removelast ids)) eqn:EX.
        - destruct RI as [->|RI]; [|exact (IHb RI)]. exfalso. apply NI. apply existsb_exists in EX as (y & Y & EY). apply Z.eqb_eq in EY. rewrite <- DR, EY. exact Y.
        - exists (draw top q), b. reflexivity. }
      destruct HIT as (x & b' & ->). apply IH; [cbn [length]; lia|cbn [length] in LB; lia|exact F].
    + cbn [app select_more]. rewrite E8. destruct (existsb (Z.eqb (draw top q)) (removelast ids)); [exact IHp|]. apply IH; [cbn [length]; lia|lia|exact F].
Qed.
