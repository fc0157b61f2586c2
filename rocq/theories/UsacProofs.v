From Verif Require Import Base BaseLemmas Dbl UsacModel UsacSpec.
From Coq Require Import Sorting.Sorted.
Local Open Scope Z_scope.

Lemma standing_app' a b : (forall mo r, b <> EDegen mo false :: r) ->
  standing (a ++ b) = standing a ++ standing b.
Proof.
  intro H. induction a as [|e a IH]; [auto|]. destruct e; cbn [app standing]; auto.
  destruct a as [|e' a].
  - cbn [app standing]. destruct b as [|e b]; auto. destruct e; auto. destruct ok; auto. exfalso. eapply H; eauto.
  - cbn [app] in *. destruct e'; auto; rewrite IH; auto. destruct ok; auto.
Qed.
Lemma standing_app a b : (forall mo r, b <> EDegen mo false :: r) ->
  standing_scores (a ++ b) = standing_scores a ++ standing_scores b.
Proof. intro H. unfold standing_scores. now rewrite standing_app', map_app by auto. Qed.
Lemma shown_app a b : shown_scores (a ++ b) = shown_scores a ++ shown_scores b.
Proof. induction a as [|e a IH]; [auto|]. destruct e; cbn; auto. now rewrite IH. Qed.

Definition below (b x : dbl) : Prop := d_gt x b = false.
Definition up (a b : dbl) : Prop := d_gt a b = false.
Lemma below_grow b b' l : d_gt b' b = true -> Forall (below b) l -> Forall (below b') l.
Proof. intros H. apply Forall_impl. intros x. unfold below. intro X. eapply d_gt_grow; eauto. Qed.

Section Usac.
Variable D : Type.
Variable sampling_fn : list Z -> D -> list Z * D.
Variable sample_check_fn : list Z -> D -> bool * D.
Variable model_fit_fn : Z -> list model -> list Z -> D -> Z * Z * list model * D.
Variable model_check_fn : model -> list Z -> D -> bool * model * D.
Variable model_score_fn : model -> list Z -> D -> dbl * model * D.
Variable degeneracy_check_fn : model -> list Z -> D -> bool * model * D.
Variable local_refinement_fn : model -> model -> list Z -> D -> bool * model * D.
Variable global_refinement_fn : model -> model -> D -> model * D.
Variable termination_fn : model -> dbl -> D -> bool * D.
Notation TM := (try_model D model_check_fn model_score_fn degeneracy_check_fn local_refinement_fn).
Notation ML := (main_loop D sampling_fn sample_check_fn model_fit_fn model_check_fn model_score_fn degeneracy_check_fn local_refinement_fn termination_fn).

Record UInv (m : nat) (s : ust D) : Prop := {
  ui_below : Forall (below (u_score _ s)) (standing_scores (u_log _ s));
  ui_nan : d_nan (u_score _ s) = false;
  ui_shown : Forall (fun x => up x (u_score _ s)) (shown_scores (u_log _ s)) /\ StronglySorted up (shown_scores (u_log _ s));
  ui_scored : (forall mo ids d, snd (fst (degeneracy_check_fn mo ids d)) = mo) ->
     In (u_best _ s, u_score _ s) (standing (u_log _ s)) \/ (u_best _ s = repeat D_ZERO m /\ u_score _ s = D_MINUS_MAX) }.

Lemma up_grow b b' l : d_gt b' b = true -> Forall (fun x => up x b) l -> Forall (fun x => up x b') l.
Proof. intros H. apply Forall_impl. intros x. unfold up. intro X. eapply d_gt_grow; eauto. Qed.

(** Appending calls that leave the best as it is. *)
Lemma inv_keep m (s s' : ust D) es : UInv m s -> u_best _ s' = u_best _ s -> u_score _ s' = u_score _ s -> u_log _ s' = u_log _ s ++ es ->
  (forall mo r, es <> EDegen mo false :: r) -> Forall (below (u_score _ s)) (standing_scores es) -> shown_scores es = [] -> UInv m s'.
Proof.
  intros [A B C E] Eb Es El H F G. constructor; rewrite ?Eb, ?Es, ?El; auto.
  - rewrite standing_app by auto. apply Forall_app. auto.
  - rewrite shown_app, G, app_nil_r. auto.
  - intro K. destruct (E K) as [X|X]; auto. left. rewrite standing_app' by (auto; discriminate). apply in_or_app. auto.
Qed.
(** Appending calls after which a better model is taken. *)
Lemma inv_take m (s s' : ust D) es mo x : UInv m s -> u_best _ s' = mo -> u_score _ s' = x -> u_log _ s' = u_log _ s ++ es ->
  (forall mo r, es <> EDegen mo false :: r) -> d_gt x (u_score _ s) = true -> Forall (below x) (standing_scores es) -> shown_scores es = [] ->
  ((forall mo ids d, snd (fst (degeneracy_check_fn mo ids d)) = mo) -> In (mo, x) (standing es)) -> UInv m s'.
Proof.
  intros [A B C E] Eb Es El H X F G K. constructor; rewrite ?Eb, ?Es, ?El; auto.
  - rewrite standing_app by auto. apply Forall_app. split; auto. eapply below_grow; eauto.
  - eapply d_gt_nan; eauto.
  - rewrite shown_app, G, app_nil_r. destruct C as [C1 C2]. split; auto. eapply up_grow; eauto.
  - intro Q. left. rewrite standing_app' by (auto; discriminate). apply in_or_app. auto.
Qed.

Lemma try_model_inv m i s s' : UInv m s -> TM i s = Ok s' -> UInv m s'.
Proof.
  intros I H. unfold try_model in H. apply bind_ok in H as (mo & _ & H).
  destruct (model_check_fn mo (u_ids _ s) (u_data _ s)) as [[ok mo1] d1].
  apply bind_ok in H as (ms1 & _ & H).
  destruct ok; cbn [negb] in H; cycle 1.
  { injection H as <-. eapply inv_keep with (es := [ECheck mo1 false]); eauto; try reflexivity; try discriminate. constructor. }
  cbn [u_ids u_data say with_models with_data u_models u_score] in H.
  destruct (model_score_fn mo1 (u_ids _ s) d1) as [[sc mo2] d2].
  apply bind_ok in H as (ms2 & _ & H). cbn [u_ids u_data say with_models with_data u_models u_score u_refined] in H.
  destruct (d_gt sc (u_score _ s)) eqn:G; cycle 1.
  { injection H as <-. eapply inv_keep with (es := [ECheck mo1 true; EScore mo2 sc]); eauto; try reflexivity; try discriminate.
    - cbn. now rewrite <- app_assoc.
    - cbn. constructor; auto. }
  destruct (degeneracy_check_fn mo2 (u_ids _ s) d2) as [[ok3 mo3] d3] eqn:DG.
  apply bind_ok in H as (ms3 & _ & H). cbn [u_ids u_data say with_models with_data u_models u_score u_refined] in H.
  destruct ok3; cbn [negb] in H; cycle 1.
  { injection H as <-. eapply inv_keep with (es := [ECheck mo1 true; EScore mo2 sc; EDegen mo3 false]); eauto; try reflexivity; try discriminate.
    - cbn. now rewrite <- !app_assoc.
    - constructor. }
  assert (SC : d_gt sc sc = false) by apply d_lt_irrefl.
  assert (DS : (forall mo ids d, snd (fst (degeneracy_check_fn mo ids d)) = mo) -> mo3 = mo2).
  { intro K. specialize (K mo2 (u_ids _ s) d2). rewrite DG in K. exact K. }
  destruct (local_refinement_fn (u_refined _ s) mo3 (u_ids _ s) d3) as [[ok4 r] d4].
  cbn [u_ids u_data say with_refined with_models with_data u_models u_score u_refined] in H.
  destruct ok4; cycle 1.
  { injection H as <-. eapply inv_take with (es := [ECheck mo1 true; EScore mo2 sc; EDegen mo3 true; ELocal mo3 r false]) (mo := mo3) (x := sc); eauto; try reflexivity; try discriminate.
    - cbn. now rewrite <- !app_assoc.
    - cbn. constructor; auto.
    - intro K. rewrite (DS K). cbn. auto. }
  destruct (model_score_fn r (u_ids _ s) d4) as [[ls r2] d5].
  destruct (d_gt ls sc) eqn:G2; injection H as <-.
  - eapply inv_take with (es := [ECheck mo1 true; EScore mo2 sc; EDegen mo3 true; ELocal mo3 r true; EScore r2 ls]) (mo := r2) (x := ls); eauto; try reflexivity; try discriminate.
    + cbn. now rewrite <- !app_assoc.
    + eapply d_lt_trans; eauto.
    + cbn. constructor; [now apply d_lt_asym|]. constructor; auto. apply d_lt_irrefl.
    + cbn. auto 10.
  - eapply inv_take with (es := [ECheck mo1 true; EScore mo2 sc; EDegen mo3 true; ELocal mo3 r true; EScore r2 ls]) (mo := mo3) (x := sc); eauto; try reflexivity; try discriminate.
    + cbn. now rewrite <- !app_assoc.
    + cbn. constructor; auto.
    + intro K. rewrite (DS K). cbn. auto.
Qed.

Lemma tries_inv m l : forall s s', UInv m s -> for_each TM l s = Ok s' -> UInv m s'.
Proof.
  induction l as [|i l IH]; cbn; intros s s' I H; [congruence|].
  apply bind_ok in H as (s1 & H1 & H). eapply IH; [|eauto]. eapply try_model_inv; eauto.
Qed.

Lemma SS_snoc {A} (R : A -> A -> Prop) l x : StronglySorted R l -> Forall (fun y => R y x) l -> StronglySorted R (l ++ [x]).
Proof.
  intros S F. induction S; cbn.
  - constructor; constructor.
  - apply Forall_cons_iff in F as [F1 F2]. constructor; auto. apply Forall_app. auto.
Qed.

Lemma inv_term m s d stop : UInv m s -> UInv m (say D (with_data D s d) (ETerm (u_best _ s) (u_score _ s) stop)).
Proof.
  intros [A B [C1 C2] E]. constructor; cbn [say with_data u_log u_score u_best]; auto.
  - rewrite standing_app by discriminate. change (standing_scores [ETerm (u_best D s) (u_score D s) stop]) with (@nil N). now rewrite app_nil_r.
  - rewrite shown_app. cbn. split.
    + apply Forall_app. split; auto. constructor; auto. apply d_lt_irrefl.
    + apply SS_snoc; auto.
  - intro K. destruct (E K) as [X|X]; auto. left. rewrite standing_app' by (auto; discriminate). apply in_or_app. auto.
Qed.

Lemma main_loop_inv m f : forall s s', UInv m s -> ML f s = Ok s' -> UInv m s'.
Proof.
  induction f as [|f IH]; cbn [main_loop]; intros s s' I H; [discriminate|].
  destruct (termination_fn (u_best _ s) (u_score _ s) (u_data _ s)) as [stop d].
  apply (inv_term m s d stop) in I. set (s1 := say D (with_data D s d) (ETerm (u_best _ s) (u_score _ s) stop)) in *. clearbody s1.
  destruct stop; [injection H as <-; auto|].
  destruct (sampling_fn (u_ids _ s1) (u_data _ s1)) as [ids d1].
  match type of H with context [sample_check_fn (u_ids D ?X) _] => set (s2 := X) in * end.
  assert (I2 : UInv m s2) by (unfold s2; eapply inv_keep with (es := [ESample ids]); eauto; try reflexivity; try discriminate; constructor).
  clearbody s2. destruct (sample_check_fn (u_ids _ s2) (u_data _ s2)) as [ok d2].
  match type of H with context [main_loop _ _ _ _ _ _ _ _ _ f ?X] => set (s3 := X) in * end.
  assert (I3 : UInv m s3) by (unfold s3; eapply inv_keep with (es := [ESampleCheck ok]); eauto; try reflexivity; try discriminate; constructor).
  clearbody s3. destruct ok; cbn [negb] in H; [|eauto].
  destruct (model_fit_fn (u_max _ s3) (u_models _ s3) (u_ids _ s3) (u_data _ s3)) as [[[n mx] ms] d3].
  apply bind_ok in H as (s4 & H4 & H). eapply IH; [|eauto]. eapply tries_inv; [|eauto].
  eapply inv_keep with (es := [EFit n]); eauto; try reflexivity; try discriminate; constructor.
Qed.

(** Safety. *)
Hypothesis fit_ok : forall mx ms ids d, let '(n, _, ms', _) := model_fit_fn mx ms ids d in n <= Z.of_nat (length ms').
Lemma try_model_len i s : (i < length (u_models _ s))%nat -> exists s', TM i s = Ok s' /\ length (u_models _ s') = length (u_models _ s).
Proof.
  intro L. unfold try_model. rewrite (aget_lt (u_models _ s) i [] L). cbn [bind]. set (mo := nth i (u_models _ s) []). clearbody mo.
  destruct (model_check_fn mo (u_ids _ s) (u_data _ s)) as [[ok mo1] d1].
  rewrite aset_lt by auto. cbn [bind].
  set (s1 := say D _ (ECheck _ _)). assert (L1 : length (u_models _ s1) = length (u_models _ s)) by apply lset_length. clearbody s1.
  destruct ok; cbn [negb]; [|eauto].
  destruct (model_score_fn mo1 (u_ids _ s1) (u_data _ s1)) as [[sc mo2] d2].
  rewrite aset_lt by lia. cbn [bind].
  set (s2 := say D _ (EScore _ _)). assert (L2 : length (u_models _ s2) = length (u_models _ s)) by (rewrite <- L1; apply lset_length). clearbody s2.
  destruct (d_gt sc (u_score _ s2)); [|eauto].
  destruct (degeneracy_check_fn mo2 (u_ids _ s2) (u_data _ s2)) as [[ok3 mo3] d3].
  rewrite aset_lt by lia. cbn [bind].
  set (s3 := say D _ (EDegen _ _)). assert (L3 : length (u_models _ s3) = length (u_models _ s)) by (rewrite <- L2; apply lset_length). clearbody s3.
  destruct ok3; cbn [negb]; [|eauto].
  destruct (local_refinement_fn (u_refined _ s3) mo3 (u_ids _ s3) (u_data _ s3)) as [[ok4 r] d4].
  set (s4 := say D _ (ELocal _ _ _)). assert (L4 : length (u_models _ s4) = length (u_models _ s)) by exact L3. clearbody s4.
  destruct ok4; [|eexists; split; [reflexivity|exact L4]].
  destruct (model_score_fn r (u_ids _ s4) (u_data _ s4)) as [[ls r2] d5].
  set (s5 := say D _ (EScore _ _)). assert (L5 : length (u_models _ s5) = length (u_models _ s)) by exact L4. clearbody s5.
  destruct (d_gt ls sc); (eexists; split; [reflexivity|exact L5]).
Qed.
Lemma tries_ok l : forall s, (forall i, In i l -> (i < length (u_models _ s))%nat) -> exists s', for_each TM l s = Ok s'.
Proof.
  induction l as [|i l IH]; cbn; intros s H; [eauto|].
  destruct (try_model_len i s) as (s1 & -> & E); [apply H; auto|]. cbn [bind]. apply IH. intros j Hj. rewrite E. auto.
Qed.
Lemma main_loop_safe f : forall s, (exists s', ML f s = Ok s') \/ ML f s = NoFuel.
Proof.
  induction f as [|f IH]; cbn [main_loop]; intros s; [auto|].
  destruct (termination_fn (u_best _ s) (u_score _ s) (u_data _ s)) as [stop d].
  destruct stop; [left; eauto|].
  set (s1 := say D (with_data D s d) _). clearbody s1.
  destruct (sampling_fn (u_ids _ s1) (u_data _ s1)) as [ids d1].
  set (s2 := say D _ _). clearbody s2.
  destruct (sample_check_fn (u_ids _ s2) (u_data _ s2)) as [ok d2].
  set (s3 := say D _ _). clearbody s3. destruct ok; cbn [negb]; [|auto].
  pose proof (fit_ok (u_max _ s3) (u_models _ s3) (u_ids _ s3) (u_data _ s3)) as FO.
  destruct (model_fit_fn (u_max _ s3) (u_models _ s3) (u_ids _ s3) (u_data _ s3)) as [[[n mx] ms] d3].
  match goal with |- context [for_each _ _ ?X] => destruct (tries_ok (seq 0 (Z.to_nat n)) X) as (s4 & ->) end.
  - intros i Hi. apply in_seq in Hi. cbn. lia.
  - cbn [bind]. apply IH.
Qed.
End Usac.

(** ** The float arithmetic of a draw. *)
Lemma rne24_bound x : 0 <= x -> 0 <= rne24 x /\ (x < 2 ^ 24 -> rne24 x = x) /\
  (2 ^ 24 <= x -> exists s, 1 <= s /\ 2 ^ (s + 23) <= x < 2 ^ (s + 24) /\ x - 2 ^ (s - 1) <= rne24 x <= x + 2 ^ (s - 1)).
Proof.
  intro H. unfold rne24. destruct (Z.ltb_spec x (2 ^ 24)) as [L|L].
  { split; auto. split; auto. lia. }
  assert (X0 : 0 < x) by lia.
  assert (LG : 24 <= Z.log2 x) by (apply Z.log2_le_pow2; lia).
  pose proof (Z.log2_spec x X0) as LS.
  set (s := Z.log2 x - 23) in *.
  assert (S1 : 1 <= s) by (unfold s; lia).
  replace (Z.log2 x) with (s + 23) in LS by (unfold s; lia). replace (Z.succ (s + 23)) with (s + 24) in LS by lia. clearbody s.
  pose proof (Z.div_mod x (2 ^ s) ltac:(lia)) as DM.
  assert (P : 0 < 2 ^ s) by lia.
  pose proof (Z.mod_pos_bound x (2 ^ s) P) as MB.
  assert (P2 : 2 ^ s = 2 * 2 ^ (s - 1)) by (rewrite <- Z.pow_succ_r by lia; f_equal; lia).
  assert (Q : 0 <= x / 2 ^ s) by (apply Z.div_pos; lia).
  remember (x / 2 ^ s) as q. remember (x mod 2 ^ s) as r. remember (2 ^ s) as p. remember (2 ^ (s - 1)) as h. 
  assert (B : x - h <= (if (h <? r) || (r =? h) && Z.odd q then q + 1 else q) * p <= x + h).
  { destruct (Z.ltb_spec h r); cbn.
    - nia.
    - destruct (Z.eqb_spec r h); destruct (Z.odd q); cbn; nia. }
  split; [destruct ((h <? r) || (r =? h) && Z.odd q); nia|]. split; [lia|].
  intros _. exists s. rewrite <- Heqh. auto.
Qed.

Lemma rne24_small x : 0 <= x < 2 ^ 24 -> rne24 x = x.
Proof. intro H. apply rne24_bound; lia. Qed.
Lemma rne24_pow24 : rne24 (2 ^ 24) = 2 ^ 24.
Proof. reflexivity. Qed.

(** Rounding to 24 bits cannot pass a multiple of 2^s that lies far enough. *)
Lemma rne24_below r : 0 <= r < 2 ^ 32 - 128 -> 0 <= rne24 r <= 2 ^ 32 - 2 ^ 8.
Proof.
  intro H. destruct (rne24_bound r ltac:(lia)) as (P & A & B). split; auto.
  destruct (Z.lt_ge_cases r (2 ^ 24)) as [L|L]; [rewrite A by auto; lia|].
  destruct (Z.lt_ge_cases r (2 ^ 31)) as [L2|L2].
  - destruct (B L) as (s & S1 & S2 & S3). assert (s + 23 < 31) by (apply (Z.pow_lt_mono_r_iff 2); lia).
    assert (2 ^ (s - 1) <= 2 ^ 6) by (apply Z.pow_le_mono_r; lia). lia.
  - (* s = 8: the quotient is below 2^24 - 1, or it is 2^24 - 1 and the rest is below half *)
    unfold rne24. destruct (Z.ltb_spec r (2 ^ 24)); [lia|].
    assert (E : Z.log2 r = 31) by (apply Z.log2_unique; lia). rewrite E. change (31 - 23) with 8. change (8 - 1) with 7.
    change (2 ^ 8) with 256. change (2 ^ 7) with 128. change (2 ^ 32) with 4294967296 in *.
    pose proof (Z.div_mod r 256 ltac:(lia)). pose proof (Z.mod_pos_bound r 256 ltac:(lia)).
    destruct (Z.ltb_spec 128 (r mod 256)); cbn; [lia|].
    destruct (Z.eqb_spec (r mod 256) 128); cbn; [destruct (Z.odd (r / 256))|]; lia.
Qed.
Lemma rne24_top r : 2 ^ 32 - 128 <= r < 2 ^ 32 -> rne24 r = 2 ^ 32.
Proof.
  intro H. unfold rne24. destruct (Z.ltb_spec r (2 ^ 24)); [lia|].
  assert (E : Z.log2 r = 31) by (apply Z.log2_unique; lia). rewrite E. change (31 - 23) with 8. change (8 - 1) with 7.
  change (2 ^ 8) with 256. change (2 ^ 7) with 128. change (2 ^ 32) with 4294967296 in *.
  pose proof (Z.div_mod r 256 ltac:(lia)). pose proof (Z.mod_pos_bound r 256 ltac:(lia)).
  assert (r / 256 = 16777215) by lia. rewrite H3. cbn.
  destruct (Z.ltb_spec 128 (r mod 256)); cbn; [lia|]. destruct (Z.eqb_spec (r mod 256) 128); cbn; lia.
Qed.

Lemma draw_range n r : 1 <= n <= 2 ^ 24 -> 0 <= r < 2 ^ 32 - 128 -> 0 <= draw n r < n.
Proof.
  intros N R. unfold draw.
  assert (En : rne24 n = n) by (destruct (Z.eq_dec n (2 ^ 24)) as [->|]; [reflexivity|apply rne24_small; lia]). rewrite En.
  pose proof (rne24_below r R) as K. remember (rne24 r) as k.
  assert (X : 0 <= k * n <= n * (2 ^ 32 - 2 ^ 8)) by nia.
  destruct (rne24_bound (k * n) (proj1 X)) as (P & A & B).
  split; [apply Z.div_pos; lia|]. apply Z.div_lt_upper_bound; [lia|].
  destruct (Z.lt_ge_cases (k * n) (2 ^ 24)) as [L|L]; [rewrite A by auto; lia|].
  destruct (B L) as (s & S1 & S2 & S3).
  assert (2 ^ (s + 23) = 2 ^ 24 * 2 ^ (s - 1)) by (rewrite <- Z.pow_add_r by lia; f_equal; lia).
  change (2 ^ 24) with 16777216 in *. change (2 ^ 32) with 4294967296 in *. change (2 ^ 8) with 256 in *. nia.
Qed.
Lemma draw_top n r : 1 <= n <= 2 ^ 24 -> 2 ^ 32 - 128 <= r < 2 ^ 32 -> draw n r = n.
Proof.
  intros N R. unfold draw. rewrite (rne24_top r R).
  assert (En : rne24 n = n) by (destruct (Z.eq_dec n (2 ^ 24)) as [->|]; [reflexivity|apply rne24_small; lia]). rewrite En.
  assert (M : rne24 (2 ^ 32 * n) = 2 ^ 32 * n).
  { unfold rne24. destruct (Z.ltb_spec (2 ^ 32 * n) (2 ^ 24)); [lia|].
    assert (L : Z.log2 (2 ^ 32 * n) = Z.log2 n + 32).
    { rewrite Z.mul_comm, (Z.add_comm (Z.log2 n)). apply Z.log2_mul_pow2; lia. }
    rewrite L. pose proof (Z.log2_nonneg n).
    assert (LN : Z.log2 n <= 24) by (change 24 with (Z.log2 (2 ^ 24)); apply Z.log2_le_mono; lia).
    set (s := Z.log2 n + 32 - 23).
    assert (DV : 2 ^ 32 * n mod 2 ^ s = 0).
    { destruct (Z.eq_dec (Z.log2 n) 24) as [E24|].
      - assert (n = 2 ^ 24) by (pose proof (Z.log2_spec n ltac:(lia)); rewrite E24 in *; lia). subst n. unfold s. rewrite E24. reflexivity.
      - replace 32 with ((32 - s) + s) by lia. rewrite Z.pow_add_r by (unfold s; lia).
        replace (2 ^ (32 - s) * 2 ^ s * n) with (2 ^ (32 - s) * n * 2 ^ s) by ring. apply Z.mod_mul. unfold s. lia. }
    rewrite DV. assert (0 < 2 ^ (s - 1)) by (apply Z.pow_pos_nonneg; unfold s; lia).
    destruct (Z.ltb_spec (2 ^ (s - 1)) 0); [lia|]. destruct (Z.eqb_spec 0 (2 ^ (s - 1))); [lia|]. cbn [orb andb].
    pose proof (Z.div_mod (2 ^ 32 * n) (2 ^ s) ltac:(unfold s; lia)). lia. }
  rewrite M, Z.mul_comm. apply Z.div_mul. lia.
Qed.

Lemma draw_until_spec n c rs x rs' : draw_until n c rs = Ok (x, rs') ->
  c x = false /\ exists r, In r rs /\ x = draw n r /\ incl rs' rs.
Proof.
  induction rs as [|r rs IH]; cbn; [discriminate|]. destruct (c (draw n r)) eqn:C; intro H.
  - apply IH in H as (A & r' & B & E & I'). split; auto. exists r'. split; auto. split; auto. intros y Y. right. auto.
  - injection H as <- <-. split; auto. exists r. split; auto. split; auto. intros y Y. now right.
Qed.
