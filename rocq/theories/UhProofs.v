From Coq Require Import Permutation.
From Verif Require Import Base BaseLemmas Dbl UsacModel UsacSpec UsacProofs SiftProofs Gray RansacModel RansacSpec RansacProofs UhModel UhSpec.
Local Open Scope Z_scope.

(** ** Counts as doubles *)
Definition dv (n : Z) : Z := if n <=? 0 then 0 else (1023 + Z.log2 n) * 2 ^ 52 + (n - 2 ^ Z.log2 n) * 2 ^ (52 - Z.log2 n).
Lemma log2_31 n : 0 < n < 2 ^ 31 -> 0 <= Z.log2 n <= 30.
Proof. intros H. split; [apply Z.log2_nonneg|]. assert (Z.log2 n < 31); [|lia]. apply Z.log2_lt_pow2; lia. Qed.
Lemma frac_range n : 0 < n < 2 ^ 31 -> 0 <= (n - 2 ^ Z.log2 n) * 2 ^ (52 - Z.log2 n) < 2 ^ 52.
Proof.
  intros H. pose proof (log2_31 n H) as L. pose proof (Z.log2_spec n ltac:(lia)) as [A B]. rewrite Z.pow_succ_r in B by lia.
  assert (E : 2 ^ 52 = 2 ^ Z.log2 n * 2 ^ (52 - Z.log2 n)) by (rewrite <- Z.pow_add_r by lia; f_equal; lia).
  assert (0 < 2 ^ (52 - Z.log2 n)) by (apply Z.pow_pos_nonneg; lia). rewrite E. split; [apply Z.mul_nonneg_nonneg; lia|apply Z.mul_lt_mono_pos_r; lia].
Qed.
Lemma dv_range n : n < 2 ^ 31 -> 0 <= dv n < 1054 * 2 ^ 52.
Proof.
  intros H. unfold dv. destruct (Z.leb_spec n 0); [lia|]. pose proof (log2_31 n ltac:(lia)). pose proof (frac_range n ltac:(lia)). lia.
Qed.
Lemma d_of_int_dv n : d_of_int n = Z.to_N (dv n).
Proof. unfold d_of_int, dv. destruct (n <=? 0); reflexivity. Qed.
Lemma mag_small v : 0 <= v < 2 ^ 63 -> d_mag (Z.to_N v) = v /\ d_sign (Z.to_N v) = false.
Proof.
  intros H. unfold d_mag, d_sign. change 9223372036854775807%N with (N.ones 63). rewrite N.land_ones. split.
  - rewrite N.mod_small; [apply Z2N.id; lia|]. change (2 ^ 63)%N with (Z.to_N (2 ^ 63)). apply Z2N.inj_lt; lia.
  - apply N.bits_above_log2. destruct (N.eq_dec (Z.to_N v) 0) as [->|NZ]; [reflexivity|]. apply N.log2_lt_pow2; [lia|].
    change (2 ^ 63)%N with (Z.to_N (2 ^ 63)). apply Z2N.inj_lt; lia.
Qed.
Lemma d_of_int_key n : n < 2 ^ 31 -> d_key (d_of_int n) = dv n /\ d_nan (d_of_int n) = false /\ d_finite (d_of_int n) = true /\ d_mag (d_of_int n) = dv n /\ d_sign (d_of_int n) = false.
Proof.
  intros H. pose proof (dv_range n H) as R. rewrite d_of_int_dv. destruct (mag_small (dv n) ltac:(lia)) as [A B].
  unfold d_key, d_nan, d_finite, D_INF_MAG. rewrite A, B. repeat split; lia.
Qed.
Lemma dv_mono a b : 0 <= a -> a < b -> b < 2 ^ 31 -> dv a < dv b.
Proof.
  intros A AB B. unfold dv. destruct (Z.leb_spec b 0); [lia|]. pose proof (log2_31 b ltac:(lia)) as Lb. pose proof (frac_range b ltac:(lia)) as Fb.
  destruct (Z.leb_spec a 0); [lia|]. pose proof (log2_31 a ltac:(lia)) as La. pose proof (frac_range a ltac:(lia)) as Fa.
  pose proof (Z.log2_le_mono a b ltac:(lia)) as M. destruct (Z.eq_dec (Z.log2 a) (Z.log2 b)) as [E|NE]; [|lia].
  rewrite E. assert (0 < 2 ^ (52 - Z.log2 b)) by (apply Z.pow_pos_nonneg; lia).
  assert ((a - 2 ^ Z.log2 b) * 2 ^ (52 - Z.log2 b) < (b - 2 ^ Z.log2 b) * 2 ^ (52 - Z.log2 b)) by (apply Z.mul_lt_mono_pos_r; lia). lia.
Qed.
Lemma d_of_int_gt a b : 0 <= a < 2 ^ 31 -> 0 <= b < 2 ^ 31 -> d_gt (d_of_int a) (d_of_int b) = (b <? a).
Proof.
  intros A B. destruct (d_of_int_key a ltac:(lia)) as (K1 & N1 & _). destruct (d_of_int_key b ltac:(lia)) as (K2 & N2 & _).
  unfold d_gt, d_lt. rewrite N1, N2, K1, K2. cbn [negb andb]. destruct (Z.ltb_spec b a).
  - apply Z.ltb_lt. apply dv_mono; lia.
  - apply Z.ltb_ge. destruct (Z.eq_dec a b) as [->|]; [lia|]. pose proof (dv_mono a b). lia.
Qed.
Lemma d_of_int_min a : 0 <= a < 2 ^ 31 -> d_gt (d_of_int a) D_MINUS_MAX = true.
Proof.
  intros A. destruct (d_of_int_key a ltac:(lia)) as (K1 & N1 & _). pose proof (dv_range a ltac:(lia)).
  unfold d_gt, d_lt. rewrite N1, K1. change (d_nan D_MINUS_MAX) with false. change (d_key D_MINUS_MAX) with (-9218868437227405311). cbn [negb andb]. lia.
Qed.
Lemma d_of_int_back n : 0 <= n < 2 ^ 31 -> d_to_int (d_of_int n) = Ok n.
Proof.
  intros H. destruct (d_of_int_key n ltac:(lia)) as (_ & _ & F & M & S0). unfold d_to_int, d_trunc. rewrite F, M, S0.
  unfold dv. destruct (Z.leb_spec n 0).
  - replace n with 0 by lia. reflexivity.
  - pose proof (log2_31 n ltac:(lia)) as L. pose proof (frac_range n ltac:(lia)) as FR. set (e := Z.log2 n) in *. set (f := (n - 2 ^ e) * 2 ^ (52 - e)) in *.
    assert (FE : f = (n - 2 ^ e) * 2 ^ (52 - e)) by reflexivity. clearbody f.
    cbv zeta. rewrite (Z.add_comm _ f), Z.div_add, Z.mod_add by lia. rewrite (Z.div_small f), (Z.mod_small f) by lia.
    destruct (Z.eqb_spec (0 + (1023 + e)) 0); [lia|]. replace (0 + (1023 + e)) with (1023 + e) by lia. destruct (Z.eqb_spec (1023 + e) 0); [lia|].
    destruct (Z.leb_spec 1075 (1023 + e)); [lia|]. replace (1075 - (1023 + e)) with (52 - e) by lia.
    assert (P : 2 ^ 52 = 2 ^ e * 2 ^ (52 - e)) by (rewrite <- Z.pow_add_r by lia; f_equal; lia).
    replace (f + 2 ^ 52) with (n * 2 ^ (52 - e)) by (rewrite FE, P; ring). rewrite Z.div_mul by (apply Z.pow_nonzero; lia).
    apply chk_int_in. unfold INT_MIN, INT_MAX. lia.
Qed.

Lemma standing_in log mo x : In (mo, x) (standing log) -> In (EScore mo x) log.
Proof.
  induction log as [|e log IH]; [easy|]. destruct e; cbn [standing]; try (intro H; right; auto; fail).
  assert (G : In (mo, x) ((mo0, score) :: standing log) -> In (EScore mo x) (EScore mo0 score :: log)).
  { intros [E|H]; [left; congruence|right; auto]. }
  destruct log as [|e log]; [exact G|]. destruct e; try exact G. destruct ok; [exact G|]. intro H. right. auto.
Qed.
Lemma in_standing log mo x : (forall m, ~ In (EDegen m false) log) -> In (EScore mo x) log -> In (mo, x) (standing log).
Proof.
  induction log as [|e log IH]; [easy|]. intros ND H.
  assert (ND' : forall m, ~ In (EDegen m false) log) by (intros m M; apply (ND m); right; exact M). specialize (IH ND').
  destruct e; cbn [standing]; try (destruct H as [E|H]; [discriminate|auto]; fail).
  assert (G : In (mo, x) ((mo0, score) :: standing log)).
  { destruct H as [E|H]; [left; congruence|right; auto]. }
  destruct log as [|e log]; [exact G|]. destruct e; try exact G. destruct ok; [exact G|]. exfalso. apply (ND' mo1). left. reflexivity.
Qed.
Lemma n_samples_app a b : n_samples (a ++ b) = n_samples a + n_samples b.
Proof. induction a as [|e a IH]; [reflexivity|]. destruct e; cbn [app n_samples]; lia. Qed.

Section G.
Context {P : Type}.
Notation corr := (P * bool)%type.
Variable good : model -> P -> bool.
Variable fit : model -> list P -> model.
Variable estimate_4pt : model -> list P -> model * bool.
Variable check : model -> bool.
Variable cvt : dbl -> Z.
Notation data := (res (list corr * hdata * list Z)).
Notation TM := (try_model data (cb_check check) (cb_score good) cb_degeneracy cb_local).
Notation ML := (UsacModel.main_loop data cb_sampling cb_sample_check (cb_fit estimate_4pt) (cb_check check) (cb_score good) cb_degeneracy cb_local (cb_terminate cvt)).
Variable ps : list P.
Variable mx : Z.
(** Where the sampled matrices come from. *)
Variable okr : Z -> Prop.
Variable From : model -> Prop.
Notation nc := (Z.of_nat (length ps)).
Hypothesis FromH : forall top l rnd ids rnd' q m0 mo, Forall okr rnd -> top <= Z.min nc (9 + mx) -> 1 <= top -> map fst l = ps ->
  homography_sampling top rnd = Ok (ids, rnd') -> sample_matches l ids = Ok q -> estimate_4pt m0 q = (mo, false) -> From mo.

(** What a piece of the log must satisfy. *)
Definition good_es (es : list event) : Prop :=
  (forall mo x, In (EScore mo x) es -> x = d_of_int (support good mo ps) /\ accepted es mo) /\
  (forall mo, accepted es mo -> (check mo = true /\ From mo) /\ exists x, In (EScore mo x) es) /\
  (forall mo, ~ In (EDegen mo false) es).
Lemma good_app a b : good_es a -> good_es b -> good_es (a ++ b).
Proof.
  unfold good_es, accepted. intros (A1 & A2 & A3) (B1 & B2 & B3). split; [|split].
  - intros mo x H. apply in_app_iff in H as [H|H]; [apply A1 in H as (E & H)|apply B1 in H as (E & H)]; (split; [exact E|apply in_app_iff; auto]).
  - intros mo H. apply in_app_iff in H as [H|H]; [apply A2 in H as (C & x & H)|apply B2 in H as (C & x & H)]; (split; [exact C|exists x; apply in_app_iff; auto]).
  - intros mo H. apply in_app_iff in H as [H|H]; [apply (A3 mo H)|apply (B3 mo H)].
Qed.
Definition UI (c : Z) (s : ust data) : Prop := forall l hd rnd, u_data _ s = Ok (l, hd, rnd) ->
  map fst l = ps /\ (h_max_iter hd = mx /\ h_ncorr hd = nc /\ h_top hd = Z.min nc (10 + h_iter hd) /\ Forall okr rnd) /\ h_iter hd = n_samples (u_log _ s) + c /\ n_samples (u_log _ s) <= Z.max 0 (mx - 1) /\ good_es (u_log _ s).
Lemma ui_app c s s' es : UI c s -> u_log _ s' = u_log _ s ++ es -> n_samples es = 0 ->
  (forall l' hd' rnd', u_data _ s' = Ok (l', hd', rnd') -> exists l, u_data _ s = Ok (l, hd', rnd') /\ map fst l' = map fst l /\ (map fst l = ps -> good_es es)) -> UI c s'.
Proof.
  intros U L N H l' hd' rnd' E. destruct (H _ _ _ E) as (l & E0 & M & G). destruct (U _ _ _ E0) as (A & B & C & D & F).
  rewrite L, n_samples_app, N, M. split; [exact A|]. split; [exact B|]. split; [lia|]. split; [lia|]. apply good_app; auto.
Qed.
Ltac ev := unfold good_es, accepted; cbn [In]; split; [|split];
  [intros ? ? EV; repeat (destruct EV as [EV|EV]; [try discriminate|]); try contradiction; try (injection EV as <- <-); auto
  |intros ? EV; repeat (destruct EV as [EV|EV]; [try discriminate|]); try contradiction; try (injection EV as <-); eauto 10
  |intros ? EV; repeat (destruct EV as [EV|EV]; [try discriminate|]); try contradiction; auto].

Lemma score_ok mo ids d sc mo2 d2 : cb_score good mo ids d = (sc, mo2, d2) -> mo2 = mo /\
  forall l' hd' rnd', d2 = Ok (l', hd', rnd') -> exists l, d = Ok (l, hd', rnd') /\ map fst l' = map fst l /\ (map fst l = ps -> sc = d_of_int (support good mo ps)).
Proof.
  unfold cb_score. destruct d as [[[l hd] rnd]| | |]; cbn [bad].
  - rewrite mark_eq. intro H. injection H as <- <- <-. split; [reflexivity|]. intros l' hd' rnd' E. injection E as <- <- <-.
    exists l. split; [reflexivity|]. split; [apply marked_fst|]. intros ->. reflexivity.
  - intro H. injection H as <- <- <-. split; [reflexivity|discriminate].
  - intro H. injection H as <- <- <-. split; [reflexivity|discriminate].
  - intro H. injection H as <- <- <-. split; [reflexivity|discriminate].
Qed.
Lemma try_ui c s s' : UI c s -> (forall mo, aget (u_models _ s) 0 = Ok mo -> forall l hd rnd, u_data _ s = Ok (l, hd, rnd) -> From mo) -> TM 0 s = Ok s' -> UI c s'.
Proof.
  intros U FR H. unfold try_model in H. apply bind_ok in H as (mo & MO & H). specialize (FR mo MO). cbn [cb_check] in H.
  apply bind_ok in H as (ms1 & _ & H). destruct (check mo) eqn:CK; cbn [negb] in H; cycle 1.
  { injection H as <-. eapply ui_app with (es := [ECheck mo false]); [exact U|reflexivity|reflexivity|].
    intros l hd rnd E. exists l. split; [exact E|]. split; [reflexivity|]. intros _. ev. }
  cbn [u_ids u_data say with_models with_data u_models u_score u_refined] in H.
  destruct (cb_score good mo (u_ids _ s) (u_data _ s)) as [[sc mo2] d2] eqn:SC. apply score_ok in SC as (-> & SD).
  apply bind_ok in H as (ms2 & _ & H). cbn [u_ids u_data say with_models with_data u_models u_score u_refined] in H.
  destruct (d_gt sc (u_score _ s)) eqn:GT; cycle 1.
  { injection H as <-. eapply ui_app with (es := [ECheck mo true; EScore mo sc]); [exact U|cbn; now rewrite <- app_assoc|reflexivity|].
    intros l hd rnd E. cbn in E. destruct (SD _ _ _ E) as (l0 & E0 & M & X). exists l0. split; [exact E0|]. split; [exact M|]. intro PE. specialize (X PE). pose proof (FR _ _ _ E0). ev. }
  cbn [cb_degeneracy] in H. apply bind_ok in H as (ms3 & _ & H). cbn [u_ids u_data say with_models with_data u_models u_score u_refined negb cb_local] in H.
  injection H as <-. eapply ui_app with (es := [ECheck mo true; EScore mo sc; EDegen mo true; ELocal mo (u_refined _ s) false]); [exact U|cbn; now rewrite <- !app_assoc|reflexivity|].
  intros l hd rnd E. cbn in E. destruct (SD _ _ _ E) as (l0 & E0 & M & X). exists l0. split; [exact E0|]. split; [exact M|]. intro PE. specialize (X PE). pose proof (FR _ _ _ E0). ev.
Qed.
(** The number of inliers the termination check sees. *)
Definition seen (x : dbl) : Z := match d_to_int x with Ok z => z | _ => cvt x end.
Hypothesis NC : 4 <= nc.
Lemma sampling_incl top rs ids rs' : homography_sampling top rs = Ok (ids, rs') -> incl rs' rs.
Proof.
  intro E1. unfold homography_sampling in E1.
  apply bind_ok in E1 as ([a q1] & H1 & H). apply bind_ok in H as ([b q2] & H2 & H). apply bind_ok in H as ([c q3] & H3 & H). apply bind_ok in H as ([e q4] & H4 & H). injection H as <- <-.
  apply draw_until_spec in H1 as (_ & _ & _ & _ & S1). apply draw_until_spec in H2 as (_ & _ & _ & _ & S2). apply draw_until_spec in H3 as (_ & _ & _ & _ & S3). apply draw_until_spec in H4 as (_ & _ & _ & _ & S4).
  intros x X. auto.
Qed.
Lemma term_ok best score (d : data) stop l' hd' rnd' : cb_terminate cvt best score d = (stop, Ok (l', hd', rnd')) ->
  exists hd, d = Ok (l', hd, rnd') /\ h_iter hd' = h_iter hd + 1 /\ h_max_iter hd' = h_max_iter hd /\ h_ncorr hd' = h_ncorr hd /\
    h_top hd' = Z.min (h_ncorr hd) (h_top hd + 1) /\ stop = (h_max_iter hd <=? h_iter hd') || (200 <=? seen score).
Proof.
  intro T. unfold cb_terminate in T. destruct d as [[[l hd] rnd]| | |]; cbn [bad] in T; try (injection T as _ T; discriminate).
  destruct (homography_terminate cvt score hd) as [[st h2]| | |] eqn:HT; cbn [bad] in T; try (injection T as _ T; discriminate).
  injection T as <- <- <- <-. exists hd. split; [reflexivity|]. unfold homography_terminate in HT.
  apply bind_ok in HT as (it & IT & HT). apply bind_ok in HT as (tp & TP & HT). unfold chk_int in IT, TP. destruct (in_int (h_iter hd + 1)); [|discriminate]. injection IT as <-.
  destruct (in_int (h_top hd + 1)); [|discriminate]. injection TP as <-.
  injection HT as <- <-. cbn [h_iter h_max_iter h_ncorr h_top]. repeat (split; [reflexivity|]). split; [|reflexivity]. destruct (Z.leb_spec (h_ncorr hd) (h_top hd + 1)); lia.
Qed.
Lemma loop_ui f : forall s s', UI 0 s -> ML f s = Ok s' ->
  UI 1 s' /\ forall l hd rnd, u_data _ s' = Ok (l, hd, rnd) -> mx <= h_iter hd \/ 200 <= seen (u_score _ s').
Proof.
  induction f as [|f IH]; cbn [UsacModel.main_loop]; intros s s' U H; [discriminate|].
  destruct (cb_terminate cvt (u_best _ s) (u_score _ s) (u_data _ s)) as [stop d] eqn:T.
  set (s1 := say data (with_data data s d) (ETerm (u_best _ s) (u_score _ s) stop)) in *.
  assert (U1 : UI 1 s1 /\ forall l hd rnd, u_data _ s1 = Ok (l, hd, rnd) -> stop = (mx <=? h_iter hd) || (200 <=? seen (u_score _ s1))).
  { split.
    - intros l hd rnd E. unfold s1 in E. cbn [u_data say with_data] in E. rewrite E in T. apply term_ok in T as (h0 & E0 & I1 & I2 & I3 & I4 & _). destruct (U _ _ _ E0) as (A & (B1 & B2 & B3 & B4) & C & D & F).
      unfold s1. cbn [u_log say with_data]. rewrite n_samples_app. cbn [n_samples]. split; [exact A|]. split; [split; [lia|]; split; [lia|]; split; [lia|exact B4]|]. split; [lia|]. split; [lia|]. apply good_app; [exact F|ev].
    - intros l hd rnd E. unfold s1 in E. cbn [u_data say with_data] in E. rewrite E in T. apply term_ok in T as (h0 & E0 & I1 & I2 & I3 & I4 & I5). destruct (U _ _ _ E0) as (A & (B & _) & C & D & F). rewrite I5, B. reflexivity. }
  clearbody s1. clear T U s d. destruct U1 as [U1 ST]. destruct stop.
  { injection H as <-. split; [exact U1|]. intros l hd rnd E. specialize (ST _ _ _ E). symmetry in ST. apply orb_true_iff in ST as [X|X]; lia. }
  destruct (cb_sampling (u_ids _ s1) (u_data _ s1)) as [ids d1] eqn:SM. cbn [cb_sample_check negb] in H.
  cbn [u_ids u_data say with_data u_models u_max u_score u_best u_refined u_log] in H.
  destruct (cb_fit estimate_4pt (u_max _ s1) (u_models _ s1) ids d1) as [[[n m2] ms] d2] eqn:FT.
  apply bind_ok in H as (s2 & H2 & H). eapply IH; [|exact H]. clear IH H.
  assert (OKD : forall l hd rnd, d2 = Ok (l, hd, rnd) -> exists r1, u_data _ s1 = Ok (l, hd, r1) /\ incl rnd r1 /\
     ((n = 0) \/ (n = 1 /\ forall mo, aget ms 0 = Ok mo -> From mo))).
  { intros l hd rnd D2. subst d2. unfold cb_fit in FT. destruct d1 as [[[l1 h1] r1]| | |]; cbn [bad] in FT; try (injection FT as _ _ _ FT; discriminate).
    destruct (sample_matches l1 ids) as [q| | |] eqn:SQ; cbn [bad] in FT; try (destruct (u_models _ s1); injection FT as _ _ _ FT; discriminate).
    destruct (u_models _ s1) as [|m0 rest]; [injection FT as _ _ _ FT; discriminate|]. destruct (estimate_4pt m0 q) as [mo dz] eqn:E4.
    injection FT as FN _ FM <- <- <-.
    unfold cb_sampling in SM. destruct (u_data _ s1) as [[[l0 h0] r0]| | |] eqn:D0; cbn [bad] in SM; try (injection SM as _ SM; discriminate).
    destruct (homography_sampling (h_top h0) r0) as [[i2 r2]| | |] eqn:HS; cbn [bad] in SM; try (injection SM as _ SM; discriminate). injection SM as -> -> -> ->.
    exists r0. split; [reflexivity|]. split; [apply (sampling_incl _ _ _ _ HS)|].
    destruct dz; [left; congruence|right]. split; [congruence|]. intros mo' AG. subst ms. cbn in AG. injection AG as <-.
    destruct (U1 _ _ _ D0) as (A & (B1 & B2 & B3 & B4) & C & D & F). specialize (ST _ _ _ eq_refl). symmetry in ST. apply orb_false_iff in ST as [X _].
    assert (0 <= n_samples (u_log _ s1)) by (clear; induction (u_log _ s1) as [|e ll IHl]; [cbn; lia|]; destruct e; cbn [n_samples]; lia).
    refine (FromH (h_top h1) l1 r0 ids r1 q m0 mo B4 _ _ A HS SQ E4); lia. }
  match type of H2 with for_each _ _ ?X = _ => set (s3 := X) in * end.
  assert (U3 : UI 0 s3).
  { intros l hd rnd E. cbn [u_data s3 say with_data u_log] in *. destruct (OKD _ _ _ E) as (r1 & E1 & IN & _).
    destruct (U1 _ _ _ E1) as (A & (B1 & B2 & B3 & B4) & C & D & F). specialize (ST _ _ _ E1). symmetry in ST. apply orb_false_iff in ST as [X _].
    rewrite !n_samples_app. cbn [n_samples]. split; [exact A|].
    split; [split; [exact B1|]; split; [exact B2|]; split; [exact B3|]; apply Forall_forall; intros x I; rewrite Forall_forall in B4; apply B4, IN, I|]. split; [lia|]. split; [lia|].
    repeat apply good_app; try exact F; ev. }
  assert (N01 : n = 0 \/ n = 1).
  { unfold cb_fit in FT. destruct d1 as [[[l1 h1] r1]| | |]; try (injection FT as <- _ _ _; auto).
    destruct (sample_matches l1 ids); try (injection FT as <- _ _ _; auto); destruct (u_models _ s1); try (injection FT as <- _ _ _; auto).
    match type of FT with context [estimate_4pt ?u ?v] => destruct (estimate_4pt u v) as [? []] end; injection FT as <- _ _ _; auto. }
  destruct N01 as [-> | ->].
  - change (seq 0 (Z.to_nat 0)) with (@nil nat) in H2. cbn [for_each] in H2. injection H2 as <-. exact U3.
  - change (seq 0 (Z.to_nat 1)) with [0%nat] in H2. cbn [for_each] in H2. apply bind_ok in H2 as (s4 & H2 & H4). injection H4 as <-.
    refine (try_ui 0 s3 s4 U3 _ H2). intros mo AG l hd rnd E. cbn [s3 u_models say with_data u_data] in AG, E.
    destruct (OKD _ _ _ E) as (_ & _ & _ & [X|(_ & G)]); [discriminate|auto].
Qed.
Lemma global_ok nm mo (d : data) r l' hd' rnd' : Z.of_nat (length ps) <= 2 ^ 24 -> cb_global good fit nm mo d = (r, Ok (l', hd', rnd')) ->
  exists l, d = Ok (l, hd', rnd') /\ (map fst l = ps -> map fst l' = ps /\ refined good fit 4 ps 1 mo r).
Proof.
  clear FromH NC. intros L24 H. unfold cb_global in H. destruct d as [[[l hd] rnd]| | |]; cbn [bad] in H; try (injection H as _ H; discriminate).
  rewrite mark_eq in H.
  destruct (refine good 4 fit (S (length (map (fun c => (fst c, good mo (fst c))) l))) mo (map (fun c => (fst c, good mo (fst c))) l) (support good mo (map fst l)) 1) as [[[h1 l1] n1]| | |] eqn:ER; cbn [bad] in H; try (injection H as _ H; discriminate).
  injection H as <- <- <- <-. exists l. split; [reflexivity|]. intro L.
  destruct (refine_ok good 4 fit ps L24 (S (length (map (fun c => (fst c, good mo (fst c))) l))) mo (map (fun c => (fst c, good mo (fst c))) l) 1) as (h2 & l2 & ER2 & L2 & F2 & RF).
  { rewrite marked_fst. exact L. }
  { apply marked_flags. }
  { lia. }
  { rewrite map_length. rewrite <- L, map_length. lia. }
  rewrite L in ER. rewrite ER in ER2. injection ER2 as <- <- _. auto.
Qed.
End G.
