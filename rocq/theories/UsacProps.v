(** C39, C40: sampling consensus. *)
From Verif Require Import Base BaseLemmas Dbl UsacModel UsacSpec UsacProofs.
From Coq Require Import Sorting.Sorted.
Local Open Scope Z_scope.

(** C39: whatever the callbacks answer, the returned score is a number, no
    hypothesis that stood scored higher, the best score never went down
    (including over the global refinement), and the returned model is one that
    got the returned score and was not rejected, unless nothing was ever accepted.  For the last
    part the degeneracy check must not modify the model it is given. *)
Theorem C39_best : forall D sampling sample_check fit check score degen local glob term
                          fuel m k junk ids (d : D) best_score best d' log,
  usac D sampling sample_check fit check score degen local glob term fuel m k junk ids d = Ok (best_score, best, d', log) ->
  d_nan best_score = false /\
  Forall (fun x => d_gt x best_score = false) (standing_scores log) /\
  StronglySorted (fun a b => d_gt a b = false) (shown_scores log ++ [best_score]) /\
  ((forall mo i e, snd (fst (degen mo i e)) = mo) ->
   In (best, best_score) (standing log) \/ (best = repeat D_ZERO m /\ best_score = D_MINUS_MAX)).
Proof.
  intros D sampling sample_check fit check score degen local glob term fuel m k junk ids d best_score best d' log H.
  unfold usac in H. destruct (m =? 0)%nat; [discriminate|]. destruct (k =? 0)%nat; [discriminate|].
  apply bind_ok in H as (s & L & H). apply (main_loop_inv _ _ _ _ _ _ _ _ _ m) in L.
  2:{ constructor; cbn; auto.
      - split; constructor. }
  destruct (glob (u_refined D s) (u_best D s) (u_data D s)) as [r d1].
  cbn [say with_refined with_data u_ids u_data u_score u_best u_log] in H.
  destruct (score r (u_ids D s) d1) as [[gs r2] d2].
  set (s1 := say D (with_refined D (with_data D (say D (with_refined D (with_data D s d1) r) (EGlobal (u_best D s) r)) d2) r2) (EScore r2 gs)) in *.
  cbn [u_score say with_refined with_data] in H.
  assert (F : UInv D degen m (if d_gt gs (u_score D s) then take D s1 r2 gs else s1)).
  { destruct (d_gt gs (u_score D s)) eqn:G.
    - eapply inv_take with (s := s) (es := [EGlobal (u_best D s) r; EScore r2 gs]); eauto; try reflexivity; try discriminate.
      + cbn. now rewrite <- app_assoc.
      + cbn. constructor; auto. apply d_lt_irrefl.
      + cbn. auto.
    - eapply inv_keep with (s := s) (es := [EGlobal (u_best D s) r; EScore r2 gs]); eauto; try reflexivity; try discriminate.
      + cbn. now rewrite <- app_assoc.
      + cbn. constructor; auto. }
  replace (d_gt gs (u_score D s1)) with (d_gt gs (u_score D s)) in H by reflexivity.
  set (s2 := if d_gt gs (u_score D s) then take D s1 r2 gs else s1) in *. clearbody s2.
  assert (EQ : best_score = u_score D s2 /\ best = u_best D s2 /\ log = u_log D s2) by (injection H; auto).
  destruct EQ as (-> & -> & ->). destruct F as [A B [C1 C2] E].
  split; auto. split; auto. split; [|auto].
  apply SS_snoc; auto.
Qed.
Print Assumptions C39_best.

(** The search itself is memory safe whenever the fitting callback returns no
    more models than its buffer holds: it returns or goes on for ever. *)
Theorem C39_safe : forall D sampling sample_check fit check score degen local glob term fuel m k junk ids (d : D),
  (forall mx ms i e, let '(n, _, ms', _) := fit mx ms i e in n <= Z.of_nat (length ms')) ->
  (m > 0)%nat -> (k > 0)%nat ->
  (exists r, usac D sampling sample_check fit check score degen local glob term fuel m k junk ids d = Ok r) \/
  usac D sampling sample_check fit check score degen local glob term fuel m k junk ids d = NoFuel.
Proof.
  intros D sampling sample_check fit check score degen local glob term fuel m k junk ids d F M K. unfold usac.
  destruct (Nat.eqb_spec m 0); [lia|]. destruct (Nat.eqb_spec k 0); [lia|].
  match goal with |- context [main_loop _ _ _ _ _ _ _ _ _ fuel ?X] =>
    destruct (main_loop_safe D sampling sample_check fit check score degen local glob term F fuel X) as [[s ->]| ->] end; cbn [bind]; [left|auto].
  destruct (glob (u_refined D s) (u_best D s) (u_data D s)) as [r d1].
  set (s1 := say D _ _). clearbody s1. destruct (score r (u_ids D s1) (u_data D s1)) as [[gs r2] d2]. eauto.
Qed.
Print Assumptions C39_safe.

(** A run: two iterations; the hypotheses score 2 then 1 (bit patterns of 2.0
    and 1.0), the global refinement does not help. *)
Definition ex_usac : res (dbl * model * nat * list event) :=
  usac nat (fun i d => (i, d)) (fun _ d => (true, d)) (fun mx ms i d => (1, mx, [[N.of_nat d]], d))
    (fun mo _ d => (true, mo, d))
    (fun mo _ d => (match mo with [1%N] => 4611686018427387904%N | _ => 4607182418800017408%N end, mo, d))
    (fun mo _ d => (true, mo, d)) (fun r _ _ d => (false, r, d)) (fun _ mo d => ([7%N], d))
    (fun _ _ d => ((d =? 2)%nat, S d)) 5 1 4 [0%N] [] 0%nat.
Example C39_example : exists d log, ex_usac = Ok (4611686018427387904%N, [1%N], d, log) /\
  standing_scores log = [4611686018427387904%N; 4607182418800017408%N; 4607182418800017408%N].
Proof. eexists. eexists. split; [vm_compute; reflexivity|reflexivity]. Qed.

(** C40: the sample of four.  Partial: the fourth index is not compared with
    the third, and generator outputs of 2^32 - 128 and above are excluded. *)
Theorem C40_sampling_partial : forall n_top rs ids rs',
  1 <= n_top <= 2 ^ 24 -> Forall (fun r => 0 <= r < 2 ^ 32 - 128) rs ->
  homography_sampling n_top rs = Ok (ids, rs') ->
  exists a b c e, ids = [a; b; c; e] /\ NoDup [a; b; c] /\ e <> a /\ e <> b /\
  Forall (fun i => 0 <= i < n_top) ids.
Proof.
  intros n rs ids rs' N F H. unfold homography_sampling in H.
  apply bind_ok in H as ([a r1] & H1 & H). apply bind_ok in H as ([b r2] & H2 & H).
  apply bind_ok in H as ([c r3] & H3 & H). apply bind_ok in H as ([e r4] & H4 & H). injection H as <- <-.
  apply draw_until_spec in H1 as (_ & x1 & I1 & E1 & S1). apply draw_until_spec in H2 as (C2 & x2 & I2 & E2 & S2).
  apply draw_until_spec in H3 as (C3 & x3 & I3 & E3 & S3). apply draw_until_spec in H4 as (C4 & x4 & I4 & E4 & S4).
  rewrite Forall_forall in F.
  assert (R : forall x, In x rs -> 0 <= draw n x < n) by (intros x X; apply draw_range; auto).
  exists a, b, c, e. split; auto. split; [|split; [lia|split; [lia|]]].
  - constructor; [cbn; lia|]. constructor; [cbn; lia|]. constructor; [easy|constructor].
  - subst. repeat (apply Forall_cons; [apply R; auto 10|]). apply Forall_nil.
Qed.
Print Assumptions C40_sampling_partial.

(** Two of the four correspondences can be the same one. *)
Theorem C40_distinct_refuted : exists n_top rs a b c rs',
  4 <= n_top <= 2 ^ 24 /\ Forall (fun r => 0 <= r < 2 ^ 32 - 128) rs /\
  homography_sampling n_top rs = Ok ([a; b; c; c], rs').
Proof.
  exists 10, [0; 429496730; 858993460; 858993460], 0, 1, 2, [].
  split; [lia|]. split; [repeat (apply Forall_cons; [lia|]); apply Forall_nil|]. vm_compute. reflexivity.
Qed.
Print Assumptions C40_distinct_refuted.

(** The 128 highest outputs of the generator become the float 1.0, so the index
    is one past the pool. *)
Theorem C40_range_refuted : forall n_top r rs, 1 <= n_top <= 2 ^ 24 -> 2 ^ 32 - 128 <= r < 2 ^ 32 ->
  forall ids rs', homography_sampling n_top (r :: rs) = Ok (ids, rs') -> exists l, ids = n_top :: l.
Proof.
  intros n r rs N R ids rs' H. unfold homography_sampling in H. cbn [draw_until] in H. cbn [bind] in H.
  rewrite (draw_top n r N R) in H.
  apply bind_ok in H as ([b r2] & H2 & H).
  apply bind_ok in H as ([c r3] & H3 & H). apply bind_ok in H as ([e r4] & H4 & H). injection H as <- <-. eauto.
Qed.
Print Assumptions C40_range_refuted.

(** With a generator that produces every index again and again, sampling
    ends. *)
Theorem C40_sampling_ends : forall n_top b0 b1 b2 b3 rest,
  3 <= n_top ->
  Forall (fun b => forall i, 0 <= i < n_top -> exists r, In r b /\ draw n_top r = i) [b0; b1; b2; b3] ->
  exists ids rs', homography_sampling n_top (b0 ++ b1 ++ b2 ++ b3 ++ rest) = Ok (ids, rs').
Proof.
  intros n b0 b1 b2 b3 rest N F.
  assert (K : forall c b t, (exists r, In r b /\ c (draw n r) = false) -> exists x b', draw_until n c (b ++ t) = Ok (x, b' ++ t)).
  { intros c b t. induction b as [|r b IH]; intros (r' & I & E); [destruct I|]. cbn [app draw_until].
    destruct (c (draw n r)) eqn:C.
    - apply IH. destruct I as [->|I]; [congruence|]. eauto.
    - exists (draw n r), b. reflexivity. }
  assert (K2 : forall c b t, (forall i, 0 <= i < n -> exists r, In r b /\ draw n r = i) -> (exists i, 0 <= i < n /\ c i = false) ->
     exists x b', draw_until n c (b ++ t) = Ok (x, b' ++ t)).
  { intros c b t H (i & I & C). apply K. destruct (H i I) as (r & R & <-). eauto. }
  apply Forall_cons_iff in F as [F0 F]. apply Forall_cons_iff in F as [F1 F]. apply Forall_cons_iff in F as [F2 F]. apply Forall_cons_iff in F as [F3 _].
  (* any two indices leave one of 0, 1, 2 *)
  assert (P : forall a b, exists i, 0 <= i < n /\ i <> a /\ i <> b).
  { intros a b. destruct (Z.eq_dec a 0), (Z.eq_dec b 0), (Z.eq_dec a 1), (Z.eq_dec b 1);
      first [exists 0; lia|exists 1; lia|exists 2; lia]. }
  unfold homography_sampling.
  destruct (K2 (fun _ => false) b0 (b1 ++ b2 ++ b3 ++ rest) F0) as (a & l0 & ->); [exists 0; split; [lia|auto]|]. cbn [bind].
  rewrite app_assoc.
  destruct (K2 (fun x => x =? a) (l0 ++ b1) (b2 ++ b3 ++ rest)) as (b & l1 & ->).
  { intros i I. destruct (F1 i I) as (r & R & E). exists r. split; auto. apply in_or_app; auto. }
  { destruct (P a a) as (i & I & E & _). exists i. split; auto. lia. }
  cbn [bind]. rewrite app_assoc.
  destruct (K2 (fun x => (x =? b) || (x =? a)) (l1 ++ b2) (b3 ++ rest)) as (c & l2 & ->).
  { intros i I. destruct (F2 i I) as (r & R & E). exists r. split; auto. apply in_or_app; auto. }
  { destruct (P b a) as (i & I & E & E'). exists i. split; auto. lia. }
  cbn [bind]. rewrite app_assoc.
  destruct (K2 (fun x => (x =? b) || (x =? b) || (x =? a)) (l2 ++ b3) rest) as (e & l3 & ->).
  { intros i I. destruct (F3 i I) as (r & R & E). exists r. split; auto. apply in_or_app; auto. }
  { destruct (P b a) as (i & I & E & E'). exists i. split; auto. lia. }
  cbn [bind]. eauto.
Qed.
Print Assumptions C40_sampling_ends.

(** The pool always holds between 4 and n_corr correspondences, and the search
    stops after at most max_n_iter checks. *)
Definition terminate_n (cvt : dbl -> Z) (scores : list dbl) (h : hdata) : res (bool * hdata) :=
  for_each (fun s '(stop, h) => if stop : bool then Ok (stop, h) else homography_terminate cvt s h) scores (false, h).
Theorem C40_pool : forall cvt n_corr max_n_iter scores,
  4 <= n_corr < INT_MAX -> 1 <= max_n_iter <= INT_MAX ->
  exists stop h, terminate_n cvt scores (homography_data n_corr max_n_iter) = Ok (stop, h) /\
  4 <= h_top h <= n_corr /\ (Z.of_nat (length scores) >= max_n_iter -> stop = true).
Proof.
  intros cvt n mx scores N M.
  assert (G : exists stop h, terminate_n cvt scores (homography_data n mx) = Ok (stop, h) /\
    h_ncorr h = n /\ h_max_iter h = mx /\ 4 <= h_top h <= n /\ (stop = false -> h_iter h = Z.of_nat (length scores) /\ h_iter h < mx)).
  { induction scores as [|x l IH] using rev_ind.
    - eexists. eexists. split; [reflexivity|]. cbn. split; auto. split; auto. split; [destruct (Z.ltb_spec n 10); lia|lia].
    - destruct IH as (stop & h & E & E1 & E2 & T & I). unfold terminate_n in *. rewrite for_each_app, E. cbn [bind for_each].
      destruct stop; [exists true, h; cbn; split; auto; split; auto; split; auto; split; auto; discriminate|].
      destruct (I eq_refl) as [I1 I2]. unfold homography_terminate.
      unfold chk_int. replace (in_int (h_iter h + 1)) with true by (unfold in_int, INT_MIN, INT_MAX in *; lia).
      replace (in_int (h_top h + 1)) with true by (unfold in_int, INT_MIN, INT_MAX in *; lia). cbn [bind].
      rewrite E1, E2. eexists. eexists. split; [reflexivity|]. cbn [h_ncorr h_max_iter h_top h_iter].
      split; auto. split; auto. split; [destruct (Z.leb_spec n (h_top h + 1)); lia|].
      intro S. apply orb_false_iff in S as [S _]. rewrite app_length. cbn. lia. }
  destruct G as (stop & h & E & _ & _ & T & I). exists stop, h. split; auto. split; auto.
  destruct stop; auto. specialize (I eq_refl). lia.
Qed.
Print Assumptions C40_pool.

(** The first check converts -DBL_MAX to int, which is undefined. *)
Theorem C40_first_check_refuted : forall h, homography_terminate_strict D_MINUS_MAX h = UB.
Proof. intro h. unfold homography_terminate_strict. assert (E : d_to_int D_MINUS_MAX = UB) by (vm_compute; reflexivity). now rewrite E. Qed.
Print Assumptions C40_first_check_refuted.

Example C40_example : homography_sampling 10 [0; 1; 429496730; 858993460; 5; 4294967000] = Ok ([0; 1; 2; 9], []).
Proof. vm_compute. reflexivity. Qed.
