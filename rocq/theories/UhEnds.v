(** Safety and termination of the search for a homography. *)
From Coq Require Import Permutation.
From Verif Require Import Base BaseLemmas Dbl UsacModel UsacSpec UsacProofs SiftProofs Gray RansacModel RansacSpec RansacProofs RansacMore UhModel UhSpec UhProofs.
Local Open Scope Z_scope.

(** ** Sampling from a rich source *)
Lemma until_suffix top c b t : (exists r, In r b /\ c (draw top r) = false) -> exists x b', draw_until top c (b ++ t) = Ok (x, b' ++ t).
Proof.
  induction b as [|r b IH]; intros (r' & I & E); [destruct I|]. cbn [app draw_until]. destruct (c (draw top r)) eqn:C.
  - apply IH. destruct I as [->|I]; [congruence|]. eauto.
  - exists (draw top r), b. reflexivity.
Qed.
Lemma covers_more n a b : covers n b -> covers n (a ++ b).
Proof. intros H top i T I. destruct (H top i T I) as (r & R & E). exists r. split; [apply in_or_app; auto|exact E]. Qed.
Lemma other_index top a b : 4 <= top -> exists i, 0 <= i < top /\ i <> a /\ i <> b.
Proof. intro T. destruct (Z.eq_dec a 0), (Z.eq_dec b 0), (Z.eq_dec a 1), (Z.eq_dec b 1); first [exists 0; lia|exists 1; lia|exists 2; lia]. Qed.
Lemma until_covers n top c b t : 4 <= top <= n -> covers n b -> (exists i, 0 <= i < top /\ c i = false) -> exists x b', draw_until top c (b ++ t) = Ok (x, b' ++ t).
Proof. intros T H (i & I & C). apply until_suffix. destruct (H top i T I) as (r & R & E). exists r. split; [exact R|congruence]. Qed.
Lemma rich_prefix n k pre rs : rich n k rs -> rich n k (pre ++ rs).
Proof.
  intro R. destruct R as [rs|k b0 b1 b2 b3 rs C0 C1 C2 C3 R]; [constructor|]. rewrite app_assoc. apply rich_S; auto. apply covers_more. exact C0.
Qed.
Lemma sampling_rich n k top rs : 4 <= top <= n -> rich n (S k) rs -> exists ids rs', homography_sampling top rs = Ok (ids, rs') /\ rich n k rs'.
Proof.
  intros T R. inversion R as [|k' b0 b1 b2 b3 rest C0 C1 C2 C3 R' E1 E2]. subst. unfold homography_sampling.
  destruct (until_covers n top (fun _ => false) b0 (b1 ++ b2 ++ b3 ++ rest) T C0) as (a & l0 & ->); [exists 0; split; [lia|reflexivity]|]. cbn [bind]. rewrite app_assoc.
  destruct (until_covers n top (fun x => x =? a) (l0 ++ b1) (b2 ++ b3 ++ rest) T (covers_more _ _ _ C1)) as (b & l1 & ->).
  { destruct (other_index top a a ltac:(lia)) as (i & I & E & _). exists i. split; [exact I|lia]. }
  cbn [bind]. rewrite app_assoc.
  destruct (until_covers n top (fun x => (x =? b) || (x =? a)) (l1 ++ b2) (b3 ++ rest) T (covers_more _ _ _ C2)) as (c & l2 & ->).
  { destruct (other_index top a b ltac:(lia)) as (i & I & E & E'). exists i. split; [exact I|lia]. }
  cbn [bind]. rewrite app_assoc.
  destruct (until_covers n top (fun x => (x =? b) || (x =? b) || (x =? a)) (l2 ++ b3) rest T (covers_more _ _ _ C3)) as (d & l3 & ->).
  { destruct (other_index top a b ltac:(lia)) as (i & I & E & E'). exists i. split; [exact I|lia]. }
  cbn [bind]. eexists. eexists. split; [reflexivity|]. apply rich_prefix. exact R'.
Qed.

Section G.
Context {P : Type}.
Notation corr := (P * bool)%type.
Variable good : model -> P -> bool.
Variable fit : model -> list P -> model.
Variable estimate_4pt : model -> list P -> model * bool.
Variable check : model -> bool.
Variable cvt : dbl -> Z.
Notation data := (res (list corr * hdata * list Z)).
Notation TM := (try_model data (cb_check check) (cb_score good) cb_degeneracy cb_local).
Notation ML := (UsacModel.main_loop data cb_sampling cb_sample_check (cb_fit estimate_4pt) (cb_check check) (cb_score good) cb_degeneracy cb_local (cb_terminate cvt)).
Variable n mx : Z.
Hypothesis N : 4 <= n <= 2 ^ 24.
Hypothesis MX : mx <= INT_MAX.
(** [Q k rnd]: the random numbers suffice for [k] samples, unless [may] run out. *)
Variable may : Prop.
Variable Q : nat -> list Z -> Prop.
Hypothesis QS : forall k top rs, 4 <= top <= n -> Q (S k) rs ->
  (may /\ homography_sampling top rs = NoFuel) \/ exists ids rs', homography_sampling top rs = Ok (ids, rs') /\ Q k rs' /\ Forall (fun i => 0 <= i < n) ids.

Definition left (hd : hdata) : nat := Z.to_nat (mx - h_iter hd).
Definition fine (d : data) : Prop := (may /\ d = NoFuel) \/
  exists l hd rnd, d = Ok (l, hd, rnd) /\ Z.of_nat (length l) = n /\ h_ncorr hd = n /\ h_max_iter hd = mx /\ 4 <= h_top hd <= n /\ 0 <= h_iter hd <= Z.max 0 (mx - 1) /\ Q (left hd) rnd.
Definition fuelled (f : nat) (d : data) : Prop := (0 < f)%nat /\ forall l hd rnd, d = Ok (l, hd, rnd) -> (left hd < f)%nat.
(** The matches do not change in number, the rest of the data not at all. *)
Definition same (d d' : data) : Prop := match d with
  | Ok (l, hd, rnd) => exists l', d' = Ok (l', hd, rnd) /\ length l' = length l
  | _ => d' = d end.
Lemma same_refl d : same d d.
Proof. destruct d as [[[l hd] rnd]| | |]; cbn; eauto. Qed.
Lemma score_same mo ids d : same d (snd (cb_score good mo ids d)).
Proof.
  unfold cb_score. destruct d as [[[l hd] rnd]| | |]; cbn [bad snd same]; auto. rewrite mark_eq. cbn [snd]. eexists. split; [reflexivity|]. apply map_length.
Qed.
Lemma try_same i s s' : TM i s = Ok s' -> same (u_data _ s) (u_data _ s').
Proof.
  clear QS. intro H. unfold try_model in H. apply bind_ok in H as (mo & _ & H). cbn [cb_check] in H. apply bind_ok in H as (ms1 & _ & H).
  destruct (check mo); cbn [negb] in H; [|injection H as <-; apply same_refl]. cbn [u_ids u_data say with_models with_data u_models u_score u_refined] in H.
  pose proof (score_same mo (u_ids _ s) (u_data _ s)) as SS. destruct (cb_score good mo (u_ids _ s) (u_data _ s)) as [[sc mo2] d2]. cbn [snd] in SS.
  apply bind_ok in H as (ms2 & _ & H). cbn [u_ids u_data say with_models with_data u_models u_score u_refined] in H.
  destruct (d_gt sc (u_score _ s)); [|injection H as <-; exact SS].
  cbn [cb_degeneracy] in H. apply bind_ok in H as (ms3 & _ & H). cbn [u_ids u_data say with_models with_data u_models u_score u_refined negb cb_local] in H.
  injection H as <-. exact SS.
Qed.
Lemma fine_same d d' : same d d' -> fine d -> fine d'.
Proof.
  intros S0 [(A & ->)|(l & hd & rnd & -> & L & R)]; cbn [same] in S0; [left; auto|]. destruct S0 as (l' & -> & L'). right. exists l', hd, rnd. rewrite L'. auto.
Qed.
Lemma fuelled_same f d d' : same d d' -> fuelled f d -> fuelled f d'.
Proof.
  intros S0 [F0 F]. split; [exact F0|]. intros l hd rnd ->. destruct d as [[[l1 h1] r1]| | |]; cbn [same] in S0; try discriminate. destruct S0 as (l' & E & _). injection E as _ <- <-. eapply F. reflexivity.
Qed.
Lemma loop_fine f : forall s, (0 < length (u_models _ s))%nat -> fine (u_data _ s) -> fuelled f (u_data _ s) -> exists s', ML f s = Ok s' /\
  ((may /\ u_data _ s' = NoFuel) \/ exists l hd rnd, u_data _ s' = Ok (l, hd, rnd) /\ Z.of_nat (length l) = n).
Proof.
  induction f as [|f IH]; intros s M F [FU0 FU]; [lia|]. cbn [UsacModel.main_loop].
  destruct F as [(MAY & D)|(l & hd & rnd & D & L & NC & HM & T & I & QQ)].
  { rewrite D. cbn [cb_terminate bad]. eexists. split; [reflexivity|]. left. auto. }
  specialize (FU _ _ _ D). rewrite D. cbn [cb_terminate]. unfold homography_terminate.
  rewrite (chk_int_in (h_iter hd + 1)) by (unfold INT_MIN, INT_MAX in *; lia). rewrite (chk_int_in (h_top hd + 1)) by (unfold INT_MIN, INT_MAX in *; lia). cbn [bind]. rewrite NC, HM.
  set (x := match d_to_int _ with Ok _ => _ | _ => _ end). clearbody x.
  set (tp := if n <=? _ then _ else _). assert (TP : 4 <= tp <= n) by (unfold tp; destruct (Z.leb_spec n (h_top hd + 1)); lia). clearbody tp.
  destruct ((mx <=? h_iter hd + 1) || (200 <=? x)) eqn:ST.
  { eexists. split; [reflexivity|]. right. cbn. eauto 10. }
  apply orb_false_iff in ST as [ST _]. cbn [u_ids u_data say with_data u_models u_max u_score u_best u_refined u_log cb_sampling cb_sample_check h_top negb].
  assert (LK : left hd = S (Z.to_nat (mx - (h_iter hd + 1)))) by (unfold left; lia). rewrite LK in QQ.
  destruct (QS _ tp rnd TP QQ) as [(MAY & ->)|(ids & rs & -> & Q' & R)].
  { cbn [bad cb_fit u_ids u_data say with_data u_models u_max u_score u_best u_refined u_log]. change (seq 0 (Z.to_nat 0)) with (@nil nat). cbn [for_each bind].
    apply IH; [exact M|left; auto|]. split; [lia|]. cbn. discriminate. }
  cbn [cb_fit u_ids u_data say with_data u_models u_max u_score u_best u_refined u_log].
  destruct (sample_ok l ids) as (q & ->); [rewrite L; exact R|]. destruct (u_models _ s) as [|m0 rest]; [cbn in M; lia|]. destruct (estimate_4pt m0 q) as [m1 dz].
  assert (Hgo : forall s0, (0 < length (u_models _ s0))%nat -> same (Ok (l, {| h_ncorr := n; h_max_iter := mx; h_top := tp; h_iter := h_iter hd + 1 |}, rs)) (u_data _ s0) ->
     exists s', ML f s0 = Ok s' /\ ((may /\ u_data _ s' = NoFuel) \/ exists l hd rnd, u_data _ s' = Ok (l, hd, rnd) /\ Z.of_nat (length l) = n)).
  { intros s0 M0 SM. apply IH; [exact M0| |].
    - apply (fine_same _ _ SM). right. eexists. eexists. eexists. split; [reflexivity|]. unfold left. cbn [h_ncorr h_max_iter h_top h_iter]. repeat (split; [first [exact L|reflexivity|exact TP|lia]|]). exact Q'.
    - apply (fuelled_same _ _ _ SM). split; [lia|]. intros l' hd' rnd' E. injection E as _ <- _. unfold left. cbn [h_iter]. lia. }
  destruct dz.
  - change (seq 0 (Z.to_nat 0)) with (@nil nat). cbn [for_each bind]. apply Hgo; [cbn; lia|apply same_refl].
  - change (seq 0 (Z.to_nat 1)) with [0%nat]. cbn [for_each].
    match goal with |- context [try_model _ _ _ _ _ 0 ?X] => set (s3 := X) end.
    destruct (try_model_len data cb_sampling cb_sample_check (cb_check check) (cb_score good) cb_degeneracy cb_local (cb_global good fit) (cb_terminate cvt) 0 s3) as (s4 & E4 & L4); [cbn; lia|].
    rewrite E4. cbn [bind]. apply Hgo; [rewrite L4; cbn; lia|]. exact (try_same _ _ _ E4).
Qed.
Variable qsort : list corr -> list corr.
Hypothesis PM : forall l, Permutation l (qsort l).
Lemma estimate_fine h junk junk_ids (l : list corr) rnd : Z.of_nat (length l) = n -> Q (Z.to_nat mx) rnd ->
  (may /\ estimate good fit estimate_4pt check qsort cvt h junk junk_ids l mx rnd = NoFuel) \/ exists r, estimate good fit estimate_4pt check qsort cvt h junk junk_ids l mx rnd = Ok r.
Proof.
  intros L QQ. unfold estimate. destruct (Z.ltb_spec (Z.of_nat (length l)) 4); [right; eauto|]. unfold usac. cbn [Nat.eqb].
  match goal with |- context [UsacModel.main_loop _ _ _ _ _ _ _ _ _ ?f ?X] => destruct (loop_fine f X) as (s & -> & E) end.
  - cbn. lia.
  - right. eexists. eexists. eexists. split; [reflexivity|]. rewrite <- (Permutation_length (PM l)), L. unfold homography_data, left. cbn [h_ncorr h_max_iter h_top h_iter].
    split; [reflexivity|]. split; [reflexivity|]. split; [reflexivity|]. split; [destruct (Z.ltb_spec n 10); lia|]. split; [lia|]. rewrite Z.sub_0_r. exact QQ.
  - split; [lia|]. intros l' hd' rnd' E. injection E as _ <- _. unfold left, homography_data. cbn [h_iter]. lia.
  - cbn [bind]. destruct E as [(MAY & E)|(l1 & hd & rnd1 & E & L1)]; rewrite E.
    + left. split; [exact MAY|]. cbn [cb_global bad cb_score u_data say with_refined with_data]. set (b := d_gt _ _). destruct b; reflexivity.
    + right. cbn [cb_global]. rewrite mark_eq.
      destruct (refine_ok good 4 fit (map fst l1)) with (fuel := S (length (map (fun c => (fst c, good (u_best _ s) (fst c))) l1))) (h := u_best _ s) (l := map (fun c => (fst c, good (u_best _ s) (fst c))) l1) (n := 1) as (h1 & l2 & ER & _).
      { rewrite map_length. lia. }
      { apply marked_fst. }
      { apply marked_flags. }
      { lia. }
      { rewrite !map_length. lia. }
      rewrite ER. cbn [cb_score u_data say with_refined with_data u_ids]. rewrite mark_eq. set (b := d_gt _ _). destruct b; cbn [bind u_data take say with_refined with_data u_best]; rewrite mark_eq; eauto.
Qed.
End G.
