(** C159: refined peaks of the SIFT detector. *)
From Coq Require Import Reals Lra.
From Verif Require Import Base PkModel PkSpec PkProofs.
Local Open Scope R_scope.

(** Whatever the images hold, nothing outside them is read. *)
Theorem C159_safe w h solve thr i x y : (1 <= x <= w - 2)%Z -> (1 <= y <= h - 2)%Z ->
  exists r, interp_peak w h solve thr i x y = Ok r.
Proof.
  intros X Y. destruct (refine_ok w h solve 4 x y X Y) as (r & E & _). unfold interp_peak. rewrite E. cbn [bind].
  destruct r as [[[px py] b]|]; [|eauto].
  destruct (Rlt_dec (3 / 2) (Rabs (o_x b))), (Rlt_dec (3 / 2) (Rabs (o_y b))), (Rlt_dec (3 / 2) (Rabs (o_s b))), (Rlt_dec (Rabs (o_val b)) thr); eauto.
Qed.
Print Assumptions C159_safe.

(** A peak given comes from a pixel inside the image, reached from the start by at most
    four moves towards the peak, at which the system was solved: its scale and value are
    those found there, strong enough, with no offset above 1.5.  If fewer than four moves
    were made, the fit asked for no further one and the position is pixel plus offset;
    the same holds in each direction in which the offset is at most 0.6.  Otherwise the
    position is that and the move asked for.  Missing for the full claim (position =
    pixel + offset always): see C159_position_refuted. *)
Theorem C159_position_partial w h solve thr i x y s X Y v : (1 <= x <= w - 2)%Z -> (1 <= y <= h - 2)%Z ->
  interp_peak w h solve thr i x y = Ok (Some (s, X, Y, v)) ->
  exists k px py bx by_ bs dx dy, walk w h solve k x y px py /\ (k <= 4)%nat /\
    (1 <= px <= w - 2 /\ 1 <= py <= h - 2)%Z /\ (Z.abs (px - x) <= 4 /\ Z.abs (py - y) <= 4)%Z /\
    solve px py = Some (mkO bx by_ bs v) /\
    s = IZR i + bs /\ thr <= Rabs v /\ Rabs bx <= 3 / 2 /\ Rabs by_ <= 3 / 2 /\ Rabs bs <= 3 / 2 /\
    asks bx px w dx /\ asks by_ py h dy /\ X = IZR (px + dx) + bx /\ Y = IZR (py + dy) + by_ /\
    ((k < 4)%nat -> dx = 0%Z /\ dy = 0%Z) /\ (Rabs bx <= 6 / 10 -> dx = 0%Z) /\ (Rabs by_ <= 6 / 10 -> dy = 0%Z).
Proof.
  intros HX HY. destruct (refine_ok w h solve 4 x y HX HY) as (r & E & P). unfold interp_peak. rewrite E. cbn [bind].
  destruct r as [[[x' y'] b]|]; [|discriminate]. destruct (P x' y' b eq_refl) as (k & px & py & W & K & A & (-> & ->) & Z4).
  destruct (walk_inside _ _ _ _ _ _ _ _ W HX HY) as [B C].
  destruct (Rlt_dec (3 / 2) (Rabs (o_x b))); [discriminate|]. destruct (Rlt_dec (3 / 2) (Rabs (o_y b))); [discriminate|].
  destruct (Rlt_dec (3 / 2) (Rabs (o_s b))); [discriminate|]. destruct (Rlt_dec (Rabs (o_val b)) thr); [discriminate|].
  intros [= <- <- <- <-]. exists k, px, py, (o_x b), (o_y b), (o_s b), (step (o_x b) px w), (step (o_y b) py h).
  split; [exact W|]. split; [exact K|]. split; [exact B|]. split; [lia|]. split; [rewrite A; now destruct b|]. do 5 (split; [lra|]).
  split; [apply step_asks|]. split; [apply step_asks|]. split; [reflexivity|]. split; [reflexivity|].
  split; [intro L; specialize (Z4 L); lia|]. split; apply step_small.
Qed.
Print Assumptions C159_position_partial.

(** No good peak is dropped: one within 0.6 of the pixel it starts from is given. *)
Theorem C159_kept w h solve thr i x y bx by_ bs v : (1 <= x <= w - 2)%Z -> (1 <= y <= h - 2)%Z ->
  solve x y = Some (mkO bx by_ bs v) -> Rabs bx <= 6 / 10 -> Rabs by_ <= 6 / 10 -> Rabs bs <= 3 / 2 -> thr <= Rabs v ->
  interp_peak w h solve thr i x y = Ok (Some (IZR i + bs, IZR x + bx, IZR y + by_, v)).
Proof.
  intros X Y E BX BY BS V. unfold interp_peak. cbn [refine].
  destruct (Z.leb_spec 1 x), (Z.leb_spec x (w - 2)), (Z.leb_spec 1 y), (Z.leb_spec y (h - 2)); try lia. cbn [andb].
  rewrite E. cbn [o_x o_y]. rewrite (step_small bx), (step_small by_) by assumption. cbn [Z.eqb andb bind o_x o_y o_s o_val].
  destruct (Rlt_dec (3 / 2) (Rabs bx)); [lra|]. destruct (Rlt_dec (3 / 2) (Rabs by_)); [lra|].
  destruct (Rlt_dec (3 / 2) (Rabs bs)); [lra|]. destruct (Rlt_dec (Rabs v) thr); [lra|]. reflexivity.
Qed.
Print Assumptions C159_kept.

(** The full claim fails: if the fifth try still asks for a step, the pixel is moved but
    the offset stays that of the pixel before.  Here every pixel says "0.7 to the right":
    the peak is reported at 15.7, although the last pixel solved, 14, gives 14.7. *)
Definition drift (px py : Z) : option offsets := if (px <=? 14)%Z then Some (mkO (7 / 10) 0 0 1) else None.
Theorem C159_position_refuted :
  exists w h solve thr i x y s X Y v, (1 <= x <= w - 2)%Z /\ (1 <= y <= h - 2)%Z /\
    interp_peak w h solve thr i x y = Ok (Some (s, X, Y, v)) /\
    forall px py b, solve px py = Some b -> X <> IZR px + o_x b.
Proof.
  exists 64%Z, 64%Z, drift, (1 / 100), 1%Z, 10%Z, 10%Z, (1 + 0), (15 + 7 / 10), (10 + 0), 1.
  split; [lia|]. split; [lia|]. split.
  - assert (S7 : forall z, (z < 61)%Z -> step (7 / 10) z 64 = 1%Z).
    { intros z Hz. unfold step, six_tenths. destruct (Rlt_dec (6 / 10) (7 / 10)); [|lra]. destruct (Z.ltb_spec z (64 - 3)); [reflexivity|lia]. }
    assert (S0 : forall z, step 0 z 64 = 0%Z) by (intro z; apply step_small; rewrite Rabs_R0; lra).
    assert (D : forall x, (1 <= x <= 14)%Z -> drift x 10 = Some (mkO (7 / 10) 0 0 1)) by (intros x L; unfold drift; destruct (Z.leb_spec x 14); [reflexivity|lia]).
    assert (G : forall x, (1 <= x <= 14)%Z -> ((1 <=? x) && (x <=? 64 - 2) && (1 <=? 10) && (10 <=? 64 - 2))%Z = true) by (intros x L; rewrite !andb_true_iff, !Z.leb_le; lia).
    assert (T : forall n x, (1 <= x <= 14)%Z -> refine 64 64 drift (S (S n)) x 10 = refine 64 64 drift (S n) (x + 1) 10).
    { intros n x L. cbn [refine]. rewrite (G x L), (D x L). cbn [o_x o_y]. now rewrite (S7 x), S0 by lia. }
    assert (L : refine 64 64 drift 1 14 10 = Ok (Some (15, 10, mkO (7 / 10) 0 0 1)%Z)).
    { cbn [refine]. rewrite (G 14%Z), (D 14%Z) by lia. cbn [o_x o_y]. now rewrite (S7 14%Z), S0 by lia. }
    unfold interp_peak. rewrite !T by lia. change (10 + 1 + 1 + 1 + 1)%Z with 14%Z. rewrite L. cbn [bind o_x o_y o_s o_val].
    rewrite Rabs_R0, Rabs_R1, (Rabs_right (7 / 10)) by lra.
    destruct (Rlt_dec (3 / 2) (7 / 10)); [lra|]. destruct (Rlt_dec (3 / 2) 0); [lra|]. destruct (Rlt_dec 1 (1 / 100)); [lra|]. reflexivity.
  - intros px py b. unfold drift. destruct (Z.leb_spec px 14) as [L|L]; [|discriminate]. intros [= <-]. cbn [o_x]. apply IZR_le in L. lra.
Qed.
Print Assumptions C159_position_refuted.

(** A peak a quarter of a pixel right of (10, 20) is found there. *)
Example C159_example : interp_peak 64 64 (fun _ _ => Some (mkO (1 / 4) 0 (1 / 2) 1)) (1 / 100) 2 10 20
  = Ok (Some (2 + 1 / 2, 10 + 1 / 4, 20 + 0, 1)).
Proof.
  apply C159_kept; try lia; try reflexivity; rewrite ?Rabs_R0, ?Rabs_R1, ?Rabs_right by lra; lra.
Qed.
