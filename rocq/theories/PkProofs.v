(** Lemmas for C159. *)
From Coq Require Import Reals Lra.
From Verif Require Import Base PkModel PkSpec.
Local Open Scope R_scope.

Lemma step_ok b x w : (step b x w = 0 \/ step b x w = 1 /\ x < w - 3 \/ step b x w = -1 /\ 3 < x)%Z.
Proof.
  unfold step. destruct (Rlt_dec six_tenths b), (Rlt_dec b (- six_tenths)), (Z.ltb_spec x (w - 3)), (Z.gtb_spec x 3); auto; lia.
Qed.
Lemma step_small b x w : Rabs b <= 6 / 10 -> step b x w = 0%Z.
Proof.
  intro B. unfold step, six_tenths. destruct (Rlt_dec (6 / 10) b) as [L|L]; [pose proof (Rle_abs b); lra|].
  destruct (Rlt_dec b (- (6 / 10))) as [M|M]; [|reflexivity]. pose proof (Rle_abs (- b)) as A. rewrite Rabs_Ropp in A. lra.
Qed.
Lemma step_asks b x w : asks b x w (step b x w).
Proof.
  unfold asks, step, six_tenths. destruct (Rlt_dec (6 / 10) b), (Rlt_dec b (- (6 / 10))), (Z.ltb_spec x (w - 3)), (Z.gtb_spec x 3).
  all: first [left; repeat split; (lia || lra)|right; left; repeat split; (lia || lra)|right; right; repeat split; intros; try lia; lra].
Qed.
Lemma walk_inside w h solve k x y px py : walk w h solve k x y px py -> (1 <= x <= w - 2)%Z -> (1 <= y <= h - 2)%Z ->
  (1 <= px <= w - 2 /\ 1 <= py <= h - 2)%Z /\ (Z.abs (px - x) <= Z.of_nat k /\ Z.abs (py - y) <= Z.of_nat k)%Z.
Proof.
  intro W. induction W as [x y|k x y b dx dy x' y' _ AX AY _ _ IH]; intros X Y; [lia|].
  assert (forall c z u d, asks c z u d -> (1 <= z <= u - 2)%Z -> (1 <= z + d <= u - 2 /\ Z.abs d <= 1)%Z) as Q by (intros c z u d [(-> & _ & ?)|[(-> & _ & ?)|(-> & _)]] ?; lia).
  pose proof (Q _ _ _ _ AX X). pose proof (Q _ _ _ _ AY Y). destruct IH; lia.
Qed.
(** Where the search ends: at a pixel (px, py) that asks for no move or is that of the
    last try, with the offsets found there. *)
Lemma refine_ok w h solve : forall n x y, (1 <= x <= w - 2)%Z -> (1 <= y <= h - 2)%Z ->
  exists r, refine w h solve (S n) x y = Ok r /\ forall x' y' b, r = Some (x', y', b) ->
    exists k px py, walk w h solve k x y px py /\ (k <= n)%nat /\ solve px py = Some b /\
      (x' = px + step (o_x b) px w /\ y' = py + step (o_y b) py h)%Z /\
      ((k < n)%nat -> x' = px /\ y' = py).
Proof.
  induction n as [|n IH]; intros x y X Y; cbn [refine].
  all: destruct (Z.leb_spec 1 x), (Z.leb_spec x (w - 2)), (Z.leb_spec 1 y), (Z.leb_spec y (h - 2)); try lia; cbn [andb].
  all: destruct (solve x y) as [b|] eqn:E; [|eexists; split; [reflexivity|discriminate]].
  all: pose proof (step_ok (o_x b) x w) as SX; pose proof (step_ok (o_y b) y h) as SY.
  all: pose proof (step_asks (o_x b) x w) as AX; pose proof (step_asks (o_y b) y h) as AY.
  all: destruct (Z.eqb_spec (step (o_x b) x w) 0) as [Q1|Q1], (Z.eqb_spec (step (o_y b) y h) 0) as [Q2|Q2]; cbn [andb].
  all: try (eexists; split; [reflexivity|]; intros x' y' b' [= <- <- <-]; exists 0%nat, x, y; repeat split; auto; try constructor; lia).
  all: destruct (IH (x + step (o_x b) x w)%Z (y + step (o_y b) y h)%Z ltac:(lia) ltac:(lia)) as (r & ER & P); cbn [refine] in ER; eexists; (split; [exact ER|]);
    intros x' y' b' Hr; destruct (P x' y' b' Hr) as (k & px & py & A & B & C & D & F); exists (S k), px, py;
    (split; [eapply walk_move; eauto; lia|]); split; [lia|]; split; [exact C|]; split; [exact D|intro; apply F; lia].
Qed.
