(** Lemmas for C160. *)
From Coq Require Import Reals Lra.
From Verif Require Import Base BaseLemmas GeoModel GeoSpec Gray ProjModel ProjSpec PhModel.
Local Open Scope Z_scope.

(** The number at a place. *)
Notation at_ m j := (nth (Z.to_nat j) m 0%R).
Lemma at_lset m j k v : 0 <= j < Z.of_nat (length m) -> 0 <= k -> at_ (lset m (Z.to_nat j) v) k = if k =? j then v else at_ m k.
Proof.
  intros J K. rewrite nth_lset. destruct (Z.eqb_spec k j) as [->|N].
  - destruct (Nat.eqb_spec (Z.to_nat j) (Z.to_nat j)); [|lia]. destruct (Nat.ltb_spec (Z.to_nat j) (length m)); cbn; try reflexivity; lia.
  - destruct (Nat.eqb_spec (Z.to_nat k) (Z.to_nat j)); [lia|]. destruct (Nat.eqb_spec (Z.to_nat j) (Z.to_nat k)); [lia|]. reflexivity.
Qed.
Lemma row4_ok c0 c1 c2 c3 m X : 0 <= X -> X + 4 <= Z.of_nat (length m) ->
  row4 c0 c1 c2 c3 m X = Ok (c0 * at_ m X + c1 * at_ m (X + 1) + c2 * at_ m (X + 2) + c3 * at_ m (X + 3))%R.
Proof. intros A B. unfold row4. rewrite !(zget_lt _ _ 0%R) by lia. reflexivity. Qed.
(** The four numbers at a place. *)
Definition quad (m : list R) (j : Z) : vec4 := V4 (at_ m j) (at_ m (j + 1)) (at_ m (j + 2)) (at_ m (j + 3)).
Lemma step_ok P X x i m : 0 <= i -> 0 <= X -> 0 <= x -> X + 4 * i + 4 <= Z.of_nat (length m) -> x + 3 * i + 3 <= Z.of_nat (length m) ->
  X + 4 * i + 4 <= x + 3 * i \/ x + 3 * i + 3 <= X + 4 * i ->
  exists m', project_h_step P X x i m = Ok m' /\ length m' = length m /\
    V3 (at_ m' (x + 3 * i)) (at_ m' (x + 3 * i + 1)) (at_ m' (x + 3 * i + 2)) = apply34h P (quad m (X + 4 * i)) /\
    forall j, 0 <= j -> j < x + 3 * i \/ x + 3 * i + 3 <= j -> at_ m' j = at_ m j.
Proof.
  intros I HX Hx LX Lx D. unfold project_h_step. cbv zeta. set (Xi := X + 4 * i) in *. set (xi := x + 3 * i) in *.
  rewrite row4_ok by lia. cbn [bind]. rewrite zset_lt' by lia. cbn [bind].
  rewrite row4_ok by (rewrite ?lset_length; lia). cbn [bind]. rewrite zset_lt' by (rewrite ?lset_length; lia). cbn [bind].
  rewrite row4_ok by (rewrite ?lset_length; lia). cbn [bind]. rewrite zset_lt' by (rewrite ?lset_length; lia).
  eexists. split; [reflexivity|]. split; [now rewrite !lset_length|].
  assert (N : forall a b (u v : R), a <> b -> (if a =? b then u else v) = v) by (intros a b u v H; destruct (Z.eqb_spec a b); [contradiction|reflexivity]).
  split.
  - unfold apply34h, quad. cbn [w0 w1 w2 w3].
    repeat (rewrite at_lset by (rewrite ?lset_length; lia)). rewrite !Z.eqb_refl. rewrite !N by lia. reflexivity.
  - intros j J O. repeat (rewrite at_lset by (rewrite ?lset_length; lia)). rewrite !N by lia. reflexivity.
Qed.
Lemma project_h_ok P X x m : 0 <= X -> 0 <= x -> forall k, 0 <= k -> X + 4 * k <= Z.of_nat (length m) -> x + 3 * k <= Z.of_nat (length m) ->
  X + 4 * k <= x \/ x + 3 * k <= X ->
  exists m', for_each (project_h_step P X x) (zrange 0 k) m = Ok m' /\ length m' = length m /\
    (forall i, 0 <= i < k -> V3 (at_ m' (x + 3 * i)) (at_ m' (x + 3 * i + 1)) (at_ m' (x + 3 * i + 2)) = apply34h P (quad m (X + 4 * i))) /\
    forall j, 0 <= j -> j < x \/ x + 3 * k <= j -> at_ m' j = at_ m j.
Proof.
  intros HX Hx k K. pattern k. revert k K. apply natlike_ind.
  - intros. exists m. split; [reflexivity|]. split; [reflexivity|]. split; [lia|reflexivity].
  - intros k K IH LX Lx D. destruct IH as (m1 & E & L & V & U); try lia.
    change (Z.succ k) with (k + 1). rewrite zrange_snoc by lia. rewrite for_each_app, E. cbn [bind for_each].
    destruct (step_ok P X x k m1) as (m2 & E2 & L2 & V2' & U2); try lia. rewrite E2. cbn [bind]. exists m2.
    split; [reflexivity|]. split; [lia|]. split.
    + intros i I. destruct (Z.eq_dec i k) as [->|N].
      * rewrite V2'. f_equal. unfold quad. now rewrite !U by lia.
      * rewrite !U2 by lia. apply V. lia.
    + intros j J O. rewrite U2 by lia. apply U; lia.
Qed.
