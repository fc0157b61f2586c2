(** C165: transfer of points in memory. *)
From Verif Require Import Base ProjModel GeoSpec ProjSpec GeoProofs HomoProofs VhModel.
From Coq Require Import Lra Lia.
Local Open Scope R_scope.

(** The point at an address. *)
Definition point (m : mem) (a : nat) : vec2 := V2 (m a) (m (S a)).
Lemma upd_eq m p v : upd m p v p = v.
Proof. unfold upd. now rewrite Nat.eqb_refl. Qed.
Lemma upd_neq m p v a : a <> p -> upd m p v a = m a.
Proof. intro H. unfold upd. destruct (Nat.eqb_spec a p); [contradiction|reflexivity]. Qed.

(** Missing from the full property: results written over the point given.
    If the first number written is not part of the point given, the result is the image
    of the point under the homography, nothing else is written, and there is a result
    exactly if the point has an image. *)
Theorem C165_transfer_partial : forall h m xp x, xp <> x -> xp <> S x ->
  (forall m', transfer h m xp x = Some m' -> maps_to h (point m x) (point m' xp) /\ forall a, a <> xp -> a <> S xp -> m' a = m a) /\
  (transfer h m xp x = None <-> forall y, ~ maps_to h (point m x) y).
Proof.
  intros h m xp x N1 N2. pose proof (transfer_maps h (point m x)) as T. unfold transfer_fwd, point in T. cbn [px py] in T. unfold transfer.
  destruct (is_zero _) eqn:Z.
  - split; [discriminate|]. split; [|reflexivity]. intros _ y M. apply T in M. discriminate.
  - cbv zeta in *. rewrite (upd_neq m xp _ x), (upd_neq m xp _ (S x)) by auto. split.
    + intros m' [= <-]. split.
      * apply T. unfold point. rewrite upd_eq, upd_neq, upd_eq by lia. reflexivity.
      * intros a A1 A2. now rewrite !upd_neq.
    + split; [discriminate|]. intro H. exfalso. eapply H. apply T. reflexivity.
Qed.
Print Assumptions C165_transfer_partial.
(** In place it is right if the second row does not use the first coordinate, as for
    scalings and translations. *)
Theorem C165_in_place_partial : forall h m x m', m1 h = 0 -> transfer h m x x = Some m' ->
  maps_to h (point m x) (point m' x) /\ forall a, a <> x -> a <> S x -> m' a = m a.
Proof.
  intros h m x m' H1. unfold transfer. pose proof (transfer_maps h (point m x)) as T. unfold transfer_fwd, point in T. cbn [px py] in T.
  destruct (is_zero _); [discriminate|]. cbv zeta in *. intros [= <-]. split; [|intros a A1 A2; now rewrite !upd_neq].
  apply T. unfold point. rewrite (upd_neq _ (S x) _ x), !upd_eq, (upd_neq m x _ (S x)) by lia. rewrite H1. f_equal. f_equal. ring.
Qed.
Print Assumptions C165_in_place_partial.
(** A new homography keeps every point, and after [set] the object transfers by the matrix
    set, whatever it was before. *)
Theorem C165_object : forall m xp x h0 h, xp <> x -> xp <> S x ->
  (exists m', transfer new_homography m xp x = Some m' /\ point m' xp = point m x) /\
  (forall m', transfer (set_homography h0 h) m xp x = Some m' -> maps_to h (point m x) (point m' xp)).
Proof.
  intros m xp x h0 h N1 N2. split; [|intros m' E; now apply (proj1 (C165_transfer_partial h m xp x N1 N2))].
  unfold transfer. cbn [new_homography m0 m1 m2 m3 m4 m5 m6 m7 m8]. unfold is_zero. destruct (Req_EM_T _ 0) as [E|E]; [exfalso; lra|]. eexists. split; [reflexivity|].
  unfold point. cbv zeta. rewrite (upd_neq _ (S xp) _ xp), !upd_eq by lia. rewrite (upd_neq m xp _ x), (upd_neq m xp _ (S x)) by auto. f_equal; field.
Qed.
Print Assumptions C165_object.
(** Finding: in place, the second coordinate is computed from the first one of the result:
    exchanging coordinates in place sends (1, 2) to (2, 2). *)
Theorem C165_in_place_refuted : let h := M3 0 1 0 1 0 0 0 0 1 in let m := fun a => if Nat.eqb a 0 then 1 else 2 in
  exists m', transfer h m 0 0 = Some m' /\ point m' 0 = V2 2 2 /\ maps_to h (point m 0) (V2 2 1) /\ ~ maps_to h (point m 0) (point m' 0).
Proof.
  cbv zeta. unfold transfer. cbn [m0 m1 m2 m3 m4 m5 m6 m7 m8 Nat.eqb]. unfold is_zero. destruct (Req_EM_T _ 0) as [E|E]; [exfalso; lra|].
  eexists. split; [reflexivity|]. assert (P : forall q : mem, q 0%nat = 2 -> q 1%nat = 2 -> point q 0 = V2 2 2) by (intros q A B; unfold point; now rewrite A, B).
  match goal with |- point ?q 0 = _ /\ _ => assert (Q : point q 0 = V2 2 2) by (apply P; unfold upd; cbn [Nat.eqb]; field) end.
  split; [exact Q|]. rewrite Q. unfold point. cbn [Nat.eqb]. split.
  - exists 1. split; [lra|]. cbv - [Rmult Rplus IZR]. f_equal; ring.
  - intros (w & W & A). pose proof (f_equal v0 A) as A0. pose proof (f_equal v1 A) as A1. unfold lin, h3, vscale in A0, A1. cbn in A0, A1. lra.
Qed.
Print Assumptions C165_in_place_refuted.
(** A perspective map between distinct arrays. *)
Example C165_example : let h := M3 1 0 1 0 1 0 0 0 1 in let m := fun a => if Nat.eqb a 4 then 1 else 6 in
  exists m', transfer h m 0 4 = Some m' /\ point m' 0 = V2 (1 / 2) 3.
Proof.
  cbv zeta. unfold transfer. cbn [m0 m1 m2 m3 m4 m5 m6 m7 m8 Nat.eqb]. unfold is_zero. destruct (Req_EM_T _ 0) as [E|E]; [exfalso; lra|].
  eexists. split; [reflexivity|]. unfold point, upd. cbn [Nat.eqb]. f_equal; field.
Qed.
