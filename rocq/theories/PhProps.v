(** C160: projection of homogeneous points. *)
From Coq Require Import Reals Lra.
From Verif Require Import Base BaseLemmas GeoModel GeoSpec Gray ProjModel ProjSpec PhModel PhProofs.
Local Open Scope R_scope.

(** [n] points at [X] of the memory, room for [n] results at [x], apart from each other:
    result i is the matrix times point i, nothing else is changed. *)
Theorem C160_project_h : forall P n X x mem, (0 < n)%Z -> (0 <= X)%Z -> (0 <= x)%Z ->
  (X + 4 * n <= Z.of_nat (length mem))%Z -> (x + 3 * n <= Z.of_nat (length mem))%Z -> (X + 4 * n <= x \/ x + 3 * n <= X)%Z ->
  exists mem', pinhole_project_h P n X x mem = Ok mem' /\ length mem' = length mem /\
    let at_ m j := nth (Z.to_nat j) m 0 in
    (forall i, (0 <= i < n)%Z ->
       V3 (at_ mem' (x + 3 * i)%Z) (at_ mem' (x + 3 * i + 1)%Z) (at_ mem' (x + 3 * i + 2)%Z)
       = apply34h P (V4 (at_ mem (X + 4 * i)%Z) (at_ mem (X + 4 * i + 1)%Z) (at_ mem (X + 4 * i + 2)%Z) (at_ mem (X + 4 * i + 3)%Z))) /\
    forall j, (0 <= j)%Z -> (j < x \/ x + 3 * n <= j)%Z -> at_ mem' j = at_ mem j.
Proof.
  intros P n X x mem N HX Hx LX Lx D. unfold pinhole_project_h. destruct (Z.gtb_spec n 0); [|lia].
  apply (project_h_ok P X x mem HX Hx n); lia || assumption.
Qed.
Print Assumptions C160_project_h.

(** Dividing by the third number gives the pixel at which nx_pinhole_project (C91) puts
    the point, whatever multiple of (X, Y, Z, 1) it was given as. *)
Theorem C160_agrees : forall P X w v, w <> 0 -> v2 (apply34 P X) <> 0 ->
  v = apply34h P (vscale4 w (homogeneous X)) -> v2 v <> 0 /\ projects_to P X (V2 (v0 v / v2 v) (v1 v / v2 v)).
Proof.
  intros P [X Y Z] w v W S ->. unfold apply34, apply34h, vscale4, homogeneous, projects_to in *. cbn [v0 v1 v2 w0 w1 w2 w3] in *.
  set (s := p2 P * X + p5 P * Y + p8 P * Z + p11 P) in *.
  replace (p2 P * (w * X) + p5 P * (w * Y) + p8 P * (w * Z) + p11 P * (w * 1)) with (w * s) by (unfold s; ring).
  split; [now apply Rmult_integral_contrapositive_currified|]. exists s. split; [exact S|].
  unfold vscale, h3, apply34. cbn [v0 v1 v2 px py]. fold s. f_equal; field; auto.
Qed.
Print Assumptions C160_agrees.

(** It cannot be used in place: the second number is computed from the first result. *)
Theorem C160_in_place_refuted : exists P mem mem', pinhole_project_h P 1 0 0 mem = Ok mem' /\ length mem = 4%nat /\
  V3 (nth 0 mem' 0) (nth 1 mem' 0) (nth 2 mem' 0) <> apply34h P (V4 (nth 0 mem 0) (nth 1 mem 0) (nth 2 mem 0) (nth 3 mem 0)).
Proof.
  exists (P34 2 1 0 0 0 0 0 0 0 0 0 0), [1; 1; 1; 1].
  eexists. split; [reflexivity|]. split; [reflexivity|]. cbn. intro H. apply (f_equal v1) in H. cbv - [Rmult Rplus IZR] in H. lra.
Qed.
Print Assumptions C160_in_place_refuted.

(** Two points, results after them. *)
Example C160_example : exists mem', pinhole_project_h (P34 1 0 0 0 1 0 0 0 1 0 0 0) 2 0 8 ([1; 2; 3; 1; 4; 5; 6; 1] ++ repeat 0 6) = Ok mem' /\
  map (fun j => nth j mem' 0) [8; 9; 10; 11; 12; 13]%nat = [1; 2; 3; 4; 5; 6].
Proof.
  destruct (C160_project_h (P34 1 0 0 0 1 0 0 0 1 0 0 0) 2 0 8 ([1; 2; 3; 1; 4; 5; 6; 1] ++ repeat 0 6)) as (m & E & _ & V & _); try (cbn [app length repeat]; lia).
  exists m. split; [exact E|]. pose proof (V 0%Z ltac:(lia)) as A. pose proof (V 1%Z ltac:(lia)) as B. cbv zeta in A, B. cbn in A, B. injection A as A0 A1 A2. injection B as B0 B1 B2.
  cbn [map]. repeat f_equal; [etransitivity; [exact A0|ring]|etransitivity; [exact A1|ring]|etransitivity; [exact A2|ring]|etransitivity; [exact B0|ring]|etransitivity; [exact B1|ring]|etransitivity; [exact B2|ring]].
Qed.
