(** C166: paths to the reference image. *)
From Verif Require Import Base BaseLemmas ProjModel GeoSpec ProjSpec GeoProofs HomoProofs PanModel PanSpec PanProofs.
From Coq Require Import Lra Lia.
Local Open Scope R_scope.

(** Missing from the full property: images without a path to the reference image.
    If all images have one, then going to the next image again and again leads from every
    image to the reference image, over matched pairs only, in less than n steps, and no
    path is shorter. *)
Theorem C166_shortest_partial : forall big B n w source, (source < n)%nat -> 0 <= B -> (forall i j, (i < n)%nat -> (j < n)%nat -> w i j <= B) -> INR n * B < big ->
  (forall i, (i < n)%nat -> exists l, path n w source i l) ->
  exists nx, find_shortest_paths big n w source = Ok nx /\ nx source = Some source /\
    forall i, (i < n)%nat -> exists l d, (d < n)%nat /\ follows n w source nx i l d /\ path n w source i l /\ forall l', path n w source i l' -> l <= l'.
Proof.
  intros big B n w source SRC B0 WB BIG CO. destruct (rounds_go big B n w source SRC B0 WB BIG n (le_n _) CO) as (s & E & I).
  exists (next s). unfold find_shortest_paths. rewrite E. split; [reflexivity|]. split; [apply (v_src big B n w source n s I)|]. intros i IN.
  assert (VI : vis s i = true) by (eapply (all_visited big B n w source) with (k := n); eauto). destruct (v_tree big B n w source n s I i VI) as (d & D & F). exists (val s i), d. split; [exact D|]. split; [exact F|]. split; [eapply follows_path; eauto|].
  eapply shortest; eauto.
Qed.
Print Assumptions C166_shortest_partial.

(** Then, with a homography for every matched pair, every image gets a homography to the
    reference image, and it maps a point to where the homographies on the path carry it. *)
Theorem C166_to_reference_partial : forall big B n w source H nx, (source < n)%nat -> 0 <= B -> (forall i j, (i < n)%nat -> (j < n)%nat -> w i j <= B) -> INR n * B < big ->
  (forall i, (i < n)%nat -> exists l, path n w source i l) ->
  (forall i j, (i < n)%nat -> (j < n)%nat -> i <> j -> 0 <= w j i -> exists h, H j i = Some h) -> find_shortest_paths big n w source = Ok nx ->
  forall i, (i < n)%nat -> exists h, to_ref n H nx i = Ok h /\ (forall x y, carried H nx i x y -> maps_to h x y) /\ (i = source -> h = dmat3_eye).
Proof.
  intros big B n w source H nx SRC B0 WB BIG CO HH E i IN. destruct (C166_shortest_partial big B n w source SRC B0 WB BIG CO) as (nx' & E' & SN & P).
  assert (nx' = nx) by congruence. subst nx'. destruct (P i IN) as (l & d & D & F & _). destruct (walk_ok n w source H nx HH i l d F IN n dmat3_eye D) as (h & EH & C). exists h.
  split; [exact EH|]. split.
  - intros x y. apply C. exists 1. split; [lra|]. destruct x. cbv - [Rmult Rplus IZR]. f_equal; ring.
  - intros ->. unfold to_ref in EH. destruct n; [lia|]. cbn [walk] in EH. rewrite SN, Nat.eqb_refl in EH. congruence.
Qed.
Print Assumptions C166_to_reference_partial.

(** Finding: if some image has no path to the reference image, an element before the array
    of visited images is written. *)
Theorem C166_unmatched_refuted : forall big B n w source i, (source < n)%nat -> 0 <= B -> (forall i j, (i < n)%nat -> (j < n)%nat -> w i j <= B) -> INR n * B < big ->
  (i < n)%nat -> (forall l, ~ path n w source i l) -> find_shortest_paths big n w source = UB.
Proof.
  intros big B n w source i SRC B0 WB BIG IN NP. unfold find_shortest_paths. destruct (rounds_inv big B n w source SRC B0 WB BIG n (le_n _)) as [->|(s & -> & I)]; [reflexivity|].
  exfalso. assert (VI : vis s i = true) by (eapply (all_visited big B n w source) with (k := n); eauto). destruct (v_tree big B n w source n s I i VI) as (d & _ & F). eapply NP, follows_path; eauto.
Qed.
Print Assumptions C166_unmatched_refuted.
(** Two images without matches. *)
Example C166_unmatched_example : find_shortest_paths 10 2 (fun _ _ => -1) 0 = UB.
Proof.
  apply (C166_unmatched_refuted 10 1 2 _ 0 1); try lia; try lra; [intros; lra|cbn; lra|]. intros l P. inversion P; cbv beta in *; lra.
Qed.
(** Three images in a row; image 2 is far from image 0, its path is over image 1. *)
Definition ex_w (i j : nat) : R := if Nat.eqb i j then 0 else if Nat.eqb (i + j) 2 then 5 else 1.
Example C166_example : exists nx, find_shortest_paths 100 3 ex_w 0 = Ok nx /\ nx 2%nat = Some 1%nat /\ nx 1%nat = Some 0%nat.
Proof.
  assert (W : forall i j, ex_w i j <= 5) by (intros i j; unfold ex_w; destruct (Nat.eqb i j), (Nat.eqb (i + j) 2); lra).
  assert (P1 : path 3 ex_w 0 1 (1 + 0)) by (apply (P_step 3 ex_w 0 1 0 0); [lia|lia|unfold ex_w; cbn; lra|constructor]).
  assert (P2 : path 3 ex_w 0 2 (1 + (1 + 0))) by (apply (P_step 3 ex_w 0 2 1 (1 + 0)); [lia|lia|unfold ex_w; cbn; lra|exact P1]).
  assert (NN : forall i l, path 3 ex_w 0 i l -> 0 <= l) by (intros i l P; induction P; lra).
  destruct (C166_shortest_partial 100 5 3 ex_w 0) as (nx & E & S0 & T); [lia|lra|intros; apply W|cbn; lra| |].
  { intros [|[|[|i]]] I; [exists 0; constructor|eauto|eauto|lia]. }
  exists nx. split; [exact E|]. split.
  - destruct (T 2%nat ltac:(lia)) as (l & d & _ & F & _ & M). specialize (M _ P2). inversion F as [|i j l' k NS EN JN NE W0 F']; subst. destruct j as [|[|[|j]]]; [|exact EN|contradiction|lia].
    apply follows_path in F'; [|lia]. apply NN in F'. unfold ex_w in M. cbn in M. lra.
  - destruct (T 1%nat ltac:(lia)) as (l & d & _ & F & _ & M). specialize (M _ P1). inversion F as [|i j l' k NS EN JN NE W0 F']; subst. destruct j as [|[|[|j]]]; [exact EN|contradiction| |lia].
    apply follows_path in F'; [|lia]. assert (G : forall i l, path 3 ex_w 0 i l -> i = 2%nat -> 1 <= l).
    { intros i q P. induction P as [|i j q IN JN2 WE P IHP]; intro EI; [discriminate|]. subst i. pose proof (NN _ _ P). destruct j as [|[|[|j]]]; [unfold ex_w; cbn; lra|unfold ex_w; cbn; lra|specialize (IHP eq_refl); unfold ex_w; cbn; lra|lia]. }
    specialize (G _ _ F' eq_refl). unfold ex_w in M. cbn in M. lra.
Qed.
