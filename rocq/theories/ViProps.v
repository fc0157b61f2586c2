(** C163: images shared by C++ objects. *)
From Verif Require Import Base BaseLemmas ViModel ViSpec ViProofs.

Lemma run_ok l : forall w s, rel w s -> proper_all s l -> exists w', run l w = Ok w' /\ rel w' (expect_all l s).
Proof.
  induction l as [|o l IH]; intros w s R P; [exists w; auto|]. destruct P as [P Q]. destruct (step_ok w s o R P) as (w1 & E & R1).
  destruct (IH w1 _ R1 Q) as (w2 & E2 & R2). exists w2. split; [|exact R2]. unfold run in *. cbn [for_each]. rewrite E. exact E2.
Qed.
Lemma start_rel n : rel (start n) (repeat None n, 0).
Proof.
  assert (Z : forall b, cnt (repeat None n) b = 0) by (intro b; induction n; cbn; auto).
  split; [|split; [cbn; clear; induction n; cbn; f_equal; auto|reflexivity]].
  constructor; cbn [vars blocks alive start].
  - intros [|b] k E; discriminate.
  - intros b P. rewrite Z in P. cbn in P. lia.
  - intros [|b] b' k k' E; discriminate.
  - intro m. split; [destruct m; discriminate|]. intros ([|b] & k & E & _); discriminate.
Qed.

(** Missing from the full property: images used through a view whose owners are gone.
    Every program that constructs, copies, views, swaps, destroys and uses images, and
    uses an image only while some object owns it, runs without error: no image is used
    after it was freed, and none is freed twice.  At the end exactly the images with an
    owner are alive, and every variable refers to the image, with the ownership, that the
    program gave it. *)
Theorem C163_shared_partial : forall n l, proper_all (repeat None n, 0) l ->
  exists w, run l (start n) = Ok w /\
    (forall m, nth_error (alive w) m = Some true <-> owned (fst (expect_all l (repeat None n, 0))) m) /\
    length (alive w) = snd (expect_all l (repeat None n, 0)) /\
    (forall i, match nth i (vars w) None with
               | None => nth i (fst (expect_all l (repeat None n, 0))) None = None
               | Some b => exists k, nth_error (blocks w) b = Some k /\ nth i (fst (expect_all l (repeat None n, 0))) None = Some (img k, frees k)
               end).
Proof.
  intros n l P. destruct (run_ok l _ _ (start_rel n) P) as (w & E & R). exists w. split; [exact E|]. pose proof R as (I & V & N).
  split; [intro m; destruct (expect_all l _) as [v q]; eapply alive_owned; eauto|]. split; [auto|].
  intro i. rewrite V, nth_refer. destruct (nth i (vars w) None) as [b|] eqn:B; [|reflexivity].
  assert (L : b < length (blocks w)) by (apply (i_var _ _ I); assert (0 < cnt (vars w) b) by (apply cnt_pos; eauto); lia).
  cbn. destruct (nth_error (blocks w) b) as [k|] eqn:K; [eauto|]. apply nth_error_None in K. lia.
Qed.
Print Assumptions C163_shared_partial.

(** The program stopped at any point: images go away exactly with their last owner. *)
Theorem C163_prefix_partial : forall n l1 l2, proper_all (repeat None n, 0) (l1 ++ l2) ->
  exists w1 w2, run l1 (start n) = Ok w1 /\ run l2 w1 = Ok w2 /\
    forall m, nth_error (alive w1) m = Some true <-> owned (fst (expect_all l1 (repeat None n, 0))) m.
Proof.
  intros n l1 l2 P.
  assert (S : forall l s, proper_all s (l ++ l2) -> proper_all s l /\ proper_all (expect_all l s) l2).
  { induction l as [|o l IH]; intros s Q; [cbn; auto|]. destruct Q as [A B]. destruct (IH _ B). cbn. auto. }
  destruct (S _ _ P) as [P1 P2]. destruct (run_ok l1 _ _ (start_rel n) P1) as (w1 & E1 & R1). destruct (run_ok l2 _ _ R1 P2) as (w2 & E2 & R2).
  exists w1, w2. split; [auto|]. split; [auto|]. intro m. destruct (expect_all l1 _) as [v q]. eapply alive_owned; eauto.
Qed.
Print Assumptions C163_prefix_partial.

(** Nothing leaks: once all objects are destroyed no image is alive. *)
Theorem C163_no_leak : forall n l, proper_all (repeat None n, 0) l ->
  exists w, run (l ++ map Destroy (seq 0 n)) (start n) = Ok w /\ forall m, nth_error (alive w) m <> Some true.
Proof.
  intros n l P.
  assert (LE : forall o s, length (fst (expect o s)) = length (fst s)) by (intros [] [v q]; cbn; rewrite ?lset_length; auto).
  assert (LA : forall l s, length (fst (expect_all l s)) = length (fst s)) by (induction l0 as [|o l0 IH]; intro s; cbn; auto; rewrite IH; apply LE).
  destruct (run_ok l _ _ (start_rel n) P) as (w & E & R). set (s := expect_all l (repeat None n, 0)) in *.
  assert (Ls : length (fst s) = n) by (unfold s; rewrite LA; cbn; apply repeat_length).
  assert (D : forall k a s, a + k = length (fst s) -> (forall i, i < a -> nth i (fst s) None = None) ->
    proper_all s (map Destroy (seq a k)) /\ forall i, nth i (fst (expect_all (map Destroy (seq a k)) s)) None = None).
  { induction k as [|k IH]; intros a t L Z.
    - split; [exact I|]. intro i. cbn. destruct (Nat.lt_ge_cases i a); [auto|]. apply nth_overflow. lia.
    - cbn [seq map proper_all]. destruct (IH (S a) (expect (Destroy a) t)) as [A B].
      + rewrite LE. lia.
      + intros i Hi. destruct t as [v q]. cbn [expect fst] in *. rewrite nth_lset. destruct (Nat.eqb_spec a i) as [<-|NE]; cbn [andb]; [destruct (a <? length v) eqn:T; [reflexivity|apply Nat.ltb_ge in T; lia]|apply Z; lia].
      + split; [split; [cbn; lia|exact A]|exact B]. }
  destruct (D n 0 s ltac:(lia) ltac:(lia)) as [P2 Z]. destruct (run_ok _ _ _ R P2) as (w2 & E2 & R2). exists w2. split.
  - unfold run in *. rewrite for_each_app, E. exact E2.
  - intros m A. destruct (expect_all (map Destroy _) s) as [v q] eqn:X. cbn [fst] in Z. apply (alive_owned _ _ _ _ R2) in A as (i & A). rewrite Z in A. discriminate.
Qed.
Print Assumptions C163_no_leak.

(** An image that views another one, such as a level of a pyramid, is not kept alive by
    the view: using it after the owner is gone, here destroyed or given another image, is
    a use after free, although the object is still there. *)
Theorem C163_view_refuted :
  run [Make 0; View 1 0; Destroy 0; Use 1] (start 2) = UB /\ run [Make 0; View 1 0; Copy 2 1; Make 0; Use 2] (start 3) = UB /\
  exists w, run [Make 0; Copy 1 0; Destroy 0; Use 1] (start 2) = Ok w.
Proof. split; [reflexivity|]. split; [reflexivity|]. eexists. reflexivity. Qed.
Print Assumptions C163_view_refuted.

(** Two owners, a view, a swap, and reuse of a variable. *)
Example C163_example : proper_all (repeat None 3, 0) [Make 0; Copy 1 0; View 2 1; Make 0; Use 2; Swap 0 1; Use 0; Copy 2 2; Destroy 1; Use 2].
Proof. cbn. repeat split; try lia; do 2 eexists; (split; [reflexivity|]); first [now exists 1|now exists 0]. Qed.
