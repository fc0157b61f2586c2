(** C38: adjacency matrix and adjacency list graphs. *)
From Verif Require Import Base BaseLemmas Heap GraphModel GraphSpec GraphProofs.
Local Open Scope Z_scope.

(** The matrix: every pair of vertices reads back the weight given last to that
    edge, both ways round, and the count is the number of edges.  Partial: the
    weight DBL_MAX is excluded, because it stands for no edge. *)
Theorem C38_matrix_partial : forall n ins,
  0 <= n <= 46340 -> Forall (in_range n) ins -> Forall (fun i => snd i <> ABSENT) ins ->
  exists g L, run_mat n ins = Ok g /\
  (forall v w, 0 <= v < n -> 0 <= w < n -> exists x, mat_weight g v w = Ok x /\ mat_weight g w v = Ok x /\
     (x <> ABSENT -> has_edge ins v w x) /\ (forall y, has_edge ins v w y -> x = y) /\ (v = w -> x = ABSENT)) /\
  lists_edges ins L /\ m_ne g = Z.of_nat (length L).
Proof.
  intros n ins Hn F A. destruct (run_mat_spec n Hn ins F A) as (g & L & R & (E & Len & I) & EL & NE).
  exists g, L. split; auto. split; [|split; [now apply edges_listed_spec|auto]].
  intros v w V W. exists (wt (weight_of ins v w)).
  assert (M : forall a b, 0 <= a < n -> 0 <= b < n -> mat_weight g a b = Ok (wt (weight_of ins a b))).
  { intros a b Ha Hb. unfold mat_weight. rewrite (mat_index_ok g n) by (auto; lia). cbn [bind].
    apply zget_nth; [apply idx_range; auto|auto]. }
  split; [auto|]. split; [rewrite M by auto; now rewrite weight_of_sym|]. split; [|split].
  - destruct (weight_of ins v w) eqn:Q; cbn; [|congruence]. intros _. now apply weight_of_spec.
  - intros y Y. apply weight_of_spec in Y. now rewrite Y.
  - intros <-. destruct (weight_of ins v v) eqn:Q; auto. apply weight_of_in in Q. tauto.
Qed.
Print Assumptions C38_matrix_partial.

(** Whatever the weights, the entries are right and symmetric. *)
Theorem C38_matrix_weights : forall n ins,
  0 <= n <= 46340 -> Forall (in_range n) ins -> Z.of_nat (length ins) <= INT_MAX ->
  exists g, run_mat n ins = Ok g /\
  forall v w, 0 <= v < n -> 0 <= w < n -> exists x, mat_weight g v w = Ok x /\ mat_weight g w v = Ok x /\
     (x <> ABSENT -> has_edge ins v w x) /\ (forall y, has_edge ins v w y -> x = y).
Proof.
  intros n ins Hn F A. destruct (run_mat_weights n Hn ins F A) as (g & R & (E & Len & I)).
  exists g. split; auto.
  intros v w V W. exists (wt (weight_of ins v w)).
  assert (M : forall a b, 0 <= a < n -> 0 <= b < n -> mat_weight g a b = Ok (wt (weight_of ins a b))).
  { intros a b Ha Hb. unfold mat_weight. rewrite (mat_index_ok g n) by (auto; lia). cbn [bind].
    apply zget_nth; [apply idx_range; auto|auto]. }
  split; [auto|]. split; [rewrite M by auto; now rewrite weight_of_sym|]. split.
  - destruct (weight_of ins v w) eqn:Q; cbn; [|congruence]. intros _. now apply weight_of_spec.
  - intros y Y. apply weight_of_spec in Y. now rewrite Y.
Qed.
Print Assumptions C38_matrix_weights.

(** The weight DBL_MAX is counted as an edge each time it is inserted. *)
Theorem C38_matrix_count_refuted : exists n ins g L,
  0 <= n <= 46340 /\ Forall (in_range n) ins /\ run_mat n ins = Ok g /\ lists_edges ins L /\ m_ne g <> Z.of_nat (length L).
Proof.
  exists 2, [(0, 1, ABSENT); (1, 0, ABSENT)]. eexists. exists [(0, 1)].
  split; [lia|]. split; [repeat (apply Forall_cons; [unfold in_range; lia|]); apply Forall_nil|].
  split; [vm_compute; reflexivity|]. split; [|cbn; lia].
  apply edges_listed_spec. split; [constructor; [intros []|constructor]|]. intros a b. cbn [In]. split.
    + intros [E|[]]. injection E as <- <-. split; [lia|vm_compute; discriminate].
    + intros [L H]. left. destruct (weight_of _ a b) eqn:E; [|congruence].
      apply weight_of_in in E as (_ & i & Hi & _ & A). destruct Hi as [<-|[<-|[]]]; unfold about in A; f_equal; lia.
Qed.
Print Assumptions C38_matrix_count_refuted.

(** Insertions with a vertex that does not exist stop the program; nothing is
    written.  Both representations. *)
Theorem C38_out_of_range : forall n ins i,
  0 <= n <= 46340 -> Forall (in_range n) ins -> Z.of_nat (length ins) <= INT_MAX -> ~ in_range n i ->
  run_mat n (ins ++ [i]) = Fatal /\ run_lst n (ins ++ [i]) = Fatal.
Proof.
  intros n ins [[v w] x] Hn F A NR. split.
  - destruct (run_mat_weights n Hn ins F A) as (g & R & (E & _)). revert R. unfold run_mat.
    destruct (new_adj_mat n); cbn [bind]; try discriminate. intro R. rewrite for_each_app, R. cbn [bind for_each].
    rewrite (insert_mat_out g n (v, w, x)); auto.
  - destruct (run_lst_spec n (proj1 Hn) ins F) as (h & g & G & R & I & _). revert R. unfold run_lst.
    destruct (new_adj_lst n); cbn [bind]; try discriminate. intro R. rewrite for_each_app, R. cbn [bind for_each].
    unfold insert_adj_lst. rewrite (li_nv _ _ _ _ I). unfold in_range in NR.
    destruct (Z.le_gt_cases 0 v); destruct (Z.lt_ge_cases v n); try (rewrite (assert_index_bad v n) by lia; reflexivity).
    rewrite (assert_index_ok v n) by lia. cbn [bind]. rewrite assert_index_bad by lia. reflexivity.
Qed.
Print Assumptions C38_out_of_range.

(** The lists: walking the list of a vertex meets exactly its neighbours, each
    once, with the weight given last; the graph is symmetric and has no self
    loops.  Partial: the reported count is not covered, see below. *)
Theorem C38_list_partial : forall n ins,
  0 <= n -> Forall (in_range n) ins ->
  exists h g, run_lst n ins = Ok (h, g) /\
  (forall v, 0 <= v < n -> exists l, neighbours h g v = Ok l /\ NoDup (map fst l) /\
     (forall w x, In (w, x) l <-> has_edge ins v w x) /\
     forall w x, In (w, x) l -> w <> v /\ 0 <= w < n) /\
  (forall v w x lv lw, 0 <= v < n -> 0 <= w < n -> neighbours h g v = Ok lv -> neighbours h g w = Ok lw ->
     (In (w, x) lv <-> In (v, x) lw)).
Proof.
  intros n ins Hn F. destruct (run_lst_spec n Hn ins F) as (h & g & G & R & I & S).
  exists h, g. split; auto.
  assert (K : forall v, 0 <= v < n -> exists l, neighbours h g v = Ok l /\ NoDup (map fst l) /\
     (forall w x, In (w, x) l <-> has_edge ins v w x)).
  { intros v V. destruct (nth_error G (Z.to_nat v)) as [l|] eqn:Gl.
    2:{ apply nth_error_None in Gl. rewrite (li_glen _ _ _ _ I) in Gl. lia. }
    destruct (li_lst _ _ _ _ I _ _ Gl) as (p & P & H).
    exists (map (fun y : ghost => (gt y, snd y)) l). unfold neighbours. rewrite (zget_nth _ _ _ (proj1 V) P). cbn [bind].
    pose proof (lst_bound _ _ _ _ _ _ I Gl). rewrite (walk_spec h l p _ H) by lia. split; auto.
    assert (N : NoDup (map gt l)) by (apply (li_ts _ _ _ _ I); eapply nth_error_In; eauto).
    split; [rewrite map_map; exact N|]. intros w x. rewrite <- (find_t_in l w x N), (S v l V Gl w). apply weight_of_spec. }
  split.
  - intros v V. destruct (K v V) as (l & E & N & H). exists l. split; auto. split; auto. split; auto.
    intros w x X. apply H, weight_of_spec, weight_of_in in X as (D & i & Hi & _ & A).
    rewrite Forall_forall in F. apply F in Hi. destruct i as [[a b] y]. unfold in_range, about in *. lia.
  - intros v w x lv lw V W Ev Ew. destruct (K v V) as (l & E & _ & H). destruct (K w W) as (l' & E' & _ & H').
    rewrite Ev in E. injection E as <-. rewrite Ew in E'. injection E' as <-. rewrite H, H' by auto. apply has_edge_sym.
Qed.
Print Assumptions C38_list_partial.

(** The list graph never counts its edges. *)
Theorem C38_list_count_refuted :
  (forall n ins h g, 0 <= n -> Forall (in_range n) ins -> run_lst n ins = Ok (h, g) -> l_ne g = 0) /\
  exists n ins h g L, Forall (in_range n) ins /\ run_lst n ins = Ok (h, g) /\ lists_edges ins L /\ l_ne g <> Z.of_nat (length L).
Proof.
  split.
  - intros n ins h g Hn F R. destruct (run_lst_spec n Hn ins F) as (h' & g' & G & R' & I & _).
    rewrite R in R'. injection R' as <- <-. apply (li_ne _ _ _ _ I).
  - exists 2, [(0, 1, 7%N)]. eexists. eexists. exists [(0, 1)].
    split; [repeat (apply Forall_cons; [unfold in_range; lia|]); apply Forall_nil|].
    split; [vm_compute; reflexivity|]. split; [|cbn; lia].
    apply edges_listed_spec. split; [constructor; [intros []|constructor]|]. intros a b. cbn [In]. split.
    + intros [E|[]]. injection E as <- <-. split; [lia|vm_compute; discriminate].
    + intros [L H]. left. destruct (weight_of _ a b) eqn:E; [|congruence].
      apply weight_of_in in E as (_ & i & Hi & _ & A). destruct Hi as [<-|[]]; unfold about in A; f_equal; lia.
Qed.
Print Assumptions C38_list_count_refuted.

(** Freeing a list graph frees every edge record exactly once. *)
Theorem C38_list_free : forall n ins h g,
  0 <= n -> Forall (in_range n) ins -> run_lst n ins = Ok (h, g) ->
  exists h', free_adj_lst h g = Ok h' /\ forall id, cell h' id = None.
Proof.
  intros n ins h g Hn F R. destruct (run_lst_spec n Hn ins F) as (h1 & g1 & G & R' & I & _).
  rewrite R in R'. injection R' as <- <-. unfold free_adj_lst.
  destruct (free_all_spec (l_edges g) G 0 h) as (h' & E & L & K).
  - apply (li_lst _ _ _ _ I).
  - apply (li_ids _ _ _ _ I).
  - intros id. apply (li_all _ _ _ _ I).
  - rewrite (li_nv _ _ _ _ I), <- (li_glen _ _ _ _ I). exists h'. split; auto. intros id. rewrite K.
    destruct (in_dec Nat.eq_dec id (map gid (concat G))) as [A|A]; auto. rewrite (li_all _ _ _ _ I) in A.
    unfold cell. destruct (nth_error h id) eqn:Q; auto. exfalso. apply A. apply nth_error_Some. congruence.
Qed.
Print Assumptions C38_list_free.

Definition ex_ins : list (Z * Z * N) := [(0, 1, 5%N); (2, 1, 6%N); (1, 1, 9%N); (1, 0, 8%N)].
Example C38_example :
  Forall (in_range 3) ex_ins /\ Forall (fun i => snd i <> ABSENT) ex_ins /\
  (exists g, run_mat 3 ex_ins = Ok g /\ m_ne g = 2 /\ mat_weight g 0 1 = Ok 8%N /\ mat_weight g 1 0 = Ok 8%N /\
     mat_weight g 1 2 = Ok 6%N /\ mat_weight g 0 2 = Ok ABSENT) /\
  (exists h g, run_lst 3 ex_ins = Ok (h, g) /\ neighbours h g 1 = Ok [(2, 6%N); (0, 8%N)] /\ neighbours h g 2 = Ok [(1, 6%N)]).
Proof.
  split; [repeat (apply Forall_cons; [unfold in_range; lia|]); apply Forall_nil|].
  split; [repeat (apply Forall_cons; [discriminate|]); apply Forall_nil|].
  split.
  - eexists. split; [vm_compute; reflexivity|]. split; [reflexivity|]. split; [vm_compute; reflexivity|].
    split; [vm_compute; reflexivity|]. split; vm_compute; reflexivity.
  - eexists. eexists. split; [vm_compute; reflexivity|]. split; vm_compute; reflexivity.
Qed.
