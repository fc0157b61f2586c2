From Verif Require Import Base BaseLemmas Heap GraphModel GraphSpec.
Local Open Scope Z_scope.

(** ** The specification as a function. *)
Definition aboutb (v w : Z) (i : Z * Z * N) : bool :=
  let '(a, b, _) := i in negb (a =? b) && (((a =? v) && (b =? w)) || ((a =? w) && (b =? v))).
Lemma aboutb_spec v w i : aboutb v w i = true <-> about v w i.
Proof. destruct i as [[a b] x]. unfold aboutb, about. lia. Qed.
Lemma about_sym v w i : about v w i <-> about w v i.
Proof. destruct i as [[a b] x]. unfold about. lia. Qed.
Definition weight_of (ins : list (Z * Z * N)) (v w : Z) : option N :=
  fold_left (fun acc i => if aboutb v w i then Some (snd i) else acc) ins None.

Lemma weight_of_snoc ins i v w : weight_of (ins ++ [i]) v w = if aboutb v w i then Some (snd i) else weight_of ins v w.
Proof. unfold weight_of. rewrite fold_left_app. reflexivity. Qed.

Lemma has_edge_snoc ins i v w x : has_edge (ins ++ [i]) v w x <->
  (about v w i /\ snd i = x) \/ (~ about v w i /\ has_edge ins v w x).
Proof.
  split.
  - intros [b j a E A S F]. destruct (rev_ind (fun a => a = [] \/ exists a' k, a = a' ++ [k])
      (or_introl eq_refl) (fun k l _ => or_intror (ex_intro _ l (ex_intro _ k eq_refl))) a) as [->|(a' & k & ->)].
    + apply app_inj_tail in E as [_ ->]. auto.
    + right. replace (b ++ j :: a' ++ [k]) with ((b ++ j :: a') ++ [k]) in E by (rewrite <- app_assoc; auto).
      apply app_inj_tail in E as [-> ->]. split; [apply F; apply in_or_app; right; now left|].
      econstructor; eauto. intros l Hl. apply F. apply in_or_app. now left.
  - intros [[A S]|[A [b j a -> A' S F]]].
    + apply (has_edge_intro _ v w x ins i []); auto.
    + apply (has_edge_intro _ v w x b j (a ++ [i])); auto.
      * now rewrite <- app_assoc.
      * intros k Hk. apply in_app_or in Hk as [Hk|[<-|[]]]; auto.
Qed.

Lemma weight_of_spec ins v w x : weight_of ins v w = Some x <-> has_edge ins v w x.
Proof.
  induction ins as [|i ins IH] using rev_ind.
  - split; [discriminate|]. intros [b j a E]. destruct b; discriminate.
  - rewrite weight_of_snoc, has_edge_snoc, <- IH, <- aboutb_spec.
    destruct (aboutb v w i); intuition congruence.
Qed.
Lemma weight_of_sym ins v w : weight_of ins v w = weight_of ins w v.
Proof.
  induction ins as [|i ins IH] using rev_ind; [auto|]. rewrite !weight_of_snoc, IH.
  replace (aboutb w v i) with (aboutb v w i); auto. destruct i as [[a b] x]. unfold aboutb. lia.
Qed.
Lemma has_edge_sym ins v w x : has_edge ins v w x <-> has_edge ins w v x.
Proof. rewrite <- !weight_of_spec, weight_of_sym. reflexivity. Qed.
Lemma weight_of_in ins v w x : weight_of ins v w = Some x -> v <> w /\ exists i, In i ins /\ snd i = x /\ about v w i.
Proof.
  induction ins as [|i ins IH] using rev_ind; [discriminate|]. rewrite weight_of_snoc.
  destruct (aboutb v w i) eqn:A.
  - intro E. injection E as <-. apply aboutb_spec in A. split.
    + destruct i as [[a b] y]. unfold about in A. lia.
    + exists i. split; [apply in_or_app; right; now left|auto].
  - intro E. apply IH in E as (N & j & Hj & S). split; auto. exists j. split; auto. apply in_or_app. now left.
Qed.

(** ** Matrix. *)
Definition wt (o : option N) : N := match o with Some x => x | None => ABSENT end.
Definition MInv (n : Z) (ins : list (Z * Z * N)) (g : adj_mat) : Prop :=
  m_nv g = n /\ length (m_w g) = Z.to_nat (n * n) /\
  (forall v w, 0 <= v < n -> 0 <= w < n -> nth_error (m_w g) (Z.to_nat (w * n + v)) = Some (wt (weight_of ins v w))).

Lemma idx_range n v w : 0 <= v < n -> 0 <= w < n -> 0 <= w * n + v < n * n.
Proof. nia. Qed.
Lemma idx_inj n v w a b : 0 <= v < n -> 0 <= w < n -> 0 <= a < n -> 0 <= b < n ->
  w * n + v = b * n + a -> v = a /\ w = b.
Proof.
  intros. assert (w = b) by nia. subst. lia.
Qed.
Lemma mat_index_ok g n v w : m_nv g = n -> n <= 46340 -> 0 <= v < n -> 0 <= w < n ->
  mat_index g v w = Ok (w * n + v).
Proof.
  intros <- B V W. unfold mat_index, chk_int.
  pose proof (idx_range _ _ _ V W). assert (m_nv g * m_nv g <= 46340 * 46340) by nia.
  assert (I1 : in_int (w * m_nv g) = true) by (unfold in_int, INT_MIN, INT_MAX; nia).
  assert (I2 : in_int (w * m_nv g + v) = true) by (unfold in_int, INT_MIN, INT_MAX; nia).
  rewrite I1. cbn [bind]. now rewrite I2.
Qed.
Lemma zget_nth {A} (l : list A) i x : 0 <= i -> nth_error l (Z.to_nat i) = Some x -> zget l i = Ok x.
Proof. intros H E. unfold zget, aget. rewrite E. destruct (Z.ltb_spec i 0); [lia|auto]. Qed.
Lemma zset_lt {A} (l : list A) i x : 0 <= i -> (Z.to_nat i < length l)%nat -> zset l i x = Ok (lset l (Z.to_nat i) x).
Proof.
  intros H E. unfold zset, aset. destruct (Z.ltb_spec i 0); [lia|]. destruct (Nat.ltb_spec (Z.to_nat i) (length l)); [auto|lia].
Qed.

Lemma assert_index_ok i n : 0 <= i < n -> assert_index i n = Ok tt.
Proof. intro H. unfold assert_index. destruct (Z.leb_spec 0 i); destruct (Z.ltb_spec i n); cbn; auto; lia. Qed.
Lemma assert_index_bad i n : ~ (0 <= i < n) -> assert_index i n = Fatal.
Proof. intro H. unfold assert_index. destruct (Z.leb_spec 0 i); destruct (Z.ltb_spec i n); cbn; auto; lia. Qed.

Lemma insert_mat_out g n i : m_nv g = n -> ~ in_range n i -> let '(v, w, x) := i in insert_adj_mat g v w x = Fatal.
Proof.
  intros E R. destruct i as [[v w] x]. unfold insert_adj_mat. rewrite E. unfold in_range in R.
  destruct (Z.le_gt_cases 0 v); destruct (Z.lt_ge_cases v n).
  - rewrite (assert_index_ok v n) by lia. cbn [bind]. rewrite assert_index_bad by lia. auto.
  - rewrite assert_index_bad by lia. auto.
  - rewrite assert_index_bad by lia. auto.
  - rewrite assert_index_bad by lia. auto.
Qed.

Lemma insert_mat_spec g n ins v w x : n <= 46340 -> MInv n ins g -> 0 <= v < n -> 0 <= w < n ->
  0 <= m_ne g < INT_MAX ->
  exists g', insert_adj_mat g v w x = Ok g' /\ MInv n (ins ++ [(v, w, x)]) g' /\
    m_ne g' = m_ne g + (if negb (v =? w) && (wt (weight_of ins v w) =? ABSENT)%N then 1 else 0).
Proof.
  intros B (E & L & I) V W NE. unfold insert_adj_mat. rewrite E.
  rewrite !assert_index_ok by auto. cbn [bind]. destruct (Z.eqb_spec v w) as [->|D].
  { exists g. split; auto. split; [|cbn; lia]. split; auto. split; auto. intros a b A B'. rewrite weight_of_snoc.
    replace (aboutb a b (w, w, x)) with false; auto. unfold aboutb. rewrite Z.eqb_refl. auto. }
  rewrite (mat_index_ok g n v w) by auto. cbn [bind].
  pose proof (idx_range n v w V W) as R1. pose proof (idx_range n w v W V) as R2.
  rewrite (zget_nth _ _ _ (proj1 R1) (I v w V W)). cbn [bind].
  assert (X : exists ne, (if (wt (weight_of ins v w) =? ABSENT)%N then chk_int (m_ne g + 1) else Ok (m_ne g)) = Ok ne /\
    ne = m_ne g + (if (wt (weight_of ins v w) =? ABSENT)%N then 1 else 0)).
  { destruct (wt (weight_of ins v w) =? ABSENT)%N.
    - exists (m_ne g + 1). split; auto. unfold chk_int. replace (in_int (m_ne g + 1)) with true; auto. unfold in_int, INT_MIN, INT_MAX in *. lia.
    - exists (m_ne g). split; auto. lia. }
  destruct X as (ne & -> & Hne). cbn [bind]. rewrite zset_lt by lia. cbn [bind].
  rewrite (mat_index_ok g n w v) by auto. cbn [bind]. rewrite zset_lt by (rewrite ?lset_length; lia). cbn [bind].
  eexists. split; [reflexivity|]. cbn [m_ne]. split; [|rewrite Hne; cbn; auto].
  split; [auto|]. split; [cbn; rewrite !lset_length; auto|]. cbn [m_w]. intros a b A B'.
  pose proof (idx_range n a b A B') as R3.
  destruct (Z.eq_dec (b * n + a) (v * n + w)) as [Q|Q].
  - apply idx_inj in Q as [-> ->]; auto. rewrite nth_error_lset_eq by (rewrite lset_length; lia).
    rewrite weight_of_snoc. replace (aboutb w v (v, w, x)) with true by (unfold aboutb; lia). auto.
  - rewrite nth_error_lset_neq by (intro X; apply Z2Nat.inj in X; lia).
    destruct (Z.eq_dec (b * n + a) (w * n + v)) as [Q'|Q'].
    + apply idx_inj in Q' as [-> ->]; auto. rewrite nth_error_lset_eq by lia.
      rewrite weight_of_snoc. replace (aboutb v w (v, w, x)) with true by (unfold aboutb; lia). auto.
    + rewrite nth_error_lset_neq by (intro X; apply Z2Nat.inj in X; lia). rewrite I by auto.
      rewrite weight_of_snoc. replace (aboutb a b (v, w, x)) with false; auto. 
      symmetry. apply not_true_is_false. rewrite aboutb_spec. unfold about. intros (_ & [[-> ->]|[-> ->]]); lia.
Qed.

(** Counting. *)
Definition edges_listed (ins : list (Z * Z * N)) (L : list (Z * Z)) : Prop :=
  NoDup L /\ forall a b, In (a, b) L <-> a < b /\ weight_of ins a b <> None.
Lemma edges_listed_spec ins L : edges_listed ins L <-> lists_edges ins L.
Proof.
  assert (W : forall a b, weight_of ins a b <> None <-> exists x, has_edge ins a b x).
  { intros a b. split.
    - destruct (weight_of ins a b) as [x|] eqn:E; [|congruence]. exists x. now apply weight_of_spec.
    - intros [x B]. apply weight_of_spec in B. congruence. }
  unfold edges_listed, lists_edges. split; intros [N H]; split; auto; intros a b; rewrite H, W; tauto.
Qed.
Lemma edges_step ins v w x L : edges_listed ins L ->
  exists L', edges_listed (ins ++ [(v, w, x)]) L' /\
  length L' = (length L + (if negb (v =? w)%Z && match weight_of ins v w with None => true | _ => false end then 1 else 0))%nat.
Proof.
  intros [N H]. destruct (Z.eqb_spec v w) as [->|D].
  { exists L. cbn. split; [|lia]. split; auto. intros a b. rewrite H, weight_of_snoc.
    replace (aboutb a b (w, w, x)) with false; [tauto|]. unfold aboutb. rewrite Z.eqb_refl. auto. }
  destruct (weight_of ins v w) as [y|] eqn:E; cbn.
  - exists L. split; [|lia]. split; auto. intros a b. rewrite H, weight_of_snoc.
    destruct (aboutb a b (v, w, x)) eqn:A; [|tauto]. apply aboutb_spec in A. unfold about in A.
    split; intros [A1 A2]; split; auto; [congruence|]. destruct A as (_ & [[-> ->]|[-> ->]]); [congruence|]. rewrite weight_of_sym. congruence.
  - exists ((Z.min v w, Z.max v w) :: L). cbn. split; [|lia]. split.
    + constructor; auto. rewrite H. intros [_ X]. destruct (Z.lt_ge_cases v w).
      * rewrite Z.min_l, Z.max_r in X by lia. congruence.
      * rewrite Z.min_r, Z.max_l, weight_of_sym in X by lia. congruence.
    + intros a b. cbn [In]. rewrite H, weight_of_snoc. destruct (aboutb a b (v, w, x)) eqn:A.
      * apply aboutb_spec in A. unfold about in A. split.
        -- intros [X|X]; [injection X as <- <-; split; [lia|discriminate]|]. split; [tauto|discriminate].
        -- intros [X _]. left. f_equal; lia.
      * split; [|tauto]. intros [X|X]; [|auto]. injection X as <- <-. exfalso.
        assert (aboutb (Z.min v w) (Z.max v w) (v, w, x) = true); [|congruence]. apply aboutb_spec. unfold about. lia.
Qed.

Lemma NoDup_length_le_range (L : list (Z * Z)) n : 0 <= n -> NoDup L -> (forall a b, In (a, b) L -> 0 <= a < n /\ 0 <= b < n) ->
  Z.of_nat (length L) <= n * n.
Proof.
  intros Hn N H.
  set (R := map Z.of_nat (seq 0 (Z.to_nat n))).
  assert (incl L (list_prod R R)).
  { intros [a b] X. apply H in X as [A B]. apply in_prod; apply in_map_iff; [exists (Z.to_nat a)|exists (Z.to_nat b)]; (split; [lia|apply in_seq; lia]). }
  apply NoDup_incl_length in H0; auto. rewrite prod_length in H0. unfold R in H0. rewrite map_length, seq_length in H0. nia.
Qed.

Lemma edges_in_range n ins L : Forall (in_range n) ins -> edges_listed ins L -> forall a b, In (a, b) L -> 0 <= a < n /\ 0 <= b < n.
Proof.
  intros F [_ H] a b X. apply H in X as [_ X]. destruct (weight_of ins a b) eqn:E; [|congruence].
  apply weight_of_in in E as (_ & i & Hi & _ & A). rewrite Forall_forall in F. apply F in Hi.
  destruct i as [[c d] y]. unfold about in A. unfold in_range in Hi. lia.
Qed.

Lemma run_mat_spec n : 0 <= n <= 46340 -> forall ins, Forall (in_range n) ins ->
  Forall (fun i => snd i <> ABSENT) ins ->
  exists g L, run_mat n ins = Ok g /\ MInv n ins g /\ edges_listed ins L /\ m_ne g = Z.of_nat (length L).
Proof.
  intros Hn. unfold run_mat, new_adj_mat. destruct (Z.ltb_spec n 0); [lia|].
  assert (C : chk_int (n * n) = Ok (n * n)) by (unfold chk_int; replace (in_int (n*n)) with true; [auto|unfold in_int, INT_MIN, INT_MAX; nia]).
  rewrite C. cbn [bind].
  induction ins as [|[[v w] x] ins IH] using rev_ind; intros F A.
  - eexists. exists []. split; [reflexivity|]. split; [|split].
    + split; auto. cbn. split; [apply repeat_length|]. intros v w V W. pose proof (idx_range n v w V W).
      cbn. rewrite nth_error_repeat; auto. lia.
    + split; [constructor|]. intros a b. cbn. split; [tauto|]. intros [_ X]. congruence.
    + reflexivity.
  - apply Forall_app in F as [F F1]. apply Forall_cons_iff in F1 as [F1 _].
    apply Forall_app in A as [A A1]. apply Forall_cons_iff in A1 as [A1 _]. unfold in_range in F1. cbn in A1.
    destruct (IH F A) as (g & L & R & I & EL & NE).
    rewrite for_each_app, R. cbn [bind for_each].
    pose proof (NoDup_length_le_range L n (proj1 Hn) (proj1 EL) (edges_in_range n ins L F EL)).
    destruct (insert_mat_spec g n ins v w x) as (g' & E & I' & NE'); try tauto; [unfold INT_MAX; nia|].
    rewrite E. cbn [bind]. destruct (edges_step ins v w x L EL) as (L' & EL' & Len).
    exists g', L'. split; auto. split; auto. split; auto. rewrite NE', Len, NE.
    assert (S : (wt (weight_of ins v w) =? ABSENT)%N = match weight_of ins v w with None => true | _ => false end).
    { destruct (weight_of ins v w) as [y|] eqn:Ey; [|apply N.eqb_refl]. cbn. apply N.eqb_neq.
      apply weight_of_in in Ey as (_ & i & Hi & <- & _). rewrite Forall_forall in A. now apply A. }
    rewrite S. clear. destruct (v =? w); destruct (weight_of ins v w); cbn; lia.
Qed.

Lemma run_mat_weights n : 0 <= n <= 46340 -> forall ins, Forall (in_range n) ins -> Z.of_nat (length ins) <= INT_MAX ->
  exists g, run_mat n ins = Ok g /\ MInv n ins g.
Proof.
  intros Hn. unfold run_mat, new_adj_mat. destruct (Z.ltb_spec n 0); [lia|].
  assert (C : chk_int (n * n) = Ok (n * n)) by (unfold chk_int; replace (in_int (n*n)) with true; [auto|unfold in_int, INT_MIN, INT_MAX; nia]).
  rewrite C. cbn [bind].
  assert (G : forall ins, Forall (in_range n) ins -> Z.of_nat (length ins) <= INT_MAX -> exists g,
    for_each (fun '(v, w, x) g => insert_adj_mat g v w x) ins {| m_nv := n; m_ne := 0; m_w := repeat ABSENT (Z.to_nat (n*n)) |} = Ok g /\
    MInv n ins g /\ 0 <= m_ne g <= Z.of_nat (length ins)).
  { induction ins as [|[[v w] x] ins IH] using rev_ind; intros F A.
    - eexists. split; [reflexivity|]. split; [|cbn; lia].
      split; auto. cbn. split; [apply repeat_length|]. intros v w V W. pose proof (idx_range n v w V W).
      cbn. rewrite nth_error_repeat; auto. lia.
    - apply Forall_app in F as [F F1]. apply Forall_cons_iff in F1 as [F1 _]. unfold in_range in F1.
      rewrite app_length in *. cbn [length] in *.
      destruct (IH F ltac:(lia)) as (g & R & I & NE). rewrite for_each_app, R. cbn [bind for_each].
      destruct (insert_mat_spec g n ins v w x) as (g' & E & I' & NE'); try tauto; [lia|].
      rewrite E. cbn [bind]. exists g'. split; auto. split; auto.
      rewrite NE'. destruct (negb (v =? w) && _); lia. }
  intros ins F A. destruct (G ins F A) as (g & R & I & _). eauto.
Qed.

(** ** Adjacency lists. *)
Notation ghost := (nat * Z * N)%type.
Fixpoint lst (h : heap edge) (p : option nat) (l : list ghost) : Prop :=
  match l with
  | [] => p = None
  | (id, t, x) :: l' => p = Some id /\ exists nx, cell h id = Some {| e_v := t; e_w := x; e_next := nx |} /\ lst h nx l'
  end.
Definition gid (g : ghost) : nat := fst (fst g).
Definition gt (g : ghost) : Z := snd (fst g).

Lemma lst_frame h h' p l : (forall id, In id (map gid l) -> cell h' id = cell h id) -> lst h p l -> lst h' p l.
Proof.
  revert p. induction l as [|[[id t] x] l IH]; cbn; intros p F H; auto.
  destruct H as (-> & nx & C & H). split; auto. exists nx. rewrite F by now left. split; auto.
Qed.

Lemma search_spec h l : forall p v f, lst h p l -> (length l < f)%nat ->
  edge_list_search f h p v = Ok (option_map gid (find (fun g => gt g =? v) l)).
Proof.
  induction l as [|[[id t] x] l IH]; intros p v f H F; (destruct f as [|f]; [cbn in F; lia|]); cbn in H |- *.
  - now rewrite H.
  - destruct H as (-> & nx & C & H). rewrite (proj2 (hget_cell _ _ _) C). cbn [bind e_v e_next].
    unfold gt at 1; cbn. destruct (t =? v); auto. apply IH; auto. cbn in F. lia.
Qed.

(** Ghost update of one vertex. *)
Fixpoint upd (l : list ghost) (w : Z) (x : N) : list ghost :=
  match l with
  | [] => []
  | (id, t, y) :: l' => if t =? w then (id, t, x) :: l' else (id, t, y) :: upd l' w x
  end.
Definition find_t (l : list ghost) (w : Z) : option N := option_map snd (find (fun g => gt g =? w) l).
Lemma upd_ids l w x : map gid (upd l w x) = map gid l.
Proof. induction l as [|[[id t] y] l IH]; cbn; auto. destruct (t =? w); cbn; congruence. Qed.
Lemma upd_ts l w x : map gt (upd l w x) = map gt l.
Proof. induction l as [|[[id t] y] l IH]; cbn; auto. destruct (t =? w); cbn; congruence. Qed.
Lemma upd_find l w x u : find_t l w <> None -> find_t (upd l w x) u = if u =? w then Some x else find_t l u.
Proof.
  unfold find_t. induction l as [|[[id t] y] l IH]; cbn; intro H; [congruence|].
  unfold gt at 1 in H. cbn in H. destruct (Z.eqb_spec t w) as [->|D]; cbn.
  - unfold gt; cbn. rewrite (Z.eqb_sym u w). destruct (Z.eqb_spec w u) as [->|]; cbn; [reflexivity|]. reflexivity.
  - change (gt (id, t, y)) with t. destruct (Z.eqb_spec t u) as [->|]; cbn; [|now apply IH].
    destruct (Z.eqb_spec u w); [congruence|auto].
Qed.
Lemma upd_lst h l : forall p w x id, lst h p l -> NoDup (map gid l) -> find (fun g => gt g =? w) l = Some id ->
  exists old, cell h (gid id) = Some old /\
  lst (lset h (gid id) (Some {| e_v := e_v old; e_w := x; e_next := e_next old |})) p (upd l w x).
Proof.
  induction l as [|[[i t] y] l IH]; cbn; intros p w x id H N E; [discriminate|].
  destruct H as (-> & nx & C & H). apply NoDup_cons_iff in N as [N1 N2]. unfold gt at 1 in E; cbn in E.
  destruct (t =? w) eqn:T.
  - injection E as <-. cbn. exists {| e_v := t; e_w := y; e_next := nx |}. split; auto. cbn. split; auto.
    exists nx. split; [rewrite cell_lset, Nat.eqb_refl by (eapply cell_lt; eauto); auto|].
    eapply lst_frame; [|exact H]. intros j Hj. rewrite cell_lset by (eapply cell_lt; eauto).
    destruct (Nat.eqb_spec j i) as [->|]; [contradiction|auto].
  - destruct (IH nx w x id H N2 E) as (old & Co & Hl). exists old. split; auto. cbn. split; auto. exists nx. split; auto.
    rewrite cell_lset by (eapply cell_lt; eauto). destruct (Nat.eqb_spec i (gid id)) as [->|]; auto.
    exfalso. apply N1. apply find_some in E as [E _]. now apply in_map.
Qed.

Record LInv (n : Z) (h : heap edge) (g : adj_lst) (G : list (list ghost)) : Prop := {
  li_nv : l_nv g = n;
  li_ne : l_ne g = 0;
  li_len : length (l_edges g) = Z.to_nat n;
  li_glen : length G = Z.to_nat n;
  li_lst : forall i l, nth_error G i = Some l -> exists p, nth_error (l_edges g) i = Some p /\ lst h p l;
  li_ids : NoDup (map gid (concat G));
  li_ts : forall l, In l G -> NoDup (map gt l);
  li_all : forall id, In id (map gid (concat G)) <-> (id < length h)%nat;
  li_pos : 0 <= n }.

Lemma concat_nth {A} (G : list (list A)) i l x : nth_error G i = Some l -> In x l -> In x (concat G).
Proof. intros E H. apply in_concat. exists l. split; auto. eapply nth_error_In; eauto. Qed.
Lemma NoDup_concat_sub (G : list (list ghost)) i l : nth_error G i = Some l -> NoDup (map gid (concat G)) -> NoDup (map gid l).
Proof.
  revert i. induction G as [|a G IH]; intros [|i] E N; cbn in *; try discriminate; rewrite map_app in N; apply NoDup_app_iff in N as (N1 & N2 & N3).
  - injection E as ->. auto.
  - eauto.
Qed.
Lemma ids_disjoint (G : list (list ghost)) i j l m id : nth_error G i = Some l -> nth_error G j = Some m -> i <> j ->
  NoDup (map gid (concat G)) -> In id (map gid l) -> ~ In id (map gid m).
Proof.
  revert i j. induction G as [|a G IH]; intros [|i] [|j] E F D N H K; cbn in *; try discriminate; try congruence;
    rewrite map_app in N; apply NoDup_app_iff in N as (N1 & N2 & N3).
  - injection E as ->. apply (N3 id H). apply in_map_iff in K as (x & <- & K). apply in_map. eapply concat_nth; eauto.
  - injection F as ->. apply (N3 id K). apply in_map_iff in H as (x & <- & H). apply in_map. eapply concat_nth; eauto.
  - eapply (IH i j); eauto.
Qed.
Lemma lset_same_ids (G : list (list ghost)) i l l' : nth_error G i = Some l -> map gid l' = map gid l ->
  map gid (concat (lset G i l')) = map gid (concat G).
Proof.
  revert i. induction G as [|a G IH]; intros [|i] E H; cbn in *; try discriminate; rewrite ?map_app.
  - injection E as ->. now rewrite H.
  - f_equal. eauto.
Qed.
Lemma concat_lset_cons (G : list (list ghost)) i l x : nth_error G i = Some l ->
  exists A B, map gid (concat G) = A ++ B /\ map gid (concat (lset G i (x :: l))) = A ++ gid x :: B.
Proof.
  revert i. induction G as [|a G IH]; intros [|i] E; cbn in *; try discriminate; rewrite ?map_app.
  - injection E as ->. exists [], (map gid l ++ map gid (concat G)). cbn. rewrite ?map_app. auto.
  - destruct (IH i E) as (A & B & E1 & E2). exists (map gid a ++ A), B. rewrite E1, E2, <- !app_assoc. auto.
Qed.
Lemma lset_in {A} (G : list A) i l' x : In x (lset G i l') -> x = l' \/ In x G.
Proof. revert i. induction G; intros [|i]; cbn; intuition. apply IHG in H0. intuition. Qed.
Lemma nth_lset_cases {A} (G : list A) i j l' x : nth_error (lset G i l') j = Some x -> (j = i /\ x = l') \/ (j <> i /\ nth_error G j = Some x).
Proof.
  intro H. destruct (Nat.eq_dec j i) as [->|D].
  - left. split; auto. assert (i < length (lset G i l'))%nat by (apply nth_error_Some; congruence). rewrite lset_length in H0.
    rewrite nth_error_lset_eq in H by auto. congruence.
  - right. split; auto. rewrite nth_error_lset_neq in H by auto. auto.
Qed.

Lemma half_spec n h g G v w x : LInv n h g G -> 0 <= v < n -> 0 <= w ->
  exists h' g' G' l l', insert_half h g v w x = Ok (h', g') /\ LInv n h' g' G' /\
    nth_error G (Z.to_nat v) = Some l /\ G' = lset G (Z.to_nat v) l' /\
    (forall u, find_t l' u = if u =? w then Some x else find_t l u).
Proof.
  intros I V W. unfold insert_half.
  destruct (nth_error G (Z.to_nat v)) as [l|] eqn:Gl.
  2:{ apply nth_error_None in Gl. rewrite (li_glen _ _ _ _ I) in Gl. lia. }
  destruct (li_lst _ _ _ _ I _ _ Gl) as (p & P & H).
  rewrite (zget_nth _ _ _ (proj1 V) P). cbn [bind].
  pose proof (NoDup_concat_sub _ _ _ Gl (li_ids _ _ _ _ I)) as NL.
  assert (LB : (length l <= length h)%nat).
  { rewrite <- (map_length gid l), <- (seq_length (length h) 0). apply NoDup_incl_length; auto.
    intros id X. apply in_seq. apply in_map_iff in X as (y & <- & X).
    assert (In (gid y) (map gid (concat G))) as Y by (apply in_map; eapply concat_nth; eauto).
    apply (li_all _ _ _ _ I) in Y. lia. }
  rewrite (search_spec h l p w _ H) by lia. cbn [bind].
  destruct (find (fun g0 => gt g0 =? w) l) as [id|] eqn:F; cbn [option_map].
  - destruct (upd_lst h l p w x id H NL F) as (old & C & H').
    rewrite (proj2 (hget_cell _ _ _) C). cbn [bind]. rewrite (hset_ok _ _ _ _ C). cbn [bind].
    set (h' := lset h (gid id) (Some {| e_v := e_v old; e_w := x; e_next := e_next old |})) in *.
    exists h', g, (lset G (Z.to_nat v) (upd l w x)), l, (upd l w x). split; auto. split; [|split; [auto|split; [auto|]]].
    + destruct I as [I1 I0 I2 I3 I4 I5 I6 I7 I8]. constructor; auto.
      * now rewrite lset_length.
      * intros j m Hm. apply nth_lset_cases in Hm as [[-> ->]|[D Hm]].
        -- exists p. auto.
        -- destruct (I4 _ _ Hm) as (p' & P' & H2). exists p'. split; auto. eapply lst_frame; [|exact H2].
           intros i Hi. unfold h'. rewrite cell_lset by (eapply cell_lt; eauto). destruct (Nat.eqb_spec i (gid id)) as [->|]; auto.
           exfalso. eapply (ids_disjoint G j (Z.to_nat v) m l (gid id)); eauto. apply find_some in F as [F _]. now apply in_map.
      * rewrite (lset_same_ids G _ l); auto. apply upd_ids.
      * intros m Hm. apply lset_in in Hm as [->|Hm]; auto. rewrite upd_ts. apply I6. eapply nth_error_In; eauto.
      * intros i. rewrite (lset_same_ids G _ l); auto; [|apply upd_ids]. unfold h'. rewrite lset_length. apply I7.
    + intros u. apply upd_find. unfold find_t. rewrite F. discriminate.
  - unfold edge_new. destruct (Z.ltb_spec w 0); [lia|]. unfold halloc. cbn [bind].
    assert (Lv : (Z.to_nat v < length (l_edges g))%nat) by (apply nth_error_Some; congruence).
    rewrite zset_lt by (auto; lia). cbn [bind].
    set (h' := h ++ [Some {| e_v := w; e_w := x; e_next := p |}]) in *.
    set (nl := (length h, w, x) :: l).
    eexists h', _, (lset G (Z.to_nat v) nl), l, nl. split; [reflexivity|]. split; [|split; [auto|split; [auto|]]].
    + destruct (concat_lset_cons G (Z.to_nat v) l (length h, w, x) Gl) as (A & B & E1 & E2).
      destruct I as [I1 I0 I2 I3 I4 I5 I6 I7 I8]. fold nl in E2. constructor; cbn [l_nv l_ne l_edges]; auto.
      * now rewrite lset_length.
      * now rewrite lset_length.
      * intros j m Hm. apply nth_lset_cases in Hm as [[-> ->]|[D Hm]].
        -- exists (Some (length h)). rewrite nth_error_lset_eq by auto. split; auto. cbn. split; auto. exists p.
           split; [apply cell_alloc_new|]. eapply lst_frame; [|exact H]. intros i Hi. apply cell_app_old.
           apply I7. apply in_map_iff in Hi as (y & <- & Hi). apply in_map. eapply concat_nth; eauto.
        -- destruct (I4 _ _ Hm) as (p' & P' & H2). exists p'. rewrite nth_error_lset_neq by auto. split; auto.
           eapply lst_frame; [|exact H2]. intros i Hi. apply cell_app_old. apply I7.
           apply in_map_iff in Hi as (y & <- & Hi). apply in_map. eapply concat_nth; eauto.
      * rewrite E2. rewrite E1 in I5. apply NoDup_Add with (a := gid (length h, w, x)) (l := A ++ B); [apply Add_app|].
        split; auto. rewrite <- E1. cbn. rewrite I7. lia.
      * intros m Hm. apply lset_in in Hm as [->|Hm]; auto. cbn. constructor; [|apply I6; eapply nth_error_In; eauto].
        intro X. apply in_map_iff in X as (y & Y & X). eapply find_none in F; [|exact X]. cbn in Y, F. lia.
      * intros i. rewrite E2. unfold h'. rewrite app_length. cbn. rewrite in_app_iff. cbn [In gid fst].
        assert (In i (A ++ B) <-> (i < length h)%nat) as X by (rewrite <- E1; apply I7). rewrite in_app_iff in X. unfold gid; cbn.
        assert (Y : (In i A \/ length h = i \/ In i B) <-> ((In i A \/ In i B) \/ length h = i)) by tauto. rewrite Y, X. lia.
    + intros u. unfold find_t, nl. cbn. unfold gt at 1. cbn. rewrite (Z.eqb_sym u w). destruct (w =? u); auto.
Qed.

Definition GSpec (n : Z) (ins : list (Z * Z * N)) (G : list (list ghost)) : Prop :=
  forall v l, 0 <= v < n -> nth_error G (Z.to_nat v) = Some l -> forall w, find_t l w = weight_of ins v w.

Lemma insert_lst_spec n h g G ins v w x : LInv n h g G -> GSpec n ins G -> 0 <= v < n -> 0 <= w < n ->
  exists h' g' G', insert_adj_lst h g v w x = Ok (h', g') /\ LInv n h' g' G' /\ GSpec n (ins ++ [(v, w, x)]) G'.
Proof.
  intros I S V W. unfold insert_adj_lst. rewrite (li_nv _ _ _ _ I), !assert_index_ok by auto. cbn [bind].
  destruct (Z.eqb_spec v w) as [->|D].
  { exists h, g, G. split; auto. split; auto. intros a l A E b. rewrite weight_of_snoc.
    replace (aboutb a b (w, w, x)) with false; [now apply S|]. unfold aboutb. rewrite Z.eqb_refl. auto. }
  destruct (half_spec n h g G v w x I V ltac:(lia)) as (h1 & g1 & G1 & l & l' & -> & I1 & E & -> & F). cbn [bind].
  destruct (half_spec n h1 g1 _ w v x I1 W ltac:(lia)) as (h2 & g2 & G2 & m & m' & -> & I2 & E2 & -> & F2).
  rewrite nth_error_lset_neq in E2 by (intro X; apply Z2Nat.inj in X; lia).
  eexists h2, g2, _. split; [reflexivity|]. split; [exact I2|].
  intros a k A Ek b. rewrite weight_of_snoc.
  apply nth_lset_cases in Ek as [[X ->]|[X Ek]].
  - apply Z2Nat.inj in X; try lia. subst a. rewrite F2.
    replace (aboutb w b (v, w, x)) with (b =? v) by (unfold aboutb; lia). destruct (b =? v); auto.
  - apply nth_lset_cases in Ek as [[Y ->]|[Y Ek]].
    + apply Z2Nat.inj in Y; try lia. subst a. rewrite F.
      replace (aboutb v b (v, w, x)) with (b =? w) by (unfold aboutb; lia). destruct (b =? w); auto.
    + replace (aboutb a b (v, w, x)) with false; [now apply S|].
      symmetry. apply not_true_is_false. rewrite aboutb_spec. unfold about. intros (_ & [[-> ->]|[-> ->]]); congruence.
Qed.


Lemma new_lst_inv n g : new_adj_lst n = Ok g -> LInv n [] g (repeat [] (Z.to_nat n)) /\ GSpec n [] (repeat [] (Z.to_nat n)).
Proof.
  unfold new_adj_lst. destruct (Z.ltb_spec n 0); [discriminate|]. intro E. injection E as <-.
  assert (C : concat (repeat (@nil ghost) (Z.to_nat n)) = []).
  { induction (Z.to_nat n); cbn; auto. }
  split.
  - constructor; cbn; auto.
    + apply repeat_length.
    + apply repeat_length.
    + intros i l E. assert (i < Z.to_nat n)%nat by (rewrite <- (repeat_length (@nil ghost) (Z.to_nat n)); apply nth_error_Some; congruence).
      apply nth_error_In in E. apply repeat_spec in E. subst. exists None. cbn. split; auto. now apply nth_error_repeat.
    + rewrite C. constructor.
    + intros l E. apply repeat_spec in E. subst. constructor.
    + intros id. rewrite C. cbn. lia.
  - intros v l V E w. apply nth_error_In in E. apply repeat_spec in E. subst. reflexivity.
Qed.

Lemma run_lst_spec n : 0 <= n -> forall ins, Forall (in_range n) ins ->
  exists h g G, run_lst n ins = Ok (h, g) /\ LInv n h g G /\ GSpec n ins G.
Proof.
  intros Hn. unfold run_lst. destruct (new_adj_lst n) as [g0| | |] eqn:E0; try (unfold new_adj_lst in E0; destruct (Z.ltb_spec n 0); [lia|discriminate]).
  cbn [bind]. destruct (new_lst_inv n g0 E0) as [I0 S0].
  induction ins as [|[[v w] x] ins IH] using rev_ind; intros F.
  - exists [], g0, (repeat [] (Z.to_nat n)). auto.
  - apply Forall_app in F as [F F1]. apply Forall_cons_iff in F1 as [F1 _]. unfold in_range in F1.
    destruct (IH F) as (h & g & G & R & I & S). rewrite for_each_app, R. cbn [bind for_each].
    destruct (insert_lst_spec n h g G ins v w x I S) as (h' & g' & G' & E & I' & S'); try tauto.
    rewrite E. cbn [bind]. exists h', g', G'. auto.
Qed.

Lemma walk_spec h l : forall p f, lst h p l -> (length l < f)%nat -> walk f h p = Ok (map (fun y : ghost => (gt y, snd y)) l).
Proof.
  induction l as [|[[id t] x] l IH]; intros p f H F; (destruct f as [|f]; [cbn in F; lia|]); cbn in H |- *.
  - now rewrite H.
  - destruct H as (-> & nx & C & H). rewrite (proj2 (hget_cell _ _ _) C). cbn [bind e_v e_w e_next].
    rewrite (IH nx f H) by (cbn in F; lia). cbn. auto.
Qed.

Lemma lst_bound n h g G i l : LInv n h g G -> nth_error G i = Some l -> (length l <= length h)%nat.
Proof.
  intros I E. rewrite <- (map_length gid l), <- (seq_length (length h) 0). apply NoDup_incl_length.
  - eapply NoDup_concat_sub; eauto. apply (li_ids _ _ _ _ I).
  - intros id X. apply in_seq. apply in_map_iff in X as (y & <- & X).
    assert (In (gid y) (map gid (concat G))) as Y by (apply in_map; eapply concat_nth; eauto).
    apply (li_all _ _ _ _ I) in Y. lia.
Qed.

Lemma find_t_in l w x : NoDup (map gt l) -> (find_t l w = Some x <-> In (w, x) (map (fun y : ghost => (gt y, snd y)) l)).
Proof.
  unfold find_t. induction l as [|[[id t] y] l IH]; intro N; cbn in *; [split; [discriminate|tauto]|].
  apply NoDup_cons_iff in N as [N1 N2]. change (gt (id, t, y)) with t in *. destruct (Z.eqb_spec t w) as [->|D]; cbn.
  - split; [intro E; injection E as ->; auto|]. intros [E|E]; [congruence|]. exfalso. apply N1.
    apply in_map_iff in E as (z & E & Hz). apply in_map_iff. exists z. split; auto. congruence.
  - rewrite (IH N2). split; auto. intros [E|E]; [congruence|auto].
Qed.

(** Freeing. *)
Lemma free_list_spec l : forall h p f, lst h p l -> NoDup (map gid l) -> (length l < f)%nat ->
  exists h', edge_list_free f h p = Ok h' /\ length h' = length h /\
  forall id, cell h' id = if in_dec Nat.eq_dec id (map gid l) then None else cell h id.
Proof.
  induction l as [|[[id t] x] l IH]; intros h p f H N F; (destruct f as [|f]; [cbn in F; lia|]); cbn in H.
  - subst p. cbn [edge_list_free]. exists h. auto.
  - destruct H as (-> & nx & C & H). cbn in N. apply NoDup_cons_iff in N as [N1 N2].
    cbn [edge_list_free]. rewrite (proj2 (hget_cell _ _ _) C). cbn [bind]. rewrite (hfree_ok _ _ _ C). cbn [bind e_next].
    destruct (IH (lset h id None) nx f) as (h' & E & Lh & K); auto.
    + eapply lst_frame; [|exact H]. intros j Hj. rewrite cell_lset by (eapply cell_lt; eauto).
      destruct (Nat.eqb_spec j id) as [->|]; [contradiction|auto].
    + cbn in F. lia.
    + exists h'. split; auto. rewrite lset_length in Lh. split; auto. intros j. rewrite K.
      rewrite cell_lset by (eapply cell_lt; eauto). cbn [map gid fst]. 
      change (gid (id, t, x)) with id.
      destruct (in_dec Nat.eq_dec j (map gid l)) as [A|A]; destruct (in_dec Nat.eq_dec j (id :: map gid l)) as [B|B]; cbn [In] in B; auto; try tauto.
      * destruct (Nat.eqb_spec j id); auto. destruct B; [congruence|tauto].
      * destruct (Nat.eqb_spec j id); auto. exfalso. apply B. left. congruence.
Qed.

Lemma free_all_spec es : forall (Gs : list (list ghost)) k h,
  (forall i l, nth_error Gs i = Some l -> exists p, nth_error es (k + i) = Some p /\ lst h p l) ->
  NoDup (map gid (concat Gs)) -> (forall id, In id (map gid (concat Gs)) -> (id < length h)%nat) ->
  exists h', for_each (fun i h => let* e := zget es (Z.of_nat i) in edge_list_free (S (length h)) h e) (seq k (length Gs)) h = Ok h'
  /\ length h' = length h /\ forall id, cell h' id = if in_dec Nat.eq_dec id (map gid (concat Gs)) then None else cell h id.
Proof.
  induction Gs as [|l Gs IH]; intros k h H N B.
  - exists h. auto.
  - cbn [length seq for_each].
    destruct (H O l eq_refl) as (p & P & HL). rewrite Nat.add_0_r in P.
    rewrite (zget_nth es (Z.of_nat k) p) by (rewrite ?Nat2Z.id; auto; lia). cbn [bind].
    cbn [concat] in *. rewrite map_app in N, B. apply NoDup_app_iff in N as (N1 & N2 & N3).
    assert (LB : (length l <= length h)%nat).
    { rewrite <- (map_length gid l), <- (seq_length (length h) 0). apply NoDup_incl_length; auto.
      intros id X. apply in_seq. specialize (B id). rewrite in_app_iff in B. specialize (B (or_introl X)). lia. }
    destruct (free_list_spec l h p (S (length h)) HL N1 ltac:(lia)) as (h1 & E & L1 & K1). rewrite E. cbn [bind].
    destruct (IH (S k) h1) as (h' & E' & L' & K').
    + intros i m Hm. destruct (H (S i) m Hm) as (q & Q & HQ). exists q. split; [rewrite <- Q; f_equal; lia|].
      eapply lst_frame; [|exact HQ]. intros id Hid. rewrite K1. destruct (in_dec Nat.eq_dec id (map gid l)) as [A|A]; auto.
      exfalso. apply (N3 id A). apply in_map_iff in Hid as (y & <- & Hy). apply in_map. eapply concat_nth; eauto.
    + auto.
    + intros id Hid. rewrite L1. apply B. apply in_or_app. auto.
    + exists h'. split; auto. split; [congruence|]. intros id. rewrite K', K1, map_app.
      destruct (in_dec Nat.eq_dec id (map gid (concat Gs))) as [A1|A1];
        destruct (in_dec Nat.eq_dec id (map gid l)) as [A2|A2];
        destruct (in_dec Nat.eq_dec id (map gid l ++ map gid (concat Gs))) as [A3|A3]; auto; rewrite in_app_iff in A3; tauto.
Qed.
