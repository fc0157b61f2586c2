(** The log streams against their histories. *)
From Verif Require Import Base BaseLemmas Heap LexModel JsonModel JsonSpec JsonProofs JsonParseProofs JsonApiProofs JlogModel JlogSpec.
Local Open Scope nat_scope.

(** ** Sizes: nothing but the tree is allocated. *)
Fixpoint gsize (g : gtree) : nat := let 'GT _ _ ks := g in S (list_sum (map gsize ks)).
Lemma ids_size t : length (ids t) = gsize (strip t).
Proof.
  induction t as [p ty tx ks IH] using itree_ind'. cbn [ids strip gsize length]. f_equal. induction IH as [|t ts Ht Hts IH]; [reflexivity|].
  cbn. rewrite app_length, Ht, IH. reflexivity.
Qed.
Lemma hset_len {A} (h : heap A) p v h' : hset h p v = Ok h' -> length h' = length h.
Proof. unfold hset. destruct (nth_error h p) as [[x|]|]; try discriminate. intros [= <-]. apply lset_length. Qed.
Lemma last_loop_len f : forall h p h', last_loop f h p = Ok h' -> length h' = length h.
Proof.
  induction f as [|f IH]; intros h p h'; cbn [last_loop]; [discriminate|]. destruct (hget h p) as [P| | |]; try discriminate. cbn [bind].
  destruct (jlast P) as [l|]; [|discriminate]. destruct (hget h l) as [L| | |]; try discriminate. cbn [bind]. destruct (jright L); [|intros [= <-]; auto].
  destruct (hset h p _) as [h1| | |] eqn:E; try discriminate. cbn [bind]. intros G. apply IH in G. apply hset_len in E. lia.
Qed.
Lemma add_child_len h p n h' : add_child h p n = Ok h' -> length h' = length h.
Proof.
  unfold add_child. destruct (hget h p) as [P| | |]; try discriminate. cbn [bind]. destruct (jlast P) as [l|].
  - destruct (hget h l) as [L| | |]; try discriminate. cbn [bind]. destruct (hset h l _) as [h1| | |] eqn:E; try discriminate. cbn [bind]. intros G.
    apply last_loop_len in G. apply hset_len in E. lia.
  - destruct (hset h p _) as [h1| | |] eqn:E; try discriminate. cbn [bind]. intros G. apply last_loop_len in G. apply hset_len in E. lia.
Qed.
Lemma array_add_len h a n h' : array_add h a n = Ok h' -> length h' = length h.
Proof. unfold array_add. destruct (hget h a) as [P| | |]; try discriminate. cbn [bind]. destruct (negb _); [discriminate|]. apply add_child_len. Qed.
Lemma object_add_len h a k n h' : object_add h a k n = Ok h' -> length h' = S (length h).
Proof.
  unfold object_add. destruct (hget h a) as [P| | |]; try discriminate. cbn [bind]. destruct (negb _); [discriminate|]. unfold new_string, node_new, halloc.
  destruct (hget _ _) as [M| | |]; try discriminate. cbn [bind]. destruct (hset _ _ _) as [h1| | |] eqn:E; try discriminate. cbn [bind]. intros G.
  apply add_child_len in G. apply hset_len in E. rewrite app_length in E. cbn in E. lia.
Qed.
Lemma build_len j : forall h h' p, build h j = Ok (h', p) -> length h' = length h + gsize (gen (built j)).
Proof.
  induction j as [ms IH|vs IH|s|s|s| | |] using json_ind'; intros h h' p;
    try (cbn; unfold new_string, new_integer, new_fpnumber, new_true, new_false, new_null, node_new, halloc; intros G; injection G as <- <-; rewrite app_length; cbn; lia).
  - cbn [build built]. unfold new_object, node_new, halloc. match goal with |- context [bind (?G ms ?hh) _] => set (go := G); set (h0 := hh) end.
    assert (forall h1 h2, go ms h1 = Ok h2 -> length h2 = length h1 + list_sum (map gsize (gmem (map (fun m => (fst m, built (snd m))) ms)))) as Hgo.
    { induction IH as [|m ms' Hm H IH]; intros h1 h2; cbn [go]; [intros [= <-]; cbn; lia|].
      destruct (build h1 (snd m)) as [[h3 n]| | |] eqn:E1; try discriminate. cbn [bind]. destruct (object_add h3 _ _ _) as [h4| | |] eqn:E2; try discriminate. cbn [bind].
      intros G. apply IH in G. apply Hm in E1. apply object_add_len in E2. unfold gmem in *. cbn [map flat_map app fst snd] in *. cbn [list_sum fold_right map gsize] in *. unfold list_sum in *. lia. }
    destruct (go ms h0) as [h2| | |] eqn:E; try discriminate. cbn [bind]. intros [= <- <-]. apply Hgo in E. rewrite E. unfold h0. rewrite app_length. cbn [length gen gsize]. unfold gmem. lia.
  - cbn [build built]. unfold new_array, node_new, halloc. match goal with |- context [bind (?G vs ?hh) _] => set (go := G); set (h0 := hh) end.
    assert (forall h1 h2, go vs h1 = Ok h2 -> length h2 = length h1 + list_sum (map gsize (map gen (map built vs)))) as Hgo.
    { induction IH as [|m ms' Hm H IH]; intros h1 h2; cbn [go]; [intros [= <-]; cbn; lia|].
      destruct (build h1 m) as [[h3 n]| | |] eqn:E1; try discriminate. cbn [bind]. destruct (array_add h3 _ _) as [h4| | |] eqn:E2; try discriminate. cbn [bind].
      intros G. apply IH in G. apply Hm in E1. apply array_add_len in E2. cbn [map list_sum fold_right] in *. unfold list_sum in *. lia. }
    destruct (go vs h0) as [h2| | |] eqn:E; try discriminate. cbn [bind]. intros [= <- <-]. apply Hgo in E. rewrite E. unfold h0. rewrite app_length. cbn [length gen gsize]. lia.
Qed.
(** Distinct addresses that fill a range are all of it. *)
Lemma fill (L : list nat) a n : NoDup L -> (forall q, In q L -> a <= q < a + n) -> length L = n -> forall q, a <= q < a + n -> In q L.
Proof.
  intros Hn Hr Hl q Hq. assert (incl (seq a n) L) as G. { apply NoDup_length_incl; [auto|rewrite seq_length; lia|]. intros x Hx. apply in_seq. apply Hr in Hx. lia. }
  apply G, in_seq. lia.
Qed.
Lemma build_fill h j : exists h' t, build h j = Ok (h', iid t) /\ fresh_tree h h' None t /\ strip t = gen (built j) /\ (forall q, length h <= q < length h' -> In q (ids t)).
Proof.
  destruct (build_ok j h) as (h' & t & E & Hf & Hs). exists h', t. split; [auto|]. split; [auto|]. split; [auto|]. pose proof (build_len _ _ _ _ E) as Hl.
  rewrite <- Hs, <- ids_size in Hl. destruct Hf as (Ht & Hn & Hge & _). intros q Hq. apply (fill (ids t) (length h) (length (ids t))); [auto| |auto|lia].
  intros x Hx. rewrite Forall_forall in Hge. pose proof (Hge x Hx). destruct (tree_cells _ _ _ Ht x Hx) as (y & Hy). apply cell_lt in Hy. lia.
Qed.

(** ** The invariant: [F id] is the tree of stream [id], if there is one. *)
Definition owner : Type := Z -> option itree.
Definition owns (s : jlog) (F : owner) : Prop :=
  match j_tab s with
  | None => forall i, F i = None
  | Some T => length T = 32 /\ forall i, (0 <= i < 32)%Z -> nth_error T (Z.to_nat i) = Some (option_map iid (F i))
  end.
Definition members := Z -> list (list N * json).
Definition inv (s : jlog) (F : owner) (A : members) : Prop :=
  owns s F /\ (forall i, ~ (0 <= i < 32)%Z -> F i = None) /\
  (forall i, match F i with
             | None => A i = []
             | Some t => tree_at (j_heap s) None t /\ NoDup (ids t) /\ strip t = gen (JObj (A i))
             end) /\
  (forall i j t u, i <> j -> F i = Some t -> F j = Some u -> apart (ids t) (ids u)) /\
  (forall q x, cell (j_heap s) q = Some x -> exists i t, F i = Some t /\ In q (ids t)).
Definition set {A} (f : Z -> A) (i : Z) (v : A) : Z -> A := fun j => if (j =? i)%Z then v else f j.
Lemma set_eq {A} (f : Z -> A) i v : set f i v i = v.
Proof. unfold set. rewrite Z.eqb_refl. reflexivity. Qed.
Lemma set_neq {A} (f : Z -> A) i j v : j <> i -> set f i v j = f j.
Proof. unfold set. intros H. apply Z.eqb_neq in H. rewrite H. reflexivity. Qed.

Lemma inv_ext s F A B : (forall i, A i = B i) -> inv s F A -> inv s F B.
Proof. intros E (H1 & H2 & H3 & H4). split; [auto|]. split; [auto|]. split; [|auto]. intros i. specialize (H3 i). rewrite <- E. auto. Qed.

(** One stream changes its tree, the rest of the heap stays. *)
Lemma inv_tree s F A i t t' h' ms : inv s F A -> F i = Some t -> iid t' = iid t -> tree_at h' None t' -> NoDup (ids t') -> strip t' = gen (JObj ms) ->
  (forall q, q < length (j_heap s) -> ~ In q (ids t) -> cell h' q = cell (j_heap s) q) ->
  (forall q, In q (ids t) -> In q (ids t')) -> (forall q, In q (ids t') -> In q (ids t) \/ length (j_heap s) <= q) ->
  (forall q, length (j_heap s) <= q < length h' -> In q (ids t')) ->
  inv (JL (j_tab s) h') (set F i (Some t')) (set A i ms).
Proof.
  intros (H1 & H2 & H3 & H4 & H5) Ei Eid Ht Hn Hs Hfr Hin Hout Hnew. cbn [j_heap j_tab].
  assert (forall j u, j <> i -> F j = Some u -> forall q, In q (ids u) -> q < length (j_heap s) /\ ~ In q (ids t)) as Hu.
  { intros j u Hj Eu q Hq. pose proof (H3 j) as G. rewrite Eu in G. destruct G as (G & _). destruct (tree_cells _ _ _ G q Hq) as (x & Hx). split; [eapply cell_lt; eauto|]. exact (H4 j i u t Hj Eu Ei q Hq). }
  assert (0 <= i < 32)%Z as Hi. { destruct (Z_le_gt_dec 0 i); destruct (Z_lt_ge_dec i 32); try lia; rewrite H2 in Ei by lia; discriminate. }
  split; [|split; [|split; [|split]]].
  - unfold owns in *. cbn [j_tab]. destruct (j_tab s) as [T|].
    + destruct H1 as [H1 H1']. split; [auto|]. intros j Hj. destruct (Z.eq_dec j i) as [->|Hn']; [rewrite set_eq, H1', Ei by auto; cbn; congruence|rewrite set_neq by auto; auto].
    + rewrite H1 in Ei. discriminate.
  - intros j Hj. rewrite set_neq by lia. auto.
  - intros j. destruct (Z.eq_dec j i) as [->|Hj]; [rewrite !set_eq; auto|]. rewrite !set_neq by auto. pose proof (H3 j) as G. destruct (F j) as [u|] eqn:Eu; [|auto].
    destruct G as (G1 & G2 & G3). split; [|auto]. apply (tree_frame (j_heap s)); [|auto]. intros q Hq. destruct (Hu j u Hj Eu q Hq). auto.
  - intros a b u v Hab Ea Eb q Hqa Hqb. destruct (Z.eq_dec a i) as [->|Ha].
    + rewrite set_eq in Ea. injection Ea as <-. rewrite set_neq in Eb by auto. destruct (Hu b v ltac:(auto) Eb q Hqb) as [G1 G2]. apply Hout in Hqa as [G|G]; [auto|lia].
    + rewrite set_neq in Ea by auto. destruct (Hu a u Ha Ea q Hqa) as [G1 G2]. destruct (Z.eq_dec b i) as [->|Hb].
      * rewrite set_eq in Eb. injection Eb as <-. apply Hout in Hqb as [G|G]; [auto|lia].
      * rewrite set_neq in Eb by auto. exact (H4 a b u v Hab Ea Eb q Hqa Hqb).
  - intros q x Hx. destruct (Nat.lt_ge_cases q (length (j_heap s))) as [Hq|Hq].
    + destruct (in_dec Nat.eq_dec q (ids t)) as [Hqt|Hqt]; [exists i, t'; rewrite set_eq; auto|]. rewrite Hfr in Hx by auto. destruct (H5 q x Hx) as (j & u & Eu & Hqu).
      destruct (Z.eq_dec j i) as [->|Hj]; [congruence|]. exists j, u. rewrite set_neq by auto. auto.
    + exists i, t'. rewrite set_eq. split; [auto|]. apply Hnew. split; [auto|]. eapply cell_lt; eauto.
Qed.

Lemma tab_of s F : owns s F -> let T := match j_tab s with None => repeat None (Z.to_nat N_STREAMS) | Some t => t end in
  length T = 32 /\ forall i, (0 <= i < 32)%Z -> nth_error T (Z.to_nat i) = Some (option_map iid (F i)).
Proof.
  unfold owns. destruct (j_tab s) as [T|]; [auto|]. intros H. cbn zeta. change (Z.to_nat N_STREAMS) with 32. split; [reflexivity|]. intros i Hi. rewrite H. cbn [option_map].
  apply nth_error_repeat. lia.
Qed.

Lemma get_ok s F A i : inv s F A -> (0 <= i < 32)%Z -> exists s' F' t, get_stream s i = Ok (s', iid t) /\ inv s' F' A /\ F' i = Some t /\ j_tab s' <> None /\
  (forall j, j <> i -> F' j = F j) /\ (forall u, F i = Some u -> u = t).
Proof.
  intros (H1 & H2 & H3 & H4 & H5) Hi. pose proof (tab_of s F H1) as HT. unfold get_stream. cbv zeta in HT |- *. set (T := match j_tab s with Some t => t | None => _ end) in *.
  destruct HT as [HT1 HT2]. unfold N_STREAMS. replace ((i <? 0)%Z || (i >=? 32)%Z) with false by lia.
  assert (zget T i = Ok (option_map iid (F i))) as Ez. { unfold zget, aget. replace (i <? 0)%Z with false by lia. rewrite HT2 by auto. reflexivity. }
  rewrite Ez. cbn [bind]. destruct (F i) as [t|] eqn:Ei; cbn [option_map].
  - exists (JL (Some T) (j_heap s)), F, t. split; [reflexivity|]. split; [|split; [auto|split; [discriminate|split; [auto|congruence]]]].
    split; [split; auto|]. split; [auto|]. split; [auto|]. auto.
  - unfold new_object, node_new, halloc. set (o := length (j_heap s)). set (t := IT o JNT_OBJECT None []). pose proof (fresh_new (j_heap s) JNT_OBJECT None) as (F1 & F2 & F3 & F4 & F5). fold o t in F1, F2, F3.
    set (h' := j_heap s ++ _) in *. assert (zset T i (Some o) = Ok (lset T (Z.to_nat i) (Some o))) as Es.
    { unfold zset. replace (i <? 0)%Z with false by lia. apply aset_lt. lia. }
    rewrite Es. cbn [bind]. exists (JL (Some (lset T (Z.to_nat i) (Some o))) h'), (set F i (Some t)), t. split; [reflexivity|]. split; [|split; [apply set_eq|split; [discriminate|split; [intros; apply set_neq; auto|congruence]]]].
    assert (forall j u, F j = Some u -> forall q, In q (ids u) -> q < o) as Hu.
    { intros j u Eu q Hq. pose proof (H3 j) as G. rewrite Eu in G. destruct G as (G & _). destruct (tree_cells _ _ _ G q Hq) as (x & Hx). eapply cell_lt; eauto. }
    split; [|split; [|split; [|split]]]; cbn [j_heap j_tab].
    + split; [rewrite lset_length; auto|]. intros j Hj. destruct (Z.eq_dec j i) as [->|Hn]; [rewrite set_eq; apply nth_error_lset_eq; lia|]. rewrite set_neq by auto. rewrite nth_error_lset_neq by lia. auto.
    + intros j Hj. rewrite set_neq by lia. auto.
    + intros j. destruct (Z.eq_dec j i) as [->|Hn].
      * rewrite set_eq. pose proof (H3 i) as G. rewrite Ei in G. rewrite G. auto.
      * rewrite set_neq by auto. pose proof (H3 j) as G. destruct (F j) as [u|] eqn:Eu; [|auto]. destruct G as (G1 & G2 & G3). split; [|auto]. apply (tree_frame (j_heap s)); [|auto].
        intros q Hq. apply F5. exact (Hu j u Eu q Hq).
    + intros a b u v Hab Ea Eb q Hqa Hqb. destruct (Z.eq_dec a i) as [->|Ha].
      * rewrite set_eq in Ea. injection Ea as <-. rewrite set_neq in Eb by auto. pose proof (Hu b v Eb q Hqb). destruct Hqa as [<-|[]]. lia.
      * rewrite set_neq in Ea by auto. pose proof (Hu a u Ea q Hqa). destruct (Z.eq_dec b i) as [->|Hb].
        -- rewrite set_eq in Eb. injection Eb as <-. destruct Hqb as [<-|[]]. lia.
        -- rewrite set_neq in Eb by auto. exact (H4 a b u v Hab Ea Eb q Hqa Hqb).
    + intros q x Hx. unfold h' in Hx. rewrite cell_alloc in Hx. destruct (Nat.eqb_spec q (length (j_heap s))) as [->|Hq]; [exists i, t; rewrite set_eq; split; [auto|left; auto]|].
      destruct (H5 q x Hx) as (j & u & Eu & Hqu). destruct (Z.eq_dec j i) as [->|Hj]; [congruence|]. exists j, u. rewrite set_neq by auto. auto.
Qed.

Lemma get_again s F i t : owns s F -> (0 <= i < 32)%Z -> F i = Some t -> j_tab s <> None -> get_stream s i = Ok (s, iid t).
Proof.
  intros H1 Hi Ei Ht. pose proof (tab_of s F H1) as [_ HT]. unfold get_stream. destruct (j_tab s) as [T|] eqn:ET; [|congruence]. cbv zeta in HT |- *. unfold N_STREAMS. replace ((i <? 0)%Z || (i >=? 32)%Z) with false by lia.
  unfold zget, aget. replace (i <? 0)%Z with false by lia. rewrite HT, Ei by auto. cbn. rewrite <- ET. destruct s. reflexivity.
Qed.

(** ** Logging a value *)
Lemma split_obj t ms : strip t = gen (JObj ms) -> exists ks, t = IT (iid t) JNT_OBJECT None ks /\ map strip ks = gmem ms.
Proof. destruct t as [p ty tx ks]. cbn. intros [= -> -> H]. exists ks. auto. Qed.

Lemma put_ok s F A i t h1 n ms key v : inv s F A -> F i = Some t -> A i = ms -> fresh_tree (j_heap s) h1 None n -> strip n = gen v ->
  (forall q, length (j_heap s) <= q < length h1 -> In q (ids n)) ->
  exists h2 t' ks, object_add h1 (iid t) key (iid n) = Ok h2 /\ inv (JL (j_tab s) h2) (set F i (Some t')) (set A i (ms ++ [(key, v)])) /\ iid t' = iid t /\
    t' = IT (iid t) JNT_OBJECT None (ks ++ [n]) /\ length h2 = S (length h1).
Proof.
  intros Hi Ei EA Hf Hs Hfill. pose proof Hi as (_ & _ & H3 & _). specialize (H3 i). rewrite Ei, EA in H3. destruct H3 as (G1 & G2 & G3). destruct (split_obj _ _ G3) as (ks & Et & Hk).
  rewrite Et in G1, G2. pose proof (tree_ctx _ _ _ _ _ _ G1 G2) as Hc. destruct (object_add_fresh (j_heap s) h1 (iid t) None None ks n key Hc Hf) as (h2 & E & Hst).
  set (nm := IT (length h1) JNT_STRING (Some key) []) in *. pose proof (object_add_len _ _ _ _ _ E) as Hl. pose proof Hst as (Hc2 & Hle & Hge & Hfr). destruct (ctx_tree _ _ _ _ _ _ Hc2) as [T1 T2].
  exists h2, (IT (iid t) JNT_OBJECT None (ks ++ [nm; n])), (ks ++ [nm]). split; [exact E|]. split; [|split; [reflexivity|split; [rewrite <- app_assoc; reflexivity|exact Hl]]].
  assert (ids t = iid t :: fids ks) as Eids by (rewrite Et at 1; reflexivity).
  assert (ids (IT (iid t) JNT_OBJECT None (ks ++ [nm; n])) = iid t :: fids ks ++ length h1 :: ids n) as Eids'.
  { cbn [ids]. fold (fids (ks ++ [nm; n])). rewrite fids_app. cbn. rewrite app_nil_r. reflexivity. }
  apply (inv_tree s F A i t); auto; rewrite ?Eids, ?Eids' in *.
  - cbn [strip gen]. f_equal. rewrite map_app, Hk. cbn. unfold gmem. rewrite flat_map_app. cbn. rewrite Hs. reflexivity.
  - intros q Hq Hn. apply Hfr; auto; intros G; apply Hn; [left|right]; auto.
  - intros q [<-|Hq]; [left; auto|right; apply in_or_app; auto].
  - intros q [<-|Hq]; [left; left; auto|]. apply in_app_or in Hq as [Hq|Hq]; [left; right; auto|right]. rewrite Forall_forall in Hge. apply Hge. cbn. rewrite app_nil_r. exact Hq.
  - intros q Hq. right. apply in_or_app. right. destruct (Nat.eq_dec q (length h1)) as [->|Hne]; [left; auto|right]. apply Hfill. lia.
Qed.

Lemma value_ok s F A i key v : inv s F A -> (0 <= i < 32)%Z -> exists s' F', log_value s i key (fun h => build h v) = Ok s' /\
  inv s' F' (set A i (A i ++ [(key, built v)])) /\ (forall j u, F j = Some u -> exists u', F' j = Some u' /\ iid u' = iid u).
Proof.
  intros Hi Hr. destruct (get_ok s F A i Hi Hr) as (s1 & F1 & t & E1 & Hi1 & Et & _ & Ho & Hs). unfold log_value. rewrite E1. cbn [bind].
  destruct (build_fill (j_heap s1) v) as (h1 & n & E2 & Hf & Hn & Hfl). rewrite E2. cbn [bind]. destruct (put_ok s1 F1 A i t h1 n _ key _ Hi1 Et eq_refl Hf Hn Hfl) as (h2 & t' & _ & E3 & Hi2 & Eid & _). rewrite E3. cbn [bind].
  eexists _, _. split; [reflexivity|]. split; [exact Hi2|]. intros j u Eu. destruct (Z.eq_dec j i) as [->|Hj].
  - rewrite set_eq. exists t'. rewrite (Hs u Eu). auto.
  - rewrite set_neq by auto. rewrite Ho by auto. eauto.
Qed.

(** ** Appending to an array inside a stream *)
Lemma forest_swap h h2 A1 k k' B1 : forest_at h (A1 ++ k :: B1) -> iid k' = iid k -> (forall q, In q (fids A1) -> cell h2 q = cell h q) -> tree_at h2 (first_id B1) k' -> forest_at h2 B1 ->
  forest_at h2 (A1 ++ k' :: B1).
Proof.
  intros Hf Ei Hfr Hk HB. induction A1 as [|t A1 IH]; [split; auto|]. cbn [app] in *. destruct Hf as [H1 H2]. split.
  - replace (first_id (A1 ++ k' :: B1)) with (first_id (A1 ++ k :: B1)) by (destruct A1; cbn; congruence). apply (tree_frame h); [|auto]. intros q Hq. apply Hfr. cbn. apply in_or_app. auto.
  - apply IH; [auto|]. intros q Hq. apply Hfr. cbn. apply in_or_app. auto.
Qed.
Lemma forest_mid h A1 k B1 : forest_at h (A1 ++ k :: B1) -> tree_at h (first_id B1) k /\ forest_at h B1.
Proof. induction A1 as [|t A1 IH]; cbn; intros [H1 H2]; auto. Qed.
Lemma ends_swap A1 k k' B1 : iid k' = iid k -> first_id (A1 ++ k' :: B1) = first_id (A1 ++ k :: B1) /\ last_id (A1 ++ k' :: B1) = last_id (A1 ++ k :: B1).
Proof.
  intros E. split; [destruct A1; cbn; congruence|]. unfold last_id. rewrite !rev_app_distr. cbn [rev]. rewrite <- !app_assoc. cbn [app]. destruct (rev B1); cbn; congruence.
Qed.

Lemma arr_ok s F A i o A1 a ks B1 h1 n ms : inv s F A -> F i = Some (IT o JNT_OBJECT None (A1 ++ IT a JNT_ARRAY None ks :: B1)) -> fresh_tree (j_heap s) h1 None n ->
  (forall q, length (j_heap s) <= q < length h1 -> In q (ids n)) -> map strip (A1 ++ IT a JNT_ARRAY None (ks ++ [n]) :: B1) = gmem ms ->
  exists h2 t', array_add h1 a (iid n) = Ok h2 /\ inv (JL (j_tab s) h2) (set F i (Some t')) (set A i ms) /\ iid t' = o.
Proof.
  intros Hi Ei Hf Hfill Hm. pose proof Hi as (_ & _ & H3 & _). specialize (H3 i). rewrite Ei in H3. destruct H3 as (G1 & G2 & _). apply tree_at_eq in G1 as [Gc Gf].
  set (k := IT a JNT_ARRAY None ks) in *. set (k' := IT a JNT_ARRAY None (ks ++ [n])) in *. set (t := IT o JNT_OBJECT None (A1 ++ k :: B1)) in *. set (t' := IT o JNT_OBJECT None (A1 ++ k' :: B1)).
  assert (ids t = o :: fids A1 ++ ids k ++ fids B1) as Eids by (unfold t; cbn [ids]; fold (fids (A1 ++ k :: B1)); rewrite fids_app; reflexivity).
  assert (ids k' = ids k ++ ids n) as Ek by (unfold k, k'; cbn [ids]; rewrite flat_map_app; cbn; rewrite app_nil_r; reflexivity).
  assert (ids t' = o :: fids A1 ++ (ids k ++ ids n) ++ fids B1) as Eids' by (unfold t'; cbn [ids]; fold (fids (A1 ++ k' :: B1)); rewrite fids_app, <- Ek; reflexivity).
  rewrite Eids in G2. destruct (forest_mid _ _ _ _ Gf) as [Gk GB]. pose proof G2 as G2'. apply NoDup_cons_iff in G2' as [N0 N1]. apply NoDup_app_iff in N1 as (NA & N2 & NA2). apply NoDup_app_iff in N2 as (Nk & NB & NkB).
  pose proof (tree_ctx _ _ _ _ _ _ Gk Nk) as Hc. destruct (array_add_fresh (j_heap s) h1 a None (first_id B1) ks n Hc Hf) as (h2 & E & Hst). pose proof (array_add_len _ _ _ _ E) as Hl.
  destruct Hst as (Hc2 & Hle & Hge & Hfr). destruct (ctx_tree _ _ _ _ _ _ Hc2) as [T1 T2]. fold k' in T1, T2. cbn in Hge. rewrite app_nil_r in Hge. rewrite Forall_forall in Hge.
  assert (forall q, q < length (j_heap s) -> ~ In q (ids k) -> cell h2 q = cell (j_heap s) q) as Hfr2. { intros q Hq Hn. apply Hfr; auto; intros G; apply Hn; [left|right]; auto. }
  assert (forall q, In q (ids t) -> q < length (j_heap s)) as Hlt.
  { intros q Hq. destruct (tree_cells (j_heap s) t None) with (q := q) as (x & Hx); [apply tree_at_eq; auto|auto|]. eapply cell_lt; eauto. }
  rewrite Eids in Hlt. exists h2, t'. split; [exact E|]. split; [|reflexivity]. destruct (ends_swap A1 k k' B1 eq_refl) as [E1 E2]. apply (inv_tree s F A i t); auto.
  - apply tree_at_eq. rewrite E1, E2. split.
    + rewrite Hfr2; [exact Gc|apply Hlt; left; auto|]. intros G. apply N0. apply in_or_app. right. apply in_or_app. auto.
    + apply (forest_swap (j_heap s) h2 A1 k); auto.
      * intros q Hq. apply Hfr2; [apply Hlt; right; apply in_or_app; auto|]. intros G. apply (NA2 q Hq). apply in_or_app. auto.
      * apply (forest_frame (j_heap s)); [|auto]. intros q Hq. apply Hfr2; [apply Hlt; right; apply in_or_app; right; apply in_or_app; auto|]. intros G. apply (NkB q G Hq).
  - rewrite Eids'. assert (forall q, In q (ids n) -> ~ In q (ids t)) as Hx. { intros q Hq G. rewrite Eids in G. apply Hlt in G. apply Hge in Hq. lia. }
    rewrite Eids in Hx. constructor.
    + intros G. apply in_app_or in G as [G|G]; [apply N0, in_or_app; auto|]. apply in_app_or in G as [G|G]; [|apply N0, in_or_app; right; apply in_or_app; auto].
      apply in_app_or in G as [G|G]; [apply N0, in_or_app; right; apply in_or_app; auto|]. apply (Hx o G). left. auto.
    + apply NoDup_app_iff. split; [auto|]. split.
      * apply NoDup_app_iff. rewrite Ek in T2. split; [auto|]. split; [auto|]. intros q Hq Hq2. apply in_app_or in Hq as [Hq|Hq]; [exact (NkB q Hq Hq2)|]. apply (Hx q Hq). right. apply in_or_app. right. apply in_or_app. auto.
      * intros q Hq Hq2. apply in_app_or in Hq2 as [Hq2|Hq2]; [apply in_app_or in Hq2 as [Hq2|Hq2]|].
        -- apply (NA2 q Hq). apply in_or_app. auto.
        -- apply (Hx q Hq2). right. apply in_or_app. auto.
        -- apply (NA2 q Hq). apply in_or_app. auto.
  - unfold t'. cbn [strip gen]. f_equal. exact Hm.
  - intros q Hq Hn. apply Hfr2; auto. intros G. apply Hn. rewrite Eids. right. apply in_or_app. right. apply in_or_app. auto.
  - intros q. rewrite Eids, Eids'. intros [->|Hq]; [left; auto|right]. apply in_app_or in Hq as [Hq|Hq]; [apply in_or_app; auto|]. apply in_or_app. right. apply in_app_or in Hq as [Hq|Hq]; apply in_or_app; [left; apply in_or_app|]; auto.
  - intros q. rewrite Eids, Eids'. intros [->|Hq]; [left; left; auto|]. apply in_app_or in Hq as [Hq|Hq]; [left; right; apply in_or_app; auto|]. apply in_app_or in Hq as [Hq|Hq].
    + apply in_app_or in Hq as [Hq|Hq]; [left; right; apply in_or_app; right; apply in_or_app; auto|right; auto].
    + left. right. apply in_or_app. right. apply in_or_app. auto.
  - intros q Hq. rewrite Eids'. right. apply in_or_app. right. apply in_or_app. left. apply in_or_app. right. apply Hfill. lia.
Qed.

(** ** Finding the array *)
Lemma append_split key v m1 w m2 : (forall x, In x m1 -> fst x <> key) -> append_to key v (m1 ++ (key, w) :: m2) =
  m1 ++ match w with JArr vs => (key, JArr (vs ++ [v])) :: m2 | _ => (key, w) :: m2 ++ [(key, JArr [v])] end.
Proof.
  intros H. induction m1 as [|[k x] m1 IH]; cbn [app append_to].
  - destruct (list_eq_dec N.eq_dec key key); [|congruence]. destruct w; reflexivity.
  - destruct (list_eq_dec N.eq_dec k key) as [E|E]; [exfalso; apply (H (k, x)); [left; auto|auto]|]. f_equal. apply IH. intros y Hy. apply H. right. auto.
Qed.
Lemma append_none key v ms : (forall x, In x ms -> fst x <> key) -> append_to key v ms = ms ++ [(key, JArr [v])].
Proof.
  intros H. induction ms as [|[k x] m1 IH]; cbn [app append_to]; [reflexivity|].
  destruct (list_eq_dec N.eq_dec k key) as [E|E]; [exfalso; apply (H (k, x)); [left; auto|auto]|]. f_equal. apply IH. intros y Hy. apply H. right. auto.
Qed.
Lemma gmem_app a b : gmem (a ++ b) = gmem a ++ gmem b.
Proof. apply flat_map_app. Qed.

Lemma find_loop h key ms : forall ts, forest_at h ts -> map strip ts = gmem ms -> forall fuel, length ts < fuel ->
  (object_get_loop fuel h (first_id ts) key = Ok None /\ forall x, In x ms -> fst x <> key) \/
  (exists A1 k B1 q Q m1 w m2, object_get_loop fuel h (first_id ts) key = Ok (Some q) /\ hget h q = Ok Q /\ jright Q = Some (iid k) /\
     ts = A1 ++ k :: B1 /\ ms = m1 ++ (key, w) :: m2 /\ (forall x, In x m1 -> fst x <> key) /\
     map strip A1 = gmem m1 ++ [GT JNT_STRING (Some key) []] /\ strip k = gen w /\ map strip B1 = gmem m2).
Proof.
  induction ms as [|[k v] ms IH]; intros ts Hf Hm fuel Hl.
  - destruct ts; [|discriminate]. left. split; [|intros x []]. destruct fuel; [cbn in Hl; lia|reflexivity].
  - cbn in Hm. destruct ts as [|[p pty ptx pks] [|t ts]]; try discriminate. injection Hm as Hty Htx Hks Hm1 Hm2. subst ptx. destruct Hf as [Hf0 [Hf1 Hf2]].
    apply tree_at_eq in Hf0 as [Hc0 _]. destruct fuel as [|f]; [lia|]. cbn [object_get_loop first_id iid]. rewrite (proj2 (hget_cell _ _ _) Hc0). cbn [bind jtext jright first_id]. rewrite bytes_eq_spec.
    destruct (list_eq_dec N.eq_dec k key) as [->|Hn].
    + right. exists [IT p pty (Some key) pks], t, ts, p. eexists _, [], v, ms. split; [reflexivity|]. split; [apply hget_cell; eauto|]. split; [reflexivity|]. split; [reflexivity|]. split; [reflexivity|].
      split; [intros x []|]. split; [cbn; congruence|]. auto.
    + destruct (tree_root _ _ _ Hf1) as (n & En & Er). rewrite (proj2 (hget_cell _ _ _) En). cbn [bind]. rewrite Er.
      cbn [length] in Hl. destruct (IH ts Hf2 Hm2 f ltac:(lia)) as [[G1 G2]|(A1 & k1 & B1 & q & Q & m1 & w & m2 & G1 & G2 & G3 & G4 & G5 & G6 & G7 & G8 & G9)].
      * left. split; [auto|]. intros x [<-|Hx]; auto.
      * right. exists (IT p pty (Some k) pks :: t :: A1), k1, B1, q, Q, ((k, v) :: m1), w, m2. split; [auto|]. split; [auto|]. split; [auto|]. split; [cbn; congruence|]. split; [cbn; congruence|].
        split; [intros x [<-|Hx]; auto|]. split; [|auto]. cbn [map strip app]. rewrite G7, Hty, Hks, Hm1. reflexivity.
Qed.

Lemma find_array h r o ks ms key v : tree_at h r (IT o JNT_OBJECT None ks) -> map strip ks = gmem ms -> length ks <= length h ->
  (object_get h (Some o) key JNT_ARRAY = Ok None /\ append_to key v ms = ms ++ [(key, JArr [v])]) \/
  (exists A1 a kk B1, object_get h (Some o) key JNT_ARRAY = Ok (Some a) /\ ks = A1 ++ IT a JNT_ARRAY None kk :: B1 /\
     forall n, strip n = gen v -> map strip (A1 ++ IT a JNT_ARRAY None (kk ++ [n]) :: B1) = gmem (append_to key v ms)).
Proof.
  intros Hat Hm Hl. apply tree_at_eq in Hat as [Hc Hf]. unfold object_get. cbn [node_is]. rewrite (proj2 (hget_cell _ _ _) Hc). cbn [bind jtype jdown]. rewrite N.eqb_refl.
  destruct (find_loop h key ms ks Hf Hm (S (S (length h))) ltac:(lia)) as [[G1 G2]|(A1 & k1 & B1 & q & Q & m1 & w & m2 & G1 & G2 & G3 & G4 & G5 & G6 & G7 & G8 & G9)].
  - left. rewrite G1. cbn [bind]. split; [reflexivity|]. apply append_none. auto.
  - rewrite G1. cbn [bind]. rewrite G2. cbn [bind]. rewrite G3. assert (exists rk, tree_at h rk k1) as (rk & Hk). { rewrite G4 in Hf. apply forest_mid in Hf as [Hf _]. eauto. }
    pose proof (pick_tree h rk k1 w JNT_ARRAY Hk G8) as Hp. unfold pick in Hp. rewrite Hp. rewrite G5, append_split by auto. destruct w as [x|vs|x|x|x| | |];
      try (left; split; [reflexivity|]; rewrite <- app_assoc; reflexivity).
    right. destruct k1 as [a aty atx kk]. cbn in G8. injection G8 as -> -> Hkk. exists A1, a, kk, B1. split; [reflexivity|]. split; [auto|]. intros n Hn.
    rewrite map_app. cbn [map strip]. rewrite G7, G9, map_app, Hkk. cbn [map]. rewrite Hn, gmem_app. cbn [gmem flat_map fst snd gen app]. rewrite <- app_assoc, map_app. reflexivity.
Qed.

Lemma add_ok s F A i key v : inv s F A -> (0 <= i < 32)%Z -> exists s' F', log_add s i key (fun h => build h v) = Ok s' /\
  inv s' F' (set A i (append_to key (built v) (A i))) /\ (forall j u, F j = Some u -> exists u', F' j = Some u' /\ iid u' = iid u).
Proof.
  intros Hi Hr. destruct (get_ok s F A i Hi Hr) as (s1 & F1 & t & E1 & Hi1 & Et & Ht & Ho & Hs). unfold log_add. rewrite E1. cbn [bind].
  pose proof Hi1 as (Hown & _ & H3 & _). pose proof (H3 i) as G. rewrite Et in G. destruct G as (G1 & G2 & G3). destruct (split_obj _ _ G3) as (ks & Et' & Hk). rewrite Et' in G1.
  assert (length ks <= length (j_heap s1)) as Hlen. { rewrite Et' in G2. pose proof (kids_len _ _ _ G1 G2) as Hlen. cbn [ids length] in Hlen. fold (fids ks) in Hlen. pose proof (ids_len_forest ks). lia. }
  assert (forall F2 t2, iid t2 = iid t -> (forall j, j <> i -> F2 j = F1 j) -> forall j u, F j = Some u -> exists u', set F2 i (Some t2) j = Some u' /\ iid u' = iid u) as Hstable.
  { intros F2 t2 Eid Ho2 j u Eu. destruct (Z.eq_dec j i) as [->|Hj]; [rewrite set_eq; exists t2; rewrite (Hs u Eu); auto|]. rewrite set_neq by auto. rewrite Ho2, Ho by auto. eauto. }
  destruct (find_array (j_heap s1) None (iid t) ks (A i) key (built v) G1 Hk Hlen) as [[EG EA]|(A1 & a & kk & B1 & EG & Eks & Hms)]; rewrite EG; cbn [bind].
  - unfold new_array, node_new, halloc. set (h0 := j_heap s1 ++ [Some (mkNode JNT_ARRAY None None None None)]). set (a := length (j_heap s1)).
    pose proof (fresh_new (j_heap s1) JNT_ARRAY None) as Hf0. fold a h0 in Hf0. unfold log_value. rewrite (get_again (JL (j_tab s1) h0) F1 i t Hown Hr Et Ht). cbn [bind j_heap].
    destruct (put_ok s1 F1 A i t h0 (IT a JNT_ARRAY None []) (A i) key (JArr []) Hi1 Et eq_refl Hf0 eq_refl) as (h1 & t1 & ks1 & E3 & Hi2 & Eid & Et1 & _).
    { intros q Hq. unfold h0 in Hq. rewrite app_length in Hq. cbn [length] in Hq. left. unfold a. lia. }
    cbn [iid] in E3. rewrite E3. cbn [bind j_heap j_tab]. destruct (build_fill h1 v) as (h2 & n & E4 & Hf & Hn & Hfl). rewrite E4. cbn [bind].
    assert (strip t1 = gen (JObj (A i ++ [(key, JArr [])]))) as Hs1. { pose proof Hi2 as (_ & _ & G & _). specialize (G i). rewrite !set_eq in G. apply G. }
    destruct (arr_ok (JL (j_tab s1) h1) (set F1 i (Some t1)) (set A i (A i ++ [(key, JArr [])])) i (iid t) ks1 a [] [] h2 n (append_to key (built v) (A i)) Hi2) as (h3 & t3 & E5 & Hi3 & Eid3).
    + rewrite set_eq, Et1. reflexivity.
    + exact Hf.
    + exact Hfl.
    + rewrite EA. rewrite Et1 in Hs1. cbn [strip gen] in Hs1. injection Hs1 as Hs1. rewrite map_app in Hs1 |- *. rewrite flat_map_app in Hs1. cbn [map strip flat_map fst snd gen app] in Hs1 |- *.
      rewrite Hn, gmem_app. cbn [gmem flat_map fst snd gen app map]. change (?x :: ?y :: nil) with ([x] ++ [y]) in Hs1 |- *. rewrite app_assoc in Hs1 |- *. apply app_inj_tail in Hs1 as [Hs1 _]. rewrite Hs1. reflexivity.
    + rewrite E5. cbn [bind]. eexists _, _. split; [reflexivity|]. split.
      * eapply inv_ext; [|exact Hi3]. intros j. unfold set. destruct (j =? i)%Z; reflexivity.
      * apply Hstable; [auto|]. intros j Hj. apply set_neq. auto.
  - destruct (build_fill (j_heap s1) v) as (h2 & n & E4 & Hf & Hn & Hfl). rewrite E4. cbn [bind].
    destruct (arr_ok s1 F1 A i (iid t) A1 a kk B1 h2 n (append_to key (built v) (A i)) Hi1) as (h3 & t3 & E5 & Hi3 & Eid3); auto.
    { rewrite Et, Et', Eks. reflexivity. }
    rewrite E5. cbn [bind]. eexists _, _. split; [reflexivity|]. split; [exact Hi3|]. apply Hstable; auto.
Qed.
