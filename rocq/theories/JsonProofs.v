(** Proofs about JSON trees in the heap and about the parser. *)
From Verif Require Import Base BaseLemmas Heap StrModel StrSpec StrProofs LexModel LexSpec LexProofs JsonModel JsonSpec.
Local Open Scope nat_scope.

Section JsonInd.
Variable P : json -> Prop.
Hypothesis Hobj : forall ms, Forall (fun m => P (snd m)) ms -> P (JObj ms).
Hypothesis Harr : forall vs, Forall P vs -> P (JArr vs).
Hypothesis Hstr : forall s, P (JStr s).
Hypothesis Hint : forall s, P (JInt s).
Hypothesis Hfp : forall s, P (JFp s).
Hypothesis Htrue : P JTrue.
Hypothesis Hfalse : P JFalse.
Hypothesis Hnull : P JNull.
Fixpoint json_ind' (j : json) : P j :=
  match j with
  | JObj ms => Hobj ms ((fix go (l : list (list N * json)) : Forall (fun m => P (snd m)) l :=
                           match l with [] => Forall_nil _ | m :: l' => Forall_cons m (json_ind' (snd m)) (go l') end) ms)
  | JArr vs => Harr vs ((fix go (l : list json) : Forall P l :=
                           match l with [] => Forall_nil _ | m :: l' => Forall_cons m (json_ind' m) (go l') end) vs)
  | JStr s => Hstr s
  | JInt s => Hint s
  | JFp s => Hfp s
  | JTrue => Htrue
  | JFalse => Hfalse
  | JNull => Hnull
  end.
End JsonInd.

Section ItInd.
Variable P : itree -> Prop.
Hypothesis H : forall p ty tx ks, Forall P ks -> P (IT p ty tx ks).
Fixpoint itree_ind' (t : itree) : P t :=
  match t with
  | IT p ty tx ks => H p ty tx ks ((fix go (l : list itree) : Forall P l :=
                       match l with [] => Forall_nil _ | m :: l' => Forall_cons m (itree_ind' m) (go l') end) ks)
  end.
End ItInd.

(** ** chains of siblings and add_child *)
Fixpoint chain (h : heap node) (ps : list nat) : Prop :=
  match ps with
  | [] => True
  | p :: ps' => (exists n, cell h p = Some n /\ jright n = hd_error ps') /\ chain h ps'
  end.

Lemma chain_ext h h' ps : (forall p n, In p ps -> cell h p = Some n -> exists n', cell h' p = Some n' /\ jright n' = jright n) ->
  chain h ps -> chain h' ps.
Proof.
  induction ps as [|p ps IH]; intros He Hc; [exact I|]. destruct Hc as [(n & H1 & H2) Hc]. split.
  - destruct (He p n (or_introl eq_refl) H1) as (n' & E1 & E2). exists n'. split; congruence.
  - apply IH; auto. intros q m Hq. apply He. right. auto.
Qed.

Lemma lset_same {A} (l : list A) i a : nth_error l i = Some a -> lset l i a = l.
Proof. revert i. induction l as [|x l IH]; intros [|i] H; cbn in *; try congruence; rewrite IH; auto. Qed.
Lemma lset_twice {A} (l : list A) i a b : lset (lset l i a) i b = lset l i b.
Proof. revert i. induction l as [|x l IH]; intros [|i]; cbn; try congruence; rewrite IH; auto. Qed.
Lemma cell_nth {A} (h : heap A) p a : cell h p = Some a -> nth_error h p = Some (Some a).
Proof. unfold cell. destruct (nth_error h p) as [[x|]|]; congruence. Qed.

Lemma last_dflt {A} (ps : list A) : forall q a b, last (q :: ps) a = last (q :: ps) b.
Proof. induction ps as [|r ps IH]; intros q a b; [reflexivity|]. change (last (r :: ps) a = last (r :: ps) b). apply IH. Qed.
Lemma last_cons {A} (p q : A) ps : last (p :: q :: ps) p = last (q :: ps) q.
Proof. change (last (q :: ps) p = last (q :: ps) q). apply last_dflt. Qed.

Lemma last_loop_spec fuel : forall h c P p ps, cell h c = Some P -> jlast P = Some p -> chain h (p :: ps) -> length ps < fuel ->
  last_loop fuel h c = Ok (lset h c (Some (set_last P (Some (last (p :: ps) p))))).
Proof.
  induction fuel as [|f IH]; intros h c P p ps HP Hl Hc Hf; [lia|]. cbn [last_loop].
  rewrite (proj2 (hget_cell h c P) HP). cbn [bind]. rewrite Hl.
  destruct Hc as [(n & Hn & Hr) Hc]. rewrite (proj2 (hget_cell h p n) Hn). cbn [bind]. rewrite Hr. destruct ps as [|q ps]; cbn [hd_error].
  - f_equal. symmetry. apply lset_same. destruct P. unfold set_last. cbn in *. subst. apply cell_nth. auto.
  - rewrite (hset_ok h c P) by auto. cbn [bind]. pose proof (cell_lt _ _ _ HP) as Hlt.
    rewrite (IH _ c (set_last P (Some q)) q ps).
    + rewrite lset_twice, last_cons. reflexivity.
    + rewrite cell_lset, Nat.eqb_refl by auto. reflexivity.
    + reflexivity.
    + apply (chain_ext h); auto. intros x m Hx Hm. rewrite cell_lset by auto. destruct (Nat.eqb_spec x c) as [->|]; [|eauto].
      eexists. split; [reflexivity|]. rewrite HP in Hm. injection Hm as <-. reflexivity.
    + cbn in Hf. lia.
Qed.

Lemma add_child_first h c P n ns : cell h c = Some P -> jlast P = None -> chain h (n :: ns) -> length ns <= length h ->
  add_child h c n = Ok (lset h c (Some (mkNode (jtype P) (jtext P) (jright P) (Some n) (Some (last (n :: ns) n))))).
Proof.
  intros HP Hl Hc Hf. unfold add_child. rewrite (proj2 (hget_cell h c P) HP). cbn [bind]. rewrite Hl.
  rewrite (hset_ok h c P) by auto. cbn [bind]. pose proof (cell_lt _ _ _ HP) as Hlt.
  rewrite (last_loop_spec _ _ c (set_last (set_down P (Some n)) (Some n)) n ns).
  - rewrite lset_twice. reflexivity.
  - rewrite cell_lset, Nat.eqb_refl by auto. reflexivity.
  - reflexivity.
  - apply (chain_ext h); auto. intros x m Hx Hm. rewrite cell_lset by auto. destruct (Nat.eqb_spec x c) as [->|]; [|eauto].
    eexists. split; [reflexivity|]. rewrite HP in Hm. injection Hm as <-. reflexivity.
  - rewrite lset_length. lia.
Qed.

Lemma add_child_more h c P l L n ns : cell h c = Some P -> jlast P = Some l -> cell h l = Some L -> l <> c -> ~ In l (n :: ns) ->
  chain h (n :: ns) -> length ns <= length h ->
  add_child h c n = Ok (lset (lset h l (Some (set_right L (Some n)))) c (Some (set_last P (Some (last (n :: ns) n))))).
Proof.
  intros HP Hl HL Hne Hni Hc Hf. unfold add_child. rewrite (proj2 (hget_cell h c P) HP). cbn [bind]. rewrite Hl.
  rewrite (proj2 (hget_cell h l L) HL). cbn [bind]. rewrite (hset_ok h l L) by auto. cbn [bind].
  pose proof (cell_lt _ _ _ HP) as Hlt. pose proof (cell_lt _ _ _ HL) as Hlt'.
  rewrite (last_loop_spec _ _ c P l (n :: ns)).
  - rewrite last_cons. reflexivity.
  - rewrite cell_lset by auto. replace (c =? l) with false by lia. auto.
  - auto.
  - split.
    + eexists. rewrite cell_lset, Nat.eqb_refl by auto. split; reflexivity.
    + apply (chain_ext h); auto. intros x m Hx Hm. rewrite cell_lset by auto. destruct (Nat.eqb_spec x l) as [->|]; [contradiction|eauto].
  - rewrite lset_length. cbn [length]. lia.
Qed.

(** ** trees *)
Fixpoint forest_at (h : heap node) (ts : list itree) : Prop :=
  match ts with [] => True | t :: ts' => tree_at h (first_id ts') t /\ forest_at h ts' end.
Lemma tree_at_eq h r p ty tx ks : tree_at h r (IT p ty tx ks) <->
  cell h p = Some (mkNode ty tx r (first_id ks) (last_id ks)) /\ forest_at h ks.
Proof.
  cbn [tree_at]. assert (forall ts, ((fix siblings (ts : list itree) : Prop :=
       match ts with [] => True | t :: ts' => tree_at h (first_id ts') t /\ siblings ts' end) ts) <-> forest_at h ts) as E.
  { induction ts as [|t ts IH]; cbn; [tauto|]. rewrite IH. tauto. }
  rewrite E. tauto.
Qed.
Definition fids (ts : list itree) : list nat := flat_map ids ts.
Lemma fids_app a b : fids (a ++ b) = fids a ++ fids b.
Proof. apply flat_map_app. Qed.

Lemma tree_frame h h' t : forall r, (forall q, In q (ids t) -> cell h' q = cell h q) -> tree_at h r t -> tree_at h' r t.
Proof.
  induction t as [p ty tx ks IH] using itree_ind'. intros r He. rewrite !tree_at_eq. intros [Hc Hf]. split.
  - rewrite He; auto. cbn. auto.
  - assert (forall q, In q (fids ks) -> cell h' q = cell h q) as He' by (intros q Hq; apply He; cbn; auto).
    clear Hc He. induction IH as [|t ts Ht Hts IH]; [exact I|]. cbn in Hf. destruct Hf as [Hf1 Hf2]. split.
    + apply Ht; auto. intros q Hq. apply He'. cbn. apply in_or_app. auto.
    + apply IH; auto. intros q Hq. apply He'. cbn. apply in_or_app. auto.
Qed.
Lemma forest_frame h h' ts : (forall q, In q (fids ts) -> cell h' q = cell h q) -> forest_at h ts -> forest_at h' ts.
Proof.
  induction ts as [|t ts IH]; intros He Hf; [exact I|]. destruct Hf as [H1 H2]. split.
  - apply (tree_frame h); auto. intros q Hq. apply He. cbn. apply in_or_app. auto.
  - apply IH; auto. intros q Hq. apply He. cbn. apply in_or_app. auto.
Qed.

Lemma tree_cells h t : forall r, tree_at h r t -> forall q, In q (ids t) -> exists n, cell h q = Some n.
Proof.
  induction t as [p ty tx ks IH] using itree_ind'. intros r. rewrite tree_at_eq. intros [Hc Hf] q [<-|Hq]; [eauto|].
  clear Hc. induction IH as [|t ts Ht Hts IH]; [destruct Hq|]. destruct Hf as [H1 H2]. cbn in Hq. apply in_app_or in Hq as [Hq|Hq]; eauto.
Qed.
Lemma forest_cells h ts : forest_at h ts -> forall q, In q (fids ts) -> exists n, cell h q = Some n.
Proof.
  induction ts as [|t ts IH]; intros Hf q Hq; [destruct Hq|]. destruct Hf as [H1 H2]. cbn in Hq. apply in_app_or in Hq as [Hq|Hq]; eauto.
  eapply tree_cells; eauto.
Qed.
Lemma forest_lt h ts q : forest_at h ts -> In q (fids ts) -> q < length h.
Proof. intros H Hq. destruct (forest_cells h ts H q Hq) as (n & Hn). eapply cell_lt; eauto. Qed.

Lemma tree_root h r t : tree_at h r t -> exists n, cell h (iid t) = Some n /\ jright n = r.
Proof. destruct t as [p ty tx ks]. rewrite tree_at_eq. intros [H _]. cbn. eexists. split; [eauto|reflexivity]. Qed.
Lemma iid_in t : In (iid t) (ids t).
Proof. destruct t. cbn. auto. Qed.
Lemma forest_chain h ts : forest_at h ts -> chain h (map iid ts).
Proof.
  induction ts as [|t ts IH]; intros Hf; [exact I|]. destruct Hf as [H1 H2]. split; [|auto].
  destruct (tree_root _ _ _ H1) as (n & E1 & E2). exists n. split; auto. rewrite E2. destruct ts; reflexivity.
Qed.
Lemma tree_right h h' t r r' n : tree_at h r t -> NoDup (ids t) -> cell h (iid t) = Some n -> cell h' (iid t) = Some (set_right n r') ->
  (forall q, In q (ids t) -> q <> iid t -> cell h' q = cell h q) -> tree_at h' r' t.
Proof.
  destruct t as [p ty tx ks]. rewrite !tree_at_eq. cbn [iid]. intros [Hc Hf] Hnd Hn Hn' He. split.
  - rewrite Hc in Hn. injection Hn as <-. rewrite Hn'. reflexivity.
  - apply (forest_frame h); auto. cbn in Hnd. apply NoDup_cons_iff in Hnd as [Hnd _]. intros q Hq. apply He; [cbn; auto|].
    intros ->. contradiction.
Qed.

Lemma last_id_snoc ks t : last_id (ks ++ [t]) = Some (iid t).
Proof. unfold last_id. rewrite rev_app_distr. reflexivity. Qed.
Lemma first_id_app a b : first_id (a ++ b) = match a with [] => first_id b | t :: _ => Some (iid t) end.
Proof. destruct a; reflexivity. Qed.
Lemma last_id_app a t b : last_id (a ++ t :: b) = Some (last (map iid (t :: b)) (iid t)).
Proof.
  revert a t. induction b as [|u b IH]; intros a t; [rewrite last_id_snoc; reflexivity|].
  change (map iid (t :: u :: b)) with (iid t :: iid u :: map iid b). rewrite last_cons. replace (a ++ t :: u :: b) with ((a ++ [t]) ++ u :: b) by (rewrite <- app_assoc; reflexivity).
  rewrite IH. reflexivity.
Qed.
Lemma chain_app_r h a b : forest_at h (a ++ b) -> forest_at h b.
Proof. induction a as [|t a IH]; cbn; auto. intros [_ H]. auto. Qed.
Lemma forest_app_join h a b : forest_at h (a ++ b) <-> (forest_at h b /\ (fix go (ts : list itree) := match ts with [] => True | t :: ts' => tree_at h (first_id (ts' ++ b)) t /\ go ts' end) a).
Proof. induction a as [|t a IH]; cbn; [tauto|]. rewrite IH. tauto. Qed.

(** The node [c] with children [ks]. *)
Definition ctx (h : heap node) (c : nat) (ty : N) (tx : option (list N)) (right : option nat) (ks : list itree) : Prop :=
  cell h c = Some (mkNode ty tx right (first_id ks) (last_id ks)) /\ forest_at h ks /\ NoDup (c :: fids ks).
Lemma tree_ctx h r p ty tx ks : tree_at h r (IT p ty tx ks) -> NoDup (ids (IT p ty tx ks)) -> ctx h p ty tx r ks.
Proof. rewrite tree_at_eq. cbn [ids]. intros [H1 H2] H3. repeat split; auto. Qed.
Lemma ctx_tree h r p ty tx ks : ctx h p ty tx r ks -> tree_at h r (IT p ty tx ks) /\ NoDup (ids (IT p ty tx ks)).
Proof. rewrite tree_at_eq. cbn [ids]. intros (H1 & H2 & H3). repeat split; auto. Qed.

Lemma NoDup_len h (L : list nat) : NoDup L -> (forall q, In q L -> q < h) -> length L <= h.
Proof.
  intros Hn Hl. rewrite <- (seq_length h 0). apply NoDup_incl_length; auto. intros q Hq. apply in_seq. specialize (Hl q Hq). lia.
Qed.
Lemma ids_len_forest ts : length ts <= length (fids ts).
Proof. unfold fids. induction ts as [|t ts IH]; cbn [length flat_map]; [lia|]. rewrite app_length. destruct t; cbn [ids length]. lia. Qed.

(** Adding the sibling trees [ts] (first one [t]) to [c]. *)
Lemma add_trees h c ty tx right ks t ts : ctx h c ty tx right ks -> forest_at h (t :: ts) -> NoDup (c :: fids (ks ++ t :: ts)) ->
  exists h', add_child h c (iid t) = Ok h' /\ length h' = length h /\ ctx h' c ty tx right (ks ++ t :: ts) /\
    (forall q, q <> c -> Some q <> last_id ks -> cell h' q = cell h q).
Proof.
  intros (Hc & Hks & Hnd) Hts Hnd'. pose proof (forest_chain _ _ Hts) as Hch.
  assert (length (map iid ts) <= length h) as Hlen.
  { rewrite map_length. transitivity (length (fids (t :: ts))); [pose proof (ids_len_forest (t :: ts)); cbn [length] in *; lia|].
    apply NoDup_len; [|intros q Hq; eapply forest_lt; eauto]. apply NoDup_cons_iff in Hnd' as [_ Hnd']. rewrite fids_app in Hnd'.
    apply NoDup_app_iff in Hnd' as (_ & H & _). auto. }
  pose proof (cell_lt _ _ _ Hc) as Hlt. cbn [map] in Hch.
  apply NoDup_cons_iff in Hnd' as [Hcn Hnd']. rewrite fids_app in Hcn, Hnd'.
  assert (ks = [] \/ exists ks' k, ks = ks' ++ [k]) as [->|(ks' & k & ->)].
  { destruct ks as [|k0 ks0]; [auto|right]. destruct (@exists_last _ (k0 :: ks0)) as (a & b & ->); [discriminate|eauto]. }
  - eexists. split; [eapply add_child_first; eauto|]. rewrite lset_length. split; [auto|]. cbn [app]. split; [|].
    + split; [|split].
      * rewrite cell_lset, Nat.eqb_refl by auto. cbn [jtype jtext jright first_id]. do 2 f_equal. symmetry. apply (last_id_app [] t ts).
      * apply (forest_frame h); auto. intros q Hq. rewrite cell_lset by auto. destruct (Nat.eqb_spec q c) as [->|]; auto.
        exfalso. apply Hcn. exact Hq.
      * constructor; auto.
    + intros q Hq _. rewrite cell_lset by auto. replace (q =? c) with false by lia. reflexivity.
  - rewrite last_id_snoc in *. apply forest_app_join in Hks as Hks0. destruct Hks0 as [[Hk _] Hks'].
    destruct (tree_root _ _ _ Hk) as (K & HK & HKr).
    assert (In (iid k) (fids (ks' ++ [k]))) as Hkin by (rewrite fids_app; apply in_or_app; right; cbn; apply in_or_app; left; apply iid_in).
    assert (iid k <> c) as Hkc. { intros E. apply Hcn. apply in_or_app. left. rewrite <- E. auto. }
    pose proof (cell_lt _ _ _ HK) as HltK.
    apply NoDup_app_iff in Hnd' as (Hn1 & Hn2 & Hn3).
    assert (~ In (iid k) (map iid (t :: ts))) as Hkm.
    { intros E. apply in_map_iff in E as (u & Eu & Hu). apply (Hn3 (iid k) Hkin). unfold fids. apply in_flat_map. exists u. split; auto. rewrite <- Eu. apply iid_in. }
    eexists. split; [apply (add_child_more h c (mkNode ty tx right (first_id (ks' ++ [k])) (Some (iid k))) (iid k) K (iid t) (map iid ts)); auto|]. rewrite !lset_length. split; [auto|].
    assert (forall q, cell (lset (lset h (iid k) (Some (set_right K (Some (iid t))))) c (Some (set_last (mkNode ty tx right (first_id (ks' ++ [k])) (Some (iid k))) (Some (last (iid t :: map iid ts) (iid t)))))) q
      = if q =? c then Some (mkNode ty tx right (first_id (ks' ++ [k])) (Some (last (iid t :: map iid ts) (iid t))))
        else if q =? iid k then Some (set_right K (Some (iid t))) else cell h q) as Hcell.
    { intros q. rewrite cell_lset by (rewrite lset_length; auto). rewrite cell_lset by auto. reflexivity. }
    match type of Hcell with forall q, cell ?H _ = _ => set (h' := H) in * end.
    split; [|].
    + split; [|split].
      * rewrite Hcell, Nat.eqb_refl. do 2 f_equal.
        -- rewrite !first_id_app. destruct ks'; reflexivity.
        -- rewrite last_id_app. reflexivity.
      * assert (forest_at h' (t :: ts)) as Hts'.
        { apply (forest_frame h); auto. intros q Hq. rewrite Hcell. destruct (Nat.eqb_spec q c) as [->|]; [exfalso; apply Hcn, in_or_app; auto|].
          destruct (Nat.eqb_spec q (iid k)) as [->|]; auto. exfalso. apply (Hn3 (iid k)); auto. }
        rewrite <- app_assoc. apply forest_app_join. split.
        -- split; [|exact Hts']. cbn [app first_id]. rewrite fids_app in Hn1. apply NoDup_app_iff in Hn1 as (_ & Hn1 & _). cbn in Hn1. rewrite app_nil_r in Hn1.
           apply (tree_right h h' k None (Some (iid t)) K Hk); auto.
           ++ rewrite Hcell. replace (iid k =? c) with false by lia. rewrite Nat.eqb_refl. reflexivity.
           ++ intros q Hq Hqk. rewrite Hcell. replace (q =? iid k) with false by lia. destruct (Nat.eqb_spec q c) as [->|]; auto.
              exfalso. apply Hcn. apply in_or_app. left. rewrite fids_app. apply in_or_app. right. cbn. rewrite app_nil_r. auto.
        -- rewrite fids_app in Hn1. apply NoDup_app_iff in Hn1 as (Hn1 & _ & Hn4). cbn [app].
           assert (forall u, In u ks' -> forall q, In q (ids u) -> cell h' q = cell h q) as Hfr.
           { intros u Hu q Hq. assert (In q (fids ks')) as Hq' by (apply in_flat_map; eauto). rewrite Hcell.
             destruct (Nat.eqb_spec q c) as [->|]; [exfalso; apply Hcn, in_or_app; left; rewrite fids_app; apply in_or_app; auto|].
             destruct (Nat.eqb_spec q (iid k)) as [->|]; auto. exfalso. apply (Hn4 (iid k)); auto. cbn. apply in_or_app. left. apply iid_in. }
           clearbody h'. clear - Hks' Hfr. induction ks' as [|u ks' IH]; [exact I|]. destruct Hks' as [H1 H2]. split.
           ++ apply (tree_frame h); [apply Hfr; left; auto|]. rewrite first_id_app in *. destruct ks'; auto.
           ++ apply IH; auto. intros w Hw. apply Hfr. right. auto.
      * constructor; rewrite (fids_app (ks' ++ [k])); [exact Hcn|]. apply NoDup_app_iff. auto.
    + intros q Hq Hq'. rewrite Hcell. replace (q =? c) with false by lia. destruct (Nat.eqb_spec q (iid k)) as [->|]; [congruence|auto].
Qed.
