(** Constructors, lookups, release and bundling. *)
From Verif Require Import Base BaseLemmas Heap StrModel LexModel LexSpec CsvModel DfModel DfCsvProofs JsonModel JsonSpec JsonProofs JsonParseProofs.
Local Open Scope nat_scope.

(** ** Adding a tree made in fresh memory *)
Definition fresh_tree (h h' : heap node) (r : option nat) (t : itree) : Prop :=
  tree_at h' r t /\ NoDup (ids t) /\ Forall (fun q => length h <= q) (ids t) /\ length h <= length h' /\ (forall q, q < length h -> cell h' q = cell h q).

Lemma fresh_new h ty tx : fresh_tree h (h ++ [Some (mkNode ty tx None None None)]) None (IT (length h) ty tx []).
Proof.
  split; [apply tree_at_eq; split; [apply cell_alloc_new|exact I]|]. split; [repeat constructor; intros []|]. split; [cbn; auto|]. rewrite app_length. split; [lia|].
  intros q Hq. apply cell_app_old. auto.
Qed.
Lemma ctx_frame h h' c ty tx r ks : ctx h c ty tx r ks -> (forall q, q < length h -> cell h' q = cell h q) -> ctx h' c ty tx r ks.
Proof.
  intros H Hf. pose proof H as (H1 & H2 & H3). split; [|split; auto].
  - rewrite Hf; auto. eapply cell_lt; eauto.
  - apply (forest_frame h); auto. intros q Hq. apply Hf. eapply forest_lt; eauto.
Qed.
Lemma last_in ks q : Some q = last_id ks -> In q (fids ks).
Proof.
  unfold last_id. destruct (rev ks) as [|k r] eqn:E; [discriminate|]. intros G. injection G as ->. apply in_flat_map. exists k.
  split; [apply in_rev; rewrite E; left; auto|apply iid_in].
Qed.

Lemma add_fresh h h1 c ty tx r ks t ts : ctx h c ty tx r ks -> forest_at h1 (t :: ts) -> NoDup (fids (t :: ts)) -> Forall (fun q => length h <= q) (fids (t :: ts)) ->
  length h <= length h1 -> (forall q, q < length h -> cell h1 q = cell h q) ->
  exists h2, add_child h1 c (iid t) = Ok h2 /\ step h h2 c ty tx r ks (t :: ts).
Proof.
  intros Hc Hf Hn Hg Hle Hold. pose proof (ctx_frame _ _ _ _ _ _ _ Hc Hold) as Hc1.
  destruct (add_trees h1 c ty tx r ks t ts Hc1 Hf) as (h2 & E & Hl & Hc2 & Hfr).
  - rewrite fids_app, app_comm_cons. apply NoDup_app_iff. split; [apply Hc|]. split; [auto|]. intros q Hq Hq2.
    pose proof (ctx_lt _ _ _ _ _ _ q Hc Hq). eapply Forall_forall in Hg; [|exact Hq2]. cbn in Hg. lia.
  - exists h2. split; [auto|]. split; [auto|]. split; [lia|]. split; [auto|]. intros q Hq Hqc Hqk. rewrite Hfr; auto. intros G. apply Hqk, last_in. auto.
Qed.

Lemma node_ty h c ty tx r ks : ctx h c ty tx r ks -> exists n, hget h c = Ok n /\ jtype n = ty /\ jdown n = first_id ks.
Proof. intros (H & _). eexists. split; [apply hget_cell; eauto|]. auto. Qed.

Lemma array_add_fresh h h1 a tx r ks t : ctx h a JNT_ARRAY tx r ks -> fresh_tree h h1 None t ->
  exists h2, array_add h1 a (iid t) = Ok h2 /\ step h h2 a JNT_ARRAY tx r ks [t].
Proof.
  intros Hc (H1 & H2 & H3 & H4 & H5). destruct (node_ty _ _ _ _ _ _ (ctx_frame _ _ _ _ _ _ _ Hc H5)) as (n & En & Ety & _).
  unfold array_add. rewrite En. cbn [bind]. rewrite Ety, N.eqb_refl. cbn [negb]. apply (add_fresh h h1); auto; try (cbn; rewrite app_nil_r; auto). split; [auto|exact I].
Qed.
Lemma object_add_fresh h h1 o tx r ks t name : ctx h o JNT_OBJECT tx r ks -> fresh_tree h h1 None t ->
  exists h2, object_add h1 o name (iid t) = Ok h2 /\ step h h2 o JNT_OBJECT tx r ks [IT (length h1) JNT_STRING (Some name) []; t].
Proof.
  intros Hc (H1 & H2 & H3 & H4 & H5). destruct (node_ty _ _ _ _ _ _ (ctx_frame _ _ _ _ _ _ _ Hc H5)) as (n & En & Ety & _).
  unfold object_add. rewrite En. cbn [bind]. rewrite Ety, N.eqb_refl. cbn [negb]. unfold new_string, node_new, halloc.
  set (h2 := h1 ++ [Some (mkNode JNT_STRING (Some name) None None None)]).
  assert (cell h2 (length h1) = Some (mkNode JNT_STRING (Some name) None None None)) as Hm by apply cell_alloc_new.
  rewrite (proj2 (hget_cell _ _ _) Hm). cbn [bind]. erewrite hset_ok by eauto. cbn [bind]. set (h3 := lset h2 (length h1) _).
  assert (length h2 = S (length h1)) as Hl2 by (unfold h2; rewrite app_length; cbn; lia).
  assert (forall q, cell h3 q = if q =? length h1 then Some (mkNode JNT_STRING (Some name) (Some (iid t)) None None) else cell h1 q) as Hc3.
  { intros q. unfold h3. rewrite cell_lset by lia. destruct (Nat.eqb_spec q (length h1)) as [->|Hq]; [reflexivity|]. unfold h2. rewrite cell_alloc.
    replace (q =? length h1) with false by lia. reflexivity. }
  assert (forall q, In q (ids t) -> q < length h1) as Hlt. { intros q Hq. destruct (tree_cells _ _ _ H1 q Hq) as (x & Hx). eapply cell_lt; eauto. }
  apply (add_fresh h h3 o JNT_OBJECT tx r ks (IT (length h1) JNT_STRING (Some name) []) [t]); auto.
  - split; [apply tree_at_eq; split; [rewrite Hc3, Nat.eqb_refl; reflexivity|exact I]|]. split; [|exact I]. apply (tree_frame h1); auto. intros q Hq. rewrite Hc3.
    specialize (Hlt q Hq). replace (q =? length h1) with false by lia. reflexivity.
  - cbn. rewrite app_nil_r. constructor; auto. intros G. specialize (Hlt _ G). lia.
  - cbn. rewrite app_nil_r. constructor; auto.
  - unfold h3. rewrite lset_length. lia.
  - intros q Hq. rewrite Hc3. replace (q =? length h1) with false by lia. auto.
Qed.

(** A node made in [h] with children added by a step. *)
Lemma close_step h ty tx h2 ts : step (h ++ [Some (mkNode ty tx None None None)]) h2 (length h) ty tx None [] ts -> fresh_tree h h2 None (IT (length h) ty tx ts).
Proof.
  intros (Hc & Hle & Hfr & Hf). cbn [app] in Hc. apply ctx_tree in Hc as [H1 H2]. rewrite app_length in *. cbn [length] in *. split; [auto|]. split; [auto|]. split; [|split; [lia|]].
  - cbn [ids]. constructor; [auto|]. eapply Forall_impl; [|exact Hfr]. cbn. intros. lia.
  - intros q Hq. rewrite Hf; [apply cell_app_old; auto|lia|lia|auto].
Qed.
Lemma open_ctx h ty tx : ctx (h ++ [Some (mkNode ty tx None None None)]) (length h) ty tx None [].
Proof. split; [apply cell_alloc_new|]. split; [exact I|]. repeat constructor. intros []. Qed.

Lemma build_ok j : forall h, exists h' t, build h j = Ok (h', iid t) /\ fresh_tree h h' None t /\ strip t = gen (built j).
Proof.
  induction j as [ms IH|vs IH|s|s|s| | |] using json_ind'; intros h;
    try (eexists _, (IT (length h) _ _ []); split; [reflexivity|]; split; [apply fresh_new|reflexivity]).
  - cbn [build built]. unfold new_object, node_new, halloc.
    match goal with |- context [bind (?G ms ?hh) _] => set (go := G); set (h0 := hh) end.
    assert (forall ms', Forall (fun m => forall h, exists h' t, build h (snd m) = Ok (h', iid t) /\ fresh_tree h h' None t /\ strip t = gen (built (snd m))) ms' ->
      forall h1 ks, ctx h1 (length h) JNT_OBJECT None None ks -> exists h2 ts, go ms' h1 = Ok h2 /\ step h1 h2 (length h) JNT_OBJECT None None ks ts /\
        map strip ts = gmem (map (fun m => (fst m, built (snd m))) ms')) as Hgo.
    { clear. intros ms'. induction 1 as [|m ms' Hm H IH]; intros h1 ks Hc.
      - exists h1, []. split; [reflexivity|]. split; [apply step_refl; auto|reflexivity].
      - cbn [go]. destruct (Hm h1) as (h2 & t & E & Hf & Hs). rewrite E. cbn [bind].
        destruct (object_add_fresh h1 h2 _ _ _ _ t (fst m) Hc Hf) as (h3 & E3 & Hst). rewrite E3. cbn [bind]. pose proof Hst as (Hc3 & _).
        destruct (IH h3 _ Hc3) as (h4 & ts & E4 & Hst4 & Hs4). exists h4. eexists. split; [exact E4|]. split; [eapply step_trans; eauto|].
        cbn. rewrite Hs, Hs4. reflexivity. }
    destruct (Hgo ms IH h0 [] (open_ctx h _ _)) as (h2 & ts & E & Hst & Hs). rewrite E. cbn [bind]. exists h2, (IT (length h) JNT_OBJECT None ts).
    split; [reflexivity|]. split; [apply close_step; auto|]. cbn [strip gen]. f_equal. exact Hs.
  - cbn [build built]. unfold new_array, node_new, halloc.
    match goal with |- context [bind (?G vs ?hh) _] => set (go := G); set (h0 := hh) end.
    assert (forall vs', Forall (fun m => forall h, exists h' t, build h m = Ok (h', iid t) /\ fresh_tree h h' None t /\ strip t = gen (built m)) vs' ->
      forall h1 ks, ctx h1 (length h) JNT_ARRAY None None ks -> exists h2 ts, go vs' h1 = Ok h2 /\ step h1 h2 (length h) JNT_ARRAY None None ks ts /\
        map strip ts = map gen (map built vs')) as Hgo.
    { clear. intros ms'. induction 1 as [|m ms' Hm H IH]; intros h1 ks Hc.
      - exists h1, []. split; [reflexivity|]. split; [apply step_refl; auto|reflexivity].
      - cbn [go]. destruct (Hm h1) as (h2 & t & E & Hf & Hs). rewrite E. cbn [bind].
        destruct (array_add_fresh h1 h2 _ _ _ _ t Hc Hf) as (h3 & E3 & Hst). rewrite E3. cbn [bind]. pose proof Hst as (Hc3 & _).
        destruct (IH h3 _ Hc3) as (h4 & ts & E4 & Hst4 & Hs4). exists h4. eexists. split; [exact E4|]. split; [eapply step_trans; eauto|].
        cbn. rewrite Hs, Hs4. reflexivity. }
    destruct (Hgo vs IH h0 [] (open_ctx h _ _)) as (h2 & ts & E & Hst & Hs). rewrite E. cbn [bind]. exists h2, (IT (length h) JNT_ARRAY None ts).
    split; [reflexivity|]. split; [apply close_step; auto|]. cbn [strip gen]. f_equal. exact Hs.
Qed.

(** ** Lookup *)
Lemma gen_type j : exists tx ks, gen j = GT (json_type j) tx ks.
Proof. destruct j; cbn; eauto. Qed.
Lemma tree_type h r t j : tree_at h r t -> strip t = gen j -> exists n, hget h (iid t) = Ok n /\ jtype n = json_type j /\ jright n = r.
Proof.
  destruct t as [p ty tx ks]. rewrite tree_at_eq. intros [H _] Hs. cbn [iid]. eexists. split; [apply hget_cell; eauto|]. split; [|reflexivity]. cbn [jtype].
  destruct (gen_type j) as (tx' & ks' & E). rewrite E in Hs. cbn in Hs. congruence.
Qed.

Lemma get_loop h ts : forest_at h ts -> forall fuel i, length ts < fuel -> (0 <= i <= INT_MAX)%Z ->
  array_get_loop fuel h (first_id ts) i = Ok (option_map iid (nth_error ts (Z.to_nat i))).
Proof.
  induction ts as [|t ts IH]; intros Hf fuel i Hl Hi; (destruct fuel as [|f]; [cbn in Hl; lia|]); cbn [array_get_loop first_id].
  - destruct (Z.to_nat i); reflexivity.
  - destruct Hf as [H1 H2]. unfold chk_int, in_int, INT_MIN, INT_MAX in *. replace (_ && _) with true by lia. cbn [bind].
    destruct (Z.ltb_spec 0 i).
    + destruct (tree_root _ _ _ H1) as (n & En & Er). rewrite (proj2 (hget_cell _ _ _) En). cbn [bind]. rewrite Er, IH; [|auto|cbn in Hl; lia|lia].
      replace (Z.to_nat i) with (S (Z.to_nat (i - 1))) by lia. reflexivity.
    + replace i with 0%Z by lia. reflexivity.
Qed.

Lemma forest_nth h ts i t : forest_at h ts -> nth_error ts i = Some t -> exists r, tree_at h r t.
Proof. revert i. induction ts as [|u ts IH]; intros [|i] Hf E; try discriminate; destruct Hf as [H1 H2]; cbn in E; [injection E as <-; eauto|eauto]. Qed.

Definition pick (h : heap node) (ty : N) (p : option nat) : res (option nat) := let* ok := node_is_a h p ty in if ok then Ok p else Ok None.
Lemma pick_tree h r t j ty : tree_at h r t -> strip t = gen j -> pick h ty (Some (iid t)) = Ok (if has_type ty j then Some (iid t) else None).
Proof.
  intros H Hs. destruct (tree_type _ _ _ _ H Hs) as (n & En & Et & _). unfold pick. cbn [node_is_a]. rewrite En. cbn [bind]. rewrite Et. unfold has_type.
  destruct (negb _); reflexivity.
Qed.

Lemma array_get_tree h r p ks vs i ty : tree_at h r (IT p JNT_ARRAY None ks) -> map strip ks = map gen vs -> length ks <= length h -> (0 <= i <= INT_MAX)%Z ->
  array_get h (Some p) i ty = Ok (match nth_error ks (Z.to_nat i), nth_error vs (Z.to_nat i) with Some k, Some v => if has_type ty v then Some (iid k) else None | _, _ => None end).
Proof.
  intros Hat Hm Hl Hi. apply tree_at_eq in Hat as [Hc Hf]. unfold array_get. cbn [node_is]. rewrite (proj2 (hget_cell _ _ _) Hc). cbn [bind jtype jdown]. rewrite N.eqb_refl.
  destruct ks as [|k0 ks0].
  { cbn [first_id]. destruct (Z.to_nat i); reflexivity. }
  remember (k0 :: ks0) as ks eqn:Ek. replace (first_id ks) with (Some (iid k0)) by (subst; reflexivity). cbn iota.
  replace (Some (iid k0)) with (first_id ks) by (subst; reflexivity). rewrite get_loop by (auto; lia). cbn [bind]. clear Ek k0 ks0.
  destruct (nth_error ks (Z.to_nat i)) as [k|] eqn:E1; [|reflexivity]. cbn [option_map].
  assert (exists v, nth_error vs (Z.to_nat i) = Some v /\ strip k = gen v) as (v & Ev & Hs).
  { pose proof (map_nth_error strip _ _ E1) as G. rewrite Hm in G. rewrite nth_error_map in G. destruct (nth_error vs (Z.to_nat i)) as [v|]; [|discriminate]. exists v. cbn in G. split; congruence. }
  rewrite Ev. destruct (forest_nth _ _ _ _ Hf E1) as (rk & Hk). exact (pick_tree h rk k v ty Hk Hs).
Qed.

Lemma bytes_eq_spec a : forall b, bytes_eq a b = if list_eq_dec N.eq_dec a b then true else false.
Proof.
  induction a as [|x a IH]; intros [|y b]; cbn [bytes_eq]; try (destruct (list_eq_dec _ _ _); congruence).
  rewrite IH. destruct (N.eqb_spec x y) as [->|Hn]; cbn [andb].
  - destruct (list_eq_dec N.eq_dec a b) as [->|Hab]; destruct (list_eq_dec N.eq_dec (y :: _) _) as [E|E]; congruence.
  - destruct (list_eq_dec N.eq_dec (x :: a) (y :: b)); congruence.
Qed.

Lemma object_loop_get h name ms : forall ts, forest_at h ts -> map strip ts = gmem ms -> forall fuel, length ts < fuel ->
  match first_member name ms with
  | None => object_get_loop fuel h (first_id ts) name = Ok None
  | Some m => exists q k, In k ts /\ strip k = gen (snd m) /\ object_get_loop fuel h (first_id ts) name = Ok (Some q) /\ exists Q, hget h q = Ok Q /\ jright Q = Some (iid k)
  end.
Proof.
  induction ms as [|[k v] ms IH]; intros ts Hf Hm fuel Hl.
  - destruct ts; [|discriminate]. destruct fuel; [cbn in Hl; lia|reflexivity].
  - cbn in Hm. destruct ts as [|[p pty ptx pks] [|t ts]]; try discriminate. injection Hm as Hty Htx Hks Hm1 Hm2. destruct Hf as [Hf0 [Hf1 Hf2]].
    apply tree_at_eq in Hf0 as [Hc0 _]. destruct fuel as [|f]; [lia|]. cbn [object_get_loop first_id iid]. rewrite (proj2 (hget_cell _ _ _) Hc0). cbn [bind jtext jright first_id]. rewrite Htx, bytes_eq_spec.
    unfold first_member. cbn [find fst]. destruct (list_eq_dec N.eq_dec k name) as [->|Hn].
    + exists p, t. split; [right; left; auto|]. split; [auto|]. split; [reflexivity|]. eexists. split; [apply hget_cell; eauto|]. reflexivity.
    + fold (first_member name ms). destruct (tree_root _ _ _ Hf1) as (n & En & Er). rewrite (proj2 (hget_cell _ _ _) En). cbn [bind]. rewrite Er.
      specialize (IH ts Hf2 Hm2 f). cbn [length] in Hl. specialize (IH ltac:(lia)). destruct (first_member name ms); [|exact IH].
      destruct IH as (q & k' & Hi & Hs & He & HQ). exists q, k'. split; [right; right; auto|]. auto.
Qed.

Lemma object_get_tree h r o ks ms name ty : tree_at h r (IT o JNT_OBJECT None ks) -> map strip ks = gmem ms -> length ks <= length h ->
  match first_member name ms with
  | Some m => exists k rk, In k ks /\ tree_at h rk k /\ strip k = gen (snd m) /\ object_get h (Some o) name ty = Ok (if has_type ty (snd m) then Some (iid k) else None)
  | None => object_get h (Some o) name ty = Ok None
  end.
Proof.
  intros Hat Hm Hl. apply tree_at_eq in Hat as [Hc Hf]. unfold object_get. cbn [node_is]. rewrite (proj2 (hget_cell _ _ _) Hc). cbn [bind jtype jdown]. rewrite N.eqb_refl.
  pose proof (object_loop_get h name ms ks Hf Hm (S (S (length h))) ltac:(lia)) as G. destruct (first_member name ms) as [m|].
  - destruct G as (q & k & Hi & Hs & -> & Q & HQ & Er). cbn [bind]. rewrite HQ. cbn [bind]. rewrite Er. apply In_nth_error in Hi as Hi'. destruct Hi' as (i & Ei). destruct (forest_nth _ _ _ _ Hf Ei) as (rk & Hk).
    exists k, rk. split; [auto|]. split; [auto|]. split; [auto|]. exact (pick_tree h rk k (snd m) ty Hk Hs).
  - rewrite G. reflexivity.
Qed.

Lemma count_ok h ts : forest_at h ts -> forall fuel n, length ts < fuel -> count_loop fuel h (first_id ts) n = Ok (n + Z.of_nat (length ts))%Z.
Proof.
  induction ts as [|t ts IH]; intros Hf fuel n Hl; (destruct fuel as [|f]; [cbn in Hl; lia|]); cbn [count_loop first_id].
  - f_equal. cbn. lia.
  - destruct Hf as [H1 H2]. destruct (tree_root _ _ _ H1) as (x & En & Er). rewrite (proj2 (hget_cell _ _ _) En). cbn [bind]. rewrite Er, IH by (auto; cbn in Hl; lia). f_equal. cbn [length]. lia.
Qed.

Lemma kids_len h r t : tree_at h r t -> NoDup (ids t) -> length (ids t) <= length h.
Proof. intros H Hn. apply NoDup_len; auto. intros q Hq. destruct (tree_cells _ _ _ H q Hq) as (x & Hx). eapply cell_lt; eauto. Qed.

(** ** Release *)
Lemma free_forest fuel : forall h ts, forest_at h ts -> NoDup (fids ts) -> length (fids ts) < fuel ->
  exists h', tree_free fuel h (first_id ts) = Ok h' /\ length h' = length h /\ forall q, (In q (fids ts) -> cell h' q = None) /\ (~ In q (fids ts) -> cell h' q = cell h q).
Proof.
  induction fuel as [|f IH]; intros h ts Hf Hn Hl; [lia|]. cbn [tree_free]. destruct ts as [|[p ty tx ks] ts]; cbn [first_id].
  { exists h. split; [auto|]. split; [auto|]. intros q. cbn. tauto. }
  destruct Hf as [H1 H2]. apply tree_at_eq in H1 as [Hc Hk]. cbn [iid]. rewrite (proj2 (hget_cell _ _ _) Hc). cbn [bind jdown].
  cbn in Hn, Hl. fold (fids ks) in Hn, Hl. fold (fids ts) in Hn, Hl. rewrite app_length in Hl. apply NoDup_cons_iff in Hn as [Hp Hn]. apply NoDup_app_iff in Hn as (Hn1 & Hn2 & Hn3).
  destruct (IH h ks Hk Hn1 ltac:(lia)) as (h1 & -> & Hl1 & Hq1). cbn [bind].
  assert (cell h1 p = cell h p) as Ep by (apply Hq1; intros G; apply Hp, in_or_app; auto). rewrite <- Ep in Hc. rewrite (proj2 (hget_cell _ _ _) Hc). cbn [bind jright].
  assert (forest_at h1 ts) as Hf1. { apply (forest_frame h); auto. intros q Hq. apply Hq1. intros G. apply (Hn3 q); auto. }
  destruct (IH h1 ts Hf1 Hn2 ltac:(lia)) as (h2 & -> & Hl2 & Hq2). cbn [bind].
  assert (cell h2 p = cell h1 p) as Ep2 by (apply Hq2; intros G; apply Hp, in_or_app; auto). rewrite <- Ep2 in Hc.
  erewrite hfree_ok by eauto. pose proof (cell_lt _ _ _ Hc) as Hlt. eexists. split; [reflexivity|]. rewrite lset_length. split; [lia|].
  intros q. cbn [fids flat_map ids]. fold (fids ks) (fids ts). rewrite cell_lset by auto. destruct (Nat.eqb_spec q p) as [->|Hqp]; [split; [auto|intros G; exfalso; apply G; left; auto]|]. split.
  - intros [G|G]; [congruence|]. apply in_app_or in G as [G|G].
    + destruct (in_dec Nat.eq_dec q (fids ts)) as [G'|G']; [apply Hq2; auto|]. rewrite (proj2 (Hq2 q) G'). apply Hq1. auto.
    + apply Hq2. auto.
  - intros G. rewrite (proj2 (Hq2 q)), (proj2 (Hq1 q)); auto; intros G'; apply G; right; apply in_or_app; auto.
Qed.

(** ** Bundling *)
Lemma bundle_loop_ok {A} (mk : heap node -> A -> heap node * nat) (f : A -> json) xs :
  (forall h x, exists t, fresh_tree h (fst (mk h x)) None t /\ snd (mk h x) = iid t /\ strip t = gen (f x)) ->
  forall a h ks, ctx h a JNT_ARRAY None None ks -> exists h' ts, bundle_loop mk xs a h = Ok h' /\ step h h' a JNT_ARRAY None None ks ts /\ map strip ts = map gen (map f xs).
Proof.
  intros Hmk a. induction xs as [|x xs IH]; intros h ks Hc; cbn [bundle_loop].
  - exists h, []. split; [reflexivity|]. split; [apply step_refl; auto|reflexivity].
  - destruct (Hmk h x) as (t & Hf & Et & Hs). destruct (mk h x) as [h1 n]. cbn [fst snd] in *. subst n.
    destruct (array_add_fresh h h1 a None None ks t Hc Hf) as (h2 & E2 & Hst). rewrite E2. cbn [bind]. pose proof Hst as (Hc2 & _).
    destruct (IH h2 _ Hc2) as (h3 & ts & E3 & Hst3 & Hs3). exists h3. eexists. split; [exact E3|]. split; [eapply step_trans; eauto|]. cbn. congruence.
Qed.
Lemma bundle_array_ok {A} (mk : heap node -> A -> heap node * nat) (f : A -> json) xs :
  (forall h x, exists t, fresh_tree h (fst (mk h x)) None t /\ snd (mk h x) = iid t /\ strip t = gen (f x)) ->
  forall h, exists h' ts, bundle_array mk h xs = Ok (h', length h) /\ fresh_tree h h' None (IT (length h) JNT_ARRAY None ts) /\ map strip ts = map gen (map f xs).
Proof.
  intros Hmk h. unfold bundle_array, new_array, node_new, halloc. destruct (bundle_loop_ok mk f xs Hmk _ _ [] (open_ctx h JNT_ARRAY None)) as (h' & ts & E & Hst & Hs). rewrite E. cbn [bind].
  exists h', ts. split; [reflexivity|]. split; [apply close_step; auto|auto].
Qed.

Lemma unbundle_ok {A} (get : heap node -> nat -> res A) ty (f : A -> json) h p r ks xs :
  tree_at h r (IT p JNT_ARRAY None ks) -> NoDup (ids (IT p JNT_ARRAY None ks)) -> map strip ks = map gen (map f xs) ->
  (Z.of_nat (length xs) <= INT_MAX)%Z ->
  (forall x, has_type ty (f x) = true) -> (forall k rk x, In x xs -> tree_at h rk k -> strip k = gen (f x) -> get h (iid k) = Ok x) ->
  unbundle_array get ty h p = Ok xs.
Proof.
  intros Hat Hn Hm Hmax Hty Hget. pose proof (kids_len _ _ _ Hat Hn) as Hlen. cbn [ids length] in Hlen. fold (fids ks) in Hlen. pose proof (ids_len_forest ks) as Hlk.
  pose proof Hat as Hat'. apply tree_at_eq in Hat' as [Hc Hf]. unfold unbundle_array, n_children. cbn [node_is_a]. rewrite !(proj2 (hget_cell _ _ _) Hc). cbn [bind jtype jdown].
  change (negb (N.land JNT_ARRAY JNT_ARRAY =? 0)%N) with true. cbn iota. rewrite count_ok by (auto; lia). cbn [bind]. rewrite Z.add_0_l, Nat2Z.id.
  assert (length ks = length xs) as Hlx by (apply (f_equal (@length gtree)) in Hm; rewrite !map_length in Hm; auto). rewrite Hlx.
  assert (forall i acc, i <= length xs -> acc = firstn i xs -> for_each (fun i acc => let* e := array_fget h (Some p) (Z.of_nat i) ty in let* x := get h e in Ok (acc ++ [x])) (seq i (length xs - i)) acc = Ok xs) as Hgo.
  { intros i acc Hi. remember (length xs - i) as m eqn:Em. revert i acc Hi Em. induction m as [|m IH]; intros i acc Hi Em ->.
    - cbn. f_equal. apply firstn_all2. lia.
    - cbn [seq for_each]. unfold array_fget. rewrite (array_get_tree h r p ks (map f xs) _ ty Hat Hm) by lia. rewrite Nat2Z.id, nth_error_map.
      destruct (nth_error xs i) as [x|] eqn:Ex; [|apply nth_error_None in Ex; lia]. destruct (nth_error ks i) as [k|] eqn:Ek; [|apply nth_error_None in Ek; lia].
      cbn [option_map]. rewrite Hty. cbn [bind]. destruct (forest_nth _ _ _ _ Hf Ek) as (rk & Hk).
      assert (strip k = gen (f x)) as Hs. { pose proof (map_nth_error strip _ _ Ek) as G. rewrite Hm, nth_error_map, nth_error_map, Ex in G. cbn in G. congruence. }
      rewrite (Hget k rk x (nth_error_In _ _ Ex) Hk Hs). cbn [bind]. apply IH; [lia|lia|].
      clear - Ex. revert i Ex. induction xs as [|y xs IH]; intros [|i] Ex; try discriminate; cbn in *; [congruence|f_equal; auto]. }
  specialize (Hgo 0 [] ltac:(lia) eq_refl). rewrite Nat.sub_0_r in Hgo. exact Hgo.
Qed.
