(** Properties C31 to C34 and C63 to C65. *)
From Verif Require Import Base BaseLemmas Heap StrModel LexModel LexSpec LexProofs CsvModel DfModel DfCsvProofs
  JsonModel JsonSpec JsonLexProofs JsonProofs JsonParseProofs JsonParse2 JsonPrintProofs JsonApiProofs.
Local Open Scope Z_scope.

(** A value the library can print at all: the indentation must not overflow. *)
Definition printable (j : json) (level : Z) : Prop :=
  INT_MIN + Z.of_nat (depth j) <= level <= INT_MAX /\ 4 * (Z.of_nat (depth j) + 1) <= INT_MAX.

(** C31: whatever tree of nodes stands for the value [j], printing it and
    parsing the text gives a new tree for [j]; nothing else changes. *)
Theorem C31_round_trip : forall h p j level,
  shows h p j -> json_ok j -> composite j -> plain j -> printable j level ->
  exists txt, tree_fprint h (Some p) level = Ok txt /\
    forall h0, exists h' q, tree_from_string h0 txt = Ok (h', q) /\ shows h' q j /\
      (length h0 <= q)%nat /\ forall i, (i < length h0)%nat -> cell h' i = cell h0 i.
Proof.
  intros h p j level (r & L & t & Hat & Hi & Hs & HL & Hn) Hok Hc Hp (H1 & H2). subst L.
  destruct (round_trip h p j r t level Hat Hi Hs Hn Hok Hc) as (txt & E & _ & Hback); [unfold room; lia|].
  exists txt. split; [exact E|]. intros h0. destruct (Hback h0) as (h' & q & ts & E' & Hq & A1 & A2 & A3 & A4 & A5 & A6).
  exists h', q. split; [auto|]. rewrite (plain_built j Hp) in A3. split; [exists None, (ids ts), ts; auto|]. split; [|auto].
  rewrite Forall_forall in A4. apply A4. subst q. apply iid_in.
Qed.
Print Assumptions C31_round_trip.

(** C31, for values built by the API; a value that holds false or null has
    already lost it before printing. *)
Theorem C31_built_round_trip : forall h j level, json_ok j -> composite j -> printable j level ->
  exists h1 p txt, build h j = Ok (h1, p) /\ tree_fprint h1 (Some p) level = Ok txt /\
    exists h2 q, tree_from_string h1 txt = Ok (h2, q) /\ shows h2 p (built j) /\ shows h2 q (built j) /\ p <> q.
Proof.
  intros h j level Hok Hc Hp. destruct (build_ok j h) as (h1 & t & E & (F1 & F2 & F3 & F4 & F5) & Hs).
  assert (depth (built j) = depth j) as Ed.
  { clear. induction j as [ms IH|vs IH|s|s|s| | |] using json_ind'; cbn; try reflexivity; f_equal.
    - induction IH as [|m ms Hm H IH]; cbn; auto.
    - induction IH as [|m ms Hm H IH]; cbn; auto. }
  assert (json_ok (built j)) as Hok'.
  { clear - Hok. induction j as [ms IH|vs IH|s|s|s| | |] using json_ind'; cbn; inversion Hok; subst; try constructor; auto; apply Forall_map.
    - rewrite Forall_forall in *. intros m Hm. cbn. destruct (H0 m Hm). auto.
    - rewrite Forall_forall in *. intros m Hm. cbn. auto. }
  assert (composite (built j)) as Hc' by (destruct Hc as [(ms & ->)|(vs & ->)]; [left|right]; cbn; eauto).
  assert (forall k, built (built k) = built k) as Hbb.
  { clear. intros j. induction j as [ms IH|vs IH|s|s|s| | |] using json_ind'; cbn; try reflexivity; f_equal; rewrite map_map; apply map_ext_in; intros m Hm; rewrite Forall_forall in IH; cbn; try rewrite IH; auto. }
  destruct Hp as (P1 & P2).
  destruct (round_trip h1 (iid t) (built j) None t level F1 eq_refl Hs F2 Hok' Hc') as (txt & Et & _ & Hback); [unfold room; rewrite Ed; lia|].
  destruct (Hback h1) as (h2 & q & ts & E' & Hq & A1 & A2 & A3 & A4 & A5 & A6).
  assert (forall i, In i (ids t) -> (i < length h1)%nat) as Hlt by (intros i Hi; destruct (tree_cells _ _ _ F1 i Hi) as (x & Hx); eapply cell_lt; eauto).
  exists h1, (iid t), txt. split; [auto|]. split; [auto|]. exists h2, q. split; [auto|]. split; [|split].
  - exists None, (ids t), t. split; [apply (tree_frame h1); auto|]. auto.
  - exists None, (ids ts), ts. rewrite Hbb in A3. auto.
  - subst q. rewrite Forall_forall in A4. specialize (A4 _ (iid_in ts)). specialize (Hlt _ (iid_in t)). lia.
Qed.
Print Assumptions C31_built_round_trip.

(** {"a\n" : [-1.5e3, true, {}], "" : 0}, with and without line breaks *)
Definition sample : json :=
  JObj [([97; 10]%N, JArr [JFp [45; 49; 46; 53; 101; 51]%N; JTrue; JObj []]); ([], JInt [48%N])].
Example C31_example :
  json_ok sample /\ composite sample /\ plain sample /\ printable sample 2 /\ printable sample 0 /\
  (exists h p, build [] sample = Ok (h, p) /\
     tree_fprint h (Some p) 0 = Ok [123; 32; 34; 97; 92; 110; 34; 32; 58; 32; 91; 32; 45; 49; 46; 53; 101; 51; 44; 32; 116; 114; 117; 101; 44; 32; 123; 32; 32; 125; 32; 93; 44; 32; 34; 34; 32; 58; 32; 48; 32; 125; 10]%N).
Proof.
  assert (json_number [45; 49; 46; 53; 101; 51]%N LNT_FLOAT) as Hf.
  { exists [45%N], [49%N], [46; 53]%N, [101; 51]%N. split; [reflexivity|]. split; [auto|]. split; [apply (int_pos 49 []); [lia|constructor]|].
    split; [right; exists 53%N, []; split; [reflexivity|constructor; [unfold digit; lia|constructor]]|]. split; [|split; [discriminate|intros [G _]; discriminate]].
    right. exists 101%N, [], 51%N, []. split; [reflexivity|]. split; [auto|]. split; [auto|]. constructor; [unfold digit; lia|constructor]. }
  assert (json_number [48%N] LNT_INTEGER) as Hi.
  { exists [], [48%N], [], []. split; [reflexivity|]. split; [auto|]. split; [constructor|]. split; [left; auto|]. split; [left; auto|]. tauto. }
  split; [|split; [|split; [|split; [|split]]]].
  - constructor. constructor; [split; [repeat constructor|]|constructor; [split; [constructor|]|constructor]].
    + constructor. constructor; [apply ok_fp; auto|]. constructor; [constructor|]. constructor; [|constructor]. constructor. constructor.
    + apply ok_int. auto.
  - left. eexists. reflexivity.
  - constructor. constructor; [|constructor; [constructor|constructor]]. cbn. constructor. constructor; [constructor|]. constructor; [constructor|]. constructor; [|constructor]. constructor. constructor.
  - vm_compute. intuition discriminate.
  - vm_compute. intuition discriminate.
  - eexists _, _. split; [vm_compute; reflexivity|vm_compute; reflexivity].
Qed.

(** C32: the constructors build the value they are named after, except that
    false and null come out as true; so do trees made of them. *)
Theorem C32_constructors_partial : forall h j, plain j -> exists h' p, build h j = Ok (h', p) /\ shows h' p j /\
  forall i, (i < length h)%nat -> cell h' i = cell h i.
Proof.
  intros h j Hp. destruct (build_ok j h) as (h1 & t & E & (F1 & F2 & F3 & F4 & F5) & Hs). rewrite (plain_built j Hp) in Hs.
  exists h1, (iid t). split; [auto|]. split; [exists None, (ids t), t; auto|auto].
Qed.
Print Assumptions C32_constructors_partial.

Theorem C32_scalars_partial : forall h s,
  (forall mk ty, In (mk, ty) [(new_object h, JNT_OBJECT); (new_array h, JNT_ARRAY); (new_string h s, JNT_STRING);
                              (new_integer h s, JNT_INTEGER); (new_fpnumber h s, JNT_FPNUMBER); (new_true h, JNT_TRUE)] ->
     forall ty', node_is (fst mk) (Some (snd mk)) ty' = Ok (ty =? ty')%N) /\
  (forall b, b <> 0 -> unbundle_bool (fst (bundle_bool h b)) (snd (bundle_bool h b)) = Ok true).
Proof.
  intros h s. split.
  - intros mk ty H ty'. cbn in H. decompose [or] H; try contradiction; match goal with E : (_, _) = _ |- _ => injection E as <- <- end;
      cbn [fst snd new_object new_array new_string new_integer new_fpnumber new_true node_new halloc node_is];
      (rewrite (proj2 (hget_cell _ _ _) (cell_alloc_new _ _)); reflexivity).
  - intros b Hb. unfold bundle_bool. replace (b =? 0) with false by lia. unfold unbundle_bool, new_true, node_new, halloc, node_is_a, node_is. cbn [fst snd].
    rewrite (proj2 (hget_cell _ _ _) (cell_alloc_new _ _)). reflexivity.
Qed.
Print Assumptions C32_scalars_partial.

(** The false and null constructors do not: their nodes are of type true in
    every heap, and a bundled false reads back as true. *)
Theorem C32_false_null_refuted : forall h,
  node_is (fst (new_false h)) (Some (snd (new_false h))) JNT_FALSE = Ok false /\
  node_is (fst (new_false h)) (Some (snd (new_false h))) JNT_TRUE = Ok true /\
  node_is (fst (new_null h)) (Some (snd (new_null h))) JNT_NULL = Ok false /\
  node_is (fst (new_null h)) (Some (snd (new_null h))) JNT_TRUE = Ok true /\
  unbundle_bool (fst (bundle_bool h 0)) (snd (bundle_bool h 0)) = Ok true.
Proof.
  intros h. unfold unbundle_bool, bundle_bool. cbn [Z.eqb fst snd new_false new_null node_new halloc node_is node_is_a].
  rewrite !(proj2 (hget_cell _ _ _) (cell_alloc_new _ _)). cbn [bind jtype]. repeat split; reflexivity.
Qed.
Print Assumptions C32_false_null_refuted.
Example C32_example : plain sample /\ build [] (JArr [JFalse; JNull]) = build [] (JArr [JTrue; JTrue]).
Proof. split; [apply C31_example|vm_compute; reflexivity]. Qed.

(** C33: lookups on any tree for an array or object.  [ty] is the type mask. *)
Theorem C33_array_get_partial : forall h a vs i ty, shows h a (JArr vs) -> 0 <= i <= INT_MAX ->
  match nth_error vs (Z.to_nat i) with
  | None => array_get h (Some a) i ty = Ok None
  | Some v => if has_type ty v then exists q, array_get h (Some a) i ty = Ok (Some q) /\ shows h q v else array_get h (Some a) i ty = Ok None
  end.
Proof.
  intros h a vs i ty (r & L & [p pty ptx ks] & Hat & Hi & Hs & HL & Hn) H. cbn in Hi, Hs. injection Hs as -> -> Hm. subst p L.
  pose proof (kids_len _ _ _ Hat Hn) as Hlen. cbn [ids length] in Hlen. fold (fids ks) in Hlen. pose proof (ids_len_forest ks) as Hlk.
  rewrite (array_get_tree h r a ks vs i ty Hat Hm ltac:(lia) H). destruct (nth_error vs (Z.to_nat i)) as [v|] eqn:Ev; [|destruct (nth_error ks _); reflexivity].
  assert (nth_error (map strip ks) (Z.to_nat i) = Some (gen v)) as Ek by (rewrite Hm; apply map_nth_error; auto).
  rewrite nth_error_map in Ek. destruct (nth_error ks (Z.to_nat i)) as [k|] eqn:E1; [|discriminate]. cbn in Ek. injection Ek as Ek.
  destruct (has_type ty v); [|reflexivity]. exists (iid k). split; [reflexivity|]. apply tree_at_eq in Hat as [_ Hf]. destruct (forest_nth _ _ _ _ Hf E1) as (rk & Hk).
  exists rk, (ids k), k. split; [auto|]. split; [auto|]. split; [auto|]. split; [auto|]. cbn in Hn. apply NoDup_cons_iff in Hn as [_ Hn].
  clear - E1 Hn. fold (fids ks) in Hn. revert E1. generalize (Z.to_nat i) as n. intros n E1. apply nth_error_split in E1 as (l1 & l2 & -> & _). rewrite fids_app in Hn.
  apply NoDup_app_iff in Hn as (_ & Hn & _). cbn in Hn. apply NoDup_app_iff in Hn as (Hn & _). auto.
Qed.
Print Assumptions C33_array_get_partial.

Theorem C33_object_get : forall h o ms name ty, shows h o (JObj ms) ->
  match first_member name ms with
  | None => object_get h (Some o) name ty = Ok None
  | Some m => if has_type ty (snd m) then exists q, object_get h (Some o) name ty = Ok (Some q) /\ shows h q (snd m) else object_get h (Some o) name ty = Ok None
  end.
Proof.
  intros h a vs name ty (r & L & [p pty ptx ks] & Hat & Hi & Hs & HL & Hn). cbn in Hi, Hs. injection Hs as -> -> Hm. subst p L.
  pose proof (kids_len _ _ _ Hat Hn) as Hlen. cbn [ids length] in Hlen. fold (fids ks) in Hlen. pose proof (ids_len_forest ks) as Hlk.
  pose proof (object_get_tree h r a ks vs name ty Hat Hm ltac:(lia)) as G. destruct (first_member name vs) as [m|]; [|exact G].
  destruct G as (k & rk & Hi & Hk & Hs & E). destruct (has_type ty (snd m)); [|exact E]. exists (iid k). split; [exact E|]. exists rk, (ids k), k. split; [auto|]. split; [auto|]. split; [auto|]. split; [auto|].
  cbn in Hn. apply NoDup_cons_iff in Hn as [_ Hn]. fold (fids ks) in Hn. apply in_split in Hi as (l1 & l2 & ->). rewrite fids_app in Hn.
  apply NoDup_app_iff in Hn as (_ & Hn & _). cbn in Hn. apply NoDup_app_iff in Hn as (Hn & _). auto.
Qed.
Print Assumptions C33_object_get.

(** Adding an unattached tree appends it; it is then the last element, and the
    other elements stay. *)
Theorem C33_array_add : forall h r a vs La n v Ln, tree_for h r a (JArr vs) La -> tree_for h None n v Ln -> apart La Ln -> Z.of_nat (length vs) <= INT_MAX ->
  exists h', array_add h a n = Ok h' /\ tree_for h' r a (JArr (vs ++ [v])) (La ++ Ln) /\
    array_get h' (Some a) (Z.of_nat (length vs)) 255 = Ok (Some n) /\
    (forall i ty, 0 <= i < Z.of_nat (length vs) -> array_get h' (Some a) i ty = array_get h (Some a) i ty) /\
    (forall q, ~ In q La -> cell h' q = cell h q).
Proof.
  intros h r a vs La n v Ln ([p pty ptx ks] & Hat & Hi & Hs & HL & Hn) (t & Ht & Ei & Hst & HLt & Hnt) Hap Hmax. cbn in Hi, Hs. injection Hs as -> -> Hm. subst p La Ln n.
  pose proof (tree_ctx _ _ _ _ _ _ Hat Hn) as Hc. pose proof (kids_len _ _ _ Hat Hn) as Hlen. cbn [ids length] in Hlen. fold (fids ks) in Hlen. pose proof (ids_len_forest ks) as Hlk.
  assert (length ks = length vs) as Hlv by (apply (f_equal (@length gtree)) in Hm; rewrite !map_length in Hm; auto).
  assert (NoDup (a :: fids (ks ++ [t]))) as Hnd.
  { rewrite fids_app. cbn [fids flat_map app]. rewrite app_nil_r. rewrite app_comm_cons. apply NoDup_app_iff. split; [exact Hn|]. split; [auto|]. exact Hap. }
  destruct (add_trees h a JNT_ARRAY None r ks t [] Hc ltac:(split; [auto|exact I]) Hnd) as (h' & E & Hl & Hc' & Hfr).
  destruct (ctx_tree _ _ _ _ _ _ Hc') as [Hat' Hn'].
  assert (map strip (ks ++ [t]) = map gen (vs ++ [v])) as Hm' by (rewrite !map_app; cbn; congruence).
  pose proof (kids_len _ _ _ Hat' Hn') as Hlen'. cbn [ids length] in Hlen'. fold (fids (ks ++ [t])) in Hlen'. pose proof (ids_len_forest (ks ++ [t])) as Hlk'.
  exists h'. split; [|split; [|split; [|split]]].
  - unfold array_add. destruct (node_ty _ _ _ _ _ _ Hc) as (x & Ex & Et & _). rewrite Ex. cbn [bind]. rewrite Et, N.eqb_refl. exact E.
  - exists (IT a JNT_ARRAY None (ks ++ [t])). split; [auto|]. split; [auto|]. split; [cbn [strip gen]; f_equal; auto|].
    assert (ids (IT a JNT_ARRAY None (ks ++ [t])) = ids (IT a JNT_ARRAY None ks) ++ ids t) as Eid by (cbn [ids app]; rewrite flat_map_app; cbn; rewrite app_nil_r; reflexivity).
    split; [auto|]. rewrite <- Eid. auto.
  - rewrite (array_get_tree h' r a (ks ++ [t]) (vs ++ [v]) _ 255 Hat' Hm') by lia. rewrite Nat2Z.id. rewrite <- Hlv at 1. rewrite !nth_error_app2, Hlv, !Nat.sub_diag by lia. cbn [nth_error].
    replace (has_type 255 v) with true; [reflexivity|]. destruct v; reflexivity.
  - intros i ty Hi. rewrite (array_get_tree h' r a (ks ++ [t]) (vs ++ [v]) _ ty Hat' Hm') by lia. rewrite (array_get_tree h r a ks vs i ty Hat Hm) by lia.
    rewrite !nth_error_app1 by lia. reflexivity.
  - intros q Hq. apply Hfr; [intros ->; apply Hq; left; auto|]. intros G. apply Hq. right. apply last_in. auto.
Qed.
Print Assumptions C33_array_add.

(** Negative positions: any but INT_MIN gives the first element instead of
    NULL, and INT_MIN overflows. *)
Theorem C33_negative_refuted : forall h a v vs, shows h a (JArr (v :: vs)) ->
  (forall i ty, INT_MIN < i < 0 -> array_get h (Some a) i ty = array_get h (Some a) 0 ty) /\
  (exists q, array_get h (Some a) (-1) 255 = Ok (Some q) /\ shows h q v) /\
  array_get h (Some a) INT_MIN 255 = UB.
Proof.
  intros h a v vs Hsh. pose proof (C33_array_get_partial h a (v :: vs) 0 255 Hsh ltac:(unfold INT_MAX; lia)) as H0. cbn [Z.to_nat nth_error] in H0.
  replace (has_type 255 v) with true in H0 by (destruct v; reflexivity).
  destruct Hsh as (r & L & [p pty ptx ks] & Hat & Hi & Hs & HL & Hn). cbn in Hi, Hs. injection Hs as -> -> Hm. subst p L.
  apply tree_at_eq in Hat as [Hc Hf]. destruct ks as [|k ks]; [discriminate|].
  assert (forall i ty, INT_MIN < i < 0 -> array_get h (Some a) i ty = array_get h (Some a) 0 ty) as Hneg.
  { intros i ty Hi. unfold array_get. cbn [node_is]. rewrite (proj2 (hget_cell _ _ _) Hc). cbn [bind jtype jdown first_id]. rewrite N.eqb_refl.
    cbn [array_get_loop]. unfold chk_int, in_int, INT_MIN, INT_MAX in *. replace (_ && _) with true by lia. replace (0 <? i) with false by lia. reflexivity. }
  split; [exact Hneg|]. split.
  - rewrite Hneg by (unfold INT_MIN; lia). exact H0.
  - unfold array_get. cbn [node_is]. rewrite (proj2 (hget_cell _ _ _) Hc). reflexivity.
Qed.
Print Assumptions C33_negative_refuted.
Example C33_example : exists h p, build [] (JArr [JStr [97%N]; JObj [([98%N], JTrue); ([98%N], JInt [49%N])]]) = Ok (h, p) /\
  array_get h (Some p) 1 255 = Ok (Some 2%nat) /\ array_get h (Some p) 2 255 = Ok None /\ array_get h (Some p) 1 JNT_STRING = Ok None /\
  object_get h (Some 2%nat) [98%N] 255 = Ok (Some 3%nat) /\ object_get h (Some 2%nat) [99%N] 255 = Ok None.
Proof. eexists _, _. split; [vm_compute; reflexivity|]. do 4 (split; [vm_compute; reflexivity|]). vm_compute; reflexivity. Qed.

(** C34: the string tokens the lexer accepts decode, unless they escape a
    slash; then the parser aborts. *)
Theorem C34_decodes_partial : forall t n l start len l',
  bytes_ok t -> consume_n t n (st t 0) = Ok l -> cur l = 34 ->
  lexer_QUOTED_STRING t l = Ok (l', start, len) ->
  let c := firstn len (skipn start t) in
  quoted_body c /\ (~ slash_escaped c -> exists s, nx_xstr_from_readable c = Ok s) /\ (slash_escaped c -> nx_xstr_from_readable c = Fatal).
Proof.
  intros t n l start len l' Ht Hl Hcur Hq c. rewrite consume_n_st in Hl by (auto; lia). cbn [Nat.add] in Hl. injection Hl as <-.
  remember (Nat.min n (length (visible t))) as m eqn:Em.
  destruct (skipn m (visible t)) as [|b r] eqn:Er.
  { rewrite (cur_st t m [] Er) in Hcur. discriminate. }
  assert (b = 34%N) as ->.
  { pose proof (cur_eq t Ht m _ 34 Er ltac:(lia)) as G. rewrite Hcur in G. cbn in G. symmetry in G. apply N.eqb_eq in G. auto. }
  destruct (quoted_dec t Ht m r Er) as [(c' & rest & -> & Hb & E)|[_ E]]; [|congruence]. rewrite E in Hq. injection Hq as _ <- <-.
  destruct (consume_r t Ht m _ _ Er) as [_ Er1]. assert (c = c') as -> by (unfold c; apply (slice t (S m) c' (34%N :: rest) Er1)).
  split; [auto|]. destruct (body_decode c' Hb). auto.
Qed.
Print Assumptions C34_decodes_partial.

(** A text with the legal escape of a slash: the lexer accepts the string, the
    parser aborts. *)
Theorem C34_slash_refuted : exists t l, t = [91; 34; 92; 47; 34; 93]%N /\ consume_n t 1 (st t 0) = Ok l /\
  lexer_QUOTED_STRING t l = Ok (st t 5, 2%nat, 2%nat) /\ forall h, tree_from_string h t = Fatal.
Proof. eexists _, _. split; [reflexivity|]. split; [vm_compute; reflexivity|]. split; [vm_compute; reflexivity|]. intros h. vm_compute. reflexivity. Qed.
Print Assumptions C34_slash_refuted.
Example C34_example : exists t l, bytes_ok t /\ consume_n t 2 (st t 0) = Ok l /\ cur l = 34 /\ exists l', lexer_QUOTED_STRING t l = Ok (l', 3%nat, 5%nat) /\
  nx_xstr_from_readable (firstn 5 (skipn 3 t)) = Ok [97; 10; 34]%N.
Proof. exists [32; 32; 34; 97; 92; 110; 92; 34; 34; 120]%N. eexists. split; [repeat constructor|]. split; [vm_compute; reflexivity|]. split; [reflexivity|]. eexists. split; [vm_compute; reflexivity|vm_compute; reflexivity]. Qed.

(** C63: a text that splits into tokens is accepted exactly if it starts with
    the tokens of an array or object, and the tree is the value spelled. *)
Theorem C63_grammar : forall h t L, bytes_ok t -> tokens t L ->
  (forall j L0 rest, L = L0 ++ rest -> spelled j L0 -> composite j ->
     exists h' q, tree_from_string h t = Ok (h', q) /\ shows h' q (built j) /\ forall i, (i < length h)%nat -> cell h' i = cell h i) /\
  ((forall j L0 rest, L = L0 ++ rest -> spelled j L0 -> ~ composite j) -> tree_from_string h t = Fatal).
Proof.
  intros h t L Ht HL. destruct (parse_total t Ht h L HL) as [(j & L0 & rest & E & Hsp & Hc & h' & q & ts & A1 & A2 & A3 & A4 & A5 & A6 & A7 & A8)|[Hno Hf]].
  - split.
    + intros j' L0' rest' E' Hsp' Hc'. rewrite E in E'. destruct (spelled_prefix_len _ _ Hsp _ _ _ _ Hsp' E') as [Eb _]. exists h', q. split; [auto|]. split; [|auto].
      exists None, (ids ts), ts. rewrite <- Eb. auto.
    + intros Hno. exfalso. eapply Hno; eauto.
  - split; [|auto]. intros j L0 rest E Hsp Hc. exfalso. eapply Hno; eauto.
Qed.
Print Assumptions C63_grammar.
Example C63_example : let t := [91; 49; 32; 44; 123; 125; 93; 93]%N in
  bytes_ok t /\ tokens t [Tlsb; Tint [49%N]; Tcomma; Tlcb; Trcb; Trsb; Trsb] /\ spelled (JArr [JInt [49%N]; JObj []]) [Tlsb; Tint [49%N]; Tcomma; Tlcb; Trcb; Trsb].
Proof.
  intros t. split; [repeat constructor|]. split.
  - eexists. split; [vm_compute; reflexivity|]. do 7 (eapply tk_next; [vm_compute; reflexivity|discriminate|]). eapply tk_end. vm_compute. reflexivity.
  - apply (sp_arr [JInt [49%N]; JObj []] [[Tint [49%N]]; [Tlcb; Trcb]]). constructor; [constructor|]. constructor; [|constructor]. apply (sp_obj [] []). constructor.
Qed.

(** C64: freeing a tree that is not part of another frees its nodes, each
    once, and nothing else. *)
Theorem C64_free : forall h p j L, tree_for h None p j L ->
  exists h', tree_free (S (length h)) h (Some p) = Ok h' /\ (forall q, In q L -> cell h' q = None) /\ (forall q, ~ In q L -> cell h' q = cell h q).
Proof.
  intros h p j L (t & Hat & Hi & Hs & HL & Hn). subst. pose proof (kids_len _ _ _ Hat Hn) as Hlen.
  assert (fids [t] = ids t) as Ef by (cbn; apply app_nil_r).
  destruct (free_forest (S (length h)) h [t]) as (h' & E & _ & Hq); [split; [auto|exact I]|rewrite Ef; auto|rewrite Ef; lia|].
  exists h'. split; [exact E|]. rewrite Ef in Hq. split; intros q; apply Hq.
Qed.
Print Assumptions C64_free.
Example C64_example : exists h p h', build [None; None] sample = Ok (h, p) /\ tree_free (S (length h)) h (Some p) = Ok h' /\ live h = 8%nat /\ live h' = 0%nat.
Proof. eexists _, _, _. split; [vm_compute; reflexivity|]. split; [vm_compute; reflexivity|]. vm_compute; auto. Qed.

(** C65: arrays of integers and of strings survive bundling and unbundling. *)
Theorem C65_int_array : forall h xs, Forall (fun x => in_int x = true) xs -> Z.of_nat (length xs) <= INT_MAX ->
  exists h' a, bundle_array bundle_int h xs = Ok (h', a) /\ unbundle_array unbundle_int JNT_INTEGER h' a = Ok xs /\
    shows h' a (JArr (map (fun x => JInt (print_int x)) xs)).
Proof.
  intros h xs Hx Hl. destruct (bundle_array_ok bundle_int (fun x => JInt (print_int x)) xs) with (h := h) as (h' & ts & E & (F1 & F2 & F3 & F4 & F5) & Hs).
  { intros h0 x. exists (IT (length h0) JNT_INTEGER (Some (print_int x)) []). split; [apply fresh_new|]. auto. }
  exists h', (length h). split; [auto|]. split.
  - apply (unbundle_ok unbundle_int JNT_INTEGER (fun x => JInt (print_int x)) h' (length h) None ts xs); auto.
    intros [p ty tx ks] rk x Hi Hat Hst. cbn in Hst. injection Hst as -> -> _. apply tree_at_eq in Hat as [Hc _]. unfold unbundle_int, node_is_a. cbn [iid]. rewrite (proj2 (hget_cell _ _ _) Hc). cbn [bind jtype jtext].
    change (negb (N.land JNT_INTEGER JNT_INTEGER =? 0)%N) with true. cbn iota. f_equal. rewrite Forall_forall in Hx. apply (print_int_read (fun _ => false)); auto.
  - eexists None, _, (IT (length h) JNT_ARRAY None ts). split; [exact F1|]. split; [reflexivity|]. split; [cbn [strip gen]; f_equal; auto|]. auto.
Qed.
Print Assumptions C65_int_array.
Theorem C65_string_array : forall h xs, Z.of_nat (length xs) <= INT_MAX ->
  exists h' a, bundle_array bundle_string h xs = Ok (h', a) /\ unbundle_array unbundle_string JNT_STRING h' a = Ok xs /\ shows h' a (JArr (map JStr xs)).
Proof.
  intros h xs Hl. destruct (bundle_array_ok bundle_string JStr xs) with (h := h) as (h' & ts & E & (F1 & F2 & F3 & F4 & F5) & Hs).
  { intros h0 x. exists (IT (length h0) JNT_STRING (Some x) []). split; [apply fresh_new|]. auto. }
  exists h', (length h). split; [auto|]. split.
  - apply (unbundle_ok unbundle_string JNT_STRING JStr h' (length h) None ts xs); auto.
    intros [p ty tx ks] rk x Hi Hat Hst. cbn in Hst. injection Hst as -> -> _. apply tree_at_eq in Hat as [Hc _]. unfold unbundle_string, node_is_a. cbn [iid]. rewrite (proj2 (hget_cell _ _ _) Hc). reflexivity.
  - eexists None, _, (IT (length h) JNT_ARRAY None ts). split; [exact F1|]. split; [reflexivity|]. split; [cbn [strip gen]; f_equal; auto|]. auto.
Qed.
Print Assumptions C65_string_array.
Example C65_example : exists h a, bundle_array bundle_int [] [0; -12; 2147483647] = Ok (h, a) /\ unbundle_array unbundle_int JNT_INTEGER h a = Ok [0; -12; 2147483647].
Proof. eexists _, _. split; [vm_compute; reflexivity|vm_compute; reflexivity]. Qed.
