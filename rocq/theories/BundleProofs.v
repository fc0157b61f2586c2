(** Proofs about bundled numbers and keypoints. *)
From Coq Require Import String.
From Verif Require Import Base BaseLemmas Heap StrModel LexModel LexSpec CsvModel CsvSpec CsvProofs2 DfModel DfCsvProofs JsonModel JsonSpec JsonProofs JsonParseProofs JsonApiProofs BundleModel BundleSpec.
Local Open Scope nat_scope.

(** ** Reading arrays, with failures *)
Fixpoint seq_res {A} (l : list (res A)) : res (list A) :=
  match l with [] => Ok [] | x :: l' => let* a := x in let* r := seq_res l' in Ok (a :: r) end.

Lemma kid_nodup ks k : NoDup (fids ks) -> In k ks -> NoDup (ids k).
Proof.
  induction ks as [|k0 ks IH]; intros Hn Hi; [destruct Hi|]. cbn in Hn. apply NoDup_app_iff in Hn as (H1 & H2 & _). destruct Hi as [->|Hi]; auto.
Qed.

Lemma unbundle_gen {A} (get : heap node -> nat -> res A) ty (rs : json -> res A) h p r ks vs :
  tree_at h r (IT p JNT_ARRAY None ks) -> NoDup (ids (IT p JNT_ARRAY None ks)) -> map strip ks = map gen vs ->
  (Z.of_nat (length vs) <= INT_MAX)%Z ->
  (forall k rk v, In v vs -> has_type ty v = true -> tree_at h rk k -> NoDup (ids k) -> strip k = gen v -> get h (iid k) = rs v) ->
  unbundle_array get ty h p = seq_res (map (fun v => if has_type ty v then rs v else Fatal) vs).
Proof.
  intros Hat Hn Hm Hmax Hget. pose proof (kids_len _ _ _ Hat Hn) as Hlen. cbn [ids length] in Hlen. fold (fids ks) in Hlen. pose proof (ids_len_forest ks) as Hlk.
  pose proof Hat as Hat'. apply tree_at_eq in Hat' as [Hc Hf]. unfold unbundle_array, n_children. cbn [node_is_a]. rewrite !(proj2 (hget_cell _ _ _) Hc). cbn [bind jtype jdown].
  change (negb (N.land JNT_ARRAY JNT_ARRAY =? 0)%N) with true. cbn iota. rewrite count_ok by (auto; lia). cbn [bind]. rewrite Z.add_0_l, Nat2Z.id.
  assert (length ks = length vs) as Hlx by (apply (f_equal (@length gtree)) in Hm; rewrite !map_length in Hm; auto). rewrite Hlx.
  assert (NoDup (fids ks)) as Hnk by (cbn in Hn; apply NoDup_cons_iff in Hn; apply Hn).
  assert (forall m i acc, i + m = length vs ->
    for_each (fun i acc => let* e := array_fget h (Some p) (Z.of_nat i) ty in let* x := get h e in Ok (acc ++ [x])) (seq i m) acc =
    (let* l := seq_res (map (fun v => if has_type ty v then rs v else Fatal) (skipn i vs)) in Ok (acc ++ l))) as Hgo.
  { induction m as [|m IH]; intros i acc Hi.
    - cbn. rewrite skipn_all2 by lia. cbn. rewrite app_nil_r. reflexivity.
    - cbn [seq for_each]. unfold array_fget at 1. rewrite (array_get_tree h r p ks vs _ ty Hat Hm) by lia. rewrite Nat2Z.id.
      destruct (nth_error vs i) as [v|] eqn:Ev; [|apply nth_error_None in Ev; lia]. destruct (nth_error ks i) as [k|] eqn:Ek; [|apply nth_error_None in Ek; lia].
      assert (skipn i vs = v :: skipn (S i) vs) as Esk.
      { clear - Ev. revert i Ev. induction vs as [|y vs IH]; intros [|i] Ev; try discriminate; cbn in *; [congruence|auto]. }
      rewrite Esk. cbn [map seq_res]. destruct (has_type ty v) eqn:Hty; cbn [bind]; [|reflexivity].
      destruct (forest_nth _ _ _ _ Hf Ek) as (rk & Hk).
      assert (strip k = gen v) as Hs. { pose proof (map_nth_error strip _ _ Ek) as G. rewrite Hm, nth_error_map, Ev in G. cbn in G. congruence. }
      rewrite (Hget k rk v (nth_error_In _ _ Ev) Hty Hk (kid_nodup ks k Hnk (nth_error_In _ _ Ek)) Hs).
      destruct (rs v) as [x| | |]; cbn [bind]; try reflexivity. rewrite IH by lia.
      destruct (seq_res _) as [l| | |]; cbn [bind]; try reflexivity. rewrite <- app_assoc. reflexivity. }
  rewrite (Hgo (length vs) 0 []) by lia. cbn [skipn]. destruct (seq_res _); reflexivity.
Qed.

Lemma seq_res_opt {A B} (f : B -> option A) l : seq_res (map (fun v => or_abort (f v)) l) = or_abort (all_of (map f l)).
Proof.
  induction l as [|v l IH]; [reflexivity|]. cbn [map seq_res all_of]. rewrite IH. destruct (f v); [|reflexivity]. cbn. destruct (all_of (map f l)); reflexivity.
Qed.
Lemma all_of_map {A B} (f : B -> A) l : all_of (map (fun x => Some (f x)) l) = Some (map f l).
Proof. induction l as [|x l IH]; [reflexivity|]. cbn. rewrite IH. reflexivity. Qed.

(** ** Leaves *)
Lemma leaf_read h rk k j s : tree_at h rk k -> strip k = gen j -> (j = JStr s \/ j = JInt s \/ j = JFp s) ->
  leaf_text h (iid k) = Ok s /\ forall ty, node_is_a h (Some (iid k)) ty = Ok (has_type ty j).
Proof.
  intros Hat Hs Hj. destruct k as [p ty tx ks]. apply tree_at_eq in Hat as [Hc _]. unfold leaf_text, node_is_a. cbn [iid]. rewrite (proj2 (hget_cell _ _ _) Hc).
  destruct Hj as [->|[->| ->]]; cbn in Hs; injection Hs as -> -> _; split; reflexivity.
Qed.
Lemma any_type h rk k j : tree_at h rk k -> strip k = gen j -> forall ty, node_is_a h (Some (iid k)) ty = Ok (has_type ty j).
Proof.
  intros Hat Hs ty. destruct k as [p pty tx ks]. apply tree_at_eq in Hat as [Hc _]. unfold node_is_a. cbn [iid]. rewrite (proj2 (hget_cell _ _ _) Hc).
  destruct j; cbn in Hs; injection Hs as -> _ _; reflexivity.
Qed.

Lemma unbundle_int_read h rk k j : tree_at h rk k -> strip k = gen j ->
  unbundle_int h (iid k) = match j with JInt s => Ok (atoi s) | _ => Fatal end.
Proof.
  intros Hat Hs. unfold unbundle_int. rewrite (any_type _ _ _ _ Hat Hs). cbn [bind]. destruct j; try reflexivity.
  destruct (leaf_read h rk k _ s Hat Hs ltac:(auto)) as [E _]. unfold leaf_text in E. change (has_type JNT_INTEGER (JInt s)) with true. cbn iota.
  destruct (hget h (iid k)) as [P| | |]; cbn [bind] in *; try discriminate. destruct (jtext P); [|discriminate]. injection E as ->. reflexivity.
Qed.
Lemma unbundle_double_read {D} (atof : list N -> D) h rk k j : tree_at h rk k -> strip k = gen j ->
  unbundle_double D atof h (iid k) = or_abort (number_of atof j).
Proof.
  intros Hat Hs. unfold unbundle_double. rewrite (any_type _ _ _ _ Hat Hs). cbn [bind]. destruct j; try reflexivity;
    destruct (leaf_read h rk k _ s Hat Hs ltac:(auto)) as [E _]; rewrite E; reflexivity.
Qed.
Lemma unbundle_float_read {F D} (atof : list N -> D) (narrow : D -> F) h rk k j : tree_at h rk k -> strip k = gen j ->
  unbundle_float F D atof narrow h (iid k) = or_abort (option_map narrow (number_of atof j)).
Proof.
  intros Hat Hs. unfold unbundle_float. rewrite (any_type _ _ _ _ Hat Hs). cbn [bind]. destruct j; try reflexivity;
    destruct (leaf_read h rk k _ s Hat Hs ltac:(auto)) as [E _]; rewrite E; reflexivity.
Qed.

(** ** Keypoints: reading *)
Section Keys.
Context {F D : Type}.
Variable print_e : D -> list N.
Variable atof : list N -> D.
Variable widen : F -> D.
Variable narrow : D -> F.

Lemma int_field_read h r o ks ms nm : tree_at h r (IT o JNT_OBJECT None ks) -> map strip ks = gmem ms -> length ks <= length h ->
  int_field h o nm = match first_member nm ms with Some (_, JInt t) => Ok (atoi t) | _ => Fatal end.
Proof.
  intros Hat Hm Hl. unfold int_field, object_fget. pose proof (object_get_tree h r o ks ms nm JNT_INTEGER Hat Hm Hl) as G.
  destruct (first_member nm ms) as [[a j]|]; [|rewrite G; reflexivity]. destruct G as (k & rk & _ & Hk & Hs & ->). cbn [snd] in *.
  destruct j; try reflexivity. change (has_type JNT_INTEGER (JInt s)) with true. cbn iota. cbn [bind]. rewrite (unbundle_int_read _ _ _ _ Hk Hs). reflexivity.
Qed.
Lemma fp_field_read h r o ks ms nm : tree_at h r (IT o JNT_OBJECT None ks) -> map strip ks = gmem ms -> length ks <= length h ->
  fp_field F D atof narrow h o nm = match first_member nm ms with Some (_, JFp t) => Ok (narrow (atof t)) | _ => Fatal end.
Proof.
  intros Hat Hm Hl. unfold fp_field, object_fget. pose proof (object_get_tree h r o ks ms nm JNT_FPNUMBER Hat Hm Hl) as G.
  destruct (first_member nm ms) as [[a j]|]; [|rewrite G; reflexivity]. destruct G as (k & rk & _ & Hk & Hs & ->). cbn [snd] in *.
  destruct j; try reflexivity. change (has_type JNT_FPNUMBER (JFp s)) with true. cbn iota. cbn [bind]. rewrite (unbundle_double_read _ _ _ _ _ Hk Hs). reflexivity.
Qed.

Lemma unbundle_key_read h rk k j : tree_at h rk k -> NoDup (ids k) -> strip k = gen j ->
  unbundle_keypoint F D atof narrow h (iid k) = or_abort (json_key atof narrow j).
Proof.
  intros Hat Hn Hs. unfold unbundle_keypoint. rewrite (any_type _ _ _ _ Hat Hs). cbn [bind]. destruct j as [ms| | | | | | |]; try reflexivity.
  change (has_type JNT_OBJECT (JObj ms)) with true. cbn iota. destruct k as [o ty tx ks]. cbn in Hs. injection Hs as -> -> Hm. cbn [iid].
  pose proof (kids_len _ _ _ Hat Hn) as Hlen. cbn [ids length] in Hlen. fold (fids ks) in Hlen. pose proof (ids_len_forest ks) as Hlk.
  assert (length ks <= length h) as Hl by lia.
  rewrite !(int_field_read h rk o ks ms _ Hat Hm Hl), !(fp_field_read h rk o ks ms _ Hat Hm Hl).
  unfold json_key, int_at, fp_at.
  change (name "x") with n_x. change (name "y") with n_y. change (name "xs") with n_xs. change (name "ys") with n_ys. change (name "level") with n_level.
  change (name "scale") with n_scale. change (name "sigma") with n_sigma. change (name "score") with n_score. change (name "ori") with n_ori. change (name "id") with n_id.
  unfold to_u64. change (2 ^ 64)%Z with 18446744073709551616%Z.
  repeat (match goal with |- context [match first_member ?a ?b with _ => _ end] => destruct (first_member a b) as [[? []]|] end; cbn [bind]; try reflexivity).
Qed.

(** ** Keypoints: writing *)
Lemma add_member_ok h o ks nm mk f : ctx h o JNT_OBJECT None None ks ->
  (exists t, fresh_tree h (fst (mk h)) None t /\ snd (mk h) = iid t /\ strip t = gen f) ->
  exists h2 t, add_member o nm mk h = Ok h2 /\ step h h2 o JNT_OBJECT None None ks t /\ map strip t = gmem [(nm, f)].
Proof.
  intros Hc (t & Hf & Ei & Hs). unfold add_member. destruct (mk h) as [h1 n]. cbn [fst snd] in *. subst n.
  destruct (object_add_fresh h h1 o None None ks t nm Hc Hf) as (h2 & E2 & Hst). exists h2. eexists. split; [exact E2|]. split; [exact Hst|]. cbn. rewrite Hs. reflexivity.
Qed.
Lemma int_leaf h z : exists t, fresh_tree h (fst (bundle_int h z)) None t /\ snd (bundle_int h z) = iid t /\ strip t = gen (JInt (print_int z)).
Proof. exists (IT (length h) JNT_INTEGER (Some (print_int z)) []). split; [apply fresh_new|]. auto. Qed.
Lemma fp_leaf h d : exists t, fresh_tree h (fst (bundle_double D print_e h d)) None t /\ snd (bundle_double D print_e h d) = iid t /\ strip t = gen (JFp (print_e d)).
Proof. exists (IT (length h) JNT_FPNUMBER (Some (print_e d)) []). split; [apply fresh_new|]. auto. Qed.


Lemma add_chain h0 h o ts ms nm mk f : ctx h0 o JNT_OBJECT None None [] -> step h0 h o JNT_OBJECT None None [] ts -> map strip ts = gmem ms ->
  (forall h, exists t, fresh_tree h (fst (mk h)) None t /\ snd (mk h) = iid t /\ strip t = gen f) ->
  exists h2 ts2, add_member o nm mk h = Ok h2 /\ step h0 h2 o JNT_OBJECT None None [] ts2 /\ map strip ts2 = gmem (ms ++ [(nm, f)]).
Proof.
  intros Hc0 Hst Hm Hmk. destruct (add_member_ok h o ts nm mk f (proj1 Hst) (Hmk h)) as (h2 & t & E & St & Ht). exists h2, (ts ++ t).
  split; [exact E|]. split; [eapply step_trans; eauto|]. rewrite map_app, Hm, Ht. unfold gmem. rewrite flat_map_app. reflexivity.
Qed.

Lemma bundle_key_ok h k : exists h' t, bundle_keypoint F D print_e widen h k = Ok (h', iid t) /\ fresh_tree h h' None t /\ strip t = gen (key_json print_e widen k (wrap_int (kp_id k))).
Proof.
  unfold bundle_keypoint, new_object, node_new, halloc. pose proof (open_ctx h JNT_OBJECT None) as C0. pose proof (step_refl _ _ _ _ _ _ C0) as St0.
  assert (map strip [] = gmem []) as M0 by reflexivity.
  pose proof (fun h => int_leaf h (kp_x k)) as L1. pose proof (fun h => int_leaf h (kp_y k)) as L2. pose proof (fun h => fp_leaf h (widen (kp_xs k))) as L3. pose proof (fun h => fp_leaf h (widen (kp_ys k))) as L4.
  pose proof (fun h => int_leaf h (kp_level k)) as L5. pose proof (fun h => fp_leaf h (widen (kp_scale k))) as L6. pose proof (fun h => fp_leaf h (widen (kp_sigma k))) as L7.
  pose proof (fun h => fp_leaf h (widen (kp_score k))) as L8. pose proof (fun h => fp_leaf h (widen (kp_ori k))) as L9. pose proof (fun h => int_leaf h (wrap_int (kp_id k))) as L10.
  destruct (add_chain _ _ _ _ _ n_x _ _ C0 St0 M0 L1) as (h1 & t1 & -> & S1 & M1). cbn [bind].
  destruct (add_chain _ _ _ _ _ n_y _ _ C0 S1 M1 L2) as (h2 & t2 & -> & S2 & M2). cbn [bind].
  destruct (add_chain _ _ _ _ _ n_xs _ _ C0 S2 M2 L3) as (h3 & t3 & -> & S3 & M3). cbn [bind].
  destruct (add_chain _ _ _ _ _ n_ys _ _ C0 S3 M3 L4) as (h4 & t4 & -> & S4 & M4). cbn [bind].
  destruct (add_chain _ _ _ _ _ n_level _ _ C0 S4 M4 L5) as (h5 & t5 & -> & S5 & M5). cbn [bind].
  destruct (add_chain _ _ _ _ _ n_scale _ _ C0 S5 M5 L6) as (h6 & t6 & -> & S6 & M6). cbn [bind].
  destruct (add_chain _ _ _ _ _ n_sigma _ _ C0 S6 M6 L7) as (h7 & t7 & -> & S7 & M7). cbn [bind].
  destruct (add_chain _ _ _ _ _ n_score _ _ C0 S7 M7 L8) as (h8 & t8 & -> & S8 & M8). cbn [bind].
  destruct (add_chain _ _ _ _ _ n_ori _ _ C0 S8 M8 L9) as (h9 & t9 & -> & S9 & M9). cbn [bind].
  destruct (add_chain _ _ _ _ _ n_id _ _ C0 S9 M9 L10) as (h10 & t10 & -> & S10 & M10). cbn [bind].
  exists h10, (IT (length h) JNT_OBJECT None t10). split; [reflexivity|]. split; [apply close_step; exact S10|]. cbn [strip]. rewrite M10. reflexivity.
Qed.

Lemma rbundle_ok {A} (mk : heap node -> A -> res (heap node * nat)) (f : A -> json) xs :
  (forall h x, exists h' t, mk h x = Ok (h', iid t) /\ fresh_tree h h' None t /\ strip t = gen (f x)) ->
  forall a h ks, ctx h a JNT_ARRAY None None ks -> exists h' ts, rbundle_loop mk xs a h = Ok h' /\ step h h' a JNT_ARRAY None None ks ts /\ map strip ts = map gen (map f xs).
Proof.
  intros Hmk a. induction xs as [|x xs IH]; intros h ks Hc; cbn [rbundle_loop].
  - exists h, []. split; [reflexivity|]. split; [apply step_refl; auto|reflexivity].
  - destruct (Hmk h x) as (h1 & t & E & Hf & Hs). rewrite E. cbn [bind].
    destruct (array_add_fresh h h1 a None None ks t Hc Hf) as (h2 & E2 & Hst). rewrite E2. cbn [bind]. pose proof Hst as (Hc2 & _).
    destruct (IH h2 _ Hc2) as (h3 & ts & E3 & Hst3 & Hs3). exists h3. eexists. split; [exact E3|]. split; [eapply step_trans; eauto|]. cbn. congruence.
Qed.
Lemma bundle_keys_ok h keys : exists h' t, bundle_keypoint_array F D print_e widen h keys = Ok (h', iid t) /\ fresh_tree h h' None t /\
  strip t = gen (JArr (map (fun k => key_json print_e widen k (wrap_int (kp_id k))) keys)).
Proof.
  unfold bundle_keypoint_array, new_array, node_new, halloc.
  destruct (rbundle_ok _ _ keys bundle_key_ok _ _ [] (open_ctx h JNT_ARRAY None)) as (h' & ts & E & Hst & Hs). rewrite E. cbn [bind].
  exists h', (IT (length h) JNT_ARRAY None ts). split; [reflexivity|]. split; [apply close_step; auto|]. cbn [strip gen]. f_equal. exact Hs.
Qed.

Lemma int_round z : in_int z = true -> atoi (print_int z) = z.
Proof. intros Hz. apply (print_int_read (fun _ => false)); auto. Qed.
Lemma wrap_int_in z : in_int (wrap_int z) = true.
Proof. unfold in_int, wrap_int, INT_MIN, INT_MAX. pose proof (Z.mod_pos_bound (z - -2147483648) 4294967296 ltac:(lia)). lia. Qed.
Lemma key_back k : key_ints_ok k -> json_key atof narrow (key_json print_e widen k (wrap_int (kp_id k))) =
  Some (mkKey (kp_x k) (kp_y k) (via_text print_e atof widen narrow (kp_xs k)) (via_text print_e atof widen narrow (kp_ys k)) (kp_level k)
          (via_text print_e atof widen narrow (kp_scale k)) (via_text print_e atof widen narrow (kp_sigma k)) (via_text print_e atof widen narrow (kp_score k))
          (via_text print_e atof widen narrow (kp_ori k)) (wrap_int (kp_id k) mod 2 ^ 64)%Z).
Proof.
  intros (H1 & H2 & H3). cbn -[atoi print_int wrap_int Z.modulo Z.pow]. rewrite !int_round by (auto using wrap_int_in). reflexivity.
Qed.
End Keys.

(** ** Sizes *)
Local Open Scope Z_scope.
Lemma long_round z : LONG_MIN <= z <= LONG_MAX -> atol (print_int z) = z.
Proof.
  intros Hz. destruct (print_int_shape z) as (sg & ds & -> & Hs & Hd & Hv). destruct (decimal_all _ Hd) as [Ha Hn].
  pose proof (strtol10_digits [] sg ds ltac:(constructor) Hs Ha Hn) as E1. cbn [app] in E1. unfold atol. rewrite E1. cbn [fst]. rewrite Hv. unfold clamp_long. lia.
Qed.
Lemma size_round z : 0 <= z < 2 ^ 64 -> to_u64 (atol (print_int (wrap_long z))) = z.
Proof.
  change (2 ^ 64) with 18446744073709551616. intros Hz. rewrite long_round.
  - unfold to_u64, wrap_long, LONG_MIN. assert ((z - -9223372036854775808) mod 18446744073709551616 + -9223372036854775808 = z \/ (z - -9223372036854775808) mod 18446744073709551616 + -9223372036854775808 = z - 18446744073709551616) as [-> | ->].
    + destruct (Z_lt_le_dec z 9223372036854775808); [left|right].
      * rewrite Z.mod_small by lia. lia.
      * replace (z - -9223372036854775808) with (z - 9223372036854775808 + 1 * 18446744073709551616) by lia. rewrite Z.mod_add, Z.mod_small by lia. lia.
    + apply Z.mod_small. lia.
    + replace (z - 18446744073709551616) with (z + (-1) * 18446744073709551616) by lia. rewrite Z.mod_add by lia. apply Z.mod_small. lia.
  - unfold wrap_long, LONG_MIN, LONG_MAX. pose proof (Z.mod_pos_bound (z - -9223372036854775808) 18446744073709551616 ltac:(lia)). lia.
Qed.
(** The 64-bit id comes back exactly when it survives the conversion to int. *)
Lemma id_round z : 0 <= z < 2 ^ 64 -> (wrap_int z mod 2 ^ 64 = z <-> z < 2 ^ 31 \/ 2 ^ 64 - 2 ^ 31 <= z).
Proof.
  change (2 ^ 64) with 18446744073709551616. change (2 ^ 31) with 2147483648. intros Hz. pose proof (wrap_int_in z) as Hw. unfold in_int, INT_MIN, INT_MAX in Hw.
  assert (-2147483648 <= wrap_int z <= 2147483647) as Hb by lia. clear Hw. split.
  - intros E. destruct (Z_lt_le_dec (wrap_int z) 0) as [Hneg|Hpos].
    + right. rewrite <- (Z.mod_add (wrap_int z) 1) in E by lia. rewrite Z.mod_small in E by lia. lia.
    + left. rewrite Z.mod_small in E by lia. lia.
  - unfold wrap_int, INT_MIN. intros [H|H].
    + rewrite (Z.mod_small (z - -2147483648)) by lia. replace (z - -2147483648 + -2147483648) with z by lia. apply Z.mod_small. lia.
    + replace (z - -2147483648) with ((z - 18446744073709551616 + 2147483648) + 4294967296 * 4294967296) by lia. rewrite Z.mod_add by lia. rewrite (Z.mod_small (z - 18446744073709551616 + 2147483648)) by lia.
      replace (z - 18446744073709551616 + 2147483648 + -2147483648) with (z + (-1) * 18446744073709551616) by lia. rewrite Z.mod_add by lia. apply Z.mod_small. lia.
Qed.

(** ** Texts *)
Lemma print_int_number z : json_number (print_int z) LNT_INTEGER.
Proof.
  assert (exists sg ds, print_int z = sg ++ ds /\ (sg = [] \/ sg = [45%N]) /\ decimal_digits ds) as (sg & ds & -> & Hs & Hd).
  { unfold print_int. destruct (Z.ltb_spec z 0).
    - destruct (print_pos (Z.to_N (- z))) as (ds & -> & Hd & _). exists [45%N], ds. auto.
    - destruct (print_pos (Z.to_N z)) as (ds & -> & Hd & _). exists [], ds. auto. }
  exists sg, ds, [], []. rewrite !app_nil_r. split; [auto|]. split; [auto|]. split.
  - destruct Hd as [->|(d & ds' & -> & H1 & H2)]; constructor; auto.
  - split; [left; auto|]. split; [left; auto|]. tauto.
Qed.

Lemma name_ok s : (forall c, In c (list_ascii_of_string s) -> (0 < Ascii.N_of_ascii c < 255)%N) -> str_ok (name s).
Proof. intros H. unfold str_ok, name. apply Forall_map, Forall_forall. exact H. Qed.

Lemma key_json_ok {F D} (print_e : D -> list N) (widen : F -> D) k z :
  Forall (fun f => json_number (print_e (widen f)) LNT_FLOAT) (key_floats k) -> json_ok (key_json print_e widen k z).
Proof.
  intros H. unfold key_floats in H. repeat (match goal with H : Forall _ (_ :: _) |- _ => inversion H; clear H; subst end).
  constructor. repeat (constructor; [split; [apply name_ok; cbn [list_ascii_of_string]; intros c Hc; repeat (destruct Hc as [<-|Hc]; [vm_compute; split; reflexivity|]); destruct Hc|cbn [snd]; constructor; auto using print_int_number]|]).
  constructor.
Qed.
Lemma key_json_plain {F D} (print_e : D -> list N) (widen : F -> D) k z : plain (key_json print_e widen k z).
Proof. constructor. repeat constructor. Qed.
