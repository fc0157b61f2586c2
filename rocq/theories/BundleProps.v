(** Properties C128 and C129. *)
From Coq Require Import String.
From Verif Require Import Base BaseLemmas Heap StrModel LexModel LexSpec CsvModel CsvSpec DfModel DfCsvProofs JsonModel JsonSpec JsonProofs JsonParseProofs JsonApiProofs JsonProps
  BundleModel BundleSpec BundleProofs.
Local Open Scope Z_scope.

(** C128: what nx_json_unbundle_keypoint and nx_json_unbundle_keypoint_array
    make of any tree of nodes: the keypoints it describes, or an abort. *)
Theorem C128_reads : forall F D (atof : list N -> D) (narrow : D -> F) h p j, shows h p j ->
  unbundle_keypoint F D atof narrow h p = or_abort (json_key atof narrow j) /\
  (forall vs, j = JArr vs -> Z.of_nat (length vs) <= INT_MAX ->
     unbundle_keypoint_array F D atof narrow h p = or_abort (all_of (map (json_key atof narrow) vs))) /\
  ((forall vs, j <> JArr vs) -> unbundle_keypoint_array F D atof narrow h p = Fatal).
Proof.
  intros F D atof narrow h p j (r & L & t & Hat & Hi & Hs & HL & Hn). subst p L. split; [|split].
  - apply (unbundle_key_read atof narrow h r t j); auto.
  - intros vs -> Hl. destruct t as [p ty tx ks]. cbn in Hs. injection Hs as -> -> Hm. unfold unbundle_keypoint_array. cbn [iid].
    rewrite (unbundle_gen _ _ (fun v => or_abort (json_key atof narrow v)) h p r ks vs Hat Hn Hm Hl).
    + rewrite <- seq_res_opt. f_equal. apply map_ext. intros v. destruct v; reflexivity.
    + intros k rk v _ _ Hk Hnk Hsk. eapply unbundle_key_read; eauto.
  - intros Hno. unfold unbundle_keypoint_array, unbundle_array. rewrite (any_type _ _ _ _ Hat Hs). cbn [bind]. destruct j; try reflexivity. destruct (Hno vs eq_refl).
Qed.
Print Assumptions C128_reads.

(** Keypoints with an id that fits in an int survive bundling, printing with
    any indentation, parsing and unbundling; the floats are what their printed
    forms read back as.  (Missing: ids from 2^31 up to 2^64 - 2^31, see below.) *)
Theorem C128_round_trip_partial : forall F D print_e (atof : list N -> D) (widen : F -> D) narrow h keys,
  Forall key_ints_ok keys -> Forall (fun k => 0 <= kp_id k < 2 ^ 31) keys -> Z.of_nat (length keys) <= INT_MAX ->
  exists h1 a, bundle_keypoint_array F D print_e widen h keys = Ok (h1, a) /\
    (forall q, (q < length h)%nat -> cell h1 q = cell h q) /\
    shows h1 a (JArr (map (fun k => key_json print_e widen k (kp_id k)) keys)) /\
    unbundle_keypoint_array F D atof narrow h1 a = Ok (map (key_via_text print_e atof widen narrow) keys) /\
    (Forall (fun k => Forall (fun f => json_number (print_e (widen f)) LNT_FLOAT) (key_floats k)) keys ->
     forall level, INT_MIN + 2 <= level <= INT_MAX ->
     exists txt, tree_fprint h1 (Some a) level = Ok txt /\ forall h0, exists h2 b, tree_from_string h0 txt = Ok (h2, b) /\
       unbundle_keypoint_array F D atof narrow h2 b = Ok (map (key_via_text print_e atof widen narrow) keys)).
Proof.
  intros F D print_e atof widen narrow h keys Hk Hid Hl.
  destruct (bundle_keys_ok print_e widen h keys) as (h1 & t & E & (F1 & F2 & F3 & F4 & F5) & Hs).
  assert (forall k, In k keys -> wrap_int (kp_id k) = kp_id k) as Hw.
  { intros k Hi. rewrite Forall_forall in Hid. specialize (Hid k Hi). change (2 ^ 31) with 2147483648 in Hid. unfold wrap_int, INT_MIN. rewrite Z.mod_small by lia. lia. }
  set (J := JArr (map (fun k => key_json print_e widen k (kp_id k)) keys)).
  assert (strip t = gen J) as Hs'. { rewrite Hs. f_equal. unfold J. f_equal. apply map_ext_in. intros k Hi. rewrite Hw; auto. }
  assert (shows h1 (iid t) J) as Hsh by (exists None, (ids t), t; auto).
  assert (forall h2 b, shows h2 b J -> unbundle_keypoint_array F D atof narrow h2 b = Ok (map (key_via_text print_e atof widen narrow) keys)) as Hread.
  { intros h2 b Hb. destruct (C128_reads F D atof narrow h2 b J Hb) as (_ & G & _). rewrite (G _ eq_refl) by (rewrite map_length; auto). rewrite map_map.
    assert (map (fun k => json_key atof narrow (key_json print_e widen k (kp_id k))) keys = map (fun k => Some (key_via_text print_e atof widen narrow k)) keys) as ->.
    { apply map_ext_in. intros k Hi. rewrite <- (Hw k Hi) at 1. rewrite Forall_forall in *. rewrite key_back by auto. apply f_equal. unfold key_via_text. f_equal.
      rewrite Hw by auto. apply Z.mod_small. specialize (Hid k Hi). change (2 ^ 31) with 2147483648 in Hid. change (2 ^ 64) with 18446744073709551616. lia. }
    rewrite all_of_map. reflexivity. }
  exists h1, (iid t). split; [auto|]. split; [auto|]. split; [auto|]. split; [auto|].
  intros Hfp level Hlev.
  destruct (C31_round_trip h1 (iid t) J level) as (txt & Et & Hback); auto.
  - constructor. apply Forall_map. eapply Forall_impl; [|exact Hfp]. intros k Hf. apply key_json_ok; auto.
  - right. unfold J. eauto.
  - constructor. apply Forall_map, Forall_forall. intros k _. apply key_json_plain.
  - assert ((depth J <= 2)%nat) as Hd. { unfold J. clear. cbn [depth]. apply le_n_S. induction keys as [|k keys IH]; cbn [map fold_right]; [lia|]. apply Nat.max_lub; auto. }
    unfold printable, INT_MAX, INT_MIN in *. lia.
  - exists txt. split; [auto|]. intros h0. destruct (Hback h0) as (h2 & q & E2 & Hq & _). exists h2, q. split; auto.
Qed.
Print Assumptions C128_round_trip_partial.

(** The id goes through an int: it comes back exactly if it fits, as a signed
    number of 64 bits, in one of 32 bits. *)
Theorem C128_id_refuted : forall F D print_e (atof : list N -> D) (widen : F -> D) narrow h k, key_ints_ok k -> 0 <= kp_id k < 2 ^ 64 ->
  exists h1 o k', bundle_keypoint F D print_e widen h k = Ok (h1, o) /\ unbundle_keypoint F D atof narrow h1 o = Ok k' /\
    (kp_id k' = kp_id k <-> kp_id k < 2 ^ 31 \/ 2 ^ 64 - 2 ^ 31 <= kp_id k).
Proof.
  intros F D print_e atof widen narrow h k Hk Hid. destruct (bundle_key_ok print_e widen h k) as (h1 & t & E & (F1 & F2 & F3 & F4 & F5) & Hs).
  eexists h1, (iid t), _. split; [exact E|]. split.
  - rewrite (unbundle_key_read atof narrow h1 None t _ F1 F2 Hs), key_back by auto. reflexivity.
  - cbn [kp_id]. apply id_round. auto.
Qed.
Print Assumptions C128_id_refuted.

Definition demo_atof (s : list N) : list N := s.
Definition demo_key : keypoint (list N) := mkKey (-3) 7 (map Ascii.N_of_ascii (list_ascii_of_string "1.5e+00")) (map Ascii.N_of_ascii (list_ascii_of_string "-2.5e-01")) 1
  [48; 46; 48]%N [49; 46; 53]%N [48; 101; 49]%N [51; 46; 49]%N 42.
Example C128_example :
  key_ints_ok demo_key /\ Forall (fun f => json_number f LNT_FLOAT) (key_floats demo_key) /\
  (exists h a, bundle_keypoint_array _ _ (fun s => s) (fun s => s) [] [demo_key; demo_key] = Ok (h, a) /\
     unbundle_keypoint_array _ _ demo_atof (fun s => s) h a = Ok [demo_key; demo_key]) /\
  (exists h o k', bundle_keypoint _ _ (fun s => s) (fun s => s) [] (mkKey 0 0 [] [] 0 [] [] [] [] 4294967301) = Ok (h, o) /\
     unbundle_keypoint _ _ demo_atof (fun s => s) h o = Ok k' /\ kp_id k' = 5).
Proof.
  split; [repeat split|]. split.
  - assert (forall sg i f e, (sg = [] \/ sg = [45%N]) -> json_int i -> opt json_frac f -> opt json_exp e -> (f <> [] \/ e <> []) -> json_number (sg ++ i ++ f ++ e) LNT_FLOAT) as G.
    { intros sg i f e H1 H2 H3 H4 H5. exists sg, i, f, e. do 5 (split; [auto|]). split; [discriminate|]. intros [-> ->]. destruct H5; congruence. }
    assert (forall d, (49 <= d <= 57)%N -> json_int [d]) as Hi by (intros; constructor; auto).
    assert (forall d ds, Forall digit (d :: ds) -> opt json_frac (46%N :: d :: ds)) as Hf by (intros; right; eexists _, _; split; [reflexivity|auto]).
    assert (forall sg d ds, (sg = [] \/ sg = [43] \/ sg = [45])%N -> Forall digit (d :: ds) -> opt json_exp (101%N :: sg ++ d :: ds)) as He.
    { intros sg d ds Hsg Hd. right. exists 101%N, sg, d, ds. auto. }
    assert (opt json_frac []) as Of by (left; auto). assert (opt json_exp []) as Oe by (left; auto).
    assert (Hdg : forall d, (48 <= d <= 57)%N -> digit d) by (intros; auto).
    unfold key_floats. cbn [kp_xs kp_ys kp_scale kp_sigma kp_score kp_ori demo_key]. repeat apply Forall_cons; try apply Forall_nil.
    + apply (G [] [49%N] [46; 53]%N (101%N :: [43%N] ++ 48%N :: [48%N])); auto; [apply Hi; lia|apply Hf; solve [repeat (apply Forall_cons; [unfold digit; lia|]); apply Forall_nil]|apply He; [auto|solve [repeat (apply Forall_cons; [unfold digit; lia|]); apply Forall_nil]]|left; discriminate].
    + apply (G [45%N] [50%N] [46; 53]%N (101%N :: [45%N] ++ 48%N :: [49%N])); auto; [apply Hi; lia|apply Hf; solve [repeat (apply Forall_cons; [unfold digit; lia|]); apply Forall_nil]|apply He; [auto|solve [repeat (apply Forall_cons; [unfold digit; lia|]); apply Forall_nil]]|left; discriminate].
    + apply (G [] [48%N] [46; 48]%N []); auto; [constructor|apply Hf; solve [repeat (apply Forall_cons; [unfold digit; lia|]); apply Forall_nil]|left; discriminate].
    + apply (G [] [49%N] [46; 53]%N []); auto; [apply Hi; lia|apply Hf; solve [repeat (apply Forall_cons; [unfold digit; lia|]); apply Forall_nil]|left; discriminate].
    + apply (G [] [48%N] [] (101%N :: [] ++ 49%N :: [])); auto; [constructor|apply He; [auto|solve [repeat (apply Forall_cons; [unfold digit; lia|]); apply Forall_nil]]|right; discriminate].
    + apply (G [] [51%N] [46; 49]%N []); auto; [apply Hi; lia|apply Hf; solve [repeat (apply Forall_cons; [unfold digit; lia|]); apply Forall_nil]|left; discriminate].
  - split; [eexists _, _|eexists _, _, _]; (split; [vm_compute; reflexivity|]); [vm_compute; reflexivity|split; [vm_compute; reflexivity|reflexivity]].
Qed.

(** C129: single characters, bytes and sizes come back as they were bundled;
    a byte read from any integer is that integer brought into 0..255. *)
Theorem C129_scalars : forall h,
  (forall c, (c < 256)%N -> exists h' p, bundle_char h c = (h', p) /\ unbundle_char h' p = Ok c) /\
  (forall c, (c < 256)%N -> exists h' p, bundle_uchar h c = (h', p) /\ unbundle_uchar h' p = Ok (Z.of_N c)) /\
  (forall z, 0 <= z < 2 ^ 64 -> exists h' p, bundle_size_t h z = (h', p) /\ unbundle_size_t h' p = Ok z) /\
  (forall z, in_int z = true -> exists h' p, bundle_int h z = (h', p) /\ unbundle_uchar h' p = Ok (Z.max 0 (Z.min 255 z))).
Proof.
  intros h. assert (forall z, in_int z = true -> unbundle_uchar (fst (bundle_int h z)) (snd (bundle_int h z)) = Ok (Z.max 0 (Z.min 255 z))) as Hu.
  { intros z Hz. destruct (int_leaf h z) as (t & (F1 & _) & -> & Hs). unfold unbundle_uchar. rewrite (unbundle_int_read _ _ _ _ F1 Hs). cbn [bind]. rewrite int_round by auto.
    f_equal. destruct (Z.ltb_spec z 0); [lia|]. destruct (Z.ltb_spec 255 z); lia. }
  split; [|split; [|split]].
  - intros c Hc. eexists _, _. split; [reflexivity|]. unfold unbundle_char, leaf_text, node_is_a. rewrite (proj2 (hget_cell _ _ _) (cell_alloc_new _ _)). cbn [bind jtype jtext].
    destruct (N.eqb_spec c 0) as [->|]; reflexivity.
  - intros c Hc. destruct (bundle_uchar h c) as [h' p] eqn:E. exists h', p. split; [auto|]. unfold bundle_uchar in E. specialize (Hu (Z.of_N c)). rewrite E in Hu. cbn [fst snd] in Hu.
    rewrite Hu by (unfold in_int, INT_MIN, INT_MAX; lia). f_equal. lia.
  - intros z Hz. eexists _, _. split; [reflexivity|]. unfold unbundle_size_t, leaf_text, node_is_a. rewrite (proj2 (hget_cell _ _ _) (cell_alloc_new _ _)). cbn [bind jtype jtext].
    change (negb (N.land JNT_INTEGER JNT_INTEGER =? 0)%N) with true. cbn iota. rewrite size_round; auto.
  - intros z Hz. destruct (bundle_int h z) as [h' p] eqn:E. exists h', p. split; [auto|]. specialize (Hu z Hz). rewrite E in Hu. exact Hu.
Qed.
Print Assumptions C129_scalars.

(** Arrays of floating-point numbers: each comes back as its printed form
    reads; an array that mixes integers and fractions is read too, any other
    element aborts. *)
Theorem C129_float_arrays : forall F D print_e (atof : list N -> D) (widen : F -> D) narrow,
  (forall h (xs : list F), Z.of_nat (length xs) <= INT_MAX -> exists h' a, bundle_float_array F D print_e widen h xs = Ok (h', a) /\
     shows h' a (JArr (map (fun x => JFp (print_e (widen x))) xs)) /\ unbundle_float_array F D atof narrow h' a = Ok (map (fun x => narrow (atof (print_e (widen x)))) xs)) /\
  (forall h (xs : list D), Z.of_nat (length xs) <= INT_MAX -> exists h' a, bundle_double_array D print_e h xs = Ok (h', a) /\
     shows h' a (JArr (map (fun x => JFp (print_e x)) xs)) /\ unbundle_double_array D atof h' a = Ok (map (fun x => atof (print_e x)) xs)) /\
  (forall h a vs, shows h a (JArr vs) -> Z.of_nat (length vs) <= INT_MAX ->
     unbundle_double_array D atof h a = or_abort (all_of (map (number_of atof) vs)) /\
     unbundle_float_array F D atof narrow h a = or_abort (all_of (map (fun v => option_map narrow (number_of atof v)) vs))).
Proof.
  intros F D print_e atof widen narrow.
  assert (forall h a vs, shows h a (JArr vs) -> Z.of_nat (length vs) <= INT_MAX ->
     unbundle_double_array D atof h a = or_abort (all_of (map (number_of atof) vs)) /\
     unbundle_float_array F D atof narrow h a = or_abort (all_of (map (fun v => option_map narrow (number_of atof v)) vs))) as Hr.
  { intros h a vs (r & L & [p ty tx ks] & Hat & Hi & Hs & HL & Hn) Hl. cbn in Hi, Hs. injection Hs as -> -> Hm. subst p L. split.
    - unfold unbundle_double_array. rewrite (unbundle_gen _ _ (fun v => or_abort (number_of atof v)) h a r ks vs Hat Hn Hm Hl).
      + rewrite <- seq_res_opt. f_equal. apply map_ext. intros v. destruct v; reflexivity.
      + intros k rk v _ _ Hk _ Hsk. eapply unbundle_double_read; eauto.
    - unfold unbundle_float_array. rewrite (unbundle_gen _ _ (fun v => or_abort (option_map narrow (number_of atof v))) h a r ks vs Hat Hn Hm Hl).
      + rewrite <- seq_res_opt. f_equal. apply map_ext. intros v. destruct v; reflexivity.
      + intros k rk v _ _ Hk _ Hsk. eapply unbundle_float_read; eauto. }
  split; [|split; [|exact Hr]].
  - intros h xs Hl. destruct (bundle_array_ok (bundle_float F D print_e widen) (fun x => JFp (print_e (widen x))) xs) with (h := h) as (h' & ts & E & (F1 & F2 & F3 & F4 & F5) & Hs).
    { intros h0 x. apply fp_leaf. }
    assert (shows h' (length h) (JArr (map (fun x => JFp (print_e (widen x))) xs))) as Hsh.
    { eexists None, _, (IT (length h) JNT_ARRAY None ts). split; [exact F1|]. split; [reflexivity|]. split; [cbn [strip gen]; f_equal; auto|]. auto. }
    exists h', (length h). split; [auto|]. split; [auto|]. rewrite (proj2 (Hr _ _ _ Hsh ltac:(rewrite map_length; auto))), map_map. cbn [number_of option_map].
    rewrite (all_of_map (fun x => narrow (atof (print_e (widen x))))). reflexivity.
  - intros h xs Hl. destruct (bundle_array_ok (bundle_double D print_e) (fun x => JFp (print_e x)) xs) with (h := h) as (h' & ts & E & (F1 & F2 & F3 & F4 & F5) & Hs).
    { intros h0 x. apply fp_leaf. }
    assert (shows h' (length h) (JArr (map (fun x => JFp (print_e x)) xs))) as Hsh.
    { eexists None, _, (IT (length h) JNT_ARRAY None ts). split; [exact F1|]. split; [reflexivity|]. split; [cbn [strip gen]; f_equal; auto|]. auto. }
    exists h', (length h). split; [auto|]. split; [auto|]. rewrite (proj1 (Hr _ _ _ Hsh ltac:(rewrite map_length; auto))), map_map. cbn [number_of].
    rewrite (all_of_map (fun x => atof (print_e x))). reflexivity.
Qed.
Print Assumptions C129_float_arrays.
Example C129_example :
  (exists h p, bundle_size_t [] 18446744073709551615 = (h, p) /\ leaf_text h p = Ok [45; 49]%N /\ unbundle_size_t h p = Ok 18446744073709551615) /\
  (exists h p, bundle_char [] 0%N = (h, p) /\ unbundle_char h p = Ok 0%N) /\
  (exists h p, bundle_int [] (-7) = (h, p) /\ unbundle_uchar h p = Ok 0) /\
  (exists h a, build [] (JArr [JInt [49%N]; JFp [50; 46; 53]%N]) = Ok (h, a) /\ unbundle_double_array _ demo_atof h a = Ok [[49%N]; [50; 46; 53]%N]).
Proof. repeat split; eexists _, _; (split; [vm_compute; reflexivity|]); try (split; vm_compute; reflexivity); vm_compute; reflexivity. Qed.
