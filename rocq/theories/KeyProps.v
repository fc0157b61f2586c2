(** Properties C99 and C100: keypoint and SIFT files. *)
From Verif Require Import Base BaseLemmas Bytes KeyModel KeySpec KeyProofs KeySave.

Local Open Scope nat_scope.

(** C99: writing.  The stream takes [o_limit] bytes in all; as many whole
    keypoints as fit are counted, and everything written is a prefix of the
    file format. *)
Theorem C99_write : forall keys n s, (0 <= n <= Z.of_nat (length keys))%Z -> length (o_data s) <= o_limit s ->
  nx_keypoint_write keys n s =
    Ok (Z.min n (Z.of_nat ((o_limit s - length (o_data s)) / 44)),
        OStream (firstn (o_limit s) (o_data s ++ keys_bytes (firstn (Z.to_nat n) keys))) (o_limit s)).
Proof. intros keys n s H. apply write_ok; lia. Qed.
Print Assumptions C99_write.

(** Reading counts the complete keypoints found, stores them, and leaves the
    keypoints after the first incomplete one alone. *)
Theorem C99_read : forall keys n st, bytes_ok st -> (0 <= n <= Z.of_nat (length keys))%Z ->
  exists keys', nx_keypoint_read keys n st = Ok (Z.min n (Z.of_nat (length st / 44)), keys', skipn (44 * Z.to_nat n) st) /\
    length keys' = length keys /\
    (forall j, (Z.of_nat j < n)%Z -> 44 * j + 44 <= length st ->
       exists k, nth_error keys' j = Some k /\ key_ok k /\ key_bytes k = firstn 44 (skipn (44 * j) st)) /\
    (forall j, (n <= Z.of_nat j)%Z \/ length st < 44 * j -> nth_error keys' j = nth_error keys j).
Proof. exact read_ok. Qed.
Print Assumptions C99_read.

(** Keypoints written are read back, whatever follows in the file and whatever
    the array held before. *)
Theorem C99_round_trip : forall ks old rest limit, Forall key_ok ks -> length ks <= length old -> bytes_ok rest -> 44 * length ks <= limit ->
  exists s, nx_keypoint_write ks (Z.of_nat (length ks)) (OStream [] limit) = Ok (Z.of_nat (length ks), s) /\
    nx_keypoint_read old (Z.of_nat (length ks)) (o_data s ++ rest) = Ok (Z.of_nat (length ks), ks ++ skipn (length ks) old, rest).
Proof.
  intros ks old rest limit K L B R. eexists. split.
  - rewrite write_ok by (cbn [o_data o_limit length]; lia). cbn [o_data o_limit length app]. rewrite Nat2Z.id, firstn_all.
    f_equal. f_equal. rewrite Nat.sub_0_r. assert (length ks <= limit / 44) by (apply Nat.div_le_lower_bound; lia). lia.
  - cbn [o_data]. rewrite firstn_all2 by (rewrite keys_bytes_length; lia). now apply read_back.
Qed.
Print Assumptions C99_round_trip.

(** The strict variants stop the program exactly when not all could be
    transferred. *)
Theorem C99_strict : forall keys n, (0 <= n <= Z.of_nat (length keys))%Z ->
  (forall s, length (o_data s) <= o_limit s -> nx_keypoint_xwrite keys n s = Fatal <-> o_limit s < length (o_data s) + 44 * Z.to_nat n) /\
  (forall st, bytes_ok st -> nx_keypoint_xread keys n st = Fatal <-> length st < 44 * Z.to_nat n).
Proof.
  intros keys n N. split.
  - intros s H. rewrite xwrite_ok by auto. destruct (Nat.leb_spec (length (o_data s) + 44 * Z.to_nat n) (o_limit s)); split; intros; try lia; [discriminate|reflexivity].
  - intros st B. destruct (xread_cases keys n st B N) as [[L ->]|(ks & L1 & _ & E & ->)]; split; intros; auto; [discriminate|].
    exfalso. apply (f_equal (@length _)) in E. rewrite app_length, keys_bytes_length, L1, skipn_length in E. lia.
Qed.
Print Assumptions C99_strict.

Definition ex_key : key := Key 3 4 1077936128 1082130432 0 1065353216 1070386381 1120403456 0 4294967297.
Example C99_example :
  key_ok ex_key /\
  nx_keypoint_write [ex_key; ex_key] 2 (OStream [] 100) = Ok (2%Z, OStream (key_bytes ex_key ++ key_bytes ex_key) 100) /\
  nx_keypoint_write [ex_key; ex_key] 2 (OStream [] 87) = Ok (1%Z, OStream (firstn 87 (key_bytes ex_key ++ key_bytes ex_key)) 87).
Proof. repeat split; reflexivity. Qed.

(** C100: saving keypoints with descriptors. *)
Theorem C100_save_partial : forall room slack n keys desc,
  (0 <= n < 2 ^ 24)%Z -> (n <= Z.of_nat (length keys))%Z -> (128 * n <= Z.of_nat (length desc))%Z ->
  let file := sift_file (firstn (Z.to_nat n) keys) (firstn (128 * Z.to_nat n) desc) in
  (length file <= room -> nx_sift_xsave room slack n keys desc = Ok file) /\
  (room + slack < length file -> nx_sift_xsave room slack n keys desc = Fatal).
Proof.
  intros room slack n keys desc N K D file. rewrite save_ok by auto. fold file. split; intro H.
  - destruct (Nat.leb_spec (length file) (room + slack)); [|lia]. now rewrite firstn_all2 by lia.
  - destruct (Nat.leb_spec (length file) (room + slack)); [lia|reflexivity].
Qed.
Print Assumptions C100_save_partial.

(** When the disk is full but the last bytes fit into the stdio buffer, saving
    returns normally and leaves a truncated file, which loading rejects. *)
Theorem C100_full_disk_refuted : forall junkk junkd room slack keys desc max old oldd,
  (0 < Z.of_nat (length keys) < 2 ^ 24)%Z -> length desc = 128 * length keys -> Forall key_ok keys -> bytes_ok desc ->
  length old = Z.to_nat max -> length oldd = 128 * Z.to_nat max -> (0 <= max < 2 ^ 24)%Z ->
  room < length (sift_file keys desc) <= room + slack -> 8 <= room ->
  exists file, nx_sift_xsave room slack (Z.of_nat (length keys)) keys desc = Ok file /\ length file = room /\
    nx_sift_xload junkk junkd file max old oldd = Fatal.
Proof.
  intros junkk junkd room slack keys desc max old oldd N D K B LO LOD MX R R8. rewrite save_ok by lia.
  rewrite Nat2Z.id, firstn_all. rewrite <- D, firstn_all.
  destruct (Nat.leb_spec (length (sift_file keys desc)) (room + slack)); [|lia].
  exists (firstn room (sift_file keys desc)). split; [reflexivity|]. split; [rewrite firstn_length; lia|].
  assert (BF : bytes_ok (sift_file keys desc)).
  { unfold sift_file. repeat (apply Forall_app; split); auto; try apply le_encode_bytes. apply keys_bytes_ok. }
  assert (F4 : firstn 4 (firstn room (sift_file keys desc)) = int_bytes (Z.of_nat (length keys))).
  { rewrite firstn_firstn. replace (Nat.min 4 room) with 4 by lia. unfold sift_file. rewrite firstn_app, int_bytes_length, Nat.sub_diag, firstn_O, app_nil_r.
    apply firstn_all2. rewrite int_bytes_length. lia. }
  assert (NB : (-2147483648 <= Z.of_nat (length keys) <= 2147483647)%Z) by (change (2 ^ 24)%Z with 16777216%Z in N; lia).
  destruct (load_ok junkk junkd (firstn room (sift_file keys desc)) max old oldd) as [(ks & ds & rest & _ & L2 & E & _)|[E _]];
    [now apply bytes_firstn|lia|lia|lia|lia|rewrite F4; rewrite int_bytes_decode by exact NB; lia| |exact E].
  exfalso. assert (Z.of_nat (length ks) = Z.of_nat (length keys)).
  { rewrite E in F4. unfold sift_file in F4. rewrite <- app_assoc, firstn_app, int_bytes_length, Nat.sub_diag, firstn_O, app_nil_r in F4.
    rewrite firstn_all2 in F4 by (rewrite int_bytes_length; lia).
    apply (f_equal (@length _)) in E. rewrite app_length, sift_file_length, firstn_length, sift_file_length in E.
    rewrite <- (int_bytes_decode (Z.of_nat (length keys))) by exact NB. rewrite <- F4. symmetry. apply int_bytes_decode.
    unfold INT_MIN, INT_MAX. change (2 ^ 24)%Z with 16777216%Z in N. lia. }
  apply (f_equal (@length _)) in E. rewrite app_length, sift_file_length, firstn_length, sift_file_length in *. lia.
Qed.
Print Assumptions C100_full_disk_refuted.

(** Loading: the file is taken if it starts with a complete SIFT file, whose
    keypoints and descriptors then start the (possibly grown) arrays; any other
    file stops the program. *)
Theorem C100_load_partial : forall junkk junkd st max keys desc,
  bytes_ok st -> (0 <= max < 2 ^ 24)%Z -> length keys = Z.to_nat max -> length desc = 128 * Z.to_nat max ->
  (int_of_bytes (firstn 4 st) < 2 ^ 24)%Z ->
  (exists ks ds rest, Forall key_ok ks /\ length ds = 128 * length ks /\ st = sift_file ks ds ++ rest /\
    nx_sift_xload junkk junkd st max keys desc =
      Ok (Z.of_nat (length ks), (Z.max max (Z.of_nat (length ks)), ks ++ skipn (length ks) keys, ds ++ skipn (length ds) desc))) \/
  (nx_sift_xload junkk junkd st max keys desc = Fatal /\
    forall ks ds rest, (Z.of_nat (length ks) < 2 ^ 24)%Z -> length ds = 128 * length ks -> st <> sift_file ks ds ++ rest).
Proof. intros. apply load_ok; auto; lia. Qed.
Print Assumptions C100_load_partial.

(** A count of 2^24 or more in the header overflows instead of stopping. *)
Theorem C100_large_count_refuted : forall junkk junkd st max keys desc,
  bytes_ok st -> (0 <= max)%Z -> 8 <= length st ->
  (2 ^ 24 <= int_of_bytes (firstn 4 st))%Z -> int_of_bytes (firstn 4 (skipn 4 st)) = 128%Z -> (max < int_of_bytes (firstn 4 st))%Z ->
  nx_sift_xload junkk junkd st max keys desc = UB.
Proof. exact load_large. Qed.
Print Assumptions C100_large_count_refuted.

Theorem C100_round_trip : forall junkk junkd room slack keys desc max old oldd,
  (Z.of_nat (length keys) < 2 ^ 24)%Z -> length desc = 128 * length keys -> Forall key_ok keys -> bytes_ok desc ->
  length old = Z.to_nat max -> length oldd = 128 * Z.to_nat max -> (0 <= max < 2 ^ 24)%Z ->
  8 + 172 * length keys <= room ->
  exists file max', nx_sift_xsave room slack (Z.of_nat (length keys)) keys desc = Ok file /\
    nx_sift_xload junkk junkd file max old oldd =
      Ok (Z.of_nat (length keys), (max', keys ++ skipn (length keys) old, desc ++ skipn (length desc) oldd)) /\
    (max <= max')%Z /\ (Z.of_nat (length keys) <= max')%Z.
Proof.
  intros junkk junkd room slack keys desc max old oldd N D K B LO LOD MX R. rewrite save_ok by lia.
  rewrite Nat2Z.id, firstn_all. rewrite <- D, firstn_all.
  assert (SL : length (sift_file keys desc) = 8 + 44 * length keys + length desc) by apply sift_file_length.
  destruct (Nat.leb_spec (length (sift_file keys desc)) (room + slack)); [|lia]. rewrite firstn_all2 by lia.
  exists (sift_file keys desc), (Z.max max (Z.of_nat (length keys))). split; [reflexivity|]. split; [|lia].
  assert (BF : bytes_ok (sift_file keys desc)).
  { unfold sift_file. repeat (apply Forall_app; split); auto; try apply le_encode_bytes. apply keys_bytes_ok. }
  assert (H4 : forall ks ds rest, firstn 4 (sift_file ks ds ++ rest) = int_bytes (Z.of_nat (length ks))).
  { intros. unfold sift_file. rewrite <- app_assoc, firstn_app, int_bytes_length, Nat.sub_diag, firstn_O, app_nil_r. apply firstn_all2. rewrite int_bytes_length. lia. }
  assert (NB : forall z, (0 <= z < 2 ^ 24)%Z -> int_of_bytes (int_bytes z) = z).
  { intros z Z. apply int_bytes_decode. unfold INT_MIN, INT_MAX. change (2 ^ 24)%Z with 16777216%Z in Z. lia. }
  pose proof (H4 keys desc []) as F4. rewrite app_nil_r in F4.
  destruct (load_ok junkk junkd (sift_file keys desc) max old oldd) as [(ks & ds & rest & K2 & L2 & E & ->)|[_ E]];
    [exact BF|lia|lia|lia|lia|rewrite F4, NB by lia; lia| |exfalso; apply (E keys desc [] N D); now rewrite app_nil_r].
  assert (LK : length ks = length keys).
  { assert (LT : (Z.of_nat (length ks) < 2 ^ 24)%Z) by (apply (f_equal (@length _)) in E; rewrite app_length, !sift_file_length in E; lia).
    pose proof (f_equal (fun l => int_of_bytes (firstn 4 l)) E) as E4. cbn beta in E4. rewrite F4, H4, !NB in E4 by lia. lia. }
  unfold sift_file in E. rewrite LK, <- !app_assoc in E. apply app_inv_head in E. apply app_inv_head in E.
  assert (KS : keys_bytes ks = keys_bytes keys /\ desc = ds ++ rest).
  { split; [apply (f_equal (firstn (44 * length keys))) in E|apply (f_equal (skipn (44 * length keys))) in E].
    - rewrite !firstn_app, !keys_bytes_length, LK, Nat.sub_diag, !firstn_O, !app_nil_r in E.
      rewrite !firstn_all2 in E by (rewrite keys_bytes_length; lia). congruence.
    - rewrite !skipn_app, !keys_bytes_length, LK, Nat.sub_diag in E. rewrite (skipn_all2 (keys_bytes keys)), (skipn_all2 (keys_bytes ks)) in E by (rewrite keys_bytes_length; lia). exact E. }
  destruct KS as [KS DS]. assert (rest = []) by (apply (f_equal (@length _)) in DS; rewrite app_length in DS; destruct rest; [reflexivity|cbn in DS; lia]).
  subst rest. rewrite app_nil_r in DS. subst ds.
  assert (ks = keys).
  { apply list_ext. intro j. destruct (nth_error ks j) as [k|] eqn:E1, (nth_error keys j) as [k'|] eqn:E2; auto.
    - f_equal. apply key_bytes_inj; [eapply Forall_forall; [exact K2|eapply nth_error_In; eauto]|eapply Forall_forall; [exact K|eapply nth_error_In; eauto]|].
      rewrite <- (keys_bytes_nth _ _ _ E1 []), <- (keys_bytes_nth _ _ _ E2 []), KS. reflexivity.
    - apply nth_error_None in E2. assert (j < length ks) by (apply nth_error_Some; congruence). lia.
    - apply nth_error_None in E1. assert (j < length keys) by (apply nth_error_Some; congruence). lia. }
  subst ks. reflexivity.
Qed.
Print Assumptions C100_round_trip.

Example C100_example :
  nx_sift_xsave 1000 4096 1 [ex_key] (repeat 7%N 128) = Ok (sift_file [ex_key] (repeat 7%N 128)) /\
  nx_sift_xload (fun _ => ex_key) (fun _ => 0%N) (sift_file [ex_key] (repeat 7%N 128)) 0 [] [] = Ok (1%Z, (1%Z, [ex_key], repeat 7%N 128)) /\
  nx_sift_xsave 10 4096 1 [ex_key] (repeat 7%N 128) = Ok [1; 0; 0; 0; 128; 0; 0; 0; 3; 0]%N /\
  nx_sift_xload (fun _ => ex_key) (fun _ => 0%N) [0; 0; 0; 1; 128; 0; 0; 0]%N 0 [] [] = UB.
Proof. repeat split; vm_compute; reflexivity. Qed.
