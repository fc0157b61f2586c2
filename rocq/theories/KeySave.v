From Verif Require Import Base BaseLemmas Bytes MatModel MatIo KeyModel KeySpec KeyProofs.

Local Open Scope nat_scope.

Lemma xwrite_ok keys n s : (0 <= n <= Z.of_nat (length keys))%Z -> length (o_data s) <= o_limit s ->
  nx_keypoint_xwrite keys n s =
    if length (o_data s) + 44 * Z.to_nat n <=? o_limit s then Ok (OStream (o_data s ++ keys_bytes (firstn (Z.to_nat n) keys)) (o_limit s)) else Fatal.
Proof.
  intros N H. unfold nx_keypoint_xwrite. rewrite write_ok by lia. cbn [bind fst snd].
  assert (KL : length (keys_bytes (firstn (Z.to_nat n) keys)) = 44 * Z.to_nat n) by (rewrite keys_bytes_length, firstn_length; lia).
  pose proof (Nat.div_mod (o_limit s - length (o_data s)) 44 ltac:(discriminate)) as D.
  pose proof (Nat.mod_upper_bound (o_limit s - length (o_data s)) 44 ltac:(discriminate)) as U.
  destruct (Nat.leb_spec (length (o_data s) + 44 * Z.to_nat n) (o_limit s)) as [L|L].
  - rewrite firstn_all2 by (rewrite app_length; lia). destruct (Z.eqb_spec (Z.min n (Z.of_nat ((o_limit s - length (o_data s)) / 44))) n); [reflexivity|lia].
  - destruct (Z.eqb_spec (Z.min n (Z.of_nat ((o_limit s - length (o_data s)) / 44))) n); [lia|reflexivity].
Qed.
Lemma xfwrite_ok bs s : nx_xfwrite bs s = if length (o_data s) + length bs <=? o_limit s then Ok (OStream (o_data s ++ bs) (o_limit s)) else Fatal.
Proof. unfold nx_xfwrite, fwrite_item. rewrite app_length. now destruct (_ <=? _). Qed.

Lemma dim_chk n : (0 <= n < 2 ^ 24)%Z -> chk_int (n * DESC_DIM) = Ok (n * 128)%Z.
Proof. intros H. unfold chk_int, in_int, DESC_DIM, INT_MIN, INT_MAX. change (2 ^ 24)%Z with 16777216%Z in H. destruct (Z.leb_spec (-2147483648) (n * 128)), (Z.leb_spec (n * 128) 2147483647); cbn; try lia. reflexivity. Qed.

Lemma sift_file_length ks ds : length (sift_file ks ds) = 8 + 44 * length ks + length ds.
Proof. unfold sift_file. rewrite !app_length, !int_bytes_length, keys_bytes_length. lia. Qed.

Lemma save_ok room slack n keys desc : (0 <= n < 2 ^ 24)%Z -> (n <= Z.of_nat (length keys))%Z -> (128 * n <= Z.of_nat (length desc))%Z ->
  let file := sift_file (firstn (Z.to_nat n) keys) (firstn (128 * Z.to_nat n) desc) in
  nx_sift_xsave room slack n keys desc = if length file <=? room + slack then Ok (firstn room file) else Fatal.
Proof.
  intros Nn K D file. unfold nx_sift_xsave. destruct (Z.ltb_spec n 0); [lia|]. rewrite xfwrite_ok, int_bytes_length. cbn [o_data o_limit length Nat.add app].
  assert (FL : length file = 8 + 172 * Z.to_nat n).
  { unfold file. rewrite sift_file_length, !firstn_length. lia. }
  assert (KK : length (firstn (Z.to_nat n) keys) = Z.to_nat n) by (rewrite firstn_length; lia).
  set (lim := room + slack) in *.
  assert (F : lim < length file -> (if length file <=? lim then Ok (firstn room file) else @Fatal (list N)) = Fatal).
  { intro. destruct (Nat.leb_spec (length file) lim); [lia|reflexivity]. }
  destruct (Nat.leb_spec 4 lim); cbn [bind]; [|rewrite F by lia; reflexivity].
  rewrite xfwrite_ok, int_bytes_length. cbn [o_data o_limit]. rewrite int_bytes_length. cbn [Nat.add].
  destruct (Nat.leb_spec 8 lim); cbn [bind]; [|rewrite F by lia; reflexivity].
  rewrite xwrite_ok by (cbn [o_data o_limit]; rewrite ?app_length, ?int_bytes_length; lia). cbn [o_data o_limit].
  rewrite app_length, !int_bytes_length.
  destruct (Nat.leb_spec (4 + 4 + 44 * Z.to_nat n) lim); cbn [bind]; [|rewrite F by lia; reflexivity].
  rewrite dim_chk by exact Nn. cbn [bind]. replace (Z.to_nat (n * 128)) with (128 * Z.to_nat n) by lia.
  destruct (Nat.ltb_spec (length desc) (128 * Z.to_nat n)); [lia|]. rewrite xfwrite_ok. cbn [o_data o_limit].
  rewrite !app_length, !int_bytes_length, keys_bytes_length, KK, firstn_length.
  replace (Nat.min (128 * Z.to_nat n) (length desc)) with (128 * Z.to_nat n) by lia.
  destruct (Nat.leb_spec (4 + 4 + 44 * Z.to_nat n + 128 * Z.to_nat n) lim); cbn [bind o_data]; [|rewrite F by lia; reflexivity].
  destruct (Nat.leb_spec (length file) lim); [|lia]. f_equal. f_equal. unfold file, sift_file. rewrite KK. rewrite Z2Nat.id by lia.
  rewrite <- !app_assoc. reflexivity.
Qed.

Lemma int_bytes_of l : bytes_ok l -> length l = 4 -> int_bytes (int_of_bytes l) = l.
Proof.
  intros B L. unfold int_bytes, int_of_bytes. pose proof (le_decode_bound l B) as D. rewrite L in D. change (256 ^ N.of_nat 4)%N with 4294967296%N in D.
  set (v := le_decode l) in *. assert (E : Z.to_N ((if (Z.of_N v <? 2 ^ 31)%Z then Z.of_N v else Z.of_N v - 2 ^ 32) mod 2 ^ 32) = v).
  { change (2 ^ 32)%Z with 4294967296%Z. change (2 ^ 31)%Z with 2147483648%Z. destruct (Z.ltb_spec (Z.of_N v) 2147483648).
    - rewrite Z.mod_small by lia. lia.
    - rewrite <- (Z_mod_plus_full _ 1). rewrite Z.mod_small by lia. lia. }
  rewrite E. unfold v. rewrite <- L at 1. now apply le_encode_decode.
Qed.
Lemma int_of_bytes_range l : bytes_ok l -> length l = 4 -> (INT_MIN <= int_of_bytes l <= INT_MAX)%Z.
Proof.
  intros B L. unfold int_of_bytes. pose proof (le_decode_bound l B) as D. rewrite L in D. change (256 ^ N.of_nat 4)%N with 4294967296%N in D.
  unfold INT_MIN, INT_MAX. change (2 ^ 32)%Z with 4294967296%Z. change (2 ^ 31)%Z with 2147483648%Z. destruct (Z.ltb_spec (Z.of_N (le_decode l)) 2147483648); lia.
Qed.

Lemma xread_cases keys n st : bytes_ok st -> (0 <= n <= Z.of_nat (length keys))%Z ->
  (length st < 44 * Z.to_nat n /\ nx_keypoint_xread keys n st = Fatal) \/
  (exists ks, length ks = Z.to_nat n /\ Forall key_ok ks /\ st = keys_bytes ks ++ skipn (44 * Z.to_nat n) st /\
    nx_keypoint_xread keys n st = Ok (ks ++ skipn (Z.to_nat n) keys, skipn (44 * Z.to_nat n) st)).
Proof.
  intros B L. destruct (Nat.lt_ge_cases (length st) (44 * Z.to_nat n)) as [Q|Q].
  - left. split; [exact Q|]. destruct (read_ok keys n st B L) as (keys' & R & _). unfold nx_keypoint_xread. rewrite R. cbn [bind].
    assert (length st / 44 < Z.to_nat n) by (apply Nat.div_lt_upper_bound; lia).
    destruct (Z.eqb_spec (Z.min n (Z.of_nat (length st / 44))) n); [lia|reflexivity].
  - right.
    assert (P : exists ks, length ks = Z.to_nat n /\ Forall key_ok ks /\ firstn (44 * Z.to_nat n) st = keys_bytes ks).
    { clear L. revert st B Q. induction (Z.to_nat n) as [|m IH]; intros st B Q.
      - exists []. auto.
      - destruct (read_fields_ok (Key 0 0 0 0 0 0 0 0 0 0) st B ltac:(lia)) as (k & _ & KB & KO).
        destruct (IH (skipn 44 st) (bytes_skipn 44 st B)) as (ks & L1 & L2 & L3); [rewrite skipn_length; lia|].
        exists (k :: ks). split; [cbn; lia|]. split; [now constructor|]. replace (44 * S m) with (44 + 44 * m) by lia. rewrite firstn_add, L3, <- KB. reflexivity. }
    destruct P as (ks & L1 & L2 & L3). exists ks. split; [exact L1|]. split; [exact L2|].
    assert (E : st = keys_bytes ks ++ skipn (44 * Z.to_nat n) st) by (rewrite <- L3; symmetry; apply firstn_skipn).
    split; [exact E|]. unfold nx_keypoint_xread.
    pose proof (read_back ks keys (skipn (44 * Z.to_nat n) st) (bytes_skipn _ _ B) L2 ltac:(lia)) as R. rewrite <- E in R.
    rewrite L1, Z2Nat.id in R by lia. rewrite R. cbn [bind]. now rewrite Z.eqb_refl.
Qed.

Lemma xfread_ok k st : k <= length st -> nx_xfread k st = Ok (firstn k st, skipn k st).
Proof. intros H. unfold nx_xfread, take. rewrite firstn_length. replace (Nat.min k (length st)) with k by lia. now rewrite Nat.eqb_refl. Qed.
Lemma xfread_short k st : length st < k -> nx_xfread k st = Fatal.
Proof. intros H. unfold nx_xfread, take. rewrite firstn_length. replace (Nat.min k (length st)) with (length st) by lia. now replace (length st =? k) with false by (symmetry; apply Nat.eqb_neq; lia). Qed.

Lemma skipn_drealloc {D} (junk : nat -> D) A n : skipn n (drealloc junk A n) = [].
Proof. apply skipn_all2. rewrite drealloc_length. lia. Qed.

Lemma load_ok junkk junkd st max keys desc :
  bytes_ok st -> (0 <= max)%Z -> length keys = Z.to_nat max -> length desc = 128 * Z.to_nat max -> (max < 2 ^ 24)%Z ->
  (int_of_bytes (firstn 4 st) < 2 ^ 24)%Z ->
  (exists ks ds rest, Forall key_ok ks /\ length ds = 128 * length ks /\ st = sift_file ks ds ++ rest /\
    nx_sift_xload junkk junkd st max keys desc =
      Ok (Z.of_nat (length ks), (Z.max max (Z.of_nat (length ks)), ks ++ skipn (length ks) keys, ds ++ skipn (length ds) desc))) \/
  (nx_sift_xload junkk junkd st max keys desc = Fatal /\ forall ks ds rest, (Z.of_nat (length ks) < 2 ^ 24)%Z -> length ds = 128 * length ks -> st <> sift_file ks ds ++ rest).
Proof.
  intros B M LK LD MB NB. unfold nx_sift_xload. destruct (Z.ltb_spec max 0); [lia|].
  assert (HD : forall ks ds rest, (Z.of_nat (length ks) < 2 ^ 24)%Z -> st = sift_file ks ds ++ rest ->
     firstn 4 st = int_bytes (Z.of_nat (length ks)) /\ firstn 4 (skipn 4 st) = int_bytes 128 /\ 8 + 44 * length ks + length ds <= length st /\
     int_of_bytes (firstn 4 st) = Z.of_nat (length ks)).
  { intros ks ds rest L ->. assert (X : firstn 4 (sift_file ks ds ++ rest) = int_bytes (Z.of_nat (length ks))).
    { unfold sift_file. rewrite <- app_assoc, firstn_app, int_bytes_length, Nat.sub_diag, firstn_O, app_nil_r. apply firstn_all2. rewrite int_bytes_length. lia. }
    split; [exact X|]. split; [|split].
    - unfold sift_file. rewrite <- !app_assoc, skipn_app, int_bytes_length, Nat.sub_diag. rewrite (skipn_all2 (n:=4)) by (rewrite int_bytes_length; lia).
      cbn [app skipn]. rewrite firstn_app, int_bytes_length, Nat.sub_diag, firstn_O, app_nil_r. apply firstn_all2. rewrite int_bytes_length. lia.
    - rewrite app_length, sift_file_length. lia.
    - rewrite X. apply int_bytes_decode. unfold INT_MIN, INT_MAX. change (2 ^ 24)%Z with 16777216%Z in L. lia. }
  destruct (Nat.lt_ge_cases (length st) 4) as [S4|S4].
  { right. rewrite xfread_short by exact S4. split; [reflexivity|]. intros ks ds rest L _ E. destruct (HD _ _ _ L E) as (_ & _ & ? & _). lia. }
  rewrite xfread_ok by exact S4. cbn [bind].
  pose proof (int_of_bytes_range (firstn 4 st) (bytes_firstn _ _ B) ltac:(rewrite firstn_length; lia)) as NR.
  set (n := int_of_bytes (firstn 4 st)) in *.
  destruct (Z.ltb_spec n 0) as [Neg|Pos].
  { right. split; [reflexivity|]. intros ks ds rest L _ E. destruct (HD _ _ _ L E) as (_ & _ & _ & Q). lia. }
  destruct (Nat.lt_ge_cases (length st) 8) as [S8|S8].
  { right. rewrite xfread_short by (rewrite skipn_length; lia). split; [reflexivity|]. intros ks ds rest L _ E. destruct (HD _ _ _ L E) as (_ & _ & ? & _). lia. }
  rewrite xfread_ok by (rewrite skipn_length; lia). cbn [bind]. rewrite skipn_add. cbn [Nat.add].
  destruct (Z.eqb_spec (int_of_bytes (firstn 4 (skipn 4 st))) DESC_DIM) as [ED|ED].
  2:{ right. split; [reflexivity|]. intros ks ds rest L _ E. destruct (HD _ _ _ L E) as (_ & Q & _ & _). rewrite Q in ED. apply ED. reflexivity. }
  cbn [negb]. rewrite dim_chk by lia. cbn [bind].
  assert (ST : st = int_bytes n ++ int_bytes 128 ++ skipn 8 st).
  { assert (E1 : firstn 4 st = int_bytes n) by (unfold n; symmetry; apply int_bytes_of; [now apply bytes_firstn|rewrite firstn_length; lia]).
    assert (E2 : firstn 4 (skipn 4 st) = int_bytes 128).
    { change 128%Z with DESC_DIM. rewrite <- ED. symmetry. apply int_bytes_of; [now apply bytes_firstn, bytes_skipn|rewrite firstn_length, skipn_length; lia]. }
    rewrite <- E1, <- E2. change (skipn 8 st) with (skipn (4 + 4) st). rewrite <- skipn_add, firstn_skipn. symmetry. apply firstn_skipn. }
  assert (R : exists max' keys' desc', (if (max <? n)%Z then Ok (n, drealloc junkk keys (Z.to_nat n), drealloc junkd desc (Z.to_nat (n * 128))) else Ok (max, keys, desc)) = Ok (max', keys', desc') /\
     max' = Z.max max n /\ length keys' = Z.to_nat max' /\ length desc' = 128 * Z.to_nat max' /\ skipn (Z.to_nat n) keys' = skipn (Z.to_nat n) keys /\
     skipn (128 * Z.to_nat n) desc' = skipn (128 * Z.to_nat n) desc).
  { destruct (Z.ltb_spec max n).
    - do 3 eexists. split; [reflexivity|]. rewrite !drealloc_length. split; [lia|]. split; [lia|]. split; [lia|]. split.
      + rewrite skipn_drealloc. symmetry. apply skipn_all2. lia.
      + replace (Z.to_nat (n * 128)) with (128 * Z.to_nat n) by lia. rewrite skipn_drealloc. symmetry. apply skipn_all2. lia.
    - do 3 eexists. split; [reflexivity|]. repeat split; auto; lia. }
  destruct R as (max' & keys' & desc' & -> & M' & LK' & LD' & SK & SD). cbn [bind].
  destruct (xread_cases keys' n (skipn 8 st) (bytes_skipn _ _ B) ltac:(lia)) as [[Q ->]|(ks & L1 & L2 & L3 & ->)].
  { right. split; [reflexivity|]. rewrite skipn_length in Q. intros ks ds rest L L' E. destruct (HD _ _ _ L E) as (_ & _ & Q1 & Q2). lia. }
  cbn [bind]. replace (Z.to_nat (n * 128)) with (128 * Z.to_nat n) by lia. rewrite skipn_add.
  destruct (Nat.lt_ge_cases (length (skipn (8 + 44 * Z.to_nat n) st)) (128 * Z.to_nat n)) as [Q|Q].
  { right. rewrite xfread_short by exact Q. split; [reflexivity|]. rewrite skipn_length in Q. intros ks' ds rest L L' E. destruct (HD _ _ _ L E) as (_ & _ & Q1 & Q2). lia. }
  left. rewrite xfread_ok by exact Q. cbn [bind]. destruct (Nat.ltb_spec (length desc') (128 * Z.to_nat n)); [lia|].
  exists ks, (firstn (128 * Z.to_nat n) (skipn (8 + 44 * Z.to_nat n) st)), (skipn (8 + 44 * Z.to_nat n + 128 * Z.to_nat n) st).
  assert (LF : length (firstn (128 * Z.to_nat n) (skipn (8 + 44 * Z.to_nat n) st)) = 128 * Z.to_nat n) by (rewrite firstn_length; lia).
  split; [exact L2|]. split; [lia|]. split.
  - unfold sift_file. rewrite L1, Z2Nat.id by lia. rewrite <- !app_assoc.
    rewrite <- (skipn_add (8 + 44 * Z.to_nat n) (128 * Z.to_nat n)). rewrite firstn_skipn. rewrite <- (skipn_add 8). rewrite <- L3. exact ST.
  - rewrite LF, L1, SK, SD, Z2Nat.id by lia. now rewrite M'.
Qed.

Lemma load_large junkk junkd st max keys desc : bytes_ok st -> (0 <= max)%Z -> 8 <= length st ->
  (2 ^ 24 <= int_of_bytes (firstn 4 st))%Z -> int_of_bytes (firstn 4 (skipn 4 st)) = 128%Z -> (max < int_of_bytes (firstn 4 st))%Z ->
  nx_sift_xload junkk junkd st max keys desc = UB.
Proof.
  intros B M L N D X. unfold nx_sift_xload. destruct (Z.ltb_spec max 0); [lia|]. rewrite xfread_ok by lia. cbn [bind].
  change (2 ^ 24)%Z with 16777216%Z in N.
  destruct (Z.ltb_spec (int_of_bytes (firstn 4 st)) 0); [lia|]. rewrite xfread_ok by (rewrite skipn_length; lia). cbn [bind]. rewrite D. cbn [Z.eqb DESC_DIM negb Pos.eqb].
  destruct (Z.ltb_spec max (int_of_bytes (firstn 4 st))); [|lia]. unfold chk_int, in_int, DESC_DIM, INT_MIN, INT_MAX.
  destruct (Z.leb_spec (int_of_bytes (firstn 4 st) * 128) 2147483647); [lia|]. now rewrite Bool.andb_false_r.
Qed.
