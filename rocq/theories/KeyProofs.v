From Verif Require Import Base BaseLemmas Bytes MatModel MatIo KeyModel KeySpec.

Local Open Scope nat_scope.

Lemma le_encode_decode l : bytes_ok l -> le_encode (length l) (le_decode l) = l.
Proof.
  induction 1 as [|b t Hb Ht IH]; [reflexivity|]. cbn [length le_encode le_decode]. unfold byte_ok in Hb.
  replace ((b + 256 * le_decode t) mod 256)%N with b by (rewrite N.mul_comm, N.mod_add by discriminate; symmetry; apply N.mod_small; exact Hb).
  replace ((b + 256 * le_decode t) / 256)%N with (le_decode t); [now rewrite IH|].
  rewrite N.mul_comm, N.div_add by discriminate. rewrite N.div_small by exact Hb. reflexivity.
Qed.

Lemma key_bytes_length k : length (key_bytes k) = 44.
Proof. unfold key_bytes. rewrite !app_length, !le_encode_length. reflexivity. Qed.
Lemma keys_bytes_length ks : length (keys_bytes ks) = 44 * length ks.
Proof. unfold keys_bytes. induction ks as [|k ks IH]; cbn [map concat length]; [reflexivity|]. rewrite app_length, key_bytes_length, IH. lia. Qed.

(** * Writing *)
Definition enc (fs : list (nat * (key -> N) * (N -> key -> key))) (k : key) : list N :=
  concat (map (fun f => le_encode (fst (fst f)) (snd (fst f) k)) fs).
Lemma enc_fields k : enc fields k = key_bytes k.
Proof. unfold enc, key_bytes, fields. cbn [map concat fst snd]. now rewrite !app_nil_r. Qed.

Lemma write_fields_ok fs k : forall s, length (o_data s) <= o_limit s ->
  write_fields fs k s = (length (o_data s ++ enc fs k) <=? o_limit s, OStream (firstn (o_limit s) (o_data s ++ enc fs k)) (o_limit s)).
Proof.
  induction fs as [|[[size get] put] fs IH]; intros [d l] H; cbn [o_data o_limit] in *.
  - cbn [write_fields]. unfold enc. cbn. rewrite app_nil_r. rewrite firstn_all2 by lia.
    replace (length d <=? l) with true by (symmetry; apply Nat.leb_le; lia). reflexivity.
  - cbn [write_fields]. unfold fwrite_item. cbn [o_data o_limit].
    change (enc ((size, get, put) :: fs) k) with (le_encode size (get k) ++ enc fs k).
    set (e := le_encode size (get k)). destruct (Nat.leb_spec (length (d ++ e)) l) as [L|L].
    + rewrite IH by exact L. cbn [o_data o_limit]. now rewrite <- app_assoc.
    + rewrite app_assoc. f_equal.
      * symmetry. apply Nat.leb_gt. rewrite app_length. lia.
      * f_equal. rewrite (firstn_app l (d ++ e)). replace (l - length (d ++ e)) with 0 by lia. cbn. now rewrite app_nil_r.
Qed.

Lemma skipn_cons {A} (l : list A) i a : nth_error l i = Some a -> skipn i l = a :: skipn (S i) l.
Proof. revert i; induction l as [|x l IH]; intros [|i] H; cbn in *; try discriminate; [congruence|]. now apply IH. Qed.

Lemma write_from_ok keys : forall m i s, i + m <= length keys -> length (o_data s) <= o_limit s ->
  let total := keys_bytes (firstn m (skipn i keys)) in
  write_from keys m i s =
    Ok (if length (o_data s ++ total) <=? o_limit s then None else Some (i + (o_limit s - length (o_data s)) / 44),
        OStream (firstn (o_limit s) (o_data s ++ total)) (o_limit s)).
Proof.
  induction m as [|m IH]; intros i [d l] L H; cbn [o_data o_limit] in *; cbn [write_from].
  - cbn. rewrite app_nil_r. replace (length d <=? l) with true by (symmetry; apply Nat.leb_le; lia). now rewrite firstn_all2 by lia.
  - destruct (nth_error keys i) as [k|] eqn:E; [|apply nth_error_None in E; lia].
    unfold aget. rewrite E. cbn [bind]. rewrite write_fields_ok by exact H. cbn [o_data o_limit]. rewrite enc_fields.
    rewrite (skipn_cons _ _ _ E). cbn [firstn]. unfold keys_bytes. cbn [map concat]. fold (keys_bytes (firstn m (skipn (S i) keys))).
    pose proof (key_bytes_length k) as KL.
    destruct (Nat.leb_spec (length (d ++ key_bytes k)) l) as [Q|Q].
    + cbn zeta. rewrite (firstn_all2 (n:=l)) by lia. rewrite IH by (cbn [o_data o_limit]; lia). cbn [o_data o_limit]. rewrite <- app_assoc.
      f_equal. f_equal. destruct (_ <=? l); [reflexivity|]. f_equal. rewrite app_length in *.
      replace (l - length d) with (l - (length d + length (key_bytes k)) + 1 * 44) by lia. rewrite Nat.div_add by discriminate. lia.
    + rewrite app_assoc. f_equal. f_equal.
      * replace (_ <=? l) with false by (symmetry; apply Nat.leb_gt; rewrite app_length; lia). f_equal.
        rewrite app_length in Q. rewrite Nat.div_small by lia. lia.
      * f_equal. rewrite (firstn_app l (d ++ key_bytes k)). replace (l - length (d ++ key_bytes k)) with 0 by lia. cbn. now rewrite app_nil_r.
Qed.

(** The number of complete keypoints that fit, or all of them. *)
Lemma write_ok keys n s : Z.to_nat n <= length keys -> (0 <= n)%Z -> length (o_data s) <= o_limit s ->
  nx_keypoint_write keys n s =
    Ok (Z.min n (Z.of_nat ((o_limit s - length (o_data s)) / 44)),
        OStream (firstn (o_limit s) (o_data s ++ keys_bytes (firstn (Z.to_nat n) keys))) (o_limit s)).
Proof.
  intros L P H. unfold nx_keypoint_write. rewrite write_from_ok by (cbn; lia). cbn [bind fst snd skipn]. f_equal. f_equal.
  rewrite app_length, keys_bytes_length, firstn_length. set (q := (o_limit s - length (o_data s)) / 44).
  pose proof (Nat.div_mod (o_limit s - length (o_data s)) 44 ltac:(discriminate)) as D.
  pose proof (Nat.mod_upper_bound (o_limit s - length (o_data s)) 44 ltac:(discriminate)) as U. fold q in D.
  destruct (Nat.leb_spec (length (o_data s) + 44 * Nat.min (Z.to_nat n) (length keys)) (o_limit s)); lia.
Qed.

(** * Reading *)
Lemma fread_item_ok size old st : size <= length st -> fread_item size old st = (true, le_decode (firstn size st), skipn size st).
Proof.
  intros H. unfold fread_item, take. rewrite firstn_length. replace (Nat.min size (length st)) with size by lia. rewrite Nat.eqb_refl.
  rewrite skipn_all2 by (rewrite le_encode_length; lia). now rewrite app_nil_r.
Qed.
Lemma fread_item_short size old st : length st < size -> exists v, fread_item size old st = (false, v, []).
Proof.
  intros H. unfold fread_item, take. rewrite firstn_length. replace (Nat.min size (length st)) with (length st) by lia.
  rewrite (skipn_all2 st) by lia. replace (length st =? size) with false by (symmetry; apply Nat.eqb_neq; lia). eauto.
Qed.
Definition sizes (fs : list (nat * (key -> N) * (N -> key -> key))) : nat := fold_right (fun f a => fst (fst f) + a) 0 fs.
Lemma read_fields_short fs : forall k st, length st < sizes fs -> exists k', read_fields fs k st = (false, k', []).
Proof.
  induction fs as [|[[size get] put] fs IH]; intros k st H; cbn [sizes fold_right fst] in H; [lia|].
  fold (sizes fs) in H. cbn [read_fields]. destruct (Nat.le_gt_cases size (length st)) as [L|L].
  - rewrite fread_item_ok by exact L. apply IH. rewrite skipn_length. lia.
  - destruct (fread_item_short size (get k) st L) as [v ->]. eauto.
Qed.
Lemma firstn_add {A} a b (l : list A) : firstn (a + b) l = firstn a l ++ firstn b (skipn a l).
Proof. revert l; induction a as [|a IH]; intros [|x l]; cbn; auto; [now rewrite firstn_nil|]. now rewrite IH. Qed.
Lemma skipn_add {A} a b (l : list A) : skipn b (skipn a l) = skipn (a + b) l.
Proof. revert l; induction a as [|a IH]; intros [|x l]; cbn; auto. now rewrite skipn_nil. Qed.
Lemma bytes_firstn n l : bytes_ok l -> bytes_ok (firstn n l).
Proof. intros H. apply Forall_forall. intros x I. eapply Forall_forall in H; [exact H|]. rewrite <- (firstn_skipn n l). apply in_or_app. auto. Qed.
Lemma bytes_skipn n l : bytes_ok l -> bytes_ok (skipn n l).
Proof. intros H. apply Forall_forall. intros x I. eapply Forall_forall in H; [exact H|]. rewrite <- (firstn_skipn n l). apply in_or_app. auto. Qed.
Lemma le_encode_firstn n l : bytes_ok l -> n <= length l -> le_encode n (le_decode (firstn n l)) = firstn n l.
Proof. intros H L. rewrite <- (le_encode_decode (firstn n l)) at 2 by now apply bytes_firstn. rewrite firstn_length. now replace (Nat.min n (length l)) with n by lia. Qed.
Lemma le_decode_firstn n l : bytes_ok l -> n <= length l -> (le_decode (firstn n l) < 256 ^ N.of_nat n)%N.
Proof. intros H L. pose proof (le_decode_bound (firstn n l) (bytes_firstn n l H)) as B. rewrite firstn_length in B. now replace (Nat.min n (length l)) with n in B by lia. Qed.

Lemma read_fields_cons size get put fs k st : size <= length st ->
  read_fields ((size, get, put) :: fs) k st = read_fields fs (put (le_decode (firstn size st)) k) (skipn size st).
Proof. intros H. cbn [read_fields]. now rewrite fread_item_ok by exact H. Qed.
Lemma read_fields_ok k st : bytes_ok st -> 44 <= length st ->
  exists k', read_fields fields k st = (true, k', skipn 44 st) /\ key_bytes k' = firstn 44 st /\ key_ok k'.
Proof.
  intros B L. destruct k as [a0 a1 a2 a3 a4 a5 a6 a7 a8 a9]. unfold fields.
  do 10 (rewrite read_fields_cons by (rewrite ?skipn_length; lia); cbn [k_x k_y k_xs k_ys k_level k_scale k_sigma k_score k_ori k_id]).
  cbn [read_fields]. rewrite !skipn_add. cbn [Nat.add]. eexists. split; [reflexivity|]. split.
  - unfold key_bytes. cbn [k_x k_y k_xs k_ys k_level k_scale k_sigma k_score k_ori k_id].
    repeat (rewrite le_encode_firstn by (rewrite ?skipn_length; try lia; auto using bytes_skipn)).
    change 44 with (4 + (4 + (4 + (4 + (4 + (4 + (4 + (4 + (4 + 8))))))))). rewrite !firstn_add, !skipn_add. reflexivity.
  - unfold key_ok. cbn [k_x k_y k_xs k_ys k_level k_scale k_sigma k_score k_ori k_id].
    repeat split; apply le_decode_firstn; rewrite ?skipn_length; auto using bytes_skipn; lia.
Qed.

Lemma key_bytes_inj k k' : key_ok k -> key_ok k' -> key_bytes k = key_bytes k' -> k = k'.
Proof.
  unfold key_ok, key_bytes. destruct k as [a0 a1 a2 a3 a4 a5 a6 a7 a8 a9], k' as [b0 b1 b2 b3 b4 b5 b6 b7 b8 b9]. cbn [k_x k_y k_xs k_ys k_level k_scale k_sigma k_score k_ori k_id]. intros H H' E.
  assert (I : forall n x y l l', le_encode n x ++ l = le_encode n y ++ l' -> le_encode n x = le_encode n y /\ l = l').
  { intros n x y l l' Q. split.
    - apply (f_equal (firstn n)) in Q. rewrite !firstn_app, !le_encode_length, !Nat.sub_diag in Q. cbn in Q. rewrite !app_nil_r in Q.
      now rewrite !firstn_all2 in Q by (rewrite le_encode_length; lia).
    - apply (f_equal (skipn n)) in Q. rewrite !skipn_app, !le_encode_length, !Nat.sub_diag in Q. cbn in Q.
      now rewrite !skipn_all2 in Q by (rewrite le_encode_length; lia). }
  assert (J : forall n x y, (x < 256 ^ N.of_nat n)%N -> (y < 256 ^ N.of_nat n)%N -> le_encode n x = le_encode n y -> x = y).
  { intros n x y X Y Q. rewrite <- (le_decode_encode n x X), <- (le_decode_encode n y Y). now rewrite Q. }
  repeat (let Q := fresh "Q" in apply I in E; destruct E as [Q E]).
  repeat match goal with H : _ /\ _ |- _ => destruct H end.
  f_equal; (eapply J; [| |eassumption]); assumption.
Qed.

(** Result of reading [m] keypoints from position [i]. *)
Lemma read_from_ok : forall m keys i st, bytes_ok st -> i + m <= length keys ->
  exists keys', read_from keys m i st = Ok (if 44 * m <=? length st then None else Some (i + length st / 44), keys', skipn (44 * m) st) /\
    length keys' = length keys /\
    (forall j, j < i -> nth_error keys' j = nth_error keys j) /\
    (forall j, j < m -> 44 * j + 44 <= length st -> exists k, nth_error keys' (i + j) = Some k /\ key_ok k /\ key_bytes k = firstn 44 (skipn (44 * j) st)) /\
    (forall j, i + Nat.min m (length st / 44 + 1) <= j -> nth_error keys' j = nth_error keys j).
Proof.
  induction m as [|m IH]; intros keys i st B L.
  { exists keys. cbn [read_from]. rewrite Nat.mul_0_r. cbn [Nat.leb skipn]. repeat split; auto. intros; lia. }
  cbn [read_from]. destruct (nth_error keys i) as [k|] eqn:E; [|apply nth_error_None in E; lia]. unfold aget. rewrite E. cbn [bind].
  destruct (Nat.le_gt_cases 44 (length st)) as [G|G].
  - destruct (read_fields_ok k st B G) as (k' & -> & KB & KO). cbn zeta.
    rewrite aset_lt by lia. cbn [bind].
    destruct (IH (lset keys i k') (S i) (skipn 44 st) (bytes_skipn 44 st B)) as (keys' & R & LEN & LO & MID & HI); [rewrite lset_length; lia|].
    rewrite R. rewrite lset_length in LEN. exists keys'. rewrite skipn_add, skipn_length in *.
    assert (D : (length st - 44) / 44 = length st / 44 - 1).
    { replace (length st) with (length st - 44 + 1 * 44) at 2 by lia. rewrite Nat.div_add by discriminate. lia. }
    assert (D1 : 1 <= length st / 44) by (apply Nat.div_le_lower_bound; lia).
    split; [|split; [exact LEN|split; [|split]]].
    + replace (44 + 44 * m) with (44 * S m) by lia. f_equal. f_equal. f_equal.
      destruct (Nat.leb_spec (44 * m) (length st - 44)), (Nat.leb_spec (44 * S m) (length st)); try lia; [reflexivity|].
      f_equal. rewrite D. lia.
    + intros j J. rewrite LO by lia. apply nth_error_lset_neq. lia.
    + intros [|j] J1 J2.
      * exists k'. rewrite Nat.add_0_r. rewrite LO by lia. rewrite nth_error_lset_eq by lia. auto.
      * destruct (MID j ltac:(lia) ltac:(lia)) as (q & Q1 & Q2 & Q3). exists q. replace (i + S j) with (S i + j) by lia.
        repeat split; auto; try apply Q2. rewrite Q3, skipn_add. f_equal. f_equal. lia.
    + intros j J. rewrite HI by (rewrite D; lia). apply nth_error_lset_neq. lia.
  - destruct (read_fields_short fields k st) as [k' ->]; [cbn; lia|]. rewrite aset_lt by lia. cbn [bind].
    exists (lset keys i k'). rewrite lset_length. replace (length st / 44) with 0 by (symmetry; apply Nat.div_small; lia).
    split; [|repeat split; auto].
    + replace (44 * S m <=? length st) with false by (symmetry; apply Nat.leb_gt; lia). rewrite skipn_all2 by lia. now rewrite Nat.add_0_r.
    + intros j J. apply nth_error_lset_neq. lia.
    + intros; lia.
    + intros j J. apply nth_error_lset_neq. lia.
Qed.

Lemma read_ok keys n st : bytes_ok st -> (0 <= n <= Z.of_nat (length keys))%Z ->
  exists keys', nx_keypoint_read keys n st = Ok (Z.min n (Z.of_nat (length st / 44)), keys', skipn (44 * Z.to_nat n) st) /\
    length keys' = length keys /\
    (forall j, (Z.of_nat j < n)%Z -> 44 * j + 44 <= length st -> exists k, nth_error keys' j = Some k /\ key_ok k /\ key_bytes k = firstn 44 (skipn (44 * j) st)) /\
    (forall j, (n <= Z.of_nat j)%Z \/ length st < 44 * j -> nth_error keys' j = nth_error keys j).
Proof.
  intros B L. destruct (read_from_ok (Z.to_nat n) keys 0 st B ltac:(lia)) as (keys' & R & LEN & _ & MID & HI).
  exists keys'. unfold nx_keypoint_read. rewrite R. cbn [bind]. split; [|split; [exact LEN|split]].
  - f_equal. f_equal. f_equal.
    pose proof (Nat.div_mod (length st) 44 ltac:(discriminate)) as D.
    pose proof (Nat.mod_upper_bound (length st) 44 ltac:(discriminate)) as U.
    destruct (Nat.leb_spec (44 * Z.to_nat n) (length st)); lia.
  - intros j J1 J2. apply (MID j); lia.
  - intros j J. apply HI. destruct J as [J|J]; [lia|]. assert (length st / 44 < j) by (apply Nat.div_lt_upper_bound; lia). lia.
Qed.

(** Reading what [keys_bytes] describes. *)
Lemma keys_bytes_nth ks j k : nth_error ks j = Some k -> forall rest, firstn 44 (skipn (44 * j) (keys_bytes ks ++ rest)) = key_bytes k.
Proof.
  revert j; induction ks as [|k0 ks IH]; intros [|j] H rest; cbn in H; try discriminate; unfold keys_bytes; cbn [map concat]; fold (keys_bytes ks).
  - injection H as ->. rewrite Nat.mul_0_r. cbn [skipn]. rewrite <- app_assoc. rewrite firstn_app, key_bytes_length, Nat.sub_diag, firstn_O.
    rewrite app_nil_r. apply firstn_all2. rewrite key_bytes_length. lia.
  - replace (44 * S j) with (44 + 44 * j) by lia. rewrite <- skipn_add, <- app_assoc.
    rewrite (skipn_app 44), key_bytes_length, Nat.sub_diag. rewrite (skipn_all2 (n:=44)) by (rewrite key_bytes_length; lia). cbn [app].
    apply (IH j H rest).
Qed.
Lemma keys_bytes_ok ks : bytes_ok (keys_bytes ks).
Proof.
  unfold keys_bytes. induction ks as [|k ks IH]; cbn [map concat]; [constructor|]. apply Forall_app. split; [|exact IH].
  unfold key_bytes. repeat (apply Forall_app; split); apply le_encode_bytes.
Qed.
Lemma list_ext {A} (l l' : list A) : (forall j, nth_error l j = nth_error l' j) -> l = l'.
Proof.
  revert l'; induction l as [|a l IH]; intros [|a' l'] H; [reflexivity|specialize (H 0); discriminate|specialize (H 0); discriminate|].
  pose proof (H 0) as H0. injection H0 as ->. f_equal. apply IH. intro j. exact (H (S j)).
Qed.
Lemma nth_error_skipn_add {A} n (l : list A) j : nth_error (skipn n l) j = nth_error l (n + j).
Proof. revert l; induction n as [|n IH]; intros [|a l]; cbn; auto. now destruct j. Qed.

Lemma read_back ks keys rest : bytes_ok rest -> Forall key_ok ks -> length ks <= length keys ->
  nx_keypoint_read keys (Z.of_nat (length ks)) (keys_bytes ks ++ rest) = Ok (Z.of_nat (length ks), ks ++ skipn (length ks) keys, rest).
Proof.
  intros B K L. destruct (read_ok keys (Z.of_nat (length ks)) (keys_bytes ks ++ rest)) as (keys' & R & LEN & MID & HI).
  { apply Forall_app. split; [apply keys_bytes_ok|exact B]. } { lia. }
  rewrite R. rewrite app_length, keys_bytes_length in *.
  replace (skipn _ (keys_bytes ks ++ rest)) with rest.
  2:{ rewrite Nat2Z.id, skipn_app, keys_bytes_length, Nat.sub_diag. rewrite skipn_all2 by (rewrite keys_bytes_length; lia). reflexivity. }
  replace keys' with (ks ++ skipn (length ks) keys).
  { f_equal. f_equal. f_equal. assert (length ks <= (44 * length ks + length rest) / 44) by (apply Nat.div_le_lower_bound; lia). lia. }
  symmetry. apply list_ext. intro j. destruct (Nat.lt_ge_cases j (length ks)) as [J|J].
  - rewrite nth_error_app1 by exact J. destruct (nth_error ks j) as [k|] eqn:E; [|apply nth_error_None in E; lia].
    destruct (MID j ltac:(lia) ltac:(lia)) as (q & Q1 & Q2 & Q3). rewrite Q1. f_equal. apply key_bytes_inj; auto.
    + eapply Forall_forall; [exact K|]. eapply nth_error_In; eauto.
    + rewrite Q3. now rewrite (keys_bytes_nth _ _ _ E).
  - rewrite nth_error_app2 by exact J. rewrite nth_error_skipn_add. rewrite HI by (left; lia). f_equal. lia.
Qed.
