(** Proofs about the string functions. *)
From Verif Require Import Base BaseLemmas Bytes ShaModel StrModel StrSpec.
Local Open Scope N_scope.
Local Arguments N.add : simpl never.
Local Arguments N.mul : simpl never.
Local Arguments N.pow : simpl never.
Local Arguments N.modulo : simpl never.
Local Arguments N.div : simpl never.

(** *** Readable text *)
Definition special (c : N) : bool :=
  existsb (N.eqb c) [10; 13; 9; 8; 12; 34; 92].

Lemma readable_char_plain c : special c = false -> readable_char c = [c].
Proof.
  unfold special, readable_char. destruct c as [|p]; [reflexivity|].
  repeat (destruct p as [p|p|]; try reflexivity; try discriminate).
Qed.

Lemma special_cases c : special c = true -> In c [10; 13; 9; 8; 12; 34; 92].
Proof.
  unfold special. intros H. apply existsb_exists in H as (x & Hx & E).
  apply N.eqb_eq in E. subst. exact Hx.
Qed.

Lemma plain_neq c d : special c = false -> special d = true -> c <> d.
Proof. congruence. Qed.

Lemma readable_decode s : nx_xstr_from_readable (flat_map readable_char s) = Ok s.
Proof.
  induction s as [|c s IH]; [reflexivity|].
  cbn [flat_map]. destruct (special c) eqn:Hc.
  - apply special_cases in Hc. cbn [In] in Hc.
    decompose [or] Hc; try contradiction; subst c; cbn; rewrite IH; reflexivity.
  - rewrite readable_char_plain by auto. cbn [app nx_xstr_from_readable].
    replace (c =? 92) with false by (symmetry; apply N.eqb_neq; intros ->; discriminate).
    rewrite IH. reflexivity.
Qed.

Lemma readable_no_control s c : In c (flat_map readable_char s) -> ~ is_control c.
Proof.
  intros H. apply in_flat_map in H as (d & Hd & H).
  destruct (special d) eqn:E.
  - apply special_cases in E. cbn [In] in E.
    decompose [or] E; try contradiction; subst d; cbn in H; unfold is_control; lia.
  - rewrite readable_char_plain in H by auto. destruct H as [->|[]].
    intros [->|[->|[->|[->| ->]]]]; discriminate.
Qed.

Lemma readable_not_closed s : closes (flat_map readable_char s) = false.
Proof.
  induction s as [|c s IH]; [reflexivity|]. cbn [flat_map]. destruct (special c) eqn:Hc.
  - apply special_cases in Hc. cbn [In] in Hc.
    decompose [or] Hc; try contradiction; subst c; cbn; exact IH.
  - rewrite readable_char_plain by auto. cbn [app].
    assert (closes (c :: flat_map readable_char s) = closes (flat_map readable_char s)) as ->; [|exact IH].
    cbn [closes]. destruct c as [|p]; [reflexivity|].
    repeat (destruct p as [p|p|]; try reflexivity; try discriminate).
Qed.

Lemma readable_bytes s : cstr_ok s -> cstr_ok (flat_map readable_char s).
Proof.
  induction 1 as [|c s Hc Hs IH]; [constructor|]. cbn [flat_map]. apply Forall_app. split; [|exact IH].
  destruct (special c) eqn:E.
  - apply special_cases in E. cbn [In] in E.
    decompose [or] E; try contradiction; subst c; repeat constructor; discriminate.
  - rewrite readable_char_plain by auto. repeat constructor; tauto.
Qed.

(** Decoding loses nothing: a text without raw special characters is what the
    encoder writes for the decoded string. *)
Fixpoint canonical (t : list N) : bool :=
  match t with
  | [] => true
  | c :: t' =>
    if c =? 92 then match t' with [] => false | _ :: t'' => canonical t'' end
    else negb (special c) && canonical t'
  end.

Lemma unescape_readable_inv d x : unescape_readable d = Ok x -> readable_char x = [92; d].
Proof.
  unfold unescape_readable. destruct d as [|p]; [discriminate|].
  repeat (destruct p as [p|p|]; try discriminate); intros [= <-]; reflexivity.
Qed.

Lemma readable_encode_decoded t : forall s, canonical t = true -> nx_xstr_from_readable t = Ok s ->
  flat_map readable_char s = t.
Proof.
  induction t as [t IH] using (well_founded_induction (Wf_nat.well_founded_ltof _ (@length N))).
  unfold Wf_nat.ltof in IH. intros s Hc Hd. destruct t as [|c t]; [cbn in Hd; injection Hd as <-; reflexivity|].
  cbn [canonical nx_xstr_from_readable] in Hc, Hd. destruct (N.eqb_spec c 92) as [->|Hn].
  - destruct t as [|d t]; [discriminate|]. apply bind_ok in Hd as (x & Hx & Hd).
    apply bind_ok in Hd as (r & Hr & [= <-]). cbn [flat_map].
    rewrite (unescape_readable_inv d x Hx). rewrite (IH t); auto. cbn [length]. lia.
  - apply bind_ok in Hd as (r & Hr & [= <-]). apply andb_prop in Hc as [H1 H2].
    cbn [flat_map]. rewrite readable_char_plain by (destruct (special c); auto; discriminate).
    rewrite (IH t); auto.
Qed.

(** *** Double quoting *)
Lemma double_quoted_decode s : nx_xstr_from_double_quoted (flat_map double_quoted_char s) = Ok s.
Proof.
  induction s as [|c s IH]; [reflexivity|]. cbn [flat_map]. unfold double_quoted_char at 1.
  destruct (N.eqb_spec c 34) as [->|Hc].
  - cbn. rewrite IH. reflexivity.
  - cbn [app nx_xstr_from_double_quoted]. replace (c =? 34) with false by lia. rewrite IH. reflexivity.
Qed.

Lemma double_quoted_encode t : forall s, nx_xstr_from_double_quoted t = Ok s -> flat_map double_quoted_char s = t.
Proof.
  induction t as [t IH] using (well_founded_induction (Wf_nat.well_founded_ltof _ (@length N))).
  unfold Wf_nat.ltof in IH. intros s Hd. destruct t as [|c t]; [cbn in Hd; injection Hd as <-; reflexivity|].
  cbn [nx_xstr_from_double_quoted] in Hd. destruct (N.eqb_spec c 34) as [->|Hn].
  - destruct t as [|d t]; [discriminate|]. destruct (N.eqb_spec d 34) as [->|]; [|discriminate].
    apply bind_ok in Hd as (r & Hr & [= <-]). cbn [flat_map double_quoted_char].
    rewrite (IH t); auto. cbn [length]. lia.
  - apply bind_ok in Hd as (r & Hr & [= <-]). cbn [flat_map]. unfold double_quoted_char at 1.
    replace (c =? 34) with false by lia. rewrite (IH t); auto.
Qed.

(** *** Blocks and C strings *)
Lemma cstr_block s b : cstr_ok s -> cstr (s ++ 0 :: b) = Ok s.
Proof.
  induction 1 as [|c s [_ Hc] Hs IH]; [reflexivity|].
  cbn [app cstr]. replace (c =? 0) with false by lia. rewrite IH. reflexivity.
Qed.

Lemma realloc_length junk b n : length (realloc junk b n) = n.
Proof.
  unfold realloc. rewrite app_length, firstn_length, map_length, seq_length. lia.
Qed.

Lemma realloc_prefix junk b n k : (k <= n)%nat -> (k <= length b)%nat ->
  firstn k (realloc junk b n) = firstn k b.
Proof.
  intros H1 H2. unfold realloc. rewrite firstn_app, firstn_firstn, firstn_length.
  replace (Nat.min k n) with k by lia. replace (k - Nat.min n (length b))%nat with 0%nat by lia.
  change (firstn 0 _) with (@nil N). apply app_nil_r.
Qed.

Lemma lset_app (a : list N) x b y : lset (a ++ x :: b) (length a) y = a ++ y :: b.
Proof. induction a as [|h t IH]; cbn; [reflexivity|]. rewrite IH. reflexivity. Qed.

Lemma firstn_S_nth_error {A} (l : list A) n x : nth_error l n = Some x -> firstn (S n) l = firstn n l ++ [x].
Proof. revert n; induction l as [|h t IH]; intros [|n] H; cbn in *; try discriminate; [congruence|]. rewrite (IH n H). reflexivity. Qed.

Lemma take_app {A} n (a b : list A) : length a = n -> take n (a ++ b) = (a, b).
Proof.
  intros <-. unfold take. f_equal.
  - rewrite firstn_app, Nat.sub_diag. change (firstn 0 b) with (@nil A). rewrite app_nil_r. apply firstn_all.
  - rewrite skipn_app, Nat.sub_diag. change (skipn 0 b) with b. rewrite skipn_all. reflexivity.
Qed.

Lemma blit0 (b bs : list N) : (length bs <= length b)%nat -> blit b 0 bs = Ok (bs ++ skipn (length bs) b).
Proof.
  intros H. unfold blit. cbn [Nat.add]. replace (length bs <=? length b)%nat with true by lia. reflexivity.
Qed.

(** *** Binary strings *)
Lemma strread_strwrite junk b size s rest :
  cstr_ok s -> N.of_nat (length s) + 1 < 2 ^ 64 -> size <= N.of_nat (length b) ->
  exists b', nx_strread junk b size (nx_strwrite s ++ rest) = Ok (0%Z, b', rest) /\
             exists t, b' = s ++ 0 :: t.
Proof.
  intros Hs Hl Hsz. unfold nx_strread, nx_strwrite. rewrite <- app_assoc.
  rewrite (take_app 8) by apply size_bytes_length. rewrite size_bytes_length. cbn [Nat.ltb Nat.leb].
  rewrite size_bytes_decode by lia.
  set (n := length s) in *.
  set (bb := if size <=? N.of_nat n then _ else b).
  assert (n < length bb)%nat as Hbb.
  { unfold bb. destruct (N.leb_spec size (N.of_nat n)).
    - rewrite realloc_length, N.mod_small by lia. lia.
    - lia. }
  rewrite app_length. replace (N.of_nat (length s + length rest) <? N.of_nat n) with false by (unfold n; lia).
  rewrite Nat2N.id. rewrite take_app by reflexivity.
  rewrite blit0 by (fold n; lia). cbn [bind]. rewrite app_length, skipn_length. fold n.
  replace (N.of_nat n <? N.of_nat (n + (length bb - n))) with true by lia. rewrite N.eqb_refl.
  eexists. split; [reflexivity|].
  destruct (skipn n bb) as [|x t] eqn:E.
  { apply (f_equal (@length N)) in E. rewrite skipn_length in E. cbn in E. lia. }
  exists t. apply lset_app.
Qed.

Lemma strread_defined junk b size st : size <= N.of_nat (length b) -> bytes_ok st ->
  le_decode (firstn 8 st) <> 2 ^ 64 - 1 ->
  exists r b' st', nx_strread junk b size st = Ok (r, b', st') /\ (r = 0 \/ r = 1)%Z.
Proof.
  intros Hsz Hok Hmax. unfold nx_strread, take.
  destruct (Nat.ltb_spec (length (firstn 8 st)) 8) as [H8|H8]; [eauto 10|].
  pose proof (le_decode_bound (firstn 8 st) (bytes_ok_firstn 8 st Hok)) as Hb.
  assert (length (firstn 8 st) = 8)%nat as E8 by (rewrite firstn_length in *; lia).
  rewrite E8 in Hb. change (256 ^ N.of_nat 8) with (2 ^ 64) in Hb.
  set (ls := le_decode (firstn 8 st)) in *. set (st1 := skipn 8 st).
  set (bb := if size <=? ls then _ else b).
  assert (ls < N.of_nat (length bb)) as Hbb.
  { unfold bb. destruct (N.leb_spec size ls).
    - rewrite realloc_length, N.mod_small by lia. lia.
    - lia. }
  set (p := if N.of_nat (length st1) <? ls then (st1, []) else (firstn (N.to_nat ls) st1, skipn (N.to_nat ls) st1)).
  assert (N.of_nat (length (fst p)) <= ls) as Hp.
  { unfold p. destruct (N.ltb_spec (N.of_nat (length st1)) ls); cbn [fst]; [lia|]. rewrite firstn_length. lia. }
  destruct p as [bs st2]. cbn [fst] in Hp.
  rewrite blit0 by lia. cbn [bind]. rewrite app_length, skipn_length.
  replace (ls <? N.of_nat (length bs + (length bb - length bs))) with true by lia.
  do 3 eexists. split; [reflexivity|]. destruct (_ =? _); auto.
Qed.

Lemma strread_truncated junk b size s k :
  cstr_ok s -> N.of_nat (length s) + 1 < 2 ^ 64 -> size <= N.of_nat (length b) ->
  (k < length (nx_strwrite s))%nat ->
  exists b' st', nx_strread junk b size (firstn k (nx_strwrite s)) = Ok (1%Z, b', st').
Proof.
  intros Hs Hl Hsz Hk. unfold nx_strwrite in *. rewrite app_length, size_bytes_length in Hk.
  rewrite firstn_app, size_bytes_length. unfold nx_strread.
  destruct (Nat.lt_ge_cases k 8) as [H8|H8].
  - replace (k - 8)%nat with 0%nat by lia. change (firstn 0 s) with (@nil N). rewrite app_nil_r.
    unfold take. rewrite !firstn_length, size_bytes_length.
    replace (Nat.min 8 (Nat.min k 8) <? 8)%nat with true by lia. eauto.
  - rewrite (firstn_all2 (size_bytes _)) by (rewrite size_bytes_length; lia).
    rewrite (take_app 8) by apply size_bytes_length. rewrite size_bytes_length. cbn [Nat.ltb Nat.leb].
    rewrite size_bytes_decode by lia.
    set (n := length s) in *. set (bb := if size <=? N.of_nat n then _ else b).
    assert (n < length bb)%nat as Hbb.
    { unfold bb. destruct (N.leb_spec size (N.of_nat n)).
      - rewrite realloc_length, N.mod_small by lia. lia.
      - lia. }
    assert (length (firstn (k - 8) s) = k - 8)%nat as Hf by (rewrite firstn_length; fold n; lia).
    rewrite Hf. replace (N.of_nat (k - 8) <? N.of_nat n) with true by lia.
    rewrite blit0 by lia. cbn [bind]. rewrite app_length, skipn_length, Hf.
    replace (N.of_nat n <? N.of_nat (k - 8 + (length bb - (k - 8)))) with true by lia.
    replace (N.of_nat (k - 8) =? N.of_nat n) with false by lia. eauto.
Qed.

(** *** nx_vfstr *)
Lemma vfstr_spec junk text : cstr_ok text -> (Z.of_nat (length text) < INT_MAX)%Z ->
  exists b t, nx_vfstr junk text = Ok b /\ b = text ++ 0 :: t.
Proof.
  intros Hs Hl. unfold nx_vfstr. remember (map junk (seq 0 65)) as b0 eqn:E0.
  assert (length b0 = 65)%nat as Hb0 by (rewrite E0, map_length, seq_length; reflexivity).
  set (n := length text) in *.
  assert (forall b ls, (length b = ls)%nat -> (n < ls)%nat ->
    vsnprintf text b ls = Ok ((text ++ [0]) ++ skipn (S n) b, Z.of_nat n)) as Hbig.
  { intros b ls Hb Hlt. unfold vsnprintf. fold n. replace (INT_MAX <? Z.of_nat n)%Z with false by lia.
    rewrite firstn_all2 by (fold n; lia). rewrite blit0 by (rewrite app_length; cbn [length]; fold n; lia).
    cbn [bind]. rewrite app_length. cbn [length]. fold n. replace (n + 1)%nat with (S n) by lia. reflexivity. }
  cbn [nx_vfstr_loop]. destruct (Nat.lt_ge_cases n 65) as [H|H].
  - rewrite Hbig by lia. cbn [bind]. replace (Z.of_nat n <? 0)%Z with false by lia.
    replace (Z.of_nat 65 <=? Z.of_nat n)%Z with false by lia.
    do 2 eexists. split; [reflexivity|]. rewrite <- app_assoc. reflexivity.
  - unfold vsnprintf at 1. fold n. replace (INT_MAX <? Z.of_nat n)%Z with false by lia.
    rewrite blit0 by (rewrite app_length, firstn_length; cbn [length]; fold n; lia). cbn [bind].
    replace (Z.of_nat n <? 0)%Z with false by lia. replace (Z.of_nat 65 <=? Z.of_nat n)%Z with true by lia.
    unfold chk_int, in_int. replace (_ && _) with true by (unfold INT_MIN, INT_MAX in *; lia). cbn [bind].
    rewrite Hbig by (rewrite ?realloc_length; lia). cbn [bind].
    replace (Z.of_nat n <? 0)%Z with false by lia.
    replace (Z.of_nat (Z.to_nat (Z.of_nat n + 1)) <=? Z.of_nat n)%Z with false by lia.
    do 2 eexists. split; [reflexivity|]. rewrite <- app_assoc. reflexivity.
Qed.

(** *** nx_getline *)
Lemma rnd24_bounds m : 2 ^ 23 * rnd24 m <= (2 ^ 23 + 1) * m /\ (2 ^ 23 - 1) * m <= 2 ^ 23 * rnd24 m.
Proof.
  unfold rnd24. destruct (N.ltb_spec m (2 ^ 24)) as [H|H].
  { change (2 ^ 23) with 8388608. lia. }
  assert (0 < m) as Hm by (change (2 ^ 24) with 16777216 in H; lia).
  destruct (N.log2_spec m Hm) as [Hlo _].
  assert (24 <= N.log2 m) as Hk by (apply N.log2_le_pow2; auto).
  set (k := N.log2 m - 23) in *.
  assert (N.log2 m = 23 + k) as Ek by lia. rewrite Ek, N.pow_add_r in Hlo.
  assert (0 < 2 ^ k) as Hp by (apply N.neq_0_lt_0, N.pow_nonzero; discriminate).
  assert (2 ^ (k - 1) + 2 ^ (k - 1) = 2 ^ k) as Hh.
  { replace k with (N.succ (k - 1)) at 3 by lia. rewrite N.pow_succ_r'. lia. }
  set (P := 2 ^ k) in *. set (h := 2 ^ (k - 1)) in *.
  pose proof (N.div_mod m P ltac:(lia)) as Hdm. pose proof (N.mod_lt m P ltac:(lia)) as Hr.
  set (q := m / P) in *. set (r := m mod P) in *.
  change (2 ^ 23) with 8388608 in *.
  assert (8388608 * P <= m) as Hlo' by lia.
  assert (q * P = m - r) as HqP by lia. assert ((q + 1) * P = m - r + P) as HqP1 by lia.
  destruct (N.ltb_spec r h); [|destruct (N.ltb_spec h r); [|destruct (N.even q)]]; rewrite ?HqP, ?HqP1; lia.
Qed.

Lemma grow_1_6_more n : 4 <= n -> n < grow_1_6 n.
Proof.
  intros H. unfold grow_1_6.
  pose proof (proj2 (rnd24_bounds n)) as HA. set (A := rnd24 n) in *.
  pose proof (proj2 (rnd24_bounds (A * 13421773))) as HB. set (B := rnd24 (A * 13421773)) in *.
  apply N.lt_le_trans with (n + 1); [lia|]. apply N.div_le_lower_bound; [discriminate|].
  change (2 ^ 23) with 8388608 in *. lia.
Qed.

Lemma grow_1_6_small n : n < 2 ^ 30 -> (Z.of_N (grow_1_6 n) <= INT_MAX)%Z.
Proof.
  intros H. unfold INT_MAX. enough (grow_1_6 n <= 2147483647) by lia.
  unfold grow_1_6.
  pose proof (proj1 (rnd24_bounds n)) as HA. set (A := rnd24 n) in *.
  pose proof (proj1 (rnd24_bounds (A * 13421773))) as HB. set (B := rnd24 (A * 13421773)) in *.
  apply N.lt_succ_r. apply N.div_lt_upper_bound; [discriminate|].
  change (2 ^ 23) with 8388608 in *. change (2 ^ 30) with 1073741824 in *. lia.
Qed.

Lemma grown_size n : n < 2 ^ 30 -> (N.to_nat n < Nat.max 4 (N.to_nat (grow_1_6 n)))%nat.
Proof.
  intros H. destruct (N.lt_ge_cases n 4) as [H4|H4]; [lia|].
  pose proof (grow_1_6_more n H4). lia.
Qed.

Lemma append_char_spec junk line idx c : N.of_nat idx < 2 ^ 30 -> (idx <= length line)%nat ->
  exists line', append_char junk line idx c = Ok (line', S idx) /\
    firstn (S idx) line' = firstn idx line ++ [c] /\ (S idx <= length line')%nat.
Proof.
  intros Hi Hle. unfold append_char.
  destruct (Nat.leb_spec (length line) idx) as [H|H].
  - assert (length line = idx) as E by lia.
    pose proof (grow_1_6_small (N.of_nat (length line)) ltac:(lia)) as Hs.
    replace (_ <=? INT_MAX)%Z with true by lia. cbn [bind].
    pose proof (grown_size (N.of_nat (length line)) ltac:(lia)) as Hg. rewrite Nat2N.id in Hg.
    set (n := Nat.max 4 _) in *.
    rewrite aset_lt by (rewrite realloc_length; lia). cbn [bind].
    eexists. split; [reflexivity|]. split; [|rewrite lset_length, realloc_length; lia].
    rewrite (firstn_S_nth_error _ idx c) by (apply nth_error_lset_eq; rewrite realloc_length; lia).
    f_equal. rewrite <- (realloc_prefix junk line n idx) by lia.
    clear. generalize (realloc junk line n). intros l. revert idx.
    induction l as [|h t IH]; intros [|i]; cbn; auto. f_equal. apply IH.
  - cbn [bind]. rewrite aset_lt by lia. cbn [bind].
    eexists. split; [reflexivity|]. split; [|rewrite lset_length; lia].
    rewrite (firstn_S_nth_error _ idx c) by (apply nth_error_lset_eq; lia).
    f_equal. clear. revert idx. induction line as [|h t IH]; intros [|i]; cbn; auto. f_equal. apply IH.
Qed.

(** The first line of a stream and what follows it. *)
Definition first_line (st : list N) : list N := match lines st with [] => [] | l :: _ => l end.

Lemma lines_nil st : lines st = [] -> st = [].
Proof. destruct st as [|c t]; auto. cbn [lines]. destruct (c =? 10); [discriminate|]. destruct (lines t); discriminate. Qed.

Lemma lines_concat st : concat (lines st) = st.
Proof.
  induction st as [|c t IH]; [reflexivity|]. cbn [lines]. destruct (c =? 10).
  - cbn [concat app]. rewrite IH. reflexivity.
  - destruct (lines t) as [|l ls] eqn:E; cbn [concat app] in *.
    + rewrite <- IH. reflexivity.
    + rewrite <- IH. reflexivity.
Qed.

Lemma getline_loop_spec junk st : forall line idx,
  (idx <= length line)%nat -> N.of_nat (idx + length (first_line st)) < 2 ^ 30 ->
  exists line' idx' st', getline_loop junk st line idx = Ok (line', idx', st') /\
    (idx' = idx + length (first_line st))%nat /\
    firstn idx' line' = firstn idx line ++ first_line st /\
    (idx' <= length line')%nat /\ lines st' = tl (lines st) /\ st = first_line st ++ st'.
Proof.
  induction st as [|c st IH]; intros line idx Hle Hlen.
  - exists line, idx, []. unfold first_line. cbn. repeat split; auto; try lia. rewrite app_nil_r; reflexivity.
  - cbn [getline_loop]. unfold first_line in Hlen. cbn [lines] in Hlen.
    destruct (append_char_spec junk line idx c) as (line1 & E1 & Hf1 & Hl1); [lia|auto|].
    rewrite E1. cbn [bind]. unfold first_line. cbn [lines].
    destruct (N.eqb_spec c 10) as [->|Hc].
    + exists line1, (S idx), st. cbn [length tl app]. repeat split; auto; lia.
    + assert (length (match (match lines st with [] => [[c]] | l :: ls => (c :: l) :: ls end) with [] => [] | l :: _ => l end)
              = S (length (first_line st))) as EL.
      { unfold first_line. destruct (lines st); reflexivity. }
      rewrite EL in Hlen.
      destruct (IH line1 (S idx) Hl1) as (line2 & idx2 & st2 & E2 & Hi2 & Hf2 & Hl2 & Hln & Hst); [lia|].
      exists line2, idx2, st2. split; [exact E2|]. rewrite EL. split; [lia|].
      split; [rewrite Hf2, Hf1, <- app_assoc; unfold first_line; destruct (lines st); reflexivity|].
      split; [auto|]. split; [rewrite Hln; destruct (lines st); reflexivity|].
      unfold first_line in Hst. destruct (lines st); cbn [app] in *; congruence.
Qed.

Lemma getline_spec junk line st :
  N.of_nat (length (first_line st)) < 2 ^ 30 - 1 ->
  exists line' st', nx_getline junk line st = Ok (line', Z.of_nat (length (first_line st)), st') /\
    firstn (length (first_line st)) line' = first_line st /\
    nth_error line' (length (first_line st)) = Some 0 /\
    lines st' = tl (lines st) /\ st = first_line st ++ st'.
Proof.
  intros H. unfold nx_getline.
  destruct (getline_loop_spec junk st line 0) as (line1 & idx1 & st1 & E1 & Hi & Hf & Hl & Hln & Hst); [lia|lia|].
  rewrite E1. cbn [bind]. cbn [Nat.add firstn app] in Hi, Hf.
  destruct (append_char_spec junk line1 idx1 0) as (line2 & E2 & Hf2 & Hl2); [lia|auto|].
  rewrite E2. cbn [bind]. change (S idx1 =? 0)%nat with false. cbv iota.
  replace (Z.of_nat (S idx1) - 1)%Z with (Z.of_nat idx1) by lia. rewrite <- Hi.
  exists line2, st1. split; [reflexivity|].
  assert (firstn idx1 line2 = firstn idx1 line1) as Hf3.
  { apply (f_equal (firstn idx1)) in Hf2. rewrite firstn_firstn, firstn_app, firstn_firstn in Hf2.
    rewrite firstn_length in Hf2. replace (idx1 - Nat.min idx1 (length line1))%nat with 0%nat in Hf2 by lia.
    change (firstn 0 [0]) with (@nil N) in Hf2. rewrite app_nil_r in Hf2.
    replace (Nat.min idx1 (S idx1)) with idx1 in Hf2 by lia. rewrite Nat.min_id in Hf2. exact Hf2. }
  split; [congruence|]. split; [|auto].
  destruct (nth_error line2 idx1) as [x|] eqn:Ex.
  - rewrite (firstn_S_nth_error _ _ _ Ex), Hf3 in Hf2. apply app_inv_head in Hf2. congruence.
  - apply nth_error_None in Ex. lia.
Qed.

Lemma first_line_nil st : first_line st = [] -> st = [].
Proof.
  unfold first_line. destruct st as [|c t]; auto. cbn [lines]. destruct (c =? 10); [discriminate|].
  destruct (lines t); discriminate.
Qed.

Lemma read_lines_spec junk : forall n st line,
  length (lines st) = n -> Forall (fun l => N.of_nat (length l) < 2 ^ 30 - 1) (lines st) ->
  read_lines (S n) junk line st = Ok (lines st).
Proof.
  induction n as [|n IH]; intros st line Hn HF.
  - cbn [read_lines]. apply length_zero_iff_nil in Hn.
    destruct (getline_spec junk line st) as (line' & st' & E & _).
    { unfold first_line. rewrite Hn. reflexivity. }
    rewrite E. cbn [bind]. unfold first_line. rewrite Hn. reflexivity.
  - remember (S n) as m. cbn [read_lines]. subst m.
    destruct (lines st) as [|l ls] eqn:El; [discriminate|].
    assert (first_line st = l) as Ef by (unfold first_line; rewrite El; reflexivity).
    destruct (getline_spec junk line st) as (line' & st' & E & Hf & _ & Hln & Hst).
    { rewrite Ef. apply (Forall_inv HF). }
    rewrite E. cbn [bind]. rewrite Ef in *.
    assert (l <> []) as Hne by (intros ->; apply first_line_nil in Ef; subst st; discriminate).
    assert (0 < length l)%nat by (destruct l; [congruence|cbn; lia]).
    replace (Z.of_nat (length l) <=? 0)%Z with false by lia.
    rewrite El in Hln. cbn [tl] in Hln. rewrite IH.
    + cbn [bind]. rewrite Nat2Z.id, Hf, Hln. reflexivity.
    + rewrite Hln. injection Hn as <-. reflexivity.
    + rewrite Hln. apply (Forall_inv_tail HF).
Qed.

Lemma lines_shape st l : In l (lines st) ->
  l <> [] /\ (forall i, (S i < length l)%nat -> nth_error l i <> Some 10).
Proof.
  revert l; induction st as [|c t IH]; intros l H; [contradiction|].
  cbn [lines] in H. destruct (N.eqb_spec c 10) as [->|Hc].
  - destruct H as [<-|H]; [|apply IH; auto]. split; [discriminate|]. cbn. intros; lia.
  - destruct (lines t) as [|l0 ls] eqn:E.
    + destruct H as [<-|[]]. split; [discriminate|]. cbn. intros; lia.
    + destruct H as [<-|H]; [|apply IH; right; auto].
      split; [discriminate|]. intros [|i] Hi; cbn [nth_error length] in *; [congruence|].
      apply (IH l0); [left; reflexivity|lia].
Qed.

Lemma lines_terminated st a l b : lines st = a ++ l :: b -> b <> [] -> last l 0 = 10.
Proof.
  revert a l b; induction st as [|c t IH]; intros a l b H Hb.
  { destruct a; discriminate. }
  cbn [lines] in H. destruct (N.eqb_spec c 10) as [->|Hc].
  - destruct a as [|x a]; [injection H as <- _; reflexivity|].
    injection H as _ H. eapply IH; eauto.
  - destruct (lines t) as [|l0 ls] eqn:E.
    + destruct a as [|x a]; [injection H as <- <-; congruence|]. destruct a; discriminate.
    + destruct a as [|x a].
      * injection H as <- <-. specialize (IH [] l0 ls eq_refl Hb).
        destruct l0; [cbn in IH; discriminate|exact IH].
      * injection H as _ H. apply (IH (l0 :: a) l b); [rewrite H; reflexivity|auto].
Qed.
