From Verif Require Import Base BaseLemmas Bytes Gray Flt MatModel MatIo KeyModel KeySpec KeyProofs KeySave SiftModel SiftSpec.
From Coq Require Import Sorted.

Local Open Scope Z_scope.

(** * Distances *)
Lemma dist_snoc a b x y : length a = length b -> dist (a ++ [x]) (b ++ [y]) = dist a b + (Z.of_N x - Z.of_N y) * (Z.of_N x - Z.of_N y).
Proof. revert b; induction a as [|u a IH]; intros [|v b] H; try discriminate; cbn [app dist]; [lia|]. injection H as H. rewrite IH by exact H. lia. Qed.
Lemma sq255 d : -255 <= d <= 255 -> 0 <= d * d <= 65025.
Proof. intros H. assert (0 <= (255 - d) * (255 + d)) by (apply Z.mul_nonneg_nonneg; lia). nia. Qed.
Lemma dist_bound a : forall b, bytes_ok a -> bytes_ok b -> 0 <= dist a b <= 65025 * Z.of_nat (length a).
Proof.
  induction a as [|u a IH]; intros [|v b] A B; cbn [dist length]; try lia. inversion A as [|? ? A1 A2]; inversion B as [|? ? B1 B2]; subst. destruct (IH b A2 B2). unfold byte_ok in A1, B1.
  assert (0 <= (Z.of_N u - Z.of_N v) * (Z.of_N u - Z.of_N v) <= 65025) by (apply sq255; lia). lia.
Qed.
Lemma chk_small z : -2147483648 <= z <= 2147483647 -> chk_int z = Ok z.
Proof. intros H. apply chk_int_in. exact H. Qed.

Lemma dist_ok n v0 o0 v1 o1 : bytes_ok v0 -> bytes_ok v1 -> (o0 + n <= length v0)%nat -> (o1 + n <= length v1)%nat -> Z.of_nat n <= 1000 ->
  nx_ucvec_dist_sq (Z.of_nat n) v0 (Z.of_nat o0) v1 (Z.of_nat o1) = Ok (dist (firstn n (skipn o0 v0)) (firstn n (skipn o1 v1))).
Proof.
  intros B0 B1 L0 L1 N. unfold nx_ucvec_dist_sq. destruct (Z.ltb_spec (Z.of_nat n) 0); [lia|].
  destruct (for_upto (fun i d_sq =>
    let* a := zget v0 (Z.of_nat o0 + i) in
    let* b := zget v1 (Z.of_nat o1 + i) in
    let* d := chk_int (Z.of_N a - Z.of_N b) in
    let* dd := chk_int (d * d) in
    chk_int (d_sq + dd)) (fun i d => d = dist (firstn i (skipn o0 v0)) (firstn i (skipn o1 v1))) n 0) as (d & E & ->); [reflexivity| |exact E].
  intros i d I ->.
  destruct (nth_error v0 (o0 + i)) as [a|] eqn:E0; [|apply nth_error_None in E0; lia].
  destruct (nth_error v1 (o1 + i)) as [b|] eqn:E1; [|apply nth_error_None in E1; lia].
  rewrite <- !Nat2Z.inj_add. rewrite (zget_nat _ _ _ E0), (zget_nat _ _ _ E1). cbn [bind].
  assert (BA : (a < 256)%N) by (eapply Forall_forall in B0; [exact B0|eapply nth_error_In; eauto]).
  assert (BB : (b < 256)%N) by (eapply Forall_forall in B1; [exact B1|eapply nth_error_In; eauto]).
  rewrite chk_small by lia. cbn [bind].
  assert (SQ : 0 <= (Z.of_N a - Z.of_N b) * (Z.of_N a - Z.of_N b) <= 65025) by (apply sq255; lia).
  rewrite chk_small by lia. cbn [bind].
  assert (Lf0 : length (firstn i (skipn o0 v0)) = i) by (rewrite firstn_length, skipn_length; lia).
  assert (Lf1 : length (firstn i (skipn o1 v1)) = i) by (rewrite firstn_length, skipn_length; lia).
  pose proof (dist_bound (firstn i (skipn o0 v0)) (firstn i (skipn o1 v1)) (bytes_firstn _ _ (bytes_skipn _ _ B0)) (bytes_firstn _ _ (bytes_skipn _ _ B1))) as DB.
  rewrite Lf0 in DB. rewrite chk_small by lia. eexists. split; [reflexivity|].
  replace (S i) with (i + 1)%nat by lia. rewrite !firstn_add, !skipn_add.
  rewrite (skipn_cons _ _ _ E0), (skipn_cons _ _ _ E1). cbn [firstn]. rewrite dist_snoc by lia. reflexivity.
Qed.

Lemma off_ok i m : (i < m)%nat -> Z.of_nat m < 2 ^ 24 -> chk_int (Z.of_nat i * DESC_DIM) = Ok (Z.of_nat (128 * i)).
Proof. intros H M. change (2 ^ 24) with 16777216 in M. unfold DESC_DIM. rewrite chk_small by lia. f_equal. lia. Qed.

Section Match.
Variables (desc descp : list N) (n np : nat).
Hypotheses (B : bytes_ok desc) (Bp : bytes_ok descp) (L : (128 * n <= length desc)%nat) (Lp : (128 * np <= length descp)%nat).
Hypotheses (N24 : Z.of_nat n < 2 ^ 24) (Np24 : Z.of_nat np < 2 ^ 24).

Lemma desc_dist_ok i j : (i < n)%nat -> (j < np)%nat ->
  nx_ucvec_dist_sq DESC_DIM desc (Z.of_nat (128 * i)) descp (Z.of_nat (128 * j)) = Ok (desc_dist desc descp i j).
Proof. intros I J. change DESC_DIM with (Z.of_nat 128). apply dist_ok; auto; lia. Qed.
Lemma desc_dist_range i j : 0 <= desc_dist desc descp i j <= 8323200.
Proof using B Bp. clear L Lp N24 Np24 n np.
  pose proof (dist_bound (descriptor desc i) (descriptor descp j) (bytes_firstn _ _ (bytes_skipn _ _ B)) (bytes_firstn _ _ (bytes_skipn _ _ Bp))) as D.
  assert (length (descriptor desc i) <= 128)%nat by (unfold descriptor; rewrite firstn_length; lia). unfold desc_dist. lia.
Qed.

Lemma nearest_ok i : (i < n)%nat -> (0 < np)%nat ->
  exists j, nearest desc (Z.of_nat (128 * i)) (Z.of_nat np) descp = Ok (Z.of_nat j, desc_dist desc descp i j) /\ first_nearest (desc_dist desc descp i) np j.
Proof.
  intros I P. unfold nearest.
  destruct (for_upto (fun j s =>
    let* oj := chk_int (j * DESC_DIM) in
    let* d_sq := nx_ucvec_dist_sq DESC_DIM desc (Z.of_nat (128 * i)) descp oj in
    if d_sq <? snd s then Ok (j, d_sq) else Ok s)
   (fun m s => (m = 0%nat /\ s = (-1, INT_MAX)) \/ exists j, s = (Z.of_nat j, desc_dist desc descp i j) /\ first_nearest (desc_dist desc descp i) m j) np (-1, INT_MAX))
   as (s & E & [[Q _]|(j & -> & F)]); [auto| |lia|eauto].
  intros m s M Q. rewrite (off_ok m np M Np24). cbn [bind]. rewrite desc_dist_ok by auto. cbn [bind]. pose proof (desc_dist_range i m) as R.
  destruct Q as [[-> ->]|(j & -> & F1 & F2 & F3)]; cbn [snd].
  - change INT_MAX with 2147483647. destruct (Z.ltb_spec (desc_dist desc descp i 0) 2147483647); [|lia]. eexists. split; [reflexivity|]. right. exists 0%nat. split; [reflexivity|].
    split; [lia|]. split; [|lia]. intros k K. replace k with 0%nat by lia. lia.
  - destruct (Z.ltb_spec (desc_dist desc descp i m) (desc_dist desc descp i j)) as [Q|Q].
    + eexists. split; [reflexivity|]. right. exists m. split; [reflexivity|]. split; [lia|]. split.
      * intros k K. destruct (Nat.eq_dec k m) as [->|Ne]; [lia|]. specialize (F2 k ltac:(lia)). lia.
      * intros k K. specialize (F2 k K). lia.
    + eexists. split; [reflexivity|]. right. exists j. split; [reflexivity|]. split; [lia|]. split; [|exact F3].
      intros k K. destruct (Nat.eq_dec k m) as [->|Ne]; [lia|]. apply F2. lia.
Qed.

Lemma nearest2_ok i : (i < n)%nat -> (0 < np)%nat ->
  exists j d1 id1, nearest2 desc (Z.of_nat (128 * i)) (Z.of_nat np) descp = Ok ((Z.of_nat j, desc_dist desc descp i j), (id1, d1)) /\
    first_nearest (desc_dist desc descp i) np j /\ second_distance (desc_dist desc descp i) np j d1.
Proof.
  intros I P. unfold nearest2. set (D := desc_dist desc descp i).
  destruct (for_upto (fun j s =>
    let '((id0, d0), (id1, d1)) := s in
    let* oj := chk_int (j * DESC_DIM) in
    let* d_sq := nx_ucvec_dist_sq DESC_DIM desc (Z.of_nat (128 * i)) descp oj in
    if d_sq <? d0 then Ok ((j, d_sq), (id0, d0))
    else if d_sq <? d1 then Ok ((id0, d0), (j, d_sq)) else Ok s)
   (fun m s => (m = 0%nat /\ s = ((-1, INT_MAX), (-1, INT_MAX))) \/ exists j d1 id1, s = ((Z.of_nat j, D j), (id1, d1)) /\ first_nearest D m j /\ second_distance D m j d1) np ((-1, INT_MAX), (-1, INT_MAX)))
   as (s & E & [[Q _]|(j & d1 & id1 & -> & F & G)]); [auto| |lia|eauto 8].
  intros m s M Q. rewrite (off_ok m np M Np24). pose proof (desc_dist_range i m) as R. fold D in R.
  destruct Q as [[-> ->]|(j & d1 & id1 & -> & (F1 & F2 & F3) & G)]; cbn [bind]; rewrite desc_dist_ok by auto; cbn [bind]; fold D.
  - change INT_MAX with 2147483647. destruct (Z.ltb_spec (D 0%nat) 2147483647); [|lia]. eexists. split; [reflexivity|]. right. exists 0%nat, 2147483647, (-1). split; [reflexivity|].
    split; [|left; split; reflexivity]. split; [lia|]. split; [|lia]. intros k K. replace k with 0%nat by lia. lia.
  - destruct (Z.ltb_spec (D m) (D j)) as [Q|Q].
    + eexists. split; [reflexivity|]. right. exists m, (D j), (Z.of_nat j). split; [reflexivity|]. split.
      * split; [lia|]. split.
        -- intros k K. destruct (Nat.eq_dec k m) as [->|Ne]; [lia|]. specialize (F2 k ltac:(lia)). lia.
        -- intros k K. specialize (F2 k K). lia.
      * right. split; [exists j; repeat split; lia|]. intros k K Ne. apply F2. lia.
    + assert (FN : first_nearest D (S m) j).
      { split; [lia|]. split; [|exact F3]. intros k K. destruct (Nat.eq_dec k m) as [->|Ne]; [lia|]. apply F2. lia. }
      destruct (Z.ltb_spec (D m) d1) as [Q1|Q1]; (eexists; split; [reflexivity|]; right).
      * exists j, (D m), (Z.of_nat m). split; [reflexivity|]. split; [exact FN|]. right. split; [exists m; repeat split; lia|].
        intros k K Ne. destruct (Nat.eq_dec k m) as [->|Nm]; [lia|]. destruct G as [[-> ->]|[_ G]]; [lia|]. specialize (G k ltac:(lia) Ne). lia.
      * exists j, d1, id1. split; [reflexivity|]. split; [exact FN|]. destruct G as [[-> ->]|[(k & K1 & K2 & K3) G]].
        -- unfold INT_MAX in Q1. lia.
        -- right. split; [exists k; repeat split; auto; lia|]. intros k' K' Ne. destruct (Nat.eq_dec k' m) as [->|Nm]; [lia|]. apply G; lia.
Qed.
End Match.

Lemma links_from k kp d : small24 d -> links k kp d (from_keypoints k kp SIFT_LOCALIZATION_STD_DEV (of_int d) false).
Proof. intros H. unfold links, from_keypoints. cbn [p_x p_y p_xp p_yp p_cost p_sigma_x p_sigma_xp p_id p_idp p_inlier]. rewrite of_int_exact by exact H. repeat split. Qed.

Lemma second_distance_eq D np j d d' : second_distance D np j d -> second_distance D np j d' -> (j < np)%nat -> d = d'.
Proof.
  intros [[-> ->]|[(k & K1 & K2 & <-) G]] [[E ->]|[(k' & K1' & K2' & <-) G']] J; try reflexivity; try lia.
  specialize (G k' K1' K2'). specialize (G' k K1 K2). lia.
Qed.
Lemma first_nearest_eq D np j j' : first_nearest D np j -> first_nearest D np j' -> j = j'.
Proof.
  intros (A1 & A2 & A3) (B1 & B2 & B3). destruct (Nat.lt_trichotomy j j') as [Q|[Q|Q]]; auto; exfalso.
  - specialize (B3 j Q). specialize (A2 j' B1). lia.
  - specialize (A3 j' Q). specialize (B2 j A1). lia.
Qed.

Theorem match_plain n keys desc np keyps descp corr thr :
  bytes_ok desc -> bytes_ok descp -> (n <= length keys)%nat -> (128 * n <= length desc)%nat -> (np <= length keyps)%nat -> (128 * np <= length descp)%nat ->
  Z.of_nat n < 2 ^ 24 -> Z.of_nat np < 2 ^ 24 -> (n <= length corr)%nat -> (0 < np)%nat ->
  f_gt thr F0 && f_lt thr F1 = false ->
  exists corr', nx_sift_match_brute_force (Z.of_nat n) keys desc (Z.of_nat np) keyps descp corr thr = Ok (Z.of_nat n, corr') /\
    length corr' = length corr /\ skipn n corr' = skipn n corr /\
    forall i, (i < n)%nat -> exists j k kp m, first_nearest (desc_dist desc descp i) np j /\ nth_error keys i = Some k /\ nth_error keyps j = Some kp /\
      nth_error corr' i = Some m /\ links k kp (desc_dist desc descp i j) m.
Proof.
  intros B Bp LK LD LKp LDp N24 Np24 LC P T. unfold nx_sift_match_brute_force. destruct (Z.ltb_spec (Z.of_nat n) 0); [lia|]. destruct (Z.ltb_spec (Z.of_nat np) 0); [lia|].
  rewrite T.
  destruct (for_upto (fun i corr =>
      let* oi := chk_int (i * DESC_DIM) in
      let* r := nearest desc oi (Z.of_nat np) descp in
      let '(id, d) := r in
      let* k := zget keys i in
      let* kp := zget keyps id in
      zset corr i (from_keypoints k kp SIFT_LOCALIZATION_STD_DEV (of_int d) false))
    (fun m c => length c = length corr /\ skipn m c = skipn m corr /\ forall i, (i < m)%nat -> exists j k kp q, first_nearest (desc_dist desc descp i) np j /\ nth_error keys i = Some k /\ nth_error keyps j = Some kp /\
      nth_error c i = Some q /\ links k kp (desc_dist desc descp i j) q) n corr) as (c & -> & C).
  - split; [reflexivity|]. split; [reflexivity|]. intros; lia.
  - intros i c I (C1 & C2 & C3). rewrite (off_ok i n I N24). cbn [bind].
    destruct (nearest_ok desc descp n np B Bp LD LDp Np24 i I P) as (j & -> & F). cbn [bind].
    destruct (nth_error keys i) as [k|] eqn:Ek; [|apply nth_error_None in Ek; lia]. rewrite (zget_nat _ _ _ Ek). cbn [bind].
    assert (J : (j < np)%nat) by apply F.
    destruct (nth_error keyps j) as [kp|] eqn:Ekp; [|apply nth_error_None in Ekp; lia]. rewrite (zget_nat _ _ _ Ekp). cbn [bind].
    rewrite zset_nat by lia. eexists. split; [reflexivity|]. rewrite lset_length. split; [exact C1|]. split.
    + apply list_ext. intro q. rewrite !nth_error_skipn_add. rewrite nth_error_lset_neq by lia.
      replace (S i + q)%nat with (i + S q)%nat by lia. rewrite <- !nth_error_skipn_add, C2. reflexivity.
    + intros i' I'. destruct (Nat.eq_dec i' i) as [->|Ne].
      * exists j, k, kp, (from_keypoints k kp SIFT_LOCALIZATION_STD_DEV (of_int (desc_dist desc descp i j)) false).
        split; [exact F|]. split; [exact Ek|]. split; [exact Ekp|]. split; [apply nth_error_lset_eq; lia|].
        apply links_from. pose proof (desc_dist_range desc descp B Bp i j). unfold small24. lia.
      * destruct (C3 i' ltac:(lia)) as (j' & k' & kp' & q & Q1 & Q2 & Q3 & Q4 & Q5). exists j', k', kp', q. rewrite nth_error_lset_neq by lia. auto.
  - cbn [bind]. destruct C as (C1 & C2 & C3). eauto.
Qed.

Theorem match_ratio n keys desc np keyps descp corr thr :
  bytes_ok desc -> bytes_ok descp -> (n <= length keys)%nat -> (128 * n <= length desc)%nat -> (np <= length keyps)%nat -> (128 * np <= length descp)%nat ->
  Z.of_nat n < 2 ^ 24 -> Z.of_nat np < 2 ^ 24 -> (n <= length corr)%nat -> (0 < np)%nat ->
  f_gt thr F0 && f_lt thr F1 = true ->
  exists prs corr', nx_sift_match_brute_force (Z.of_nat n) keys desc (Z.of_nat np) keyps descp corr thr = Ok (Z.of_nat (length prs), corr') /\
    StronglySorted lt (map fst prs) /\
    (forall i j, In (i, j) prs <-> (i < n)%nat /\ accepted desc descp np thr i j) /\
    length corr' = length corr /\ skipn (length prs) corr' = skipn (length prs) corr /\
    (forall q i j, nth_error prs q = Some (i, j) -> exists k kp m, nth_error keys i = Some k /\ nth_error keyps j = Some kp /\ nth_error corr' q = Some m /\ links k kp (desc_dist desc descp i j) m).
Proof.
  intros B Bp LK LD LKp LDp N24 Np24 LC P T. unfold nx_sift_match_brute_force. destruct (Z.ltb_spec (Z.of_nat n) 0); [lia|]. destruct (Z.ltb_spec (Z.of_nat np) 0); [lia|].
  rewrite T. cbv zeta.
  destruct (for_upto (fun i s =>
      let '(n_matches, corr) := s in
      let* oi := chk_int (i * DESC_DIM) in
      let* r := nearest2 desc oi (Z.of_nat np) descp in
      let '((id0, d0), (_, d1)) := r in
      if f_lt (of_int d0) (fmul (fmul thr thr) (of_int d1)) then
        let* k := zget keys i in
        let* kp := zget keyps id0 in
        let* corr := zset corr n_matches (from_keypoints k kp SIFT_LOCALIZATION_STD_DEV (of_int d0) false) in
        let* n_matches := chk_int (n_matches + 1) in
        Ok (n_matches, corr)
      else Ok (n_matches, corr))
    (fun m s => exists prs c, s = (Z.of_nat (length prs), c) /\ (length prs <= m)%nat /\ StronglySorted lt (map fst prs) /\
      (forall i j, In (i, j) prs <-> (i < m)%nat /\ accepted desc descp np thr i j) /\
      length c = length corr /\ skipn (length prs) c = skipn (length prs) corr /\
      (forall q i j, nth_error prs q = Some (i, j) -> exists k kp p, nth_error keys i = Some k /\ nth_error keyps j = Some kp /\ nth_error c q = Some p /\ links k kp (desc_dist desc descp i j) p)) n (0, corr))
    as (s & E & prs & c & -> & _ & C1 & C2 & C3 & C4 & C5).
  - exists [], corr. split; [reflexivity|]. split; [cbn; lia|]. split; [constructor|]. split; [|split; [reflexivity|split; [reflexivity|]]].
    + intros i j. split; [intros []|lia].
    + intros [|q] i j H1; discriminate.
  - intros i s I (prs & c & -> & C0 & C1 & C2 & C3 & C4 & C5). rewrite (off_ok i n I N24). cbn [bind].
    destruct (nearest2_ok desc descp n np B Bp LD LDp Np24 i I P) as (j & d1 & id1 & -> & F & G). cbn [bind].
    assert (J : (j < np)%nat) by apply F.
    destruct (f_lt (of_int (desc_dist desc descp i j)) (fmul (fmul thr thr) (of_int d1))) eqn:R.
    + destruct (nth_error keys i) as [k|] eqn:Ek; [|apply nth_error_None in Ek; lia]. rewrite (zget_nat _ _ _ Ek). cbn [bind].
      destruct (nth_error keyps j) as [kp|] eqn:Ekp; [|apply nth_error_None in Ekp; lia]. rewrite (zget_nat _ _ _ Ekp). cbn [bind].
      rewrite zset_nat by lia. cbn [bind]. rewrite chk_small by (change (2 ^ 24) with 16777216 in N24; lia). cbn [bind].
      eexists. split; [reflexivity|]. exists (prs ++ [(i, j)]), (lset c (length prs) (from_keypoints k kp SIFT_LOCALIZATION_STD_DEV (of_int (desc_dist desc descp i j)) false)).
      rewrite app_length. cbn [length]. split; [f_equal; lia|]. split; [lia|]. split; [|split; [|split; [|split]]].
      * rewrite map_app. apply SSorted_app; [exact C1|cbn; repeat constructor|]. intros x y X [<-|[]]. cbn [fst]. apply in_map_iff in X. destruct X as ([x' y'] & <- & X). apply C2 in X. cbn. lia.
      * intros i' j'. rewrite in_app_iff, C2. cbn [In]. split.
        -- intros [[Q1 Q2]|[[= <- <-]|[]]]; [split; [lia|auto]|]. split; [lia|]. split; [exact F|]. eauto.
        -- intros [Q1 Q2]. destruct (Nat.eq_dec i' i) as [->|Ne]; [|left; split; [lia|auto]]. right. left. f_equal. eapply first_nearest_eq; [exact F|apply Q2].
      * now rewrite lset_length.
      * apply list_ext. intro q. rewrite !nth_error_skipn_add. rewrite nth_error_lset_neq by lia. replace (length prs + 1 + q)%nat with (length prs + (1 + q))%nat by lia. now rewrite <- !nth_error_skipn_add, C4.
      * intros q i' j' Hq. destruct (Nat.lt_ge_cases q (length prs)) as [Lq|Lq].
        -- rewrite nth_error_app1 in Hq by exact Lq. destruct (C5 q i' j' Hq) as (k' & kp' & p & Q1 & Q2 & Q3 & Q4). exists k', kp', p. rewrite nth_error_lset_neq by lia. auto.
        -- assert (q = length prs) as -> by (assert (q < length (prs ++ [(i, j)]))%nat by (apply nth_error_Some; congruence); rewrite app_length in *; cbn in *; lia).
           rewrite nth_error_app2, Nat.sub_diag in Hq by lia. injection Hq as <- <-. exists k, kp. eexists. split; [exact Ek|]. split; [exact Ekp|]. split; [apply nth_error_lset_eq; lia|].
           apply links_from. pose proof (desc_dist_range desc descp B Bp i j). unfold small24. lia.
    + eexists. split; [reflexivity|]. exists prs, c. split; [reflexivity|]. split; [lia|]. split; [exact C1|]. split; [|auto].
      intros i' j'. rewrite C2. split; [intros [Q1 Q2]; split; [lia|auto]|]. intros [Q1 Q2]. destruct (Nat.eq_dec i' i) as [->|Ne]; [|split; [lia|auto]].
      exfalso. destruct Q2 as [F' (d1' & G' & R')]. assert (j' = j) as -> by (eapply first_nearest_eq; eauto).
      rewrite (second_distance_eq _ _ _ _ _ G' G J) in R'. unfold ratio_test in R'. congruence.
  - exists prs, c. auto 8.
Qed.
