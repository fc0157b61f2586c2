From Verif Require Import Base BaseLemmas Bytes Gray Flt MatModel MatIo KeyModel KeySpec KeyProofs KeySave ShaModel ShaSpec ShaProofs SiftModel SiftSpec SiftProofs.

Local Open Scope Z_scope.

(** * Nothing to match with *)
Lemma fmul_FF x y : fmul (FF x) (FF y) = mkf (x * y) U.
Proof. reflexivity. Qed.
Lemma mkf_val p d b : 0 <= p -> rnd p d <= b -> b < 2 ^ 277 -> mkf p d = FF (Z.sgn p * rnd p d).
Proof. intros P R B. unfold mkf. rewrite (Z.abs_eq p P). destruct (Z.ltb_spec (rnd p d) (2 ^ 277)) as [L|L]; [reflexivity|]. exfalso. apply (Z.lt_irrefl b). apply Z.lt_le_trans with (2 ^ 277); [exact B|]. now apply Z.le_trans with (rnd p d). Qed.
Lemma ratio_empty thr : f_gt thr F0 && f_lt thr F1 = true -> f_lt (of_int INT_MAX) (fmul (fmul thr thr) (of_int INT_MAX)) = false.
Proof.
  intros H. apply andb_true_iff in H. destruct H as [H1 H2]. unfold f_gt, F0, F1 in H1, H2. destruct thr as [t|s|]; unfold f_lt in H1, H2; [|destruct s; discriminate|discriminate].
  apply Z.ltb_lt in H1, H2. assert (OI : of_int INT_MAX = FF (1 * 2 ^ 180)) by (vm_compute; reflexivity). rewrite OI. clear OI.
  assert (U1 : U = 1 * 2 ^ 149) by reflexivity. pose proof U_pos as UP.
  assert (T0 : 0 < t * t) by nia.
  assert (Q : 0 <= rnd (t * t) U <= 1 * 2 ^ 149).
  { split; [apply rnd_nonneg; lia|]. apply rnd_le; [lia|lia|lia|lia|]. rewrite <- U1. nia. }
  rewrite fmul_FF. rewrite (mkf_val _ _ (1 * 2 ^ 149)) by (lia || reflexivity). rewrite (Z.sgn_pos _ T0), (Z.mul_1_l (rnd (t * t) U)). rewrite fmul_FF.
  generalize dependent (rnd (t * t) U). intros m Q.
  assert (P0 : 0 <= m * (1 * 2 ^ 180)) by lia.
  assert (R : 0 <= rnd (m * (1 * 2 ^ 180)) U <= 1 * 2 ^ 180).
  { split; [apply rnd_nonneg; lia|]. apply rnd_le; [exact P0|exact UP|lia|lia|]. rewrite U1. rewrite Z.mul_comm. apply Z.mul_le_mono_nonneg_l; lia. }
  rewrite (mkf_val _ _ (1 * 2 ^ 180) P0 (proj2 R) eq_refl).
  generalize dependent (rnd (m * (1 * 2 ^ 180)) U). intros r R. assert (S1 : 0 <= Z.sgn (m * (1 * 2 ^ 180)) <= 1) by lia. generalize dependent (Z.sgn (m * (1 * 2 ^ 180))). intros sg S1.
  unfold f_lt. apply Z.ltb_ge. nia.
Qed.

Lemma match_none_ratio n keys desc keyps descp corr thr : Z.of_nat n < 2 ^ 24 -> f_gt thr F0 && f_lt thr F1 = true ->
  nx_sift_match_brute_force (Z.of_nat n) keys desc 0 keyps descp corr thr = Ok (0, corr).
Proof.
  intros N24 T. unfold nx_sift_match_brute_force. destruct (Z.ltb_spec (Z.of_nat n) 0); [lia|]. cbn [Z.ltb Z.compare]. rewrite T. cbv zeta.
  destruct (for_upto (fun i s =>
      let '(n_matches, corr) := s in
      let* oi := chk_int (i * DESC_DIM) in
      let* r := nearest2 desc oi 0 descp in
      let '((id0, d0), (_, d1)) := r in
      if f_lt (of_int d0) (fmul (fmul thr thr) (of_int d1)) then
        let* k := zget keys i in
        let* kp := zget keyps id0 in
        let* corr := zset corr n_matches (from_keypoints k kp SIFT_LOCALIZATION_STD_DEV (of_int d0) false) in
        let* n_matches := chk_int (n_matches + 1) in
        Ok (n_matches, corr)
      else Ok (n_matches, corr)) (fun _ s => s = (0, corr)) n (0, corr)) as (s & E & ->); [reflexivity| |exact E].
  intros i s I ->. rewrite (off_ok i n I N24). cbn [bind nearest2 upto map seq for_each Z.to_nat]. rewrite ratio_empty by exact T. eauto.
Qed.
Lemma match_none_plain n keys desc keyps descp corr thr : (0 < n)%nat -> f_gt thr F0 && f_lt thr F1 = false -> (n <= length keys)%nat ->
  nx_sift_match_brute_force (Z.of_nat n) keys desc 0 keyps descp corr thr = UB.
Proof.
  intros N0 T LK. unfold nx_sift_match_brute_force. destruct (Z.ltb_spec (Z.of_nat n) 0); [lia|]. cbn [Z.ltb Z.compare]. rewrite T.
  unfold upto at 1. rewrite Nat2Z.id. destruct n as [|n]; [lia|]. cbn [seq map for_each]. change (Z.of_nat 0) with 0. rewrite Z.mul_0_l. rewrite chk_small by lia. cbn [bind nearest upto map seq for_each Z.to_nat].
  destruct keys as [|k keys]; [cbn in LK; lia|]. reflexivity.
Qed.

(** * The key store *)
Lemma grow_ok cap : 2 <= cap < 10485760 -> exists c, to_int (fmul (of_int cap) F16) = Ok c /\ cap < c < 16777216.
Proof.
  intros H. rewrite of_int_exact by (unfold small24; change (2 ^ 24) with 16777216; lia).
  assert (E : F16 = FF (13421773 * 2 ^ 126)) by (vm_compute; reflexivity). rewrite E. cbn [fmul].
  assert (U1 : U = 2 ^ 149) by reflexivity. pose proof U_pos as UP.
  unfold mkf. rewrite Z.abs_eq by (rewrite U1; nia). set (p := cap * U * (13421773 * 2 ^ 126)).
  assert (T : 2 ^ 149 = 8388608 * 2 ^ 126) by reflexivity. set (t := 2 ^ 126) in *. assert (0 < t) by reflexivity.
  assert (R1 : (cap + 1) * 2 ^ 149 <= rnd p U).
  { apply rnd_ge; try lia; unfold p; rewrite ?U1, ?T; nia. }
  assert (R2 : rnd p U <= 16777215 * 2 ^ 149).
  { apply rnd_le; try lia; unfold p; rewrite ?U1, ?T; nia. }
  rewrite <- U1 in R1, R2.
  assert (LT : (rnd p U <? 2 ^ 277) = true) by (apply Z.ltb_lt; apply Z.le_lt_trans with (16777215 * U); [lia|reflexivity]).
  rewrite LT. rewrite (Z.sgn_pos p) by (unfold p; rewrite U1, T; nia). cbn [to_int]. rewrite Z.mul_1_l.
  assert (Q1 : cap + 1 <= Z.quot (rnd p U) U) by (apply Z.quot_le_lower_bound; lia).
  assert (Q2 : Z.quot (rnd p U) U <= 16777215) by (apply Z.quot_le_upper_bound; lia).
  rewrite chk_small by lia. eexists. split; [reflexivity|]. lia.
Qed.

Definition store_ok (kds : list (key * list N)) (s : store) : Prop :=
  st_n s = Z.of_nat (length kds) /\ 2 <= st_cap s /\ st_n s <= st_cap s < 16777216 /\
  length (st_keys s) = Z.to_nat (st_cap s) /\ length (st_desc s) = (128 * Z.to_nat (st_cap s))%nat /\
  firstn (length kds) (st_keys s) = map fst kds /\ firstn (128 * length kds) (st_desc s) = concat (map snd kds).

Lemma add_key_ok junkk junkd kds kd s : store_ok kds s -> length (snd kd) = 128%nat -> Z.of_nat (length kds) < 10485760 ->
  exists s', add_key junkk junkd kd s = Ok s' /\ store_ok (kds ++ [kd]) s'.
Proof.
  intros (H1 & H2 & H3 & H4 & H5 & H6 & H7) HD HB. unfold add_key.
  assert (G : exists s1, nx_sift_key_store_append junkk junkd s =
      (if st_n s1 <? st_cap s1 then let* n := chk_int (st_n s1 + 1) in Ok (st_n s1, Store n (st_cap s1) (st_keys s1) (st_desc s1)) else Fatal)
      /\ store_ok kds s1 /\ st_n s1 < st_cap s1).
  { unfold nx_sift_key_store_append. destruct (Z.leb_spec (st_cap s) (st_n s)) as [L|L].
    - destruct (grow_ok (st_cap s) ltac:(lia)) as (c & -> & C). cbn [bind]. unfold DESC_DIM. rewrite chk_small by lia. cbn [bind].
      eexists. split; [reflexivity|]. cbn [st_n st_cap]. split; [|lia].
      unfold store_ok. cbn [st_n st_cap st_keys st_desc]. rewrite !drealloc_length. replace (Z.to_nat (c * 128)) with (128 * Z.to_nat c)%nat by lia.
      repeat split; try lia.
      + rewrite drealloc_prefix by lia. exact H6.
      + rewrite drealloc_prefix by lia. exact H7.
    - exists s. split; [reflexivity|]. split; [unfold store_ok; auto 10|lia]. }
  destruct G as (s1 & -> & (G1 & G2 & G3 & G4 & G5 & G6 & G7) & LT). destruct (Z.ltb_spec (st_n s1) (st_cap s1)); [|lia]. rewrite G1.
  rewrite chk_small by lia. cbn [bind st_n st_cap st_keys st_desc]. rewrite zset_nat by lia. cbn [bind]. rewrite (off_ok (length kds) (S (length kds))) by (change (2 ^ 24) with 16777216; lia). cbn [bind]. rewrite Nat2Z.id.
  unfold blit. rewrite HD. destruct (Nat.leb_spec (128 * length kds + 128) (length (st_desc s1))); [|lia]. cbn [bind].
  eexists. split; [reflexivity|]. unfold store_ok. cbn [st_n st_cap st_keys st_desc]. rewrite !app_length, lset_length. cbn [length].
  split; [lia|]. split; [lia|]. split; [lia|]. split; [lia|]. split; [|split].
  - rewrite firstn_length, skipn_length. rewrite HD. lia.
  - rewrite map_app. cbn [map]. rewrite firstn_add. f_equal.
    + rewrite <- G6. apply list_ext. intro j. destruct (Nat.lt_ge_cases j (length kds)) as [J|J].
      * rewrite !nth_error_firstn_lt' by lia. apply nth_error_lset_neq. lia.
      * assert (A : forall l : list key, nth_error (firstn (length kds) l) j = None) by (intro l; apply nth_error_None; rewrite firstn_length; lia). now rewrite !A.
    + rewrite (skipn_cons (lset (st_keys s1) (length kds) (fst kd)) (length kds) (fst kd)) by (apply nth_error_lset_eq; lia). reflexivity.
  - rewrite map_app, concat_app. cbn [map concat]. rewrite app_nil_r, <- G7.
    replace (128 * (length kds + 1))%nat with (128 * length kds + 128)%nat by lia. rewrite firstn_add.
    assert (FL : length (firstn (128 * length kds) (st_desc s1)) = (128 * length kds)%nat) by (rewrite firstn_length; lia).
    rewrite firstn_app, FL, Nat.sub_diag, firstn_O, app_nil_r, firstn_firstn, Nat.min_id. f_equal.
    rewrite skipn_app, FL, Nat.sub_diag. rewrite (skipn_all2 (firstn _ _)) by lia. cbn [app skipn]. rewrite firstn_app, HD, Nat.sub_diag, firstn_O, app_nil_r. apply firstn_all2. lia.
Qed.

Lemma store_run junkk junkd : forall kds done s, store_ok done s -> Forall (fun kd => length (snd kd) = 128%nat) kds -> Z.of_nat (length done + length kds) <= 10485760 ->
  exists s', for_each (add_key junkk junkd) kds s = Ok s' /\ store_ok (done ++ kds) s'.
Proof.
  induction kds as [|kd kds IH]; intros dn s S F L.
  - exists s. split; [reflexivity|]. now rewrite app_nil_r.
  - inversion F; subst. cbn [length] in L. destruct (add_key_ok junkk junkd dn kd s S) as (s1 & E & S1); [auto|lia|]. cbn [for_each]. rewrite E. cbn [bind].
    destruct (IH (dn ++ [kd]) s1 S1) as (s' & E' & S'); [auto|rewrite app_length; cbn; lia|]. exists s'. split; [exact E'|]. now rewrite <- app_assoc in S'.
Qed.

(** * Caches *)
Lemma sha256_bytes m : bytes_ok (sha256 m).
Proof.
  unfold sha256. apply Forall_forall. intros b I. apply in_flat_map in I. destruct I as (x & _ & I). unfold be32 in I. apply in_map_iff in I.
  destruct I as (i & <- & _). apply N.mod_lt. discriminate.
Qed.

Section Cache.
Variables (v : N) (block0 W0 : list N).
Hypotheses (HB : length block0 = 64%nat) (HW : length W0 = 64%nat).
Let sha := nx_sha256_multi (Some v) block0 W0.
Definition msgs_ok (m : list (list N)) : Prop := m <> [] /\ bytes_ok (concat m) /\ (N.of_nat (length (concat m)) < 2 ^ 61)%N.
Lemma sha_ok m : msgs_ok m -> sha m = Ok (sha256 (concat m)).
Proof. intros (A & B & C). apply sha256_multi_any; auto. Qed.
Lemma image_msgs_ne im p : image_msgs im p <> [].
Proof. unfold image_msgs. intro E. apply app_eq_nil in E. destruct E. discriminate. Qed.

(** Successive calls with one directory. *)
Fixpoint run_detect {A} (detect : simage -> list N -> A) (calls : list (simage * list N)) (c : cache A) : res (list A) :=
  match calls with
  | [] => Ok []
  | (im, p) :: calls' =>
    let* r := compute_with_cache sha detect im p c in
    let '(a, c') := r in
    let* rs := run_detect detect calls' c' in Ok (a :: rs)
  end.

Lemma run_detect_ok {A} (detect : simage -> list N -> A) calls : forall c,
  Forall (fun q => msgs_ok (image_msgs (fst q) (snd q))) calls ->
  (forall h a, cache_find h c = Some a -> forall im p, In (im, p) calls -> nx_hash_to_str (sha256 (concat (image_msgs im p))) = h -> a = detect im p) ->
  (forall im p im' p', In (im, p) calls -> In (im', p') calls ->
     sha256 (concat (image_msgs im p)) = sha256 (concat (image_msgs im' p')) -> detect im p = detect im' p') ->
  run_detect detect calls c = Ok (map (fun q => detect (fst q) (snd q)) calls).
Proof.
  induction calls as [|[im p] calls IH]; intros c M C D; [reflexivity|]. inversion M as [|? ? M1 M2]; subst. cbn [fst snd] in M1.
  cbn [run_detect map fst snd]. unfold compute_with_cache. rewrite sha_ok by exact M1. cbn [bind].
  destruct (cache_find (nx_hash_to_str (sha256 (concat (image_msgs im p)))) c) as [a|] eqn:E.
  - cbn [bind]. rewrite IH; auto.
    + cbn [bind]. rewrite (C _ _ E im p); [reflexivity|left; reflexivity|reflexivity].
    + intros h a' E' im' p' I. apply (C _ _ E'). now right.
    + intros im1 p1 im2 p2 I1 I2. apply D; now right.
  - cbn [bind]. rewrite IH; auto; [|intros im1 p1 im2 p2 I1 I2; apply D; now right].
    intros h a'. cbn [cache_find]. destruct (list_eq_dec N.eq_dec h (nx_hash_to_str (sha256 (concat (image_msgs im p))))) as [->|Ne].
    + intros [= <-] im' p' I Q. apply D; [now left|now right|]. apply hash_to_str_inj in Q; auto using sha256_bytes.
    + intros E' im' p' I. apply (C _ _ E'). now right.
Qed.

Lemma detect_confused {A} (detect : simage -> list N -> A) im im' p : msgs_ok (image_msgs im p) ->
  concat (image_msgs im' p) = concat (image_msgs im p) ->
  run_detect detect [(im, p); (im', p)] [] = Ok [detect im p; detect im p].
Proof.
  intros M E. assert (M' : msgs_ok (image_msgs im' p)).
  { destruct M as (_ & M). split; [apply image_msgs_ne|]. now rewrite E. }
  cbn [run_detect]. unfold compute_with_cache. rewrite !sha_ok by auto. cbn [bind cache_find]. rewrite !E.
  destruct (list_eq_dec N.eq_dec _ _) as [_|Ne]; [|congruence]. reflexivity.
Qed.

Lemma match_hit n keys desc np keyps descp corr thr n' keys' desc' np' keyps' descp' corr' m1 c1 :
  msgs_ok (match_msgs n keys desc np keyps descp thr) ->
  concat (match_msgs n' keys' desc' np' keyps' descp' thr) = concat (match_msgs n keys desc np keyps descp thr) ->
  nx_sift_match_brute_force (Z.of_nat n) (map snd keys) desc (Z.of_nat np) (map snd keyps) descp corr (flt_of_bits thr) = Ok (Z.of_nat m1, c1) ->
  (m1 <= length c1)%nat -> (m1 <= length corr')%nat ->
  exists c, match_with_cache sha n keys desc np keyps descp corr thr [] = Ok (Z.of_nat m1, c1, c) /\
    match_with_cache sha n' keys' desc' np' keyps' descp' corr' thr c = Ok (Z.of_nat m1, firstn m1 c1 ++ skipn m1 corr', c).
Proof.
  intros M E R L1 L2. eexists. unfold match_with_cache. rewrite sha_ok by exact M. cbn [bind cache_find]. rewrite R. cbn [bind].
  split; [reflexivity|]. rewrite sha_ok.
  2:{ destruct M as (_ & M). split; [discriminate|]. now rewrite E. }
  cbn [bind cache_find]. rewrite E. destruct (list_eq_dec N.eq_dec _ _) as [_|Ne]; [|congruence].
  rewrite Nat2Z.id, firstn_length. replace (Nat.min m1 (length c1)) with m1 by lia.
  destruct (Nat.ltb_spec (length corr') m1); [lia|]. reflexivity.
Qed.

(** More cached matches than the caller has room for. *)
Lemma match_overrun n keys desc np keyps descp corr thr n' keys' desc' np' keyps' descp' corr' m1 c1 :
  msgs_ok (match_msgs n keys desc np keyps descp thr) ->
  concat (match_msgs n' keys' desc' np' keyps' descp' thr) = concat (match_msgs n keys desc np keyps descp thr) ->
  nx_sift_match_brute_force (Z.of_nat n) (map snd keys) desc (Z.of_nat np) (map snd keyps) descp corr (flt_of_bits thr) = Ok (Z.of_nat m1, c1) ->
  (m1 <= length c1)%nat -> (length corr' < m1)%nat ->
  exists c, match_with_cache sha n keys desc np keyps descp corr thr [] = Ok (Z.of_nat m1, c1, c) /\
    match_with_cache sha n' keys' desc' np' keyps' descp' corr' thr c = UB.
Proof.
  intros M E R L1 L2. eexists. unfold match_with_cache. rewrite sha_ok by exact M. cbn [bind cache_find]. rewrite R. cbn [bind].
  split; [reflexivity|]. rewrite sha_ok.
  2:{ destruct M as (_ & M). split; [discriminate|]. now rewrite E. }
  cbn [bind cache_find]. rewrite E. destruct (list_eq_dec N.eq_dec _ _) as [_|Ne]; [|congruence].
  rewrite Nat2Z.id, firstn_length. replace (Nat.min m1 (length c1)) with m1 by lia.
  destruct (Nat.ltb_spec (length corr') m1); [|lia]. reflexivity.
Qed.

(** Successive matching calls. *)
Record mcall := MCall { mc_n : nat; mc_keys : list (list N * key); mc_desc : list N; mc_np : nat; mc_keyps : list (list N * key); mc_descp : list N; mc_corr : list pmatch; mc_thr : N }.
Definition mc_msgs (q : mcall) := match_msgs (mc_n q) (mc_keys q) (mc_desc q) (mc_np q) (mc_keyps q) (mc_descp q) (mc_thr q).
(** The matches found without a cache: their number and values. *)
Definition mc_direct (q : mcall) : res (list pmatch) :=
  let* r := nx_sift_match_brute_force (Z.of_nat (mc_n q)) (map snd (mc_keys q)) (mc_desc q) (Z.of_nat (mc_np q)) (map snd (mc_keyps q)) (mc_descp q) (mc_corr q) (flt_of_bits (mc_thr q)) in
  Ok (firstn (Z.to_nat (fst r)) (snd r)).
Fixpoint run_match (calls : list mcall) (c : cache (list pmatch)) : res (list (list pmatch)) :=
  match calls with
  | [] => Ok []
  | q :: calls' =>
    let* r := match_with_cache sha (mc_n q) (mc_keys q) (mc_desc q) (mc_np q) (mc_keyps q) (mc_descp q) (mc_corr q) (mc_thr q) c in
    let '(m, corr, c') := r in
    let* rs := run_match calls' c' in Ok (firstn (Z.to_nat m) corr :: rs)
  end.
Lemma run_match_ok calls (found : mcall -> list pmatch) : forall c,
  Forall (fun q => msgs_ok (mc_msgs q) /\ mc_direct q = Ok (found q) /\ (length (found q) <= length (mc_corr q))%nat) calls ->
  (forall h a, cache_find h c = Some a -> forall q, In q calls -> nx_hash_to_str (sha256 (concat (mc_msgs q))) = h -> a = found q) ->
  (forall q q', In q calls -> In q' calls -> sha256 (concat (mc_msgs q)) = sha256 (concat (mc_msgs q')) -> found q = found q') ->
  run_match calls c = Ok (map found calls).
Proof.
  induction calls as [|q calls IH]; intros c M C D; [reflexivity|]. inversion M as [|? ? (M1 & M2 & M3) M4]; subst.
  cbn [run_match map]. unfold match_with_cache. fold (mc_msgs q). rewrite sha_ok by exact M1. cbn [bind].
  destruct (cache_find (nx_hash_to_str (sha256 (concat (mc_msgs q)))) c) as [a|] eqn:E.
  - rewrite (C _ _ E q (or_introl eq_refl) eq_refl). destruct (Nat.ltb_spec (length (mc_corr q)) (length (found q))); [lia|]. cbn [bind].
    rewrite IH; auto.
    + cbn [bind]. f_equal. f_equal. rewrite Nat2Z.id. rewrite firstn_app, Nat.sub_diag, firstn_O, app_nil_r. apply firstn_all.
    + intros h a' E' q' I. apply (C _ _ E'). now right.
    + intros q1 q2 I1 I2. apply D; now right.
  - unfold mc_direct in M2.
    destruct (nx_sift_match_brute_force (Z.of_nat (mc_n q)) (map snd (mc_keys q)) (mc_desc q) (Z.of_nat (mc_np q)) (map snd (mc_keyps q)) (mc_descp q) (mc_corr q) (flt_of_bits (mc_thr q))) as [[m corr]| | |] eqn:R; cbn [bind fst snd] in M2; try discriminate.
    injection M2 as M2. cbn [bind]. rewrite IH; auto; [cbn [bind]; now rewrite M2| |intros q1 q2 I1 I2; apply D; now right].
    intros h a'. cbn [cache_find]. destruct (list_eq_dec N.eq_dec h (nx_hash_to_str (sha256 (concat (mc_msgs q))))) as [->|Ne].
    + intros [= <-] q' I Q. rewrite M2. apply D; [now left|now right|]. apply hash_to_str_inj in Q; auto using sha256_bytes.
    + intros E' q' I. apply (C _ _ E'). now right.
Qed.
End Cache.
