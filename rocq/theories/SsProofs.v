From Coq Require Import Reals Lra.
From Verif Require Import Base BaseLemmas Gray Img SsModel SsSpec.
Local Open Scope R_scope.

Lemma kernel_adds s d : 0 <= s <= d -> sqrt (s * s + kernel_sigma s d * kernel_sigma s d) = d.
Proof.
  intros [S0 S1]. unfold kernel_sigma. assert (0 <= d * d - s * s) by nra. rewrite sqrt_sqrt by auto. replace (s * s + (d * d - s * s)) with (d * d) by ring. apply sqrt_square. lra.
Qed.
Lemma smoothed_at o s d g : 0 <= s <= d -> at_scale o s g -> at_scale o d (smoothed (kernel_sigma s d) g).
Proof. intros D [P B]. split; cbn [smoothed l_im pixel_size blur]; [exact P|]. rewrite B. now apply kernel_adds. Qed.
Lemma next_levels_at k m : 1 <= m -> forall s prev o d, 0 < s -> at_scale o s prev ->
  length (next_levels k m s prev) = k /\ forall j, (j < k)%nat ->
    at_scale o (s * m ^ (S j)) (nth j (next_levels k m s prev) d) /\ l_w (nth j (next_levels k m s prev) d) = l_w prev /\ l_h (nth j (next_levels k m s prev) d) = l_h prev.
Proof.
  intro M. induction k as [|k IH]; intros s prev o d Sp A; [split; [reflexivity|intros; lia]|]. cbn [next_levels].
  set (cur := smoothed _ prev). assert (C : at_scale o (s * m) cur) by (rewrite Rmult_comm; apply smoothed_at; [nra|exact A]).
  destruct (IH (s * m) cur o d ltac:(nra) C) as [L N]. split; [cbn [length]; now rewrite L|]. intros [|j] J; cbn [nth].
  - split; [replace (s * m ^ 1) with (s * m) by ring; exact C|split; reflexivity].
  - destruct (N j ltac:(lia)) as (Q & W & H). split; [|split; [exact W|exact H]]. replace (s * m ^ S (S j)) with (s * m * m ^ S j) by (cbn; ring). exact Q.
Qed.
Lemma root_pow n j : (0 < n)%nat -> Rpower 2 (1 / INR n) ^ j = Rpower 2 (INR j / INR n).
Proof.
  intro Hn. assert (0 < INR n) by (now apply lt_0_INR). rewrite <- Rpower_pow by (unfold Rpower; apply exp_pos). rewrite Rpower_mult. f_equal. field. lra.
Qed.
Lemma root_ge1 n : (0 < n)%nat -> 1 <= Rpower 2 (1 / INR n).
Proof.
  intro Hn. assert (0 < INR n) by (now apply lt_0_INR). apply Rle_trans with (Rpower 2 0); [rewrite Rpower_O; lra|]. apply Rle_Rpower; [lra|]. apply Rlt_le, Rdiv_lt_0_compat; lra.
Qed.
Lemma level_at n s g o d j : (0 < n)%nat -> 0 < s -> at_scale o s g -> (j <= n + 2)%nat ->
  at_scale o (s * Rpower 2 (INR j / INR n)) (nth j (octave_levels n s g) d) /\ l_w (nth j (octave_levels n s g) d) = l_w g /\ l_h (nth j (octave_levels n s g) d) = l_h g.
Proof.
  intros Hn S A J. rewrite <- root_pow by auto. unfold octave_levels. destruct j as [|j]; cbn [nth].
  - cbn [pow]. rewrite Rmult_1_r. auto.
  - apply next_levels_at; auto using root_ge1.
Qed.
Lemma dog_at n levels j : (j < n + 2)%nat -> forall d, nth j (octave_dogs n levels) d = (nth j levels (mkL 0 0 Input), nth (j + 1) levels (mkL 0 0 Input)).
Proof.
  intros J d. unfold octave_dogs. set (f := fun i => _). rewrite (nth_indep _ d (f 0%nat)) by (rewrite map_length, seq_length; lia). rewrite map_nth. now rewrite seq_nth by lia.
Qed.
Definition good (n : nat) (base : R) (c : call) : Prop :=
  let scale j := base * Rpower 2 (INR j / INR n) in let o := c_octave c in let i := c_i c in
  (1 <= i <= n)%nat /\ key_sigma n c = scale i /\ at_scale o (scale (i - 1)%nat) (c_grad c) /\
  at_scale o (scale (i - 1)%nat) (fst (c_dogm c)) /\ at_scale o (scale i) (snd (c_dogm c)) /\
  at_scale o (scale i) (fst (c_dog c)) /\ at_scale o (scale (i + 1)%nat) (snd (c_dog c)) /\
  at_scale o (scale (i + 1)%nat) (fst (c_dogp c)) /\ at_scale o (scale (i + 2)%nat) (snd (c_dogp c)).
Lemma process_good n o s g : (0 < n)%nat -> 0 < s -> at_scale o s g ->
  Forall (good n s) (process_octave n o s (octave_levels n s g) (octave_dogs n (octave_levels n s g))) /\
  map (fun c => (c_octave c, c_i c)) (process_octave n o s (octave_levels n s g) (octave_dogs n (octave_levels n s g))) = map (fun i => (o, i)) (seq 1 n).
Proof.
  intros Hn S A. unfold process_octave. split; [|rewrite map_map; reflexivity]. apply Forall_forall. intros c I. apply in_map_iff in I. destruct I as (i & <- & I). apply in_seq in I.
  unfold good, key_sigma. cbn [c_octave c_sigma c_i c_grad c_dogm c_dog c_dogp]. rewrite !dog_at by lia. cbn [fst snd].
  replace (i - 1 + 1)%nat with i by lia. replace (i + 1 + 1)%nat with (i + 2)%nat by lia.
  split; [lia|]. split; [reflexivity|].
  do 6 (split; [apply level_at; auto; lia|]); apply level_at; auto; lia.
Qed.
Definition sizes (min w h : Z) (k : nat) : Prop := (w / 2 ^ Z.of_nat k > min /\ h / 2 ^ Z.of_nat k > min)%Z.
Lemma octaves_ok n min s : (0 < n)%nat -> 0 < s -> (0 <= min)%Z -> forall fuel o g, at_scale o s g -> (0 <= l_w g < 2 ^ (Z.of_nat fuel - 1))%Z -> (0 <= l_h g)%Z -> (0 < fuel)%nat ->
  exists cs, octaves fuel n min o s g = Ok cs /\ Forall (good n s) cs /\ exists K,
    map (fun c => (c_octave c, c_i c)) cs = flat_map (fun k => map (fun i => (o + Z.of_nat k, i)%Z) (seq 1 n)) (seq 0 K) /\
    (forall k, (k < K)%nat -> sizes min (l_w g) (l_h g) k) /\ ~ sizes min (l_w g) (l_h g) K.
Proof.
  intros Hn S Mi. induction fuel as [|fuel IH]; intros o g A W H Fu; [lia|]. cbn [octaves].
  destruct ((l_w g >? min)%Z && (l_h g >? min)%Z) eqn:T.
  - apply Bool.andb_true_iff in T. destruct T as [T1 T2]. rewrite Z.gtb_lt in T1, T2.
    destruct (level_at n s g o (mkL 0 0 Input) n Hn S A ltac:(lia)) as (Q & QW & QH). set (top := nth n (octave_levels n s g) (mkL 0 0 Input)) in *.
    assert (Fp : (0 < fuel)%nat) by (destruct fuel; [cbn in W; lia|lia]).
    assert (D : at_scale (o + 1) s (downsampled top)).
    { destruct Q as [P B]. split; cbn [downsampled l_im pixel_size blur]; [rewrite P, powerRZ_add, powerRZ_1 by lra; ring|]. rewrite B. replace (INR n / INR n) with 1 by (field; apply not_0_INR; lia). rewrite Rpower_1 by lra. field. }
    destruct (IH (o + 1)%Z (downsampled top) D) as (cs & E & G & K & Mp & Sz & NS).
    + cbn [downsampled l_w]. rewrite QW, Z.quot_div_nonneg by lia. split; [apply Z.div_pos; lia|]. apply Z.div_lt_upper_bound; [lia|]. rewrite <- Z.pow_succ_r by lia. replace (Z.succ (Z.of_nat fuel - 1)) with (Z.of_nat (Datatypes.S fuel) - 1)%Z by lia. lia.
    + cbn [downsampled l_h]. rewrite QH, Z.quot_div_nonneg by lia. apply Z.div_pos; lia.
    + exact Fp.
    + rewrite E. cbn [bind]. destruct (process_good n o s g Hn S A) as [PG PM]. eexists. split; [reflexivity|]. split; [now apply Forall_app|]. exists (Datatypes.S K).
      assert (HS : forall k, sizes min (l_w (downsampled top)) (l_h (downsampled top)) k <-> sizes min (l_w g) (l_h g) (Datatypes.S k)).
      { intro k. unfold sizes. cbn [downsampled l_w l_h]. rewrite QW, QH, !Z.quot_div_nonneg by lia. rewrite Nat2Z.inj_succ, Z.pow_succ_r by lia. rewrite !Z.div_div by lia. tauto. }
      split; [|split].
      * rewrite map_app, PM, Mp. cbn [seq flat_map]. f_equal; [apply map_ext; intro; f_equal; lia|]. rewrite <- (seq_shift K 0), !flat_map_concat_map, map_map. f_equal. apply map_ext. intro k. apply map_ext. intro i. f_equal. lia.
      * intros [|k] Hk; [unfold sizes; cbn [Z.of_nat]; rewrite Z.pow_0_r, !Z.div_1_r; lia|]. apply HS, Sz. lia.
      * rewrite <- HS. exact NS.
  - exists []. split; [reflexivity|]. split; [constructor|]. exists 0%nat. split; [reflexivity|]. split; [intros; lia|]. unfold sizes. cbn [Z.of_nat]. rewrite Z.pow_0_r, !Z.div_1_r. apply Bool.andb_false_iff in T. destruct T as [T|T]; rewrite Z.gtb_ltb, Z.ltb_ge in T; lia.
Qed.
