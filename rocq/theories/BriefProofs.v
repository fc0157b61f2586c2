(** Proofs about the BRIEF model. *)
From Verif Require Import Base BaseLemmas Gray FastModel FastPyr UsacModel UsacProofs BriefModel BriefSpec.
Local Open Scope Z_scope.

(** * Rounding is monotone *)
Lemma rne24_pieces x : 2 ^ 24 <= x -> exists s q r, 1 <= s /\ s = Z.log2 x - 23 /\ x = q * 2 ^ s + r /\ 0 <= r < 2 ^ s /\ 2 ^ 23 <= q < 2 ^ 24 /\
  rne24 x = (q + (if (2 ^ (s - 1) <? r) || ((r =? 2 ^ (s - 1)) && Z.odd q) then 1 else 0)) * 2 ^ s.
Proof.
  intro L. assert (X0 : 0 < x) by lia. assert (LG : 24 <= Z.log2 x) by (apply Z.log2_le_pow2; lia).
  pose proof (Z.log2_spec x X0) as LS. exists (Z.log2 x - 23), (x / 2 ^ (Z.log2 x - 23)), (x mod 2 ^ (Z.log2 x - 23)).
  set (s := Z.log2 x - 23) in *. assert (P : 0 < 2 ^ s) by (apply Z.pow_pos_nonneg; lia).
  pose proof (Z.div_mod x (2 ^ s) ltac:(lia)). pose proof (Z.mod_pos_bound x (2 ^ s) P).
  replace (Z.log2 x) with (s + 23) in LS by lia. replace (Z.succ (s + 23)) with (s + 24) in LS by lia.
  rewrite !Z.pow_add_r in LS by lia. split; [lia|]. split; [reflexivity|]. split; [lia|]. split; [lia|]. split.
  - set (q := x / 2 ^ s) in *. set (p := 2 ^ s) in *. clearbody q p. change (2 ^ 23) with 8388608 in *. change (2 ^ 24) with 16777216 in *. nia.
  - unfold rne24. destruct (Z.ltb_spec x (2 ^ 24)); [lia|]. fold s. cbv zeta. destruct (_ || _); [reflexivity|now rewrite Z.add_0_r].
Qed.
Lemma rne24_nonneg x : 0 <= x -> 0 <= rne24 x.
Proof. intro H. apply rne24_bound. exact H. Qed.
Lemma rne24_mono x y : 0 <= x <= y -> rne24 x <= rne24 y.
Proof.
  intro H. destruct (Z.lt_ge_cases x (2 ^ 24)) as [LX|LX].
  - rewrite (rne24_small x) by lia. destruct (Z.lt_ge_cases y (2 ^ 24)) as [LY|LY]; [rewrite rne24_small by lia; lia|].
    destruct (rne24_pieces y LY) as (s & q & r & S1 & _ & _ & _ & Q & ->).
    assert (2 ^ 1 <= 2 ^ s) by (apply Z.pow_le_mono_r; lia). change (2 ^ 1) with 2 in *. change (2 ^ 24) with 16777216 in *. change (2 ^ 23) with 8388608 in *.
    destruct (_ || _); nia.
  - assert (LY : 2 ^ 24 <= y) by lia.
    destruct (rne24_pieces x LX) as (s & q & r & S1 & S2 & EX & R & Q & ->).
    destruct (rne24_pieces y LY) as (s' & q' & r' & S1' & S2' & EY & R' & Q' & ->).
    assert (LL : Z.log2 x <= Z.log2 y) by (apply Z.log2_le_mono; lia).
    assert (P : 0 < 2 ^ s) by (apply Z.pow_pos_nonneg; lia). assert (P' : 0 < 2 ^ s') by (apply Z.pow_pos_nonneg; lia).
    assert (s = s' \/ s < s') as [SE|SL] by lia.
    + rewrite <- SE in *. set (h := 2 ^ (s - 1)) in *. clearbody h.
      set (p := 2 ^ s) in *. clearbody p. apply Z.mul_le_mono_nonneg_r; [lia|].
      assert (q <= q') by nia. assert (q = q' \/ q + 1 <= q') as [E|E] by lia.
      * subst q'. assert (r <= r') by nia.
        destruct (Z.ltb_spec h r), (Z.ltb_spec h r'), (Z.eqb_spec r h), (Z.eqb_spec r' h), (Z.odd q); cbn; lia.
      * destruct (_ || _); destruct (_ || _); lia.
    + assert (2 ^ (s + 1) <= 2 ^ s') by (apply Z.pow_le_mono_r; lia). rewrite Z.pow_add_r in H0 by lia. change (2 ^ 1) with 2 in H0.
      set (p := 2 ^ s) in *. set (p' := 2 ^ s') in *. clearbody p p'. change (2 ^ 23) with 8388608 in *. change (2 ^ 24) with 16777216 in *.
      destruct (_ || _); destruct (_ || _); nia.
Qed.
Lemma rne24s_mono x y : x <= y -> rne24s x <= rne24s y.
Proof.
  intro H. unfold rne24s. pose proof (rne24_nonneg (Z.abs x) ltac:(lia)). pose proof (rne24_nonneg (Z.abs y) ltac:(lia)).
  destruct (Z.sgn_spec x) as [[? ->]|[[<- ->]|[? ->]]]; destruct (Z.sgn_spec y) as [[? ->]|[[<- ->]|[? ->]]]; try lia.
  - pose proof (rne24_mono (Z.abs x) (Z.abs y) ltac:(lia)). lia.
  - pose proof (rne24_mono (Z.abs y) (Z.abs x) ltac:(lia)). lia.
Qed.
Lemma sample_value v s : INT_MIN <= v <= INT_MAX ->
  sample v s = chk_int (let p := rne24s (rne24s v * fs_m s) in if 0 <=? fs_e s then p * 2 ^ fs_e s else Z.quot p (2 ^ (- fs_e s))).
Proof. intro H. unfold sample. rewrite chk_int_in by exact H. reflexivity. Qed.
Lemma sample_inv v s r : sample v s = Ok r -> INT_MIN <= v <= INT_MAX /\ INT_MIN <= r <= INT_MAX /\
  r = (let p := rne24s (rne24s v * fs_m s) in if 0 <=? fs_e s then p * 2 ^ fs_e s else Z.quot p (2 ^ (- fs_e s))).
Proof.
  unfold sample, chk_int, in_int. destruct ((INT_MIN <=? v) && (v <=? INT_MAX)) eqn:E; cbn [bind]; [|discriminate].
  set (e := if 0 <=? fs_e s then _ else _). destruct ((INT_MIN <=? e) && (e <=? INT_MAX)) eqn:E2; [|discriminate]. intros [= <-]. split; [lia|]. split; [lia|reflexivity].
Qed.
Lemma sample_mono s u v a b : 0 < fs_m s -> u <= v -> sample u s = Ok a -> sample v s = Ok b -> a <= b.
Proof.
  intros M L A B. apply sample_inv in A as (_ & _ & ->). apply sample_inv in B as (_ & _ & ->). cbv zeta.
  assert (rne24s (rne24s u * fs_m s) <= rne24s (rne24s v * fs_m s)).
  { apply rne24s_mono. pose proof (rne24s_mono u v L). nia. }
  destruct (Z.leb_spec 0 (fs_e s)).
  - assert (0 < 2 ^ fs_e s) by (apply Z.pow_pos_nonneg; lia). nia.
  - apply Z.quot_le_mono; [apply Z.pow_pos_nonneg; lia|assumption].
Qed.
(** Between two values that can be sampled, everything can. *)
Lemma sample_between s u v w a b : 0 < fs_m s -> u <= v <= w -> sample u s = Ok a -> sample w s = Ok b -> exists c, sample v s = Ok c /\ a <= c <= b.
Proof.
  intros M L A B.
  pose proof (sample_inv _ _ _ A) as (U & RA & EA). pose proof (sample_inv _ _ _ B) as (W & RB & EB). cbv zeta in EA, EB.
  rewrite (sample_value v) by lia. cbv zeta.
  assert (P1 : rne24s (rne24s u * fs_m s) <= rne24s (rne24s v * fs_m s)).
  { apply rne24s_mono. pose proof (rne24s_mono u v ltac:(lia)). nia. }
  assert (P2 : rne24s (rne24s v * fs_m s) <= rne24s (rne24s w * fs_m s)).
  { apply rne24s_mono. pose proof (rne24s_mono v w ltac:(lia)). nia. }
  set (e := if 0 <=? fs_e s then rne24s (rne24s v * fs_m s) * 2 ^ fs_e s else _).
  assert (E : a <= e <= b).
  { rewrite EA, EB. unfold e. clear EA EB A B e RA RB. destruct (Z.leb_spec 0 (fs_e s)).
    - assert (0 < 2 ^ fs_e s) by (apply Z.pow_pos_nonneg; lia). split; apply Z.mul_le_mono_nonneg_r; lia.
    - assert (0 < 2 ^ (- fs_e s)) by (apply Z.pow_pos_nonneg; lia). split; apply Z.quot_le_mono; assumption. }
  clearbody e. clear EA EB. exists e. split; [apply chk_int_in; lia|exact E].
Qed.

(** * Distance *)
Lemma diff_app a a' b b' : length a = length b -> differences (a ++ a') (b ++ b') = differences a b + differences a' b'.
Proof.
  unfold differences. revert b. induction a as [|p a IH]; intros [|q b] L; cbn [length] in L; try discriminate; [reflexivity|].
  cbn [app combine filter]. specialize (IH b ltac:(lia)). destruct (xorb p q); cbn [length]; lia.
Qed.
Lemma bits_length d : length (bits d) = (8 * length d)%nat.
Proof. induction d as [|o d IH]; [reflexivity|]. unfold bits in *. cbn [flat_map]. rewrite app_length, IH, map_length, seq_length. cbn [length]. lia. Qed.
Lemma bits_app a b : bits (a ++ b) = bits a ++ bits b.
Proof. apply flat_map_app. Qed.
Lemma octets_ok : forallb (fun a => forallb (fun b =>
    match aget BIT_COUNT (N.to_nat (N.lxor a b)) with Ok c => c =? hamming [a] [b] | _ => false end)
  (map N.of_nat (seq 0 256))) (map N.of_nat (seq 0 256)) = true.
Proof. vm_compute. reflexivity. Qed.
Lemma octet_byte a b : byte_ok a -> byte_ok b -> aget BIT_COUNT (N.to_nat (N.lxor a b)) = Ok (hamming [a] [b]).
Proof.
  intros A B. pose proof octets_ok as H. rewrite forallb_forall in H. specialize (H a).
  assert (IA : In a (map N.of_nat (seq 0 256))) by (apply in_map_iff; exists (N.to_nat a); split; [lia|apply in_seq; unfold byte_ok in A; lia]).
  assert (IB : In b (map N.of_nat (seq 0 256))) by (apply in_map_iff; exists (N.to_nat b); split; [lia|apply in_seq; unfold byte_ok in B; lia]).
  specialize (H IA). cbv beta in H. rewrite forallb_forall in H. specialize (H b IB). cbv beta in H.
  destruct (aget _ _); try discriminate. apply Z.eqb_eq in H. now subst.
Qed.
Lemma diff_bound a b : 0 <= differences a b <= Z.of_nat (length a).
Proof.
  unfold differences. split; [lia|]. apply inj_le. transitivity (length (combine a b)).
  - generalize (combine a b). induction l as [|x l IH]; cbn; [lia|]. destruct (let '(_, _) := x in _); cbn; lia.
  - rewrite combine_length. lia.
Qed.
Lemma ham_bound a b : 0 <= hamming a b <= 8 * Z.of_nat (length a).
Proof. unfold hamming. pose proof (diff_bound (bits a) (bits b)). rewrite bits_length in *. lia. Qed.
Lemma ham_app a a' b b' : length a = length b -> hamming (a ++ a') (b ++ b') = hamming a b + hamming a' b'.
Proof. intro L. unfold hamming. rewrite !bits_app. apply diff_app. rewrite !bits_length. lia. Qed.
(** The octets from [p] on. *)
Definition sub (d : list N) (p k : nat) : list N := firstn k (skipn p d).
Lemma sub_snoc d p k : (p + k < length d)%nat -> sub d p (S k) = sub d p k ++ [nth (p + k) d 0%N].
Proof.
  unfold sub. revert p k. induction d as [|a d IH]; intros p k L; cbn [length] in L; [lia|]. destruct p as [|p].
  - cbn [skipn]. destruct k as [|k]; [reflexivity|]. cbn [firstn app]. f_equal. apply (IH O k). cbn. lia.
  - cbn [skipn]. apply (IH p k). lia.
Qed.
Lemma sub_length d p k : (p + k <= length d)%nat -> length (sub d p k) = k.
Proof. intro L. unfold sub. rewrite firstn_length, skipn_length. lia. Qed.
Lemma sub_add d p k j : sub d p (k + j) = sub d p k ++ sub d (p + k) j.
Proof.
  unfold sub. revert p k. induction d as [|a d IH]; intros p k; [rewrite !skipn_nil, !firstn_nil; reflexivity|].
  destruct p as [|p]; cbn [skipn Nat.add]; [|apply IH]. destruct k as [|k]; cbn [Nat.add firstn app skipn]; [reflexivity|]. f_equal. apply (IH O k).
Qed.
Lemma octet_dist_ok d0 d1 p k : bytes_ok d0 -> bytes_ok d1 -> (p + k < length d0)%nat -> (p + k < length d1)%nat ->
  octet_dist d0 d1 p k = Ok (hamming [nth (p + k) d0 0%N] [nth (p + k) d1 0%N]).
Proof.
  intros B0 B1 L0 L1. unfold octet_dist. rewrite (aget_lt d0 _ 0%N), (aget_lt d1 _ 0%N) by assumption. cbn [bind].
  apply octet_byte; [unfold bytes_ok in B0; rewrite Forall_forall in B0; apply B0|unfold bytes_ok in B1; rewrite Forall_forall in B1; apply B1]; now apply nth_In.
Qed.
Lemma ham_sub_snoc d0 d1 p k : (p + k < length d0)%nat -> (p + k < length d1)%nat ->
  hamming (sub d0 p (S k)) (sub d1 p (S k)) = hamming (sub d0 p k) (sub d1 p k) + hamming [nth (p + k) d0 0%N] [nth (p + k) d1 0%N].
Proof. intros L0 L1. rewrite !sub_snoc by assumption. apply ham_app. rewrite !sub_length; lia. Qed.
Lemma octets_sum d0 d1 p m : bytes_ok d0 -> bytes_ok d1 -> (p + m <= length d0)%nat -> (p + m <= length d1)%nat ->
  for_each (fun k s => let* c := octet_dist d0 d1 p k in Ok (s + c)) (seq 0 m) 0 = Ok (hamming (sub d0 p m) (sub d1 p m)).
Proof.
  intros B0 B1. induction m as [|m IH]; intros L0 L1; [reflexivity|].
  rewrite seq_S, for_each_app, IH by lia. cbn [bind for_each Nat.add]. rewrite octet_dist_ok by (auto; lia). cbn [bind].
  now rewrite ham_sub_snoc by lia.
Qed.
Lemma by8_ok n d0 d1 : bytes_ok d0 -> bytes_ok d1 -> 0 <= n -> 8 * n <= INT_MAX -> n <= Z.of_nat (length d0) -> n <= Z.of_nat (length d1) ->
  forall fuel p, Z.of_nat p <= n -> n - Z.of_nat p < Z.of_nat fuel -> exists p', Z.of_nat p' <= n /\
    dist_by8 fuel n d0 d1 (Z.of_nat p) p (hamming (sub d0 0 p) (sub d1 0 p)) = Ok (Z.of_nat p', p', hamming (sub d0 0 p') (sub d1 0 p')).
Proof.
  intros B0 B1 N0 NM L0 L1. induction fuel as [|fuel IH]; intros p P F; [lia|]. cbn [dist_by8].
  destruct (Z.ltb_spec (Z.of_nat p) (n - 7)) as [L|L]; [|exists p; split; [lia|reflexivity]].
  rewrite octets_sum by (auto; lia). cbn [bind].
  assert (E : hamming (sub d0 0 p) (sub d1 0 p) + hamming (sub d0 p 8) (sub d1 p 8) = hamming (sub d0 0 (p + 8)) (sub d1 0 (p + 8))).
  { rewrite !sub_add. rewrite ham_app by (rewrite !sub_length; lia). reflexivity. }
  rewrite E. pose proof (ham_bound (sub d0 0 (p + 8)) (sub d1 0 (p + 8))) as HB. rewrite sub_length in HB by lia.
  rewrite chk_int_in by (rewrite int_min; lia). cbn [bind].
  replace (Z.of_nat p + 8) with (Z.of_nat (p + 8)) by lia. apply IH; lia.
Qed.
Lemma by1_ok n d0 d1 : bytes_ok d0 -> bytes_ok d1 -> 0 <= n -> 8 * n <= INT_MAX -> n <= Z.of_nat (length d0) -> n <= Z.of_nat (length d1) ->
  forall fuel p, Z.of_nat p <= n -> n - Z.of_nat p < Z.of_nat fuel ->
    dist_by1 fuel n d0 d1 (Z.of_nat p) p (hamming (sub d0 0 p) (sub d1 0 p)) = Ok (hamming (sub d0 0 (Z.to_nat n)) (sub d1 0 (Z.to_nat n))).
Proof.
  intros B0 B1 N0 NM L0 L1. induction fuel as [|fuel IH]; intros p P F; [lia|]. cbn [dist_by1].
  destruct (Z.ltb_spec (Z.of_nat p) n) as [L|L].
  - rewrite octet_dist_ok by (auto; lia). cbn [bind]. rewrite Nat.add_0_r. change p with (0 + p)%nat at 3 4. rewrite <- (ham_sub_snoc d0 d1 0 p) by lia.
    pose proof (ham_bound (sub d0 0 (S p)) (sub d1 0 (S p))) as HB. rewrite sub_length in HB by lia.
    rewrite chk_int_in by (rewrite int_min; lia). cbn [bind].
    replace (Z.of_nat p + 1) with (Z.of_nat (S p)) by lia. replace (p + 1)%nat with (S p) by lia. apply IH; lia.
  - replace p with (Z.to_nat n) by lia. reflexivity.
Qed.
Lemma distance_ok fuel n d0 d1 : bytes_ok d0 -> bytes_ok d1 -> 0 <= n -> 8 * n <= INT_MAX -> n <= Z.of_nat (length d0) -> n <= Z.of_nat (length d1) ->
  n < Z.of_nat fuel -> distance fuel n d0 d1 = Ok (hamming (firstn (Z.to_nat n) d0) (firstn (Z.to_nat n) d1)).
Proof.
  intros B0 B1 N0 NM L0 L1 F. unfold distance.
  destruct (by8_ok n d0 d1 B0 B1 N0 NM L0 L1 fuel 0 ltac:(lia) ltac:(lia)) as (p & P & E).
  change (Z.of_nat 0) with 0 in E. replace (hamming (sub d0 0 0) (sub d1 0 0)) with 0 in E by reflexivity. rewrite E. cbn [bind].
  rewrite by1_ok by (auto; lia). reflexivity.
Qed.
(** Metric laws. *)
Lemma diff_sym a b : differences a b = differences b a.
Proof. unfold differences. f_equal. revert b. induction a as [|p a IH]; intros [|q b]; cbn; auto. rewrite Bool.xorb_comm. destruct (xorb q p); cbn; auto. Qed.
Lemma diff_zero a b : length a = length b -> differences a b = 0 -> a = b.
Proof.
  unfold differences. revert b. induction a as [|p a IH]; intros [|q b] L H; cbn [length] in L; try discriminate; [reflexivity|].
  cbn [combine filter] in H. destruct (xorb p q) eqn:E; [cbn [length] in H; lia|]. f_equal; [destruct p, q; cbn in E; congruence|]. apply IH; [lia|exact H].
Qed.
Lemma diff_refl a : differences a a = 0.
Proof. unfold differences. induction a as [|p a IH]; [reflexivity|]. cbn [combine filter]. rewrite Bool.xorb_nilpotent. exact IH. Qed.
Lemma diff_tri a b c : length a = length b -> length b = length c -> differences a c <= differences a b + differences b c.
Proof.
  unfold differences. revert b c. induction a as [|p a IH]; intros b c L1 L2; destruct b as [|q b]; destruct c as [|r c]; cbn [length] in *; try lia.
  cbn [combine filter]. specialize (IH b c ltac:(lia) ltac:(lia)). destruct p, q, r; cbn [xorb length]; lia.
Qed.
Lemma nth_map_seq {A} (f : nat -> A) n k d : (k < n)%nat -> nth k (map f (seq 0 n)) d = f k.
Proof.
  intro L. rewrite nth_indep with (d' := f O) by now rewrite map_length, seq_length. now rewrite map_nth, seq_nth.
Qed.
Lemma bits_inj a b : bytes_ok a -> bytes_ok b -> length a = length b -> bits a = bits b -> a = b.
Proof.
  revert b. induction a as [|x a IH]; intros [|y b] A B L H; cbn [length] in L; try discriminate; [reflexivity|].
  apply Forall_cons_iff in A as [X A]. apply Forall_cons_iff in B as [Y B]. unfold bits in H. cbn [flat_map] in H. fold (bits a) in H. fold (bits b) in H.
  apply app_eq_app_l in H as [H1 H2]; [|now rewrite !map_length]. f_equal; [|apply IH; auto].
  apply N.bits_inj. intro k. destruct (N.lt_ge_cases k 8).
  - pose proof (nth_map_seq (fun k => N.testbit x (N.of_nat k)) 8 (N.to_nat k) false ltac:(lia)) as E1.
    pose proof (nth_map_seq (fun k => N.testbit y (N.of_nat k)) 8 (N.to_nat k) false ltac:(lia)) as E2.
    rewrite H1, E2 in E1. now rewrite N2Nat.id in E1.
  - unfold byte_ok in *. assert (forall z, (z < 256)%N -> N.testbit z k = false) as Z0.
    { intros z Z. destruct (N.eq_dec z 0) as [->|NZ]; [apply N.bits_0|]. apply N.bits_above_log2. apply N.log2_lt_pow2; [lia|].
      apply N.lt_le_trans with (2 ^ 8)%N; [exact Z|]. apply N.pow_le_mono_r; lia. }
    now rewrite !Z0 by assumption.
Qed.
