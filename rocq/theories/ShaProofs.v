(** nx_sha256 computes FIPS 180-4. *)
From Verif Require Import Base BaseLemmas BitsModel BitsSpec BitsProofs ShaModel ShaSpec MemncpyProofs.
Local Open Scope N_scope.
Local Arguments N.add : simpl never.
Local Arguments N.mul : simpl never.
Local Arguments N.pow : simpl never.
Local Arguments N.modulo : simpl never.
Local Arguments N.div : simpl never.
Local Arguments N.land : simpl never.
Local Arguments N.shiftr : simpl never.
Local Arguments N.shiftl : simpl never.
Local Arguments N.of_nat : simpl never.

(** *** Word operations *)
Lemma rotr32c_model x n : 0 < n -> n < 32 -> nx_rotr32 x n = Ok (rotr32c x n).
Proof.
  intros H1 H2. unfold nx_rotr32, nx_rotr, ushr, ushl, rotr32c.
  replace (n <? 32) with true by lia. cbn [bind].
  replace (n <=? 32) with true by lia. replace (32 - n <? 32) with true by lia. reflexivity.
Qed.

Lemma rotr32c_ROTR x n : 0 < n -> n < 32 -> x < 2 ^ 32 -> rotr32c x n = ROTR n x.
Proof.
  intros H1 H2 Hx. unfold rotr32c, ROTR, wrap.
  assert (x = x mod 2 ^ n + 2 ^ n * (x / 2 ^ n)) as Ex
    by (pose proof (N.div_mod x (2 ^ n)); pose proof (pow2_pos n); lia).
  assert (2 ^ 32 = 2 ^ n * 2 ^ (32 - n)) as E32
    by (rewrite <- N.pow_add_r; f_equal; lia).
  assert (x / 2 ^ n < 2 ^ (32 - n)) as Hq
    by (apply N.div_lt_upper_bound; [pose proof (pow2_pos n); lia|]; rewrite <- E32; auto).
  rewrite N.lor_comm.
  assert (N.shiftl x (32 - n) mod 2 ^ 32 = N.shiftl (x mod 2 ^ n) (32 - n)) as ->.
  { rewrite !N.shiftl_mul_pow2. rewrite E32.
    rewrite N.mul_mod_distr_r; [reflexivity| |]; apply N.pow_nonzero; lia. }
  rewrite N.shiftr_div_pow2, lor_add_disj by auto. lia.
Qed.

Lemma not32_compl x : x < 2 ^ 32 -> not32 x = compl x.
Proof.
  intros Hx. unfold not32, compl. change (N.lxor x 0xFFFFFFFF) with (N.lnot x 32).
  rewrite <- N.ldiff_ones_l_low by (destruct (N.eq_dec x 0) as [->|]; [reflexivity|apply N.log2_lt_pow2; lia]).
  assert (N.ldiff (N.ones 32) x = N.ones 32 - x) as ->; [|rewrite N.ones_equiv; lia].
  rewrite N.sub_nocarry_ldiff; auto.
  apply N.bits_inj. intros i. rewrite N.ldiff_spec, N.bits_0.
  destruct (N.ltb_spec i 32).
  - rewrite N.ones_spec_low by auto. apply andb_false_r.
  - rewrite (testbit_high x 32 i) by auto. reflexivity.
Qed.

Definition w32 (x : N) : Prop := x < 2 ^ 32.
Lemma add32_w32 x y : w32 (add32 x y).
Proof. apply N.mod_lt. discriminate. Qed.

Lemma SIGMA0_eq x : w32 x -> SHA256_SIGMA0 x = Sigma0 x.
Proof. intros H. unfold SHA256_SIGMA0, Sigma0. rewrite !rotr32c_ROTR by (auto; reflexivity). apply N.lxor_assoc. Qed.
Lemma SIGMA1_eq x : w32 x -> SHA256_SIGMA1 x = Sigma1 x.
Proof. intros H. unfold SHA256_SIGMA1, Sigma1. rewrite !rotr32c_ROTR by (auto; reflexivity). apply N.lxor_assoc. Qed.
Lemma CH_eq x y z : w32 x -> SHA256_CH x y z = Ch x y z.
Proof. intros H. unfold SHA256_CH, Ch. rewrite not32_compl by auto. reflexivity. Qed.
Lemma MAJ_eq x y z : SHA256_MAJ x y z = Maj x y z.
Proof. unfold SHA256_MAJ, Maj. apply N.lxor_assoc. Qed.

(** *** Message schedule *)
Lemma firstn_S_lset {A} (l : list A) i v : (i < length l)%nat -> firstn (S i) (lset l i v) = firstn i l ++ [v].
Proof.
  revert i; induction l as [|h t IH]; intros [|i] H; cbn [length] in H; try lia; [reflexivity|].
  cbn [lset firstn app]. f_equal. apply IH. lia.
Qed.

Lemma block_word block t : bytes_ok block -> (4 * t + 3 < length block)%nat ->
  nx_compose_big_endian32 (nth (t * 4) block 0) (nth (t * 4 + 1) block 0)
     (nth (t * 4 + 2) block 0) (nth (t * 4 + 3) block 0) = word block t.
Proof.
  intros Hb Ht. rewrite compose32_value by (apply nth_byte_ok; auto).
  unfold word. rewrite (Nat.mul_comm t 4). cbn [be_value].
  change (2 ^ 24) with 16777216. change (2 ^ 16) with 65536. change (2 ^ 8) with 256. lia.
Qed.

Lemma word_w32 block t : bytes_ok block -> w32 (word block t).
Proof.
  intros Hb. unfold w32, word.
  pose proof (nth_byte_ok block (4 * t) Hb). pose proof (nth_byte_ok block (4 * t + 1) Hb).
  pose proof (nth_byte_ok block (4 * t + 2) Hb). pose proof (nth_byte_ok block (4 * t + 3) Hb).
  change (2 ^ 32) with 4294967296.
  change (2 ^ 24) with 16777216. change (2 ^ 16) with 65536. change (2 ^ 8) with 256. lia.
Qed.

Lemma seq_prefix {s n} {pre : list nat} {x post} : seq s n = pre ++ x :: post -> x = (s + length pre)%nat /\ (length pre < n)%nat /\ pre = seq s (length pre).
Proof.
  revert s pre; induction n as [|n IH]; intros s pre H; [destruct pre; discriminate|].
  destruct pre as [|y pre]; cbn [seq app length] in *.
  - injection H as <- _. repeat split; try lia.
  - injection H as <- H. apply IH in H. destruct H as (-> & Hl & Hp).
    cbn [seq]. rewrite <- Hp. repeat split; try lia.
Qed.

Lemma sched_load_spec block W0 : length block = 64%nat -> bytes_ok block -> length W0 = 64%nat ->
  exists W, for_each (sched_load block) (seq 0 16) W0 = Ok W /\ length W = 64%nat /\
    firstn 16 W = map (word block) (seq 0 16).
Proof.
  intros Hl Hb HW0.
  destruct (for_each_inv (sched_load block)
     (fun pre W => length W = 64%nat /\ firstn (length pre) W = map (word block) pre)
     (seq 0 16) W0) as (W & E & HL & HF).
  - auto.
  - intros pre i W [HL HF] [post Hpre].
    destruct (seq_prefix Hpre) as (-> & Hlt & _).
    cbn [Nat.add] in *. set (i := length pre) in *.
    unfold sched_load. rewrite !(aget_lt block _ 0) by lia. cbn [bind].
    rewrite aset_lt by lia. eexists; split; [reflexivity|]. rewrite lset_length. split; auto.
    rewrite app_length. cbn [length]. rewrite Nat.add_1_r. rewrite firstn_S_lset by lia.
    fold i. rewrite map_app, HF. cbn [map]. rewrite block_word by (auto; lia). reflexivity.
  - exists W. auto.
Qed.

Lemma schedule_length block n : length (schedule block n) = (16 + n)%nat.
Proof. induction n as [|n IH]; [reflexivity|]. cbn [schedule]. cbv zeta. rewrite app_length, IH. cbn [length]. lia. Qed.

Lemma schedule_w32 block n : bytes_ok block -> Forall w32 (schedule block n).
Proof.
  intros Hb. induction n as [|n IH].
  - apply Forall_forall. intros x Hx. apply in_map_iff in Hx. destruct Hx as [t [<- _]]. apply word_w32; auto.
  - cbn [schedule]. cbv zeta. apply Forall_app; split; auto. constructor; auto. apply add32_w32.
Qed.

Lemma nth_w32 l i : Forall w32 l -> w32 (nth i l 0).
Proof.
  intros H. destruct (Nat.ltb_spec i (length l)).
  - rewrite Forall_forall in H. apply H, nth_In. auto.
  - rewrite nth_overflow by auto. reflexivity.
Qed.

Lemma nth_firstn {A} (l : list A) n i d : (i < n)%nat -> nth i (firstn n l) d = nth i l d.
Proof.
  revert n i; induction l as [|h t IH]; intros [|n] [|i] H; cbn [firstn nth]; auto; try lia.
  apply IH. lia.
Qed.

Lemma plus4 a b c d : add32 (add32 (add32 a b) c) d = plus (plus a b) (plus c d).
Proof.
  unfold add32, uadd, wrap, plus.
  repeat first [rewrite N.add_mod_idemp_l by discriminate | rewrite N.add_mod_idemp_r by discriminate].
  rewrite <- N.add_assoc, N.add_mod_idemp_l by discriminate. f_equal.
Qed.

Lemma sched_extend_spec block W : length block = 64%nat -> bytes_ok block -> length W = 64%nat ->
  firstn 16 W = map (word block) (seq 0 16) ->
  for_each sched_extend (seq 16 48) W = Ok (schedule block 48).
Proof.
  intros Hl Hb HW HF.
  destruct (for_each_inv sched_extend
     (fun pre W => length W = 64%nat /\ firstn (16 + length pre) W = schedule block (length pre))
     (seq 16 48) W) as (W' & E & HL & HF').
  - split; auto.
  - clear W HW HF. intros pre i W [HL HF] [post Hpre].
    destruct (seq_prefix Hpre) as (-> & Hlt & _).
    set (m := length pre) in *.
    unfold sched_extend. rewrite !(aget_lt W _ 0) by lia. cbn [bind].
    rewrite aset_lt by lia. eexists; split; [reflexivity|]. rewrite lset_length. split; auto.
    rewrite app_length. cbn [length]. rewrite Nat.add_1_r. fold m.
    replace (16 + S m)%nat with (S (16 + m)) by lia. rewrite firstn_S_lset by lia.
    rewrite HF. cbn [schedule]. cbv zeta. f_equal. f_equal.
    rewrite <- !(nth_firstn W (16 + m)) by lia. rewrite HF.
    pose proof (schedule_w32 block m Hb) as HW.
    rewrite !rotr32c_ROTR by (try reflexivity; apply nth_w32; auto).
    unfold sigma0, sigma1, SHR. rewrite !N.shiftr_div_pow2, !N.lxor_assoc.
    apply plus4.
  - rewrite E. f_equal. rewrite seq_length in HF'. rewrite <- HF'. rewrite firstn_all2; [reflexivity|lia].
Qed.

(** *** Rounds *)
Definition regs_list (r : regs) : list N := [ra r; rb r; rc r; rd r; re r; rf r; rg r; rh r].

Lemma rounds_spec W : length W = 64%nat -> forall n s r, (s + n <= 64)%nat -> Forall w32 (regs_list r) ->
  exists r', for_each (round_step W) (seq s n) r = Ok r' /\ Forall w32 (regs_list r') /\
    regs_list r' = fold_left round (combine (firstn n (skipn s K)) (firstn n (skipn s W))) (regs_list r).
Proof.
  intros HW. assert (length K = 64%nat) as HK by reflexivity.
  induction n as [|n IH]; intros s r Hs Hr.
  - exists r. repeat split; auto.
  - cbn [seq for_each]. unfold round_step at 1.
    rewrite (aget_lt K s 0), (aget_lt W s 0) by lia. cbn [bind].
    set (r1 := {| ra := _ |}).
    assert (Forall w32 (regs_list r1)) as Hr1.
    { unfold regs_list in *. repeat match goal with H : Forall _ (_ :: _) |- _ => apply Forall_cons_iff in H; destruct H end.
      unfold r1; cbn [ra rb rc rd re rf rg rh].
      repeat constructor; auto using add32_w32. }
    destruct (IH (S s) r1) as (r' & E & Hr' & Hfold); [lia|auto|].
    exists r'. split; [exact E|]. split; [exact Hr'|].
    rewrite Hfold. rewrite (skipn_nth K s 0), (skipn_nth W s 0) by lia.
    cbn [firstn combine fold_left]. f_equal.
    unfold regs_list in *. repeat match goal with H : Forall _ (_ :: _) |- _ => apply Forall_cons_iff in H; destruct H end.
    unfold r1. cbn [ra rb rc rd re rf rg rh round fst snd].
    rewrite SIGMA1_eq, SIGMA0_eq, CH_eq, MAJ_eq by auto. reflexivity.
Qed.

Lemma K_fips : K = fips_K.
Proof. vm_compute. reflexivity. Qed.
Lemma H_fips : regs_list H_init = fips_H0.
Proof. vm_compute. reflexivity. Qed.

Definition blk_ok (b : list N) : Prop := length b = 64%nat /\ bytes_ok b.

Lemma compress_rounds H block : compress H block =
  map (fun p => plus (fst p) (snd p))
      (combine H (fold_left round (combine (firstn 64 (skipn 0 K)) (firstn 64 (skipn 0 (schedule block 48)))) H)).
Proof.
  unfold compress. rewrite <- K_fips.
  rewrite (skipn_O K), (skipn_O (schedule block 48)).
  rewrite (firstn_all2 K) by (apply Nat.leb_le; reflexivity).
  rewrite (firstn_all2 (schedule block 48)) by (rewrite schedule_length; apply Nat.leb_le; reflexivity).
  reflexivity.
Qed.

Lemma process_block_spec W0 block H : length W0 = 64%nat -> blk_ok block -> Forall w32 (regs_list H) ->
  exists H', nx_sha256_process_block W0 block H = Ok H' /\ Forall w32 (regs_list H') /\
    regs_list H' = compress (regs_list H) block.
Proof.
  intros HW0 [Hl Hb] HH. unfold nx_sha256_process_block.
  destruct (sched_load_spec block W0 Hl Hb HW0) as (W & E & HW & HF). rewrite E. cbn [bind].
  rewrite (sched_extend_spec block W Hl Hb HW HF). cbn [bind].
  destruct (rounds_spec (schedule block 48) (schedule_length block 48) 64 0 H) as (r & Er & Hr & Hfold); auto.
  rewrite Er. cbn [bind]. eexists; split; [reflexivity|].
  split.
  { unfold regs_list. cbn [ra rb rc rd re rf rg rh]. repeat constructor; auto using add32_w32. }
  rewrite (compress_rounds (regs_list H) block). rewrite <- Hfold.
  unfold regs_list. reflexivity.
Qed.

(** *** Blocks *)
Lemma blocks_app n m l : blocks (n + m) l = blocks n l ++ blocks m (skipn (64 * n) l).
Proof.
  revert l; induction n as [|n IH]; intros l; [reflexivity|].
  cbn [blocks Nat.add app]. rewrite IH. rewrite skipn_skipn. do 2 f_equal.
  replace (64 * S n)%nat with (64 + 64 * n)%nat by lia. reflexivity.
Qed.

Lemma blocks_prefix n l l' : (64 * n <= length l)%nat -> blocks n (l ++ l') = blocks n l.
Proof.
  revert l; induction n as [|n IH]; intros l H; [reflexivity|].
  cbn [blocks]. rewrite firstn_app, skipn_app.
  replace (64 - length l)%nat with 0%nat by lia. change (firstn 0 l') with (@nil N). change (skipn 0 l') with l'. rewrite app_nil_r.
  rewrite IH by (rewrite skipn_length; lia). reflexivity.
Qed.

Lemma blit_whole (block bs : list N) : length block = 64%nat -> (length bs <= 64)%nat ->
  blit block 0 bs = Ok (bs ++ skipn (length bs) block).
Proof.
  intros H1 H2. unfold blit. cbn [Nat.add firstn app].
  replace (length bs <=? length block)%nat with true by (symmetry; apply Nat.leb_le; lia). reflexivity.
Qed.

Lemma blit_after (a : list N) old bs : (length bs <= length old)%nat ->
  blit (a ++ old) (length a) bs = Ok ((a ++ bs) ++ skipn (length bs) old).
Proof.
  intros H. unfold blit. rewrite app_length.
  replace (length a + length bs <=? length a + length old)%nat with true by (symmetry; apply Nat.leb_le; lia).
  rewrite firstn_app, Nat.sub_diag. cbn [firstn]. rewrite firstn_all, app_nil_r.
  rewrite skipn_app. rewrite skipn_all2 by lia. replace (length a + length bs - length a)%nat with (length bs) by lia.
  cbn [app]. rewrite <- app_assoc. reflexivity.
Qed.

Lemma blit_at p (a : list N) old bs : p = length a -> (length bs <= length old)%nat ->
  blit (a ++ old) p bs = Ok ((a ++ bs) ++ skipn (length bs) old).
Proof. intros -> H. apply blit_after; auto. Qed.

(** The loop over whole message blocks. *)
Lemma full_blocks_spec oob W0 segs M nb block0 :
  length W0 = 64%nat -> segs <> [] -> concat segs = M -> bytes_ok M -> length block0 = 64%nat ->
  (64 * nb <= length M)%nat ->
  exists block H so off,
    for_each (full_block_step oob W0 segs) (seq 0 nb) (block0, H_init, (0%nat, 0%nat)) = Ok (block, H, (so, off)) /\
    length block = 64%nat /\ Forall w32 (regs_list H) /\
    regs_list H = fold_left compress (blocks nb M) fips_H0 /\
    cursor_ok segs so off /\ cursor_rest segs so off = skipn (64 * nb) M /\
    (nb = 0%nat -> (so < length segs)%nat) /\
    ((64 * nb < length M)%nat -> (so < length segs)%nat) /\
    ((64 * nb = length M)%nat -> (0 < nb)%nat -> last segs [] <> [] -> so = length segs) /\
    ((64 * nb = length M)%nat -> (0 < nb)%nat -> last segs [] = [] -> (so < length segs)%nat).
Proof.
  intros HW0 Hne HM HbM Hb0. induction nb as [|nb IH]; intros Hle.
  - exists block0, H_init, 0%nat, 0%nat. destruct (cursor_start segs Hne) as [Hc Hr].
    split; [reflexivity|]. split; [auto|]. split; [repeat constructor|].
    split; [exact H_fips|]. split; [auto|].
    split; [rewrite Hr, HM; reflexivity|].
    assert (0 < length segs)%nat by (destruct segs; [congruence|simpl; lia]).
    repeat split; intros; try lia.
  - destruct IH as (block & H & so & off & E & Hb & HH & Hfold & Hc & Hr & _ & Hin & _); [lia|].
    rewrite seq_S, for_each_app, E. cbn [bind for_each full_block_step].
    assert (so < length segs)%nat as Hso by (apply Hin; lia).
    destruct Hc as [[_ Hoff]|[-> _]]; [|lia].
    destruct (memncpy_inside oob segs 64 so off Hso Hoff) as (so' & off' & Ec & Hc' & Hr' & _ & Hend & Hend2 & Hend3).
    rewrite Ec. cbn [bind].
    assert (length (cursor_rest segs so off) = (length M - 64 * nb)%nat) as HL by (rewrite Hr; apply skipn_length).
    assert (length (firstn 64 (cursor_rest segs so off)) = 64%nat) as HL64 by (rewrite firstn_length; lia).
    rewrite blit_whole by lia. cbn [bind]. rewrite HL64. cbn [Nat.eqb].
    rewrite (skipn_all2 block) by lia. rewrite app_nil_r.
    set (blk := firstn 64 (cursor_rest segs so off)) in *.
    assert (blk_ok blk) as Hblk.
    { split; auto. apply bytes_ok_firstn. rewrite Hr. apply bytes_ok_skipn. auto. }
    destruct (process_block_spec W0 blk H HW0 Hblk HH) as (H' & EH & HH' & HC).
    rewrite EH. cbn [bind]. exists blk, H', so', off'.
    split; [reflexivity|]. split; [auto|]. split; [auto|]. split.
    { rewrite HC, Hfold. replace (S nb) with (nb + 1)%nat by lia. rewrite blocks_app, fold_left_app.
      cbn [blocks fold_left]. unfold blk. rewrite Hr. reflexivity. }
    split; [auto|]. split.
    { rewrite Hr', Hr, skipn_skipn. f_equal. lia. }
    split; [lia|]. split.
    { intros Hlt. destruct Hc' as [[? _]|[-> ->]]; [auto|].
      rewrite cursor_rest_end in Hr'. apply (f_equal (@length _)) in Hr'. rewrite skipn_length in Hr'. simpl length in Hr'. lia. }
    split; intros HE _ Hlast.
    + apply Hend2; auto; lia.
    + apply Hend3; auto; lia.
Qed.

Lemma total_length (segs : list (list N)) : N.of_nat (length (concat segs)) < 2 ^ 61 ->
  fold_left (fun a s => uadd 64 a (N.of_nat (length s))) segs 0 = N.of_nat (length (concat segs)).
Proof.
  intros H. enough (forall a, a + N.of_nat (length (concat segs)) < 2 ^ 64 ->
    fold_left (fun a s => uadd 64 a (N.of_nat (length s))) segs a = a + N.of_nat (length (concat segs))) as HH.
  { rewrite HH; [lia|]. change (2 ^ 64) with (8 * 2 ^ 61). lia. }
  clear H. induction segs as [|s t IH]; intros a H; cbn [fold_left concat] in *.
  - cbn [length]. change (N.of_nat 0) with 0. lia.
  - rewrite app_length in *. rewrite IH.
    + unfold uadd, wrap. rewrite N.mod_small by lia. lia.
    + unfold uadd, wrap. rewrite N.mod_small by lia. lia.
Qed.

Lemma be64_split x : be64 x = nx_split_big_endian64 x.
Proof. rewrite split64_digits. reflexivity. Qed.
Lemma be32_split x : be32 x = nx_split_big_endian32 x.
Proof. rewrite split32_digits. reflexivity. Qed.

Lemma split64_bytes x : bytes_ok (nx_split_big_endian64 x) /\ length (nx_split_big_endian64 x) = 8%nat.
Proof. split; [|reflexivity]. unfold nx_split_big_endian64, to_u8. repeat constructor; apply N.mod_lt; discriminate. Qed.

Lemma zero_bytes_small len : (len mod 64 <= 55)%nat -> zero_bytes len = (55 - len mod 64)%nat.
Proof.
  intros H. unfold zero_bytes.
  assert ((55 - Z.of_nat len) mod 64 = 55 - Z.of_nat (len mod 64))%Z as ->; [|lia].
  rewrite Nat2Z.inj_mod. change (Z.of_nat 64) with 64%Z.
  rewrite <- Zminus_mod_idemp_r. apply Z.mod_small.
  assert (Z.of_nat (len mod 64) <= 55)%Z by lia. rewrite Nat2Z.inj_mod in H0. change (Z.of_nat 64) with 64%Z in H0.
  pose proof (Z.mod_pos_bound (Z.of_nat len) 64). lia.
Qed.
Lemma zero_bytes_large len : (55 < len mod 64)%nat -> zero_bytes len = (119 - len mod 64)%nat.
Proof.
  intros H. unfold zero_bytes.
  pose proof (Nat.mod_upper_bound len 64) as Hu.
  assert ((55 - Z.of_nat len) mod 64 = 119 - Z.of_nat (len mod 64))%Z as ->; [|lia].
  assert (55 < Z.of_nat (len mod 64))%Z by lia. rewrite Nat2Z.inj_mod in *. change (Z.of_nat 64) with 64%Z in *.
  rewrite <- Zminus_mod_idemp_r. rewrite <- (Z_mod_plus_full _ 1). rewrite Z.mod_small;
  pose proof (Z.mod_pos_bound (Z.of_nat len) 64); lia.
Qed.

Lemma hash_bytes_be H : hash_bytes H = flat_map be32 (regs_list H).
Proof. unfold hash_bytes, regs_list. cbn [flat_map]. rewrite !be32_split, app_nil_r. reflexivity. Qed.

(** The tail of nx_sha256_multi, once the remaining bytes [R] are known. *)
Lemma sha_multi_reduce oob block0 W0 segs M :
  concat segs = M -> N.of_nat (length M) < 2 ^ 61 ->
  nx_sha256_multi oob block0 W0 segs =
  let l_rem := (length M mod 64)%nat in
  let k := (if l_rem <=? 55 then 55 - l_rem else 119 - l_rem)%nat in
  let* st := for_each (full_block_step oob W0 segs) (seq 0 (length M / 64)) (block0, H_init, (0%nat, 0%nat)) in
  let '(block, H, (so, off)) := st in
  let* c := nx_memncpy_multi oob segs l_rem so off in
  let '(bs, so, off) := c in
  let* block := blit block 0 bs in
  let* _ := (if (length bs =? l_rem)%nat then Ok tt else Fatal) in
  let* block := blit block l_rem [0x80] in
  let len_bytes := nx_split_big_endian64 (8 * N.of_nat (length M)) in
  let* H :=
    (if (l_rem <=? 55)%nat then
       let* block := blit block (l_rem + 1) (repeat 0 k) in
       let* block := blit block (l_rem + 1 + k) len_bytes in
       nx_sha256_process_block W0 block H
     else
       let k0 := (64 - (l_rem + 1))%nat in
       let k1 := (k - k0)%nat in
       let* block := blit block (l_rem + 1) (repeat 0 k0) in
       let* H := nx_sha256_process_block W0 block H in
       let* block := blit block 0 (repeat 0 k1) in
       let* block := blit block k1 len_bytes in
       nx_sha256_process_block W0 block H) in
  Ok (hash_bytes H).
Proof.
  intros HM Hlt. unfold nx_sha256_multi. rewrite total_length by (rewrite HM; auto). rewrite HM.
  set (L := length M) in *.
  assert (N.to_nat (N.of_nat L / 64) = (L / 64)%nat) as ->.
  { rewrite N2Nat.inj_div, Nat2N.id. reflexivity. }
  assert (N.to_nat (N.of_nat L - N.of_nat L / 64 * 64) = (L mod 64)%nat) as ->.
  { rewrite N2Nat.inj_sub, N2Nat.inj_mul, N2Nat.inj_div, Nat2N.id.
    change (N.to_nat 64) with 64%nat. pose proof (Nat.div_mod L 64). lia. }
  assert (wrap 64 (N.of_nat L * 8) = 8 * N.of_nat L) as ->.
  { unfold wrap. rewrite N.mod_small by (change (2 ^ 64) with (8 * 2 ^ 61); lia). lia. }
  reflexivity.
Qed.

Lemma repeat_119 l : (55 < l)%nat -> (l < 64)%nat ->
  repeat 0 (119 - l) = repeat 0 (64 - (l + 1)) ++ repeat 0 56.
Proof. intros. rewrite <- repeat_app. f_equal. lia. Qed.

Lemma sha_tail oob block0 W0 segs M block H so off so' off' :
  length W0 = 64%nat ->
  concat segs = M -> N.of_nat (length M) < 2 ^ 61 -> bytes_ok M ->
  for_each (full_block_step oob W0 segs) (seq 0 (length M / 64)) (block0, H_init, (0%nat, 0%nat)) = Ok (block, H, (so, off)) ->
  length block = 64%nat -> Forall w32 (regs_list H) ->
  regs_list H = fold_left compress (blocks (length M / 64) M) fips_H0 ->
  nx_memncpy_multi oob segs (length M mod 64) so off = Ok (skipn (64 * (length M / 64)) M, so', off') ->
  nx_sha256_multi oob block0 W0 segs = Ok (sha256 M).
Proof.
  intros HW0 HM Hlt HbM Eloop Hblock HH Hfold Ec.
  rewrite (sha_multi_reduce oob block0 W0 segs M HM Hlt). cbv zeta. rewrite Eloop. cbn [bind].
  rewrite Ec. cbn [bind].
  pose proof (Nat.div_mod (length M) 64 ltac:(discriminate)) as Hdm.
  pose proof (Nat.mod_upper_bound (length M) 64 ltac:(discriminate)) as Hl.
  remember (length M / 64)%nat as nb eqn:Enb. remember (length M mod 64)%nat as l eqn:El.
  remember (skipn (64 * nb) M) as R eqn:ER.
  assert (length R = l) as HR by (rewrite ER, skipn_length; lia).
  assert (bytes_ok R) as HRb by (rewrite ER; apply bytes_ok_skipn; auto).
  rewrite blit_whole by lia. cbn [bind]. rewrite HR, Nat.eqb_refl. cbn [bind].
  destruct (split64_bytes (8 * N.of_nat (length M))) as [Hlb Hll].
  remember (nx_split_big_endian64 (8 * N.of_nat (length M))) as len_bytes eqn:Elb.
  assert (length (skipn l block) = (64 - l)%nat) as Hsk by (rewrite skipn_length; lia).
  rewrite blit_at by (cbn [length]; lia). cbn [bind].
  assert (pad M = firstn (64 * nb) M ++ (R ++ [0x80] ++ repeat 0 (zero_bytes (length M)) ++ len_bytes)) as Hpad.
  { unfold pad. rewrite be64_split. rewrite <- Elb. rewrite (app_assoc (firstn (64 * nb) M)). rewrite ER. rewrite firstn_skipn. reflexivity. }
  assert (length (firstn (64 * nb) M) = (64 * nb)%nat) as Hfl by (rewrite firstn_length; lia).
  assert (blocks nb M = blocks nb (firstn (64 * nb) M)) as Hbl.
  { rewrite <- (firstn_skipn (64 * nb) M) at 1. apply blocks_prefix. lia. }
  assert (l <= 55 -> zero_bytes (length M) = 55 - l)%nat as Hzs by (intros; rewrite El; apply zero_bytes_small; rewrite <- El; assumption).
  assert (55 < l -> zero_bytes (length M) = 119 - l)%nat as Hzl by (intros; rewrite El; apply zero_bytes_large; rewrite <- El; assumption).
  clear Enb El Hlt ER Ec Eloop.
  destruct (Nat.leb_spec l 55) as [Hsmall|Hbig].
  - (* one final block *)
    assert (length (R ++ [0x80]) = (l + 1)%nat) as HR1 by (rewrite app_length, HR; reflexivity).
    rewrite skipn_skipn. cbn [length].
    rewrite blit_at by (try rewrite skipn_length, repeat_length; lia). cbn [bind].
    assert (length ((R ++ [0x80]) ++ repeat 0 (55 - l)) = (l + 1 + (55 - l))%nat) as HR2
      by (rewrite app_length, HR1, repeat_length; reflexivity).
    rewrite skipn_skipn, repeat_length. 
    rewrite blit_at by (try rewrite skipn_length, Hll; lia). cbn [bind].
    rewrite Hll. rewrite skipn_all2 by (rewrite skipn_length; lia). rewrite app_nil_r.
    remember (((R ++ [0x80]) ++ repeat 0 (55 - l)) ++ len_bytes) as blk eqn:Eblk.
    assert (blk_ok blk) as Hblk.
    { split; [rewrite Eblk; rewrite app_length, HR2, Hll; lia|].
      rewrite Eblk. rewrite !bytes_ok_app. repeat split; auto using bytes_ok_zeros.
      repeat constructor. }
    destruct (process_block_spec W0 blk H HW0 Hblk HH) as (H' & EH & HH' & HC).
    rewrite EH. cbn [bind]. f_equal. rewrite hash_bytes_be. unfold sha256. f_equal.
    rewrite HC, Hfold.
    assert (R ++ [0x80] ++ repeat 0 (zero_bytes (length M)) ++ len_bytes = blk) as Eb.
    { rewrite Eblk. rewrite Hzs by assumption. rewrite <- !app_assoc. reflexivity. }
    rewrite Hpad, Eb. destruct Hblk as [Hbl64 _].
    assert (length (firstn (64 * nb) M ++ blk) / 64 = nb + 1)%nat as ->.
    { rewrite app_length, Hfl, Hbl64. replace (64 * nb + 64)%nat with ((nb + 1) * 64)%nat by lia. apply Nat.div_mul. lia. }
    rewrite blocks_app, blocks_prefix by lia. rewrite fold_left_app, <- Hbl.
    rewrite skipn_app, Hfl, Nat.sub_diag. rewrite (skipn_all2 (firstn (64 * nb) M)) by lia.
    change (skipn 0 blk) with blk. cbn [app blocks fold_left].
    rewrite (firstn_all2 blk) by lia. reflexivity.
  - (* two final blocks *)
    assert (length (R ++ [0x80]) = (l + 1)%nat) as HR1 by (rewrite app_length, HR; reflexivity).
    rewrite skipn_skipn. cbn [length].
    rewrite blit_at by (try rewrite skipn_length, repeat_length; lia). cbn [bind].
    rewrite skipn_skipn, repeat_length.
    rewrite (skipn_all2 (block)) by lia. rewrite app_nil_r.
    remember ((R ++ [0x80]) ++ repeat 0 (64 - (l + 1))) as blk1 eqn:Eblk1.
    assert (blk_ok blk1) as Hblk1.
    { split; [rewrite Eblk1; rewrite app_length, HR1, repeat_length; lia|].
      rewrite Eblk1. rewrite !bytes_ok_app. repeat split; auto using bytes_ok_zeros. repeat constructor. }
    destruct (process_block_spec W0 blk1 H HW0 Hblk1 HH) as (H1 & EH1 & HH1 & HC1).
    rewrite EH1. cbn [bind].
    replace (119 - l - (64 - (l + 1)))%nat with 56%nat by lia.
    rewrite blit_whole by (try rewrite repeat_length; try apply Hblk1; lia). cbn [bind].
    rewrite repeat_length.
    rewrite blit_at by (try rewrite skipn_length, Hll; try rewrite repeat_length; destruct Hblk1 as [Hb1 _]; lia). cbn [bind].
    rewrite Hll. rewrite skipn_skipn. rewrite (skipn_all2 (blk1)) by (destruct Hblk1 as [-> _]; lia). rewrite app_nil_r.
    remember (repeat 0 56 ++ len_bytes) as blk2 eqn:Eblk2.
    assert (blk_ok blk2) as Hblk2.
    { split; [rewrite Eblk2; rewrite app_length, repeat_length, Hll; reflexivity|].
      rewrite Eblk2. rewrite bytes_ok_app. split; auto using bytes_ok_zeros. }
    destruct (process_block_spec W0 blk2 H1 HW0 Hblk2 HH1) as (H2 & EH2 & HH2 & HC2).
    rewrite EH2. cbn [bind]. f_equal. rewrite hash_bytes_be. unfold sha256. f_equal.
    rewrite HC2, HC1, Hfold.
    assert (R ++ [0x80] ++ repeat 0 (zero_bytes (length M)) ++ len_bytes = blk1 ++ blk2) as Eb.
    { rewrite Eblk1, Eblk2. rewrite Hzl by assumption.
      rewrite (repeat_119 l) by assumption. rewrite <- !app_assoc. reflexivity. }
    rewrite Hpad, Eb. destruct Hblk1 as [Hbl1 _]. destruct Hblk2 as [Hbl2 _].
    assert (length (firstn (64 * nb) M ++ blk1 ++ blk2) / 64 = nb + 2)%nat as ->.
    { rewrite !app_length, Hfl, Hbl1, Hbl2. replace (64 * nb + (64 + 64))%nat with ((nb + 2) * 64)%nat by lia. apply Nat.div_mul. lia. }
    rewrite blocks_app, blocks_prefix by lia. rewrite fold_left_app, <- Hbl.
    rewrite skipn_app, Hfl, Nat.sub_diag. rewrite (skipn_all2 (firstn (64 * nb) M)) by lia. change (skipn 0 (blk1 ++ blk2)) with (blk1 ++ blk2). cbn [app blocks fold_left].
    rewrite firstn_app, skipn_app, Hbl1. rewrite Nat.sub_diag.
    change (firstn 0 blk2) with (@nil N). change (skipn 0 blk2) with blk2. rewrite app_nil_r.
    rewrite (firstn_all2 (blk1)) by lia. rewrite (skipn_all2 (blk1)) by lia. cbn [app].
    rewrite (firstn_all2 blk2) by lia. reflexivity.
Qed.

Theorem sha256_multi_any v block0 W0 segs :
  segs <> [] -> length block0 = 64%nat -> length W0 = 64%nat ->
  bytes_ok (concat segs) -> N.of_nat (length (concat segs)) < 2 ^ 61 ->
  nx_sha256_multi (Some v) block0 W0 segs = Ok (sha256 (concat segs)).
Proof.
  intros Hne Hb0 HW0 HbM Hlt. remember (concat segs) as M eqn:HM. symmetry in HM.
  pose proof (Nat.div_mod (length M) 64) as Hdm.
  destruct (full_blocks_spec (Some v) W0 segs M (length M / 64) block0) as
    (block & H & so & off & E & Hb & HH & Hfold & Hc & Hr & _); auto; [lia|].
  destruct (memncpy_any v segs (length M mod 64) so off Hne Hc) as (so' & off' & Ec & _).
  rewrite Hr, firstn_all2 in Ec by (rewrite skipn_length; lia).
  eapply sha_tail; eauto.
Qed.

(** The C standard's view: defined exactly when the final request does not
    start one past the last segment. *)
Theorem sha256_multi_std block0 W0 segs :
  segs <> [] -> length block0 = 64%nat -> length W0 = 64%nat ->
  bytes_ok (concat segs) -> N.of_nat (length (concat segs)) < 2 ^ 61 ->
  nx_sha256_multi None block0 W0 segs =
  if (length (concat segs) mod 64 =? 0)%nat && (0 <? length (concat segs))%nat
     && negb (match last segs [] with [] => true | _ => false end)
  then UB else Ok (sha256 (concat segs)).
Proof.
  intros Hne Hb0 HW0 HbM Hlt. remember (concat segs) as M eqn:HM. symmetry in HM.
  pose proof (Nat.div_mod (length M) 64) as Hdm.
  destruct (full_blocks_spec None W0 segs M (length M / 64) block0) as
    (block & H & so & off & E & Hb & HH & Hfold & Hc & Hr & Hz & Hin & Hend & Hend2); auto; [lia|].
  assert ((so < length segs)%nat ->
          nx_sha256_multi None block0 W0 segs = Ok (sha256 M)) as Hgood.
  { intros Hso. destruct Hc as [[_ Hoff]|[-> _]]; [|lia].
    destruct (memncpy_inside None segs (length M mod 64) so off Hso Hoff) as (so' & off' & Ec & _).
    rewrite Hr, firstn_all2 in Ec by (rewrite skipn_length; lia).
    eapply sha_tail; eauto. }
  destruct (Nat.eqb_spec (length M mod 64) 0) as [Hm|Hm]; cbn [andb].
  2:{ apply Hgood, Hin. lia. }
  destruct (Nat.ltb_spec 0 (length M)) as [Hp|Hp]; cbn [andb].
  2:{ apply Hgood, Hz. rewrite Nat.div_small; lia. }
  destruct (last segs []) as [|x t] eqn:El; cbn [negb].
  - apply Hgood, Hend2; auto; lia.
  - assert (so = length segs) as -> by (apply Hend; auto; try lia; congruence).
    destruct Hc as [[? _]|[_ ->]]; [lia|].
    rewrite (sha_multi_reduce None block0 W0 segs M HM Hlt). cbv zeta. rewrite E. cbn [bind].
    rewrite memncpy_past by auto. reflexivity.
Qed.

(** *** nx_hash_to_str *)
Definition unhex (c : N) : N := if c <? 58 then c - 48 else c - 87.
Fixpoint unhex_str (l : list N) : list N :=
  match l with
  | a :: b :: t => unhex a * 16 + unhex b :: unhex_str t
  | _ => []
  end.
Lemma unhex_hex d : d < 16 -> unhex (hex_digit d) = d.
Proof. intros H. unfold unhex, hex_digit. destruct (N.ltb_spec d 10).
  - replace (48 + d <? 58) with true by lia. lia.
  - replace (87 + d <? 58) with false by lia. lia. Qed.
Lemma hash_to_str_decode h : bytes_ok h -> unhex_str (nx_hash_to_str h) = h.
Proof.
  induction 1 as [|b t Hb Ht IH]; [reflexivity|].
  unfold byte_ok in Hb. cbn [nx_hash_to_str flat_map app unhex_str]. fold (nx_hash_to_str t). rewrite IH.
  rewrite !unhex_hex by (first [apply N.mod_lt; lia | apply N.div_lt_upper_bound; lia]).
  f_equal. pose proof (N.div_mod b 16). lia.
Qed.
Lemma hash_to_str_length h : length (nx_hash_to_str h) = (2 * length h)%nat.
Proof. induction h as [|b t IH]; [reflexivity|]. cbn [nx_hash_to_str flat_map app length]. fold (nx_hash_to_str t). lia. Qed.
Lemma hash_to_str_inj h1 h2 : bytes_ok h1 -> bytes_ok h2 -> nx_hash_to_str h1 = nx_hash_to_str h2 -> h1 = h2.
Proof. intros H1 H2 E. rewrite <- (hash_to_str_decode h1 H1), E. apply hash_to_str_decode; auto. Qed.
Lemma hash_to_str_nth h i : bytes_ok h -> (i < length h)%nat ->
  nth (2 * i) (nx_hash_to_str h) 0 = hex_digit (nth i h 0 / 16) /\
  nth (2 * i + 1) (nx_hash_to_str h) 0 = hex_digit (nth i h 0 mod 16).
Proof.
  intros _. revert i; induction h as [|b t IH]; intros i Hi; [simpl in Hi; lia|].
  destruct i as [|i]; [split; reflexivity|].
  replace (2 * S i)%nat with (S (S (2 * i))) by lia.
  cbn [nx_hash_to_str flat_map app nth Nat.add]. fold (nx_hash_to_str t). apply IH. simpl in Hi; lia.
Qed.
Lemma bytes_ok_repeat x n : x < 256 -> bytes_ok (repeat x n).
Proof. intros H. apply Forall_forall. intros y Hy. apply repeat_spec in Hy. subst. exact H. Qed.
(** [hex_digit d] is the d-th character of "0123456789abcdef". *)
Lemma hex_digit_table d : d < 16 -> hex_digit d = nth (N.to_nat d) (map N.of_nat (seq 48 10 ++ seq 97 6)) 0.
Proof.
  intros H. assert (forallb (fun d => hex_digit d =? nth (N.to_nat d) (map N.of_nat (seq 48 10 ++ seq 97 6)) 0)
    (map N.of_nat (seq 0 16)) = true) as Hall by (vm_compute; reflexivity).
  rewrite forallb_forall in Hall. apply N.eqb_eq, Hall. apply in_map_iff. exists (N.to_nat d).
  rewrite N2Nat.id. split; auto. apply in_seq. lia.
Qed.
Lemma hash_to_str_digits h i : bytes_ok h -> (i < length h)%nat ->
  nth (2 * i) (nx_hash_to_str h) 0 = nth (N.to_nat (nth i h 0 / 16)) (map N.of_nat (seq 48 10 ++ seq 97 6)) 0 /\
  nth (2 * i + 1) (nx_hash_to_str h) 0 = nth (N.to_nat (nth i h 0 mod 16)) (map N.of_nat (seq 48 10 ++ seq 97 6)) 0.
Proof.
  intros Hb Hi. destruct (hash_to_str_nth h i Hb Hi) as [-> ->].
  pose proof (nth_byte_ok h i Hb).
  split; apply hex_digit_table; [apply N.div_lt_upper_bound; lia|apply N.mod_lt; lia].
Qed.
