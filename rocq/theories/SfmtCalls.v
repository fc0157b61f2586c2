(** Every history of calls on a sampler. *)
From Verif Require Import Base BaseLemmas Flt BitsProofs SfmtModel SfmtSpec SfmtProofs SfmtArray SfmtServe KeyProofs.
Local Open Scope nat_scope.

Section Rel.
Variable V : nat -> w128.
Hypothesis F : follows V.
Hypothesis WF : forall n, wf (V n).
Variable x : nat -> N.
Hypothesis X : forall n, x n = num (V n).

Lemma word_lane k : word x k = lane (V (156 + k / 4)) (k mod 4).
Proof. unfold word. rewrite X. apply num_lane; [apply WF|apply Nat.mod_upper_bound; lia]. Qed.
Lemma word_at q r : r < 4 -> word x (4 * q + r) = lane (V (156 + q)) r.
Proof.
  intro R. rewrite word_lane. replace ((4 * q + r) / 4) with q by (rewrite Nat.mul_comm, Nat.div_add_l, Nat.div_small by lia; lia).
  replace ((4 * q + r) mod 4) with r; [reflexivity|]. rewrite Nat.mul_comm, Nat.add_comm, Nat.mod_add, Nat.mod_small by lia. reflexivity.
Qed.
Lemma word_lt k : (word x k < 2 ^ 32)%N.
Proof. apply N.mod_lt. discriminate. Qed.

Definition at_pos (s : sfmt) (k j : nat) : Prop :=
  exists b, holds V b (s_state s) /\ k + 624 = 4 * b + s_idx s /\ s_idx s <= 624 /\ (s_idx s < 624 -> 156 <= b) /\
    s_idx s = (if j =? 0 then 624 else (j - 1) mod 624 + 1).
Lemma refill_ok s k j : at_pos s k j ->
  exists s' b, refill s = Ok s' /\ holds V b (s_state s') /\ k + 624 = 4 * b + s_idx s' /\ s_idx s' = j mod 624 /\ 156 <= b.
Proof.
  intros (b & H & E & LE & GE & J). unfold refill, SFMT_N32.
  assert (JM : s_idx s < 624 -> s_idx s = j mod 624).
  { intro LT. destruct (Nat.eqb_spec j 0); [lia|]. pose proof (Nat.div_mod (j - 1) 624 ltac:(lia)) as D. symmetry. rewrite J.
    replace j with ((j - 1) mod 624 + 1 + (j - 1) / 624 * 624) at 1 by lia. rewrite Nat.mod_add by lia. apply Nat.mod_small. lia. }
  assert (JZ : s_idx s = 624 -> j mod 624 = 0).
  { intro EQ. destruct (Nat.eqb_spec j 0) as [->|]; [reflexivity|]. pose proof (Nat.div_mod (j - 1) 624 ltac:(lia)) as D.
    replace j with (((j - 1) / 624 + 1) * 624) by lia. apply Nat.mod_mul. lia. }
  destruct (Nat.leb_spec 624 (s_idx s)) as [G|G].
  - destruct (gen_rand_all_ok (fun n => V (b + n)) (follows_shift V b F) (s_state s)) as (st' & ES & L' & H').
    { exact H. }
    rewrite ES. cbn [bind]. exists (Sfmt st' 0), (b + 156). cbn [s_state s_idx]. split; [reflexivity|]. split; [|rewrite JZ by lia; lia].
    split; [exact L'|]. intros i I. rewrite (H' i I). f_equal. f_equal. lia.
  - exists s, b. split; [reflexivity|]. split; [exact H|]. split; [exact E|]. split; [apply JM; exact G|apply GE; exact G].
Qed.
Lemma read_word s b k : holds V b (s_state s) -> k + 624 = 4 * b + s_idx s -> s_idx s < 624 -> 156 <= b ->
  aget (flat (s_state s)) (s_idx s) = Ok (word x k).
Proof.
  intros (L & H) E LT GE. pose proof (Nat.div_mod (s_idx s) 4 ltac:(lia)) as D. pose proof (Nat.mod_upper_bound (s_idx s) 4 ltac:(lia)) as R.
  apply aget_at. rewrite D at 1. rewrite (flat_nth _ _ _ (V (b + s_idx s / 4))) by (try (apply H; lia); exact R).
  f_equal. replace k with (4 * (b + s_idx s / 4 - 156) + s_idx s mod 4) by lia. rewrite word_at by exact R. f_equal. f_equal. lia.
Qed.
Lemma mod_next j : j mod 624 < 623 -> (j + 1) mod 624 = j mod 624 + 1.
Proof. intro H. pose proof (Nat.div_mod j 624 ltac:(lia)). replace (j + 1) with (j mod 624 + 1 + j / 624 * 624) by lia. rewrite Nat.mod_add by lia. apply Nat.mod_small. lia. Qed.
Lemma genrand32_ok s k j : at_pos s k j -> exists s', sfmt_genrand_uint32 s = Ok (word x k, s') /\ at_pos s' (k + 1) (j + 1).
Proof.
  intro A. destruct (refill_ok s k j A) as (s1 & b & E & H & K & J & GE). unfold sfmt_genrand_uint32. rewrite E. cbn [bind].
  assert (LT : s_idx s1 < 624) by (rewrite J; apply Nat.mod_upper_bound; lia).
  rewrite (read_word s1 b k H K LT GE). cbn [bind]. eexists. split; [reflexivity|]. exists b. cbn [s_state s_idx]. split; [exact H|].
  split; [lia|]. split; [lia|]. split; [intro; exact GE|]. destruct (Nat.eqb_spec (j + 1) 0); [lia|]. replace (j + 1 - 1) with j by lia. lia.
Qed.
Lemma genrand64_ok s k j : at_pos s k j ->
  if k mod 2 =? 0
  then exists s', sfmt_genrand_uint64 s = Ok (word x k + 2 ^ 32 * word x (k + 1), s')%N /\ at_pos s' (k + 2) (j + 2)
  else sfmt_genrand_uint64 s = Fatal.
Proof.
  intro A. unfold sfmt_genrand_uint64.
  assert (P : s_idx s mod 2 = k mod 2).
  { destruct A as (b & _ & K & _). replace (k mod 2) with ((k + 312 * 2) mod 2) by (apply Nat.mod_add; lia). change (312 * 2) with 624. rewrite K. rewrite Nat.add_comm. replace (4 * b) with (2 * b * 2) by lia. symmetry. apply Nat.mod_add. lia. }
  rewrite P. destruct (Nat.eqb_spec (k mod 2) 0) as [Z|NZ]; [|reflexivity]. cbn [negb].
  destruct (refill_ok s k j A) as (s1 & b & E & H & K & J & GE). rewrite E. cbn [bind].
  assert (LT : s_idx s1 < 624) by (rewrite J; apply Nat.mod_upper_bound; lia).
  assert (EV : s_idx s1 mod 2 = 0).
  { transitivity (k mod 2); [|exact Z]. replace (k mod 2) with ((k + 312 * 2) mod 2) by (apply Nat.mod_add; lia). change (312 * 2) with 624. rewrite K. rewrite Nat.add_comm. replace (4 * b) with (2 * b * 2) by lia. symmetry. apply Nat.mod_add. lia. }
  pose proof (Nat.div_mod (s_idx s1) 2 ltac:(lia)) as D. assert (D2 : 2 * (s_idx s1 / 2) = s_idx s1) by lia. rewrite D2.
  assert (LT1 : s_idx s1 + 1 < 624).
  { destruct (Nat.eq_dec (s_idx s1) 623) as [E6|]; [rewrite E6 in EV; discriminate|lia]. }
  rewrite (read_word s1 b k H K LT GE). cbn [bind].
  pose proof (read_word (Sfmt (s_state s1) (s_idx s1 + 1)) b (k + 1) H ltac:(cbn [s_idx]; lia) LT1 GE) as R2. cbn [s_state s_idx] in R2. rewrite R2. cbn [bind].
  eexists. split; [reflexivity|]. exists b. cbn [s_state s_idx]. split; [exact H|]. split; [lia|]. split; [lia|]. split; [intro; exact GE|].
  destruct (Nat.eqb_spec (j + 2) 0); [lia|]. replace (j + 2 - 1) with (j + 1) by lia. rewrite mod_next by lia. lia.
Qed.
Lemma res53_ok s k j : at_pos s k j ->
  exists s', sfmt_genrand_res53_mix s = Ok ((word x k + 2 ^ 32 * word x (k + 1)) / 2 ^ 11, s')%N /\ at_pos s' (k + 2) (j + 2).
Proof.
  intro A. destruct (genrand32_ok s k j A) as (s1 & E1 & A1). destruct (genrand32_ok s1 _ _ A1) as (s2 & E2 & A2).
  unfold sfmt_genrand_res53_mix. rewrite E1. cbn [bind]. rewrite E2. cbn [bind]. exists s2. split.
  - do 2 f_equal. unfold to_res53. rewrite N.shiftr_div_pow2. f_equal. apply N.bits_inj. intro i. rewrite cat_bit by apply word_lt.
    rewrite N.lor_comm. apply lor_bit. apply word_lt.
  - replace (k + 2) with (k + 1 + 1) by lia. replace (j + 2) with (j + 1 + 1) by lia. exact A2.
Qed.
(** Arrays: [m] 128-bit words. *)
Lemma fill_words s k j buf m : at_pos s k j -> s_idx s = 624 -> length buf = 4 * m -> 156 <= m ->
  exists ar' st', gen_rand_array (s_state s) (group4 buf) m = Ok (ar', st') /\
    flat ar' ++ skipn (4 * length (group4 buf)) buf = words x k (4 * m) /\ at_pos (Sfmt st' 624) (k + 4 * m) 0.
Proof.
  intros (b & H & K & _) I L M.
  assert (H0 : holds (fun n => V (b + n)) 0 (s_state s)) by exact H.
  destruct (gen_rand_array_ok _ (follows_shift V b F) (s_state s) H0 m (group4 buf) M (group4_length _ _ L)) as (ar' & st' & E & LA & NA & HS).
  exists ar', st'. split; [exact E|]. split.
  - rewrite (group4_length _ _ L), skipn_all2, app_nil_r by lia. apply list_ext. intro t. destruct (Nat.lt_ge_cases t (4 * m)) as [T|T].
    + pose proof (Nat.div_mod t 4 ltac:(lia)) as D. pose proof (Nat.mod_upper_bound t 4 ltac:(lia)) as R.
      rewrite D at 1. rewrite (flat_nth _ _ _ _ (NA (t / 4) ltac:(lia)) R).
      unfold words. rewrite nth_error_map. rewrite (nth_error_nth' _ 0) by (rewrite seq_length; lia). rewrite seq_nth by lia. cbn [option_map]. f_equal.
      replace (k + t) with (4 * (b + t / 4) + t mod 4) by lia. rewrite word_at by exact R. f_equal. f_equal. lia.
    + transitivity (@None N); [apply nth_error_None; rewrite flat_length, LA; lia|]. symmetry. apply nth_error_None. unfold words. rewrite map_length, seq_length. lia.
  - exists (b + m). cbn [s_state s_idx]. split; [|cbn [Nat.eqb]; lia]. destruct HS as [L' H']. split; [exact L'|]. intros i J. rewrite (H' i J). f_equal. f_equal. lia.
Qed.
Lemma idx_fresh s k j : at_pos s k j -> (s_idx s =? SFMT_N32) = (j mod 624 =? 0).
Proof.
  intro A. destruct A as (b & _ & _ & LE & _ & J). unfold SFMT_N32. rewrite J. destruct (Nat.eqb_spec j 0) as [->|NZ]; [reflexivity|].
  pose proof (Nat.mod_upper_bound (j - 1) 624 ltac:(lia)). pose proof (Nat.div_mod (j - 1) 624 ltac:(lia)) as D.
  destruct (Nat.eq_dec ((j - 1) mod 624) 623) as [E|NE].
  - rewrite E. replace j with (((j - 1) / 624 + 1) * 624) by lia. rewrite Nat.mod_mul by lia. reflexivity.
  - replace j with (j - 1 + 1) at 2 by lia. rewrite mod_next by lia. destruct (Nat.eqb_spec ((j - 1) mod 624 + 1) 624), (Nat.eqb_spec ((j - 1) mod 624 + 1) 0); lia.
Qed.
Lemma fill_ok s k j buf n per mini c : at_pos s k j -> Z.of_nat (length buf) = (Z.of_nat c * Z.max 0 n)%Z -> (Z.of_nat c * per = 4)%Z -> (0 < per)%Z -> (mini = 156 * per)%Z ->
  if (j mod 624 =? 0) && (n mod per =? 0)%Z && (mini <=? n)%Z
  then exists s', fill_array per mini s buf n = Ok (words x k (c * Z.to_nat n), s') /\ at_pos s' (k + c * Z.to_nat n) 0
  else fill_array per mini s buf n = Fatal.
Proof.
  intros A LB CP PP MI. unfold fill_array. rewrite (idx_fresh s k j A). destruct (Nat.eqb_spec (j mod 624) 0) as [Z|NZ]; [|reflexivity]. cbn [negb andb].
  assert (RM : (Z.rem n per =? 0)%Z = (n mod per =? 0)%Z).
  { destruct (Z.eqb_spec (Z.rem n per) 0) as [R|R], (Z.eqb_spec (n mod per) 0) as [M|M]; try reflexivity; exfalso.
    - apply M. apply Z.rem_divide in R; [|lia]. apply Z.mod_divide; [lia|exact R].
    - apply R. apply Z.mod_divide in M; [|lia]. apply Z.rem_divide; [lia|exact M]. }
  rewrite RM. destruct (Z.eqb_spec (n mod per) 0) as [M|M]; [|reflexivity]. cbn [negb andb].
  destruct (Z.ltb_spec n mini), (Z.leb_spec mini n); try (exfalso; lia); [reflexivity|].
  assert (Q : n = (per * Z.quot n per)%Z).
  { pose proof (Z.quot_rem n per ltac:(lia)). apply Z.eqb_eq in RM. lia. }
  set (m := Z.quot n per) in *. assert (M0 : (156 <= m)%Z) by nia.
  destruct (fill_words s k j buf (Z.to_nat m) A) as (ar' & st' & E & W & AP).
  { pose proof (idx_fresh s k j A) as IF. rewrite Z in IF. apply Nat.eqb_eq. exact IF. }
  { nia. }
  { lia. }
  replace (c * Z.to_nat n) with (4 * Z.to_nat m) by nia.
  rewrite E. cbn [bind]. rewrite W. eexists. split; [reflexivity|]. exact AP.
Qed.
End Rel.

Section Calls.
Variable X : N -> nat -> N.
Hypothesis XS : forall seed, (seed < 2 ^ 32)%N -> seeded seed (X seed).
Definition related (seed : N) (s : sfmt) (k j : nat) : Prop :=
  (seed < 2 ^ 32)%N /\ at_pos (seq_of (init_state seed)) s k j.
Lemma related_init seed : (seed < 2 ^ 32)%N -> related seed (sfmt_init_gen_rand seed) 0 0.
Proof.
  clear XS X. intro S0. split; [exact S0|]. destruct (init_state_ok seed S0) as (L & _).
  assert (G : forall s, s_state s = init_state seed -> s_idx s = 624 -> at_pos (seq_of (init_state seed)) s 0 0).
  { generalize (init_state seed), L. intros st L' s ES EI. exists 0. rewrite ES, EI. split; [exact (seq_holds st L')|]. cbn [Nat.eqb]. lia. }
  apply G; [unfold init_state; reflexivity|]. unfold sfmt_init_gen_rand. cbv zeta. reflexivity.
Qed.
Lemma call_ok o seed s k j : proper o -> related seed s k j ->
  match serve1 X o seed k j with
  | Some (a, seed', k', j') => exists s', call o s = Ok (a, s') /\ related seed' s' k' j'
  | None => call o s = Fatal
  end.
Proof.
  intros P (S0 & A). destruct (init_state_ok seed S0) as (L & _). pose proof (seq_follows _ L) as FO. pose proof (seq_wf _ L (init_state_wf seed S0)) as WF.
  assert (XE : forall n, X seed n = num (seq_of (init_state seed) n)) by (intro n; apply (seeded_unique seed (X seed) (the_seq seed)); [apply XS; exact S0|apply the_seq_seeded; exact S0]).
  destruct o as [| | | |n buf|n buf|seed']; cbn [serve1 call proper] in *.
  - destruct (genrand32_ok _ FO WF _ XE s k j A) as (s' & -> & A'). cbn [bind]. exists s'. split; [reflexivity|]. split; assumption.
  - pose proof (genrand64_ok _ FO WF _ XE s k j A) as G. destruct (k mod 2 =? 0); [|rewrite G; reflexivity].
    destruct G as (s' & -> & A'). cbn [bind]. exists s'. split; [reflexivity|]. split; assumption.
  - destruct (genrand32_ok _ FO WF _ XE s k j A) as (s' & -> & A'). cbn [bind]. exists s'. split; [reflexivity|]. split; assumption.
  - destruct (res53_ok _ FO WF _ XE s k j A) as (s' & -> & A'). cbn [bind]. exists s'. split; [reflexivity|]. split; assumption.
  - pose proof (fill_ok _ FO WF _ XE s k j buf n 4 624 1 A ltac:(lia) ltac:(lia) ltac:(lia) ltac:(lia)) as G. unfold sfmt_fill_array32, SFMT_N32. change (Z.of_nat 624) with 624%Z.
    destruct ((j mod 624 =? 0) && (n mod 4 =? 0)%Z && (624 <=? n)%Z); [|rewrite G; reflexivity]. rewrite Nat.mul_1_l in G.
    destruct G as (s' & -> & A'). cbn [bind]. exists s'. split; [reflexivity|]. split; assumption.
  - pose proof (fill_ok _ FO WF _ XE s k j buf n 2 312 2 A ltac:(lia) ltac:(lia) ltac:(lia) ltac:(lia)) as G. unfold sfmt_fill_array64, SFMT_N64. change (Z.of_nat 312) with 312%Z.
    destruct ((j mod 624 =? 0) && (n mod 2 =? 0)%Z && (312 <=? n)%Z); [|rewrite G; reflexivity].
    destruct G as (s' & -> & A'). cbn [bind]. exists s'. split; [reflexivity|]. split; assumption.
  - eexists. split; [reflexivity|]. apply related_init. exact P.
Qed.
Lemma calls_ok os : Forall proper os -> forall seed s k j, related seed s k j ->
  match serve X os seed k j with
  | Some l => exists s', calls os s = Ok (l, s')
  | None => calls os s = Fatal
  end.
Proof.
  induction 1 as [|o os P _ IH]; intros seed s k j R; cbn [serve calls]; [eauto|].
  pose proof (call_ok o seed s k j P R) as C. destruct (serve1 X o seed k j) as [[[[a seed'] k'] j']|]; [|rewrite C; reflexivity].
  destruct C as (s' & -> & R'). cbn [bind]. specialize (IH seed' s' k' j' R'). destruct (serve X os seed' k' j'); [|rewrite IH; reflexivity].
  destruct IH as (s'' & ->). cbn [bind]. eauto.
Qed.
End Calls.
