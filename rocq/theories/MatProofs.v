(** Lemmas about the matrix functions. *)
From Verif Require Import Base BaseLemmas BitsModel BitsSpec BitsProofs MatModel MatSpec.

Local Open Scope nat_scope.

Lemma NoDup_map_on {A B} (f : A -> B) l : (forall a b, In a l -> In b l -> f a = f b -> a = b) -> NoDup l -> NoDup (map f l).
Proof.
  induction l as [|x l IH]; intros Hf Hn; simpl; [constructor|]. inversion Hn as [|? ? Hx Hl]; subst.
  constructor.
  - intros H. apply in_map_iff in H. destruct H as [y [E Hy]].
    assert (y = x) by (apply Hf; simpl; auto). subst. auto.
  - apply IH; auto. intros; apply Hf; simpl; auto.
Qed.

(** * The permutation behind the in-place transpose *)

Section Perm.
Variables m n M : nat.
Hypothesis HM : m * n = S M.
Hypothesis HM0 : 0 < M.

Definition pm (i : nat) : nat := (i * n) mod M.

Lemma pm_lt i : pm i < M.
Proof. apply Nat.mod_upper_bound. lia. Qed.

Lemma pm_inv i : i < M -> (pm i * m) mod M = i.
Proof.
  intros Hi. unfold pm. rewrite Nat.mul_mod_idemp_l by lia.
  replace (i * n * m) with (i + i * M) by nia.
  rewrite Nat.mod_add by lia. apply Nat.mod_small; auto.
Qed.

Lemma pm_inj i j : i < M -> j < M -> pm i = pm j -> i = j.
Proof. intros Hi Hj E. rewrite <- (pm_inv i Hi), <- (pm_inv j Hj), E. reflexivity. Qed.

Lemma pm_0 : pm 0 = 0.
Proof. unfold pm. simpl. apply Nat.mod_0_l. lia. Qed.

Lemma pm_pos i : 0 < i -> i < M -> 0 < pm i.
Proof.
  intros H1 H2. destruct (Nat.eq_dec (pm i) 0) as [E|]; [|lia].
  rewrite <- pm_0 in E. apply pm_inj in E; lia.
Qed.

Lemma pm_pos_inv i : 0 < pm i -> 0 < i.
Proof. intros H. destruct i; [rewrite pm_0 in H; lia|lia]. Qed.

Fixpoint it (s t : nat) : nat := match t with O => s | S t' => pm (it s t') end.

Lemma it_lt s t : s < M -> it s t < M.
Proof. destruct t; simpl; auto using pm_lt. Qed.
Lemma it_pos s t : 0 < s -> s < M -> 0 < it s t.
Proof. intros H1 H2. induction t; simpl; auto using pm_pos, it_lt. Qed.

Lemma it_cancel s : s < M -> forall a b, it s (a + b) = it s a -> it s b = s.
Proof.
  intros Hs a. induction a as [|a IH]; intros b E; simpl in E; auto.
  apply pm_inj in E; auto using it_lt.
Qed.

(** The cycle of [s] closes within M steps. *)
Lemma it_returns s : s < M -> ~ (forall j, 1 <= j <= M -> it s j <> s).
Proof.
  intros Hs Hne.
  assert (ND : NoDup (map (it s) (seq 0 (S M)))).
  { apply NoDup_map_on; [|apply seq_NoDup].
    assert (G : forall a b, a < b -> b <= M -> it s a <> it s b).
    { intros a b Hab Hb E. apply (Hne (b - a)); [lia|]. apply (it_cancel s Hs a).
      replace (a + (b - a)) with b by lia. auto. }
    intros a b Ha Hb E. apply in_seq in Ha, Hb.
    destruct (Nat.lt_trichotomy a b) as [L|[L|L]]; auto.
    - destruct (G a b L); auto; lia.
    - destruct (G b a L); auto; lia. }
  pose proof (NoDup_incl_length ND (l' := seq 0 M)) as L.
  rewrite map_length, !seq_length in L.
  assert (S M <= M); [|lia]. apply L.
  intros x Hx. apply in_map_iff in Hx. destruct Hx as [t [<- _]].
  apply in_seq. pose proof (it_lt s t Hs). lia.
Qed.

(** * One cycle *)
Variable D : Type.
Variables A0 A1 : list D.
Variable q : N.
Hypothesis Hq : q = N.of_nat (S M).
Hypothesis Hbig : (N.of_nat (S M) * N.of_nat n < 2 ^ 64)%N.
Hypothesis HL : S M <= length A0.
Hypothesis HL1 : length A1 = length A0.

Lemma step_N i : i < S M -> (wrap 64 (N.of_nat i * N.of_nat n) mod (q - 1))%N = N.of_nat (pm i).
Proof.
  intros Hi. unfold wrap. rewrite (N.mod_small (N.of_nat i * N.of_nat n)) by (eapply N.le_lt_trans; [apply N.mul_le_mono_r|exact Hbig]; lia).
  rewrite Hq. replace (N.of_nat (S M) - 1)%N with (N.of_nat M) by lia.
  unfold pm. rewrite Nat2N.inj_mod, Nat2N.inj_mul. reflexivity.
Qed.

Definition cyc (s t : nat) (mv0 mv : N -> bool) (A : list D) : Prop :=
  length A = length A0 /\
  (forall j, j < t -> nth_error A (it s (S j)) = nth_error A0 (it s j)) /\
  (forall k, (forall j, j < t -> k <> it s (S j)) -> nth_error A k = nth_error A1 k) /\
  (forall k, mv (N.of_nat k) = true <-> mv0 (N.of_nat k) = true \/ exists j, j < t /\ k = it s j).

Lemma move_cycle_ok s mv0 : s < M ->
  (forall j, nth_error A1 (it s j) = nth_error A0 (it s j)) ->
  forall fuel t t0 A bits mv,
  M <= t + fuel -> 0 < fuel -> bits_rep q bits mv -> cyc s t mv0 mv A ->
  (forall j, 1 <= j <= t -> it s j <> s) -> Some t0 = nth_error A0 (it s t) ->
  exists A' bits' mv' t', move_cycle fuel (N.of_nat n) q (N.of_nat s) (N.of_nat (it s t)) (N.of_nat (it s (S t))) t0 A bits = Ok (A', bits') /\
    bits_rep q bits' mv' /\ length bits' = length bits /\ cyc s (S t') mv0 mv' A' /\ it s (S t') = s.
Proof.
  intros Hs HA1. induction fuel as [|fuel IH]; intros t t0 A bits mv Hf Hf0 Hb Hc Hne Ht0; [lia|].
  destruct Hc as [C1 [C2 [C3 C4]]].
  pose proof (it_lt s (S t) Hs) as B1. pose proof (it_lt s t Hs) as B0.
  assert (Fr : forall j, j < t -> it s (S t) <> it s (S j)).
  { intros j Hj E. apply (Hne (t - j)); [lia|]. apply (it_cancel s Hs (S j)).
    replace (S j + (t - j)) with (S t) by lia. auto. }
  assert (Rd : exists t1, aget A (N.to_nat (N.of_nat (it s (S t)))) = Ok t1 /\ Some t1 = nth_error A0 (it s (S t))).
  { rewrite Nat2N.id. unfold aget. rewrite C3, HA1 by auto.
    destruct (nth_error A0 (it s (S t))) eqn:E; [eexists; split; reflexivity|].
    apply nth_error_None in E. lia. }
  destruct Rd as [t1 [E1 Ht1]]. cbn [move_cycle]. rewrite E1. cbn [bind].
  rewrite Nat2N.id, aset_lt by lia. cbn [bind].
  destruct (bits_set q bits mv (N.of_nat (it s t)) true Hb) as [bits1 [Eb [Lb Rb]]]; [lia|].
  rewrite Eb. cbn [bind].
  assert (Hc' : cyc s (S t) mv0 (bits_store mv (N.of_nat (it s t), true)) (lset A (it s (S t)) t0)).
  { split; [rewrite lset_length; auto|]. split; [|split].
    - intros j Hj. destruct (Nat.eq_dec (it s (S j)) (it s (S t))) as [E|E].
      + rewrite E, nth_error_lset_eq by lia.
        assert (j = t); [|subst; rewrite Ht0; reflexivity].
        destruct (Nat.eq_dec j t); auto. destruct (Fr j); auto. lia.
      + rewrite nth_error_lset_neq by auto. apply C2.
        assert (j <> t) by (intros ->; auto). lia.
    - intros k Hk. rewrite nth_error_lset_neq by (intros E; apply (Hk t); auto).
      apply C3. intros j Hj. apply Hk. lia.
    - intros k. unfold bits_store; cbn [fst snd].
      destruct (N.eqb_spec (N.of_nat k) (N.of_nat (it s t))) as [E|E].
      + split; auto. intros _. right. exists t. split; [lia|]. lia.
      + rewrite C4. split; intros [H|[j [Hj ->]]]; auto.
        * right. exists j. split; auto.
        * right. exists j. split; auto. assert (j <> t) by (intros ->; auto). lia. }
  destruct (N.eqb_spec (N.of_nat (it s (S t))) (N.of_nat s)) as [E|E].
  - eexists _, bits1, _, t. split; [reflexivity|]. split; [exact Rb|]. split; auto. split; auto. lia.
  - rewrite step_N by lia.
    assert (Hne' : forall j, 1 <= j <= S t -> it s j <> s).
    { intros j Hj. destruct (Nat.eq_dec j (S t)) as [->|]; [lia|apply Hne; lia]. }
    destruct (Nat.le_gt_cases M (S t)) as [L|L].
    { destruct (it_returns s Hs). intros j Hj. apply Hne'. lia. }
    destruct (IH (S t) t1 (lset A (it s (S t)) t0) bits1 _ ltac:(lia) ltac:(lia) Rb Hc' Hne' Ht1)
      as [A' [bits' [mv' [t' [F1 [F2 [F3 F4]]]]]]].
    exists A', bits', mv', t'. split; [exact F1|]. split; [exact F2|]. split; [congruence|exact F4].
Qed.
End Perm.

Section Outer.
Variables m n M : nat.
Hypothesis HM : m * n = S M.
Hypothesis HM0 : 0 < M.
Variable D : Type.
Variable A0 : list D.
Variable q : N.
Hypothesis Hq : q = N.of_nat (S M).
Hypothesis Hbig : (N.of_nat (S M) * N.of_nat n < 2 ^ 64)%N.
Hypothesis HL : S M <= length A0.
Let p := pm n M.

Definition outer (i : nat) (mv : N -> bool) (A : list D) : Prop :=
  length A = length A0 /\
  (forall k, mv (N.of_nat k) = true -> 1 <= k < M) /\
  (forall k, mv (N.of_nat k) = true -> nth_error A (p k) = nth_error A0 k) /\
  (forall k, mv (N.of_nat k) = false -> nth_error A k = nth_error A0 k) /\
  (forall k, k < M -> mv (N.of_nat (p k)) = mv (N.of_nat k)) /\
  (forall k, 1 <= k < i -> mv (N.of_nat k) = true \/ p k = k).

Definition tstep (i : N) (s : list D * list N) : res (list D * list N) :=
  let '(A, moved) := s in
  let* b := nx_bit_array_get moved i in
  if (b =? 0)%N then
    let idx1 := (wrap 64 (i * N.of_nat n) mod (q - 1))%N in
    if (i =? idx1)%N then Ok (A, moved)
    else let* t0 := aget A (N.to_nat i) in move_cycle (N.to_nat q) (N.of_nat n) q i i idx1 t0 A moved
  else Ok (A, moved).

Lemma it_closed (mv : N -> bool) s : s < M -> (forall k, k < M -> mv (N.of_nat (p k)) = mv (N.of_nat k)) ->
  forall t, mv (N.of_nat (it n M s t)) = mv (N.of_nat s).
Proof.
  intros Hs Hc. induction t as [|t IH]; simpl; auto. fold p. rewrite Hc; auto.
  apply (it_lt m n M HM HM0); auto.
Qed.

Lemma tstep_ok i A bits mv : 1 <= i < M -> bits_rep q bits mv -> outer i mv A ->
  exists A' bits' mv', tstep (N.of_nat i) (A, bits) = Ok (A', bits') /\ bits_rep q bits' mv' /\
    length bits' = length bits /\ outer (S i) mv' A'.
Proof.
  intros Hi Hb [O1 [O2 [O3 [O4 [O5 O6]]]]].
  destruct (bits_get q bits mv (N.of_nat i) Hb) as [v [Ev Hv]]; [lia|].
  unfold tstep. rewrite Ev. cbn [bind]. rewrite Hv.
  destruct (mv (N.of_nat i)) eqn:Em; cbn [negb].
  { exists A, bits, mv. split; auto. split; auto. split; auto.
    repeat (split; auto). intros k Hk. destruct (Nat.eq_dec k i) as [->|]; auto. apply O6; lia. }
  erewrite (step_N m n M HM HM0) by (eauto; lia). fold p.
  destruct (N.eqb_spec (N.of_nat i) (N.of_nat (p i))) as [E|E].
  { exists A, bits, mv. split; auto. split; auto. split; auto.
    repeat (split; auto). intros k Hk. destruct (Nat.eq_dec k i) as [->|]; [right; lia|]. apply O6; lia. }
  assert (Hit : forall j, nth_error A (it n M i j) = nth_error A0 (it n M i j)).
  { intros j. apply O4. rewrite it_closed; auto. lia. }
  destruct (nth_error A i) as [t0|] eqn:Et; [|apply nth_error_None in Et; lia].
  unfold aget at 1. rewrite Nat2N.id, Et. cbn [bind].
  destruct (move_cycle_ok m n M HM HM0 D A0 A q Hq Hbig HL O1 i mv ltac:(lia) Hit (N.to_nat q) 0 t0 A bits mv)
    as [A' [bits' [mv' [t' [F1 [F2 [F3 [[C1 [C2 [C3 C4]]] F5]]]]]]]]; auto; try lia.
  { split; auto. split; [intros; lia|]. split; auto. intros k. split; auto. intros [H|[j [Hj _]]]; auto; lia. }
  { rewrite <- Hit. simpl. auto. }
  assert (Hmem : forall k, (exists j, j < S t' /\ k = it n M i j) -> (exists j, j < S t' /\ k = it n M i (S j))).
  { intros k [j [Hj ->]]. destruct j as [|j].
    - exists t'. split; auto.
    - exists j. split; auto. lia. }
  exists A', bits', mv'. split; [exact F1|]. split; auto. split; auto.
  split; auto. split; [|split; [|split; [|split]]].
  - intros k Hk. apply C4 in Hk. destruct Hk as [Hk|[j [Hj ->]]]; auto.
    pose proof (it_lt m n M HM HM0 i j ltac:(lia)). pose proof (it_pos m n M HM HM0 i j ltac:(lia) ltac:(lia)). lia.
  - intros k Hk. apply C4 in Hk. destruct Hk as [Hk|[j [Hj ->]]].
    + rewrite C3; auto. intros j Hj E2.
      assert (mv (N.of_nat (p k)) = false).
      { rewrite E2. simpl it. fold p. change (p (it n M i j)) with (it n M i (S j)). rewrite it_closed; auto. lia. }
      rewrite O5 in H by (apply O2 in Hk; lia). congruence.
    + apply (C2 j); auto.
  - intros k Hk. destruct (mv (N.of_nat k)) eqn:Ek.
    { assert (mv' (N.of_nat k) = true) by (apply C4; auto). congruence. }
    rewrite C3; auto. intros j Hj E2.
    assert (mv' (N.of_nat k) = true); [|congruence]. apply C4. right.
    destruct (Nat.eq_dec (S j) (S t')) as [E3|E3].
    + exists 0. split; [lia|]. rewrite E2, E3. auto.
    + exists (S j). split; [lia|auto].
  - intros k Hk. apply Bool.eq_true_iff_eq. rewrite !C4, O5 by auto.
    split; (intros [H|H]; [auto|right]).
    + apply Hmem in H. destruct H as [j [Hj E2]]. exists j. split; auto.
      apply (pm_inj m n M HM HM0); auto. apply (it_lt m n M HM HM0); auto. lia.
    + destruct H as [j [Hj ->]]. destruct (Nat.eq_dec j t') as [->|].
      * exists 0. split; [lia|]. exact F5.
      * exists (S j). split; [lia|]. reflexivity.
  - intros k Hk. destruct (Nat.eq_dec k i) as [->|].
    + left. apply C4. right. exists 0. split; [lia|reflexivity].
    + destruct (O6 k ltac:(lia)) as [H|H]; auto. left. apply C4. auto.
Qed.

Lemma tloop_ok : forall len i A bits mv, 1 <= i -> i + len = Nat.max i M -> bits_rep q bits mv -> outer i mv A ->
  exists A' bits' mv', for_each tstep (map N.of_nat (seq i len)) (A, bits) = Ok (A', bits') /\ outer (i + len) mv' A'.
Proof.
  induction len as [|len IH]; intros i A bits mv Hi Hl Hb Ho.
  - exists A, bits, mv. rewrite Nat.add_0_r. split; auto.
  - destruct (tstep_ok i A bits mv ltac:(lia) Hb Ho) as [A1 [b1 [mv1 [E1 [R1 [L1 O1]]]]]].
    destruct (IH (S i) A1 b1 mv1 ltac:(lia) ltac:(lia) R1 O1) as [A2 [b2 [mv2 [E2 O2]]]].
    exists A2, b2, mv2. cbn [seq map for_each]. rewrite E1. cbn [bind]. split; [exact E2|].
    replace (i + S len) with (S i + len) by lia. auto.
Qed.

Lemma outer_done mv A : outer M mv A -> transposed m n A0 A.
Proof.
  intros [O1 [O2 [O3 [O4 [O5 O6]]]]]. split; auto.
  assert (Hout : forall k, k < 1 \/ M <= k -> nth_error A k = nth_error A0 k).
  { intros k Hk. apply O4. destruct (mv (N.of_nat k)) eqn:E; auto. apply O2 in E. lia. }
  split.
  - intros r c Hr Hc. unfold elem.
    set (k := c * m + r).
    assert (Hk : k <= M) by (unfold k; nia).
    destruct (Nat.eq_dec k M) as [E|E].
    + assert (r * n + c = M) by (unfold k in *; nia).
      rewrite E, H. apply Hout. lia.
    + assert (Hp : p k = r * n + c).
      { unfold p, pm, k. replace ((c * m + r) * n) with (r * n + c + c * M) by nia.
        rewrite Nat.mod_add by lia. apply Nat.mod_small.
        assert (r * n + c <= M) by nia. assert (r * n + c <> M); [|lia].
        intros E2. apply E. unfold k. nia. }
      destruct (Nat.eq_dec k 0) as [Z|Z].
      { rewrite Z in Hp |- *. unfold p in Hp. rewrite (pm_0 m n M HM HM0) in Hp. rewrite <- Hp. apply Hout. lia. }
      rewrite <- Hp. destruct (O6 k ltac:(lia)) as [H|H]; auto.
      destruct (mv (N.of_nat k)) eqn:Ek; auto. rewrite H. apply O4; auto.
  - intros k Hk. apply Hout. lia.
Qed.
End Outer.

Theorem transpose_ok {D} raw m n (A : list D) :
  0 < m -> 0 < n -> (Z.of_nat m * Z.of_nat n <= INT_MAX)%Z -> m * n <= length A ->
  bytes_ok raw -> N.of_nat (length raw) = nx_bit_array_n_bytes (N.of_nat (m * n)) ->
  exists B, nx_dmat_transpose raw (Z.of_nat m) (Z.of_nat n) A = Ok B /\ transposed m n A B.
Proof.
  intros Hm Hn Hmax HL Hraw Hlen. unfold INT_MAX in Hmax.
  assert (Hq : exists M, m * n = S M) by (exists (m * n - 1); nia).
  destruct Hq as [M HM].
  unfold nx_dmat_transpose.
  replace (Z.of_nat m <=? 0)%Z with false by lia. replace (Z.of_nat n <=? 0)%Z with false by lia.
  unfold chk_int. replace (in_int (Z.of_nat m * Z.of_nat n)) with true
    by (unfold in_int, INT_MIN, INT_MAX; lia).
  cbn [bind].
  replace (Z.to_N (Z.of_nat m * Z.of_nat n)) with (N.of_nat (S M)) by lia.
  replace (Z.to_N (Z.of_nat n)) with (N.of_nat n) by lia.
  rewrite HM in Hlen.
  destruct (bits_zero (N.of_nat (S M)) raw) as [z [Ez [Lz Rz]]]; auto; [lia|].
  rewrite Ez. cbn [bind].
  destruct (Nat.eq_dec M 0) as [->|HM0].
  { cbn [N.of_nat]. replace (N.to_nat (N.of_nat 1 - 1) - 1) with 0 by lia.
    cbn. exists A. split; auto. split; auto. split; auto.
    intros r c Hr Hc. unfold elem. f_equal. assert (m = 1) by nia. assert (n = 1) by nia. nia. }
  assert (Hbig : (N.of_nat (S M) * N.of_nat n < 2 ^ 64)%N).
  { assert (N.of_nat (S M) <= 2147483647)%N by lia.
    assert (n <= S M) by nia.
    apply N.le_lt_trans with (2147483647 * 2147483647)%N; [apply N.mul_le_mono; lia|reflexivity]. }
  destruct (tloop_ok m n M HM ltac:(lia) D A (N.of_nat (S M)) eq_refl) with (len := M - 1) (i := 1) (A := A) (bits := z) (mv := fun _ : N => false)
    as [A' [b' [mv' [E O]]]]; auto; try lia.
  - split; auto. split; [discriminate|]. split; [discriminate|]. split; auto. split; auto. intros; lia.
  - unfold tstep in E. replace (N.to_nat (N.of_nat (S M) - 1) - 1) with (M - 1) by lia.
    rewrite E. cbn [bind fst]. exists A'. split; auto.
    replace (1 + (M - 1)) with M in O by lia. apply (outer_done m n M HM ltac:(lia) D A (N.of_nat (S M)) eq_refl Hbig ltac:(lia) mv'); auto.
Qed.
