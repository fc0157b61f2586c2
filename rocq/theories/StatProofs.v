From Verif Require Import Base BaseLemmas Dbl StatModel StatSpec.
From Coq Require Import Sorting.Permutation Sorting.Sorted.
Local Open Scope Z_scope.

Section Q.
Variables (A B : Type) (conv : A -> B) (avg : A -> A -> res B) (av : A -> A -> B).
Variable d0 : A.

Lemma zget_nth_lt (l : list A) i : 0 <= i < Z.of_nat (length l) -> zget l i = Ok (nth (Z.to_nat i) l d0).
Proof.
  intro H. unfold zget. destruct (Z.ltb_spec i 0); [lia|]. apply aget_lt. lia.
Qed.
Lemma median_odd_nth (l : list A) k : length l = (2 * k + 1)%nat -> is_median conv av l (conv (nth k l d0)).
Proof.
  intro L. destruct (nth_split l d0 (n := k)) as (a & b & E & La); [lia|].
  pattern l at 1. rewrite E. apply median_odd. apply (f_equal (@length _)) in E. rewrite app_length in E. cbn in E. lia.
Qed.
Lemma median_even_nth (l : list A) k : length l = (2 * k + 2)%nat -> is_median conv av l (av (nth k l d0) (nth (S k) l d0)).
Proof.
  intro L. destruct (nth_split l d0 (n := k)) as (a & b & E & La); [lia|].
  assert (Lb : length b = S k) by (apply (f_equal (@length _)) in E; rewrite app_length in E; cbn in E; lia).
  destruct b as [|y b]; [discriminate|].
  assert (Y : nth (S k) l d0 = y).
  { rewrite E, app_nth2 by lia. replace (S k - length a)%nat with 1%nat by lia. reflexivity. }
  rewrite Y. pattern l at 1. rewrite E. apply median_even. cbn in Lb. lia.
Qed.
Lemma nth_firstn (l : list A) i n : (i < n)%nat -> nth i (firstn n l) d0 = nth i l d0.
Proof. revert i n. induction l; intros [|i] [|n] H; cbn; auto; try lia. apply IHl. lia. Qed.
Lemma nth_skipn (l : list A) i n : nth i (skipn n l) d0 = nth (n + i) l d0.
Proof. revert l. induction n; intros [|a l]; cbn; auto. destruct i; auto. Qed.

Lemma quartiles_spec (s : list A) : (2 <= length s)%nat ->
  (forall a b, In a s -> In b s -> avg a b = Ok (av a b)) ->
  exists med lq uq, quartiles A B conv avg s = Ok (med, lq, uq) /\ five_numbers conv av s med lq uq.
Proof.
  intros L HA.
  assert (HN : forall i j, (i < length s)%nat -> (j < length s)%nat -> avg (nth i s d0) (nth j s d0) = Ok (av (nth i s d0) (nth j s d0)))
    by (intros; apply HA; apply nth_In; auto).
  set (n := length s) in *.
  assert (FN : forall h r med lq uq, n = (2 * h + r)%nat -> (r <= 1)%nat -> is_median conv av s med ->
     is_median conv av (firstn h s) lq -> is_median conv av (skipn (h + r) s) uq -> five_numbers conv av s med lq uq).
  { intros h r med lq uq E R M1 M2 M3. exists (firstn h s), (firstn r (skipn h s)), (skipn (h + r) s).
    split; [|split; [|split; [|auto]]].
    - rewrite <- (firstn_skipn h s) at 1. f_equal. rewrite <- (firstn_skipn r (skipn h s)) at 1. f_equal. rewrite skipn_skipn. f_equal; lia.
    - rewrite firstn_length, skipn_length. fold n. lia.
    - rewrite firstn_length. lia. }
  unfold quartiles. fold n. 
  destruct (Nat.Even_or_Odd n) as [[h E]|[h E]].
  - assert (O1 : Z.odd (Z.of_nat n) = false) by (rewrite E, Nat2Z.inj_mul, Z.odd_mul; reflexivity).
    assert (H1 : Z.of_nat n / 2 = Z.of_nat h) by (rewrite E, Nat2Z.inj_mul, Z.mul_comm; apply Z.div_mul; lia).
    rewrite O1, H1.
    rewrite (zget_nth_lt s (Z.of_nat h - 1)), (zget_nth_lt s (Z.of_nat h)) by (fold n; lia). cbn [bind].
    rewrite HN by (fold n; lia). cbn [bind].
    destruct (Nat.Even_or_Odd h) as [[k K]|[k K]].
    + assert (O2 : Z.odd (Z.of_nat h) = false) by (rewrite K, Nat2Z.inj_mul, Z.odd_mul; reflexivity).
      assert (H2 : Z.of_nat h / 2 = Z.of_nat k) by (rewrite K, Nat2Z.inj_mul, Z.mul_comm; apply Z.div_mul; lia).
      rewrite O2, H2.
      rewrite (zget_nth_lt s (Z.of_nat k - 1)), (zget_nth_lt s (Z.of_nat k)), (zget_nth_lt s (Z.of_nat h + Z.of_nat k - 1)), (zget_nth_lt s (Z.of_nat h + Z.of_nat k)) by (fold n; lia).
      cbn [bind]. rewrite !HN by (fold n; lia). cbn [bind]. eexists. eexists. eexists. split; [reflexivity|].
      apply (FN h 0%nat); try lia.
      * replace (Z.to_nat (Z.of_nat h - 1)) with (h - 1)%nat by lia. replace (Z.to_nat (Z.of_nat h)) with (S (h - 1)) by lia.
        apply median_even_nth. fold n. lia.
      * replace (Z.to_nat (Z.of_nat k - 1)) with (k - 1)%nat by lia. replace (Z.to_nat (Z.of_nat k)) with (S (k - 1)) by lia.
        rewrite <- (nth_firstn s (k - 1) h), <- (nth_firstn s (S (k - 1)) h) by lia.
        apply median_even_nth. rewrite firstn_length. fold n. lia.
      * replace (Z.to_nat (Z.of_nat h + Z.of_nat k - 1)) with (h + 0 + (k - 1))%nat by lia. replace (Z.to_nat (Z.of_nat h + Z.of_nat k)) with (h + 0 + S (k - 1))%nat by lia.
        rewrite <- !nth_skipn. apply median_even_nth. rewrite skipn_length. fold n. lia.
    + assert (O2 : Z.odd (Z.of_nat h) = true) by (rewrite K, Nat2Z.inj_add, Nat2Z.inj_mul, Z.odd_add, Z.odd_mul; reflexivity).
      assert (H2 : Z.of_nat h / 2 = Z.of_nat k) by (rewrite K; symmetry; apply (Z.div_unique _ 2 _ 1); lia).
      rewrite O2, H2.
      rewrite (zget_nth_lt s (Z.of_nat k)), (zget_nth_lt s (Z.of_nat h + Z.of_nat k)) by (fold n; lia).
      cbn [bind]. eexists. eexists. eexists. split; [reflexivity|].
      apply (FN h 0%nat); try lia.
      * replace (Z.to_nat (Z.of_nat h - 1)) with (h - 1)%nat by lia. replace (Z.to_nat (Z.of_nat h)) with (S (h - 1)) by lia.
        apply median_even_nth. fold n. lia.
      * rewrite Nat2Z.id, <- (nth_firstn s k h) by lia. apply median_odd_nth. rewrite firstn_length. fold n. lia.
      * replace (Z.to_nat (Z.of_nat h + Z.of_nat k)) with (h + 0 + k)%nat by lia.
        rewrite <- nth_skipn. apply median_odd_nth. rewrite skipn_length. fold n. lia.
  - assert (O1 : Z.odd (Z.of_nat n) = true) by (rewrite E, Nat2Z.inj_add, Nat2Z.inj_mul, Z.odd_add, Z.odd_mul; reflexivity).
    assert (H1 : Z.of_nat n / 2 = Z.of_nat h) by (rewrite E; symmetry; apply (Z.div_unique _ 2 _ 1); lia).
    rewrite O1, H1.
    rewrite (zget_nth_lt s (Z.of_nat h)) by (fold n; lia). cbn [bind].
    assert (MD : is_median conv av s (conv (nth (Z.to_nat (Z.of_nat h)) s d0))) by (rewrite Nat2Z.id; apply median_odd_nth; fold n; lia).
    destruct (Nat.Even_or_Odd h) as [[k K]|[k K]].
    + assert (O2 : Z.odd (Z.of_nat h) = false) by (rewrite K, Nat2Z.inj_mul, Z.odd_mul; reflexivity).
      assert (H2 : Z.of_nat h / 2 = Z.of_nat k) by (rewrite K, Nat2Z.inj_mul, Z.mul_comm; apply Z.div_mul; lia).
      rewrite O2, H2.
      rewrite (zget_nth_lt s (Z.of_nat k - 1)), (zget_nth_lt s (Z.of_nat k)), (zget_nth_lt s (Z.of_nat h + Z.of_nat k)), (zget_nth_lt s (Z.of_nat h + Z.of_nat k + 1)) by (fold n; lia).
      cbn [bind]. rewrite !HN by (fold n; lia). cbn [bind]. eexists. eexists. eexists. split; [reflexivity|].
      apply (FN h 1%nat); try lia; auto.
      * replace (Z.to_nat (Z.of_nat k - 1)) with (k - 1)%nat by lia. replace (Z.to_nat (Z.of_nat k)) with (S (k - 1)) by lia.
        rewrite <- (nth_firstn s (k - 1) h), <- (nth_firstn s (S (k - 1)) h) by lia.
        apply median_even_nth. rewrite firstn_length. fold n. lia.
      * replace (Z.to_nat (Z.of_nat h + Z.of_nat k)) with (h + 1 + (k - 1))%nat by lia. replace (Z.to_nat (Z.of_nat h + Z.of_nat k + 1)) with (h + 1 + S (k - 1))%nat by lia.
        rewrite <- !nth_skipn. apply median_even_nth. rewrite skipn_length. fold n. lia.
    + assert (O2 : Z.odd (Z.of_nat h) = true) by (rewrite K, Nat2Z.inj_add, Nat2Z.inj_mul, Z.odd_add, Z.odd_mul; reflexivity).
      assert (H2 : Z.of_nat h / 2 = Z.of_nat k) by (rewrite K; symmetry; apply (Z.div_unique _ 2 _ 1); lia).
      rewrite O2, H2.
      rewrite (zget_nth_lt s (Z.of_nat k)), (zget_nth_lt s (Z.of_nat h + Z.of_nat k + 1)) by (fold n; lia).
      cbn [bind]. eexists. eexists. eexists. split; [reflexivity|].
      apply (FN h 1%nat); try lia; auto.
      * rewrite Nat2Z.id, <- (nth_firstn s k h) by lia. apply median_odd_nth. rewrite firstn_length. fold n. lia.
      * replace (Z.to_nat (Z.of_nat h + Z.of_nat k + 1)) with (h + 1 + k)%nat by lia.
        rewrite <- nth_skipn. apply median_odd_nth. rewrite skipn_length. fold n. lia.
Qed.
End Q.

(** Extrema of ints. *)
Lemma imm_spec l : forall mn mx,
  let mm := fold_left (fun '(mn, mx) v => (if v <? mn then v else mn, if mx <? v then v else mx)) l (mn, mx) in
  (forall v, In v l -> fst mm <= v <= snd mm) /\ fst mm <= mn /\ mx <= snd mm /\
  (In (fst mm) (mn :: l)) /\ In (snd mm) (mx :: l).
Proof.
  induction l as [|v l IH]; intros mn mx; cbn [fold_left].
  { cbn. split; [tauto|]. split; [lia|]. split; [lia|]. auto. }
  destruct (IH (if v <? mn then v else mn) (if mx <? v then v else mx)) as (A & B & C & E & F).
  cbv zeta. split; [|split; [|split; [|split]]].
  - intros w [<-|W]; [|auto]. destruct (Z.ltb_spec v mn); destruct (Z.ltb_spec mx v); lia.
  - destruct (Z.ltb_spec v mn); lia.
  - destruct (Z.ltb_spec mx v); lia.
  - cbn [In] in *. destruct (v <? mn); tauto.
  - cbn [In] in *. destruct (mx <? v); tauto.
Qed.
Lemma imm_range l : l <> [] -> (forall v, In v l -> INT_MIN <= v <= INT_MAX) ->
  let mm := fold_left (fun '(mn, mx) v => (if v <? mn then v else mn, if mx <? v then v else mx)) l (INT_MAX, INT_MIN) in
  In (fst mm) l /\ In (snd mm) l /\ forall v, In v l -> fst mm <= v <= snd mm.
Proof.
  intros N R. destruct (imm_spec l INT_MAX INT_MIN) as (A & B & C & E & F). cbv zeta in *.
  destruct l as [|v0 l0] eqn:El; [congruence|]. rewrite <- El in *.
  assert (V0 : In v0 l) by (rewrite El; now left). pose proof (R v0 V0). pose proof (A v0 V0).
  split; [|split; auto].
  - destruct E as [E|E]; auto. replace (fst _) with v0 by lia. auto.
  - destruct F as [F|F]; auto. replace (snd _) with v0 by lia. auto.
Qed.

Lemma dmm_spec l : forall mn mx, d_finite mn = true -> d_finite mx = true -> Forall (fun v => d_finite v = true) l ->
  let mm := fold_left (fun '(mn, mx) v => (if d_lt v mn then v else mn, if d_gt v mx then v else mx)) l (mn, mx) in
  (forall v, In v l -> d_key (fst mm) <= d_key v <= d_key (snd mm)) /\ d_key (fst mm) <= d_key mn /\ d_key mx <= d_key (snd mm) /\
  (In (fst mm) (mn :: l)) /\ In (snd mm) (mx :: l).
Proof.
  assert (FN : forall v, d_finite v = true -> d_nan v = false) by (intro v; unfold d_finite, d_nan; lia).
  induction l as [|v l IH]; intros mn mx F1 F2 FL; cbn [fold_left].
  { cbn. split; [tauto|]. split; [lia|]. split; [lia|]. auto. }
  apply Forall_cons_iff in FL as [Fv FL].
  destruct (IH (if d_lt v mn then v else mn) (if d_gt v mx then v else mx)) as (A & B & C & E & F); auto.
  { destruct (d_lt v mn); auto. } { destruct (d_gt v mx); auto. }
  assert (K1 : d_lt v mn = (d_key v <? d_key mn)) by (unfold d_lt; rewrite !FN by auto; reflexivity).
  assert (K2 : d_gt v mx = (d_key mx <? d_key v)) by (unfold d_gt, d_lt; rewrite !FN by auto; reflexivity).
  cbv zeta. rewrite K1, K2 in *. split; [|split; [|split; [|split]]].
  - intros w [<-|W]; [|auto]. destruct (Z.ltb_spec (d_key v) (d_key mn)); destruct (Z.ltb_spec (d_key mx) (d_key v)); lia.
  - destruct (Z.ltb_spec (d_key v) (d_key mn)); lia.
  - destruct (Z.ltb_spec (d_key mx) (d_key v)); lia.
  - cbn [In] in *. destruct (d_key v <? d_key mn); tauto.
  - cbn [In] in *. destruct (d_key mx <? d_key v); tauto.
Qed.
