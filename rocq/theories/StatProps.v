(** C41, C42: order statistics and comparators. *)
From Verif Require Import Base BaseLemmas Dbl CsvModel StatModel StatSpec StatProofs.
From Coq Require Import Sorting.Permutation Sorting.Sorted.
Local Open Scope Z_scope.

(** C42: where the difference of the two ints is an int, the comparator answers
    its sign.  Partial: other pairs are excluded. *)
Theorem C42_int_partial : forall a b, INT_MIN <= a - b <= INT_MAX ->
  exists c, compare_int_incr a b = Ok c /\ (c < 0 <-> a < b) /\ (c = 0 <-> a = b) /\ (c > 0 <-> a > b).
Proof.
  intros a b H. exists (a - b). unfold compare_int_incr, chk_int. replace (in_int (a - b)) with true by (unfold in_int; lia).
  split; auto. lia.
Qed.
Print Assumptions C42_int_partial.

(** For the others the subtraction overflows; wrapping around gives the wrong
    sign. *)
Theorem C42_int_refuted : exists a b, INT_MIN <= a <= INT_MAX /\ INT_MIN <= b <= INT_MAX /\ a < b /\
  compare_int_incr a b = UB /\ wrap_int (a - b) > 0.
Proof.
  exists INT_MIN, 1. unfold INT_MIN, INT_MAX. split; [lia|]. split; [lia|]. split; [lia|].
  split; [vm_compute; reflexivity|]. change (wrap_int (-2147483648 - 1)) with 2147483647. lia.
Qed.
Print Assumptions C42_int_refuted.

(** The double comparator orders all doubles that are not NaN, by value. *)
Theorem C42_double_partial :
  (forall a b, d_nan a = false -> d_nan b = false -> let c := compare_double_incr a b in
     (c < 0 <-> d_key a < d_key b) /\ (c = 0 <-> d_key a = d_key b) /\ (c > 0 <-> d_key a > d_key b)) /\
  (forall l, Forall (fun x => d_nan x = false) l -> orders compare_double_incr l).
Proof.
  assert (G : forall a b, d_nan a = false -> d_nan b = false -> let c := compare_double_incr a b in
     (c < 0 <-> d_key a < d_key b) /\ (c = 0 <-> d_key a = d_key b) /\ (c > 0 <-> d_key a > d_key b)).
  { intros a b A B. unfold compare_double_incr, d_gt, d_lt. rewrite A, B. cbn.
    destruct (Z.ltb_spec (d_key a) (d_key b)); [cbn; lia|]. destruct (Z.ltb_spec (d_key b) (d_key a)); cbn; lia. }
  split; auto. intros l F. rewrite Forall_forall in F. split.
  - intros a b Ha Hb. pose proof (G a b (F _ Ha) (F _ Hb)). pose proof (G b a (F _ Hb) (F _ Ha)). cbv zeta in *. lia.
  - intros a b c Ha Hb Hc. pose proof (G a b (F _ Ha) (F _ Hb)). pose proof (G b c (F _ Hb) (F _ Hc)). pose proof (G a c (F _ Ha) (F _ Hc)).
    cbv zeta in *. lia.
Qed.
Print Assumptions C42_double_partial.

(** A NaN compares equal to everything, so the order is lost. *)
Theorem C42_double_refuted : exists l, ~ orders compare_double_incr l.
Proof.
  exists [4611686018427387904; 9221120237041090560; 4607182418800017408]%N. intros [_ T].
  specialize (T 4611686018427387904 9221120237041090560 4607182418800017408)%N.
  assert (X : 1 <= 0); [|lia]. apply T; cbn; auto; vm_compute; discriminate.
Qed.
Print Assumptions C42_double_refuted.

(** -0.0 and 0.0 are equal, the order of the keys is the order of the values. *)
Example C42_example : compare_int_incr 3 5 = Ok (-2) /\ compare_double_incr 9223372036854775808 0 = 0 /\
  compare_double_incr 13830554455654793216 4607182418800017408 = -1.
Proof. split; [reflexivity|]. split; vm_compute; reflexivity. Qed.

(** C41, ints (values in halves).  Partial: two elements must not overflow int
    when added or subtracted. *)
Theorem C41_int_partial : forall qsort ovf x,
  qsort_contract qsort -> (2 <= length x)%nat ->
  (forall a, In a x -> INT_MIN <= a <= INT_MAX) ->
  (forall a b, In a x -> In b x -> INT_MIN <= a + b <= INT_MAX /\ INT_MIN <= a - b <= INT_MAX) ->
  exists st s, istatistics qsort ovf x = Ok st /\ Permutation x s /\ StronglySorted Z.le s /\
  st_n st = Z.of_nat (length x) /\
  five_numbers (fun v => 2 * v) (fun v w => v + w) s (st_median st) (st_lq st) (st_uq st) /\
  (exists mn mx, st_min st = 2 * mn /\ st_max st = 2 * mx /\ In mn x /\ In mx x /\ forall v, In v x -> mn <= v <= mx).
Proof.
  intros qsort ovf x Q L R S.
  set (cmp := fun a b => match compare_int_incr a b with Ok z => z | _ => ovf a b end).
  assert (CV : forall a b, In a x -> In b x -> cmp a b = a - b).
  { intros a b A B. unfold cmp, compare_int_incr, chk_int. destruct (S a b A B).
    replace (in_int (a - b)) with true; auto. unfold in_int. lia. }
  destruct (Q cmp x) as [P SS].
  { split.
    - intros a b A B. rewrite !CV by auto. lia.
    - intros a b c A B C. rewrite !CV by auto. lia. }
  set (s := qsort cmp x) in *.
  assert (IN : forall v, In v s -> In v x) by (intros v V; eapply Permutation_in; [apply Permutation_sym; exact P|auto]).
  assert (SL : StronglySorted Z.le s).
  { assert (G : forall l, (forall v, In v l -> In v x) -> StronglySorted (fun a b => cmp a b <= 0) l -> StronglySorted Z.le l).
    { intros l I H. induction H; constructor.
      - apply IHStronglySorted. intros v V. apply I. now right.
      - rewrite Forall_forall in *. intros v V. specialize (H0 v V). rewrite CV in H0; [lia|apply I; now left|apply I; now right]. }
    auto. }
  assert (Ls : length s = length x) by (symmetry; now apply Permutation_length).
  destruct (quartiles_spec Z Z istat_conv istat_avg (fun v w => v + w) 0 s) as (med & lq & uq & E & F); [lia| |].
  { intros a b A B. unfold istat_avg, chk_int. destruct (S a b (IN _ A) (IN _ B)). replace (in_int (a + b)) with true; auto. unfold in_int. lia. }
  set (mm := fold_left (fun '(mn, mx) v => (if v <? mn then v else mn, if mx <? v then v else mx)) s (INT_MAX, INT_MIN)).
  exists (Build_stats (Z.of_nat (length s)) med lq uq (2 * fst mm) (2 * snd mm)), s.
  split; [|split; auto; split; auto; split; [cbn; lia|split; auto]].
  - unfold istatistics. destruct x as [|a [|b x]]; [cbn in L; lia|cbn in L; lia|]. fold cmp. fold s. rewrite E. reflexivity.
  - destruct (imm_range s) as (M1 & M2 & M3).
    + intro X. rewrite X in Ls. cbn in Ls. lia.
    + auto.
    + exists (fst mm), (snd mm). split; auto. split; auto. split; [auto|]. split; [auto|].
      intros v V. apply M3. eapply Permutation_in; eauto.
Qed.
Print Assumptions C41_int_partial.

(** Two large elements overflow when averaged. *)
Theorem C41_int_refuted : forall qsort ovf, qsort_contract qsort ->
  exists x, (forall a, In a x -> INT_MIN <= a <= INT_MAX) /\ istatistics qsort ovf x = UB.
Proof.
  intros qsort ovf Q. exists [INT_MAX; INT_MAX]. split; [intros a [<-|[<-|[]]]; unfold INT_MIN, INT_MAX; lia|].
  unfold istatistics. match goal with |- context [qsort ?c ?l] => destruct (Q c l) as [P _]; [|set (s := qsort c l) in *] end.
  { assert (X : forall a, In a [INT_MAX; INT_MAX] -> a = INT_MAX) by (intros a [<-|[<-|[]]]; auto).
    split.
    - intros a b A B. rewrite (X a A), (X b B). reflexivity.
    - intros a b c A B C _ _. rewrite (X a A), (X c C). vm_compute. discriminate. }
  assert (E : s = [INT_MAX; INT_MAX]).
  { pose proof (Permutation_length P) as L. destruct s as [|a [|b [|c s]]]; try discriminate.
    assert (X : forall v, In v [a; b] -> v = INT_MAX) by (intros v V; eapply Permutation_in in V; [|apply Permutation_sym; exact P]; destruct V as [<-|[<-|[]]]; auto).
    rewrite (X a), (X b); cbn; auto. }
  rewrite E. vm_compute. reflexivity.
Qed.
Print Assumptions C41_int_refuted.

(** C41, doubles, for finite data: the same with the average of double
    arithmetic, whatever it is. *)
Theorem C41_double : forall qsort davg x,
  qsort_contract qsort -> (2 <= length x)%nat -> Forall (fun v => d_finite v = true) x ->
  exists st s, dstatistics qsort davg x = Ok st /\ Permutation x s /\ StronglySorted (fun a b => d_key a <= d_key b) s /\
  st_n st = Z.of_nat (length x) /\
  five_numbers (fun v => v) davg s (st_median st) (st_lq st) (st_uq st) /\
  (exists v, In v x /\ d_key v = d_key (st_min st)) /\ (exists v, In v x /\ d_key v = d_key (st_max st)) /\
  (forall v, In v x -> d_key (st_min st) <= d_key v <= d_key (st_max st)).
Proof.
  intros qsort davg x Q L F.
  assert (FN : forall v, d_finite v = true -> d_nan v = false) by (intro v; unfold d_finite, d_nan; lia).
  assert (FX : Forall (fun v => d_nan v = false) x) by (eapply Forall_impl; [|exact F]; auto).
  destruct C42_double_partial as [CM OR]. destruct (Q compare_double_incr x (OR x FX)) as [P SS].
  set (s := qsort compare_double_incr x) in *.
  assert (IN : forall v, In v s -> In v x) by (intros v V; eapply Permutation_in; [apply Permutation_sym; exact P|auto]).
  rewrite Forall_forall in FX.
  assert (SL : StronglySorted (fun a b => d_key a <= d_key b) s).
  { assert (G : forall l, (forall v, In v l -> In v x) -> StronglySorted (fun a b => compare_double_incr a b <= 0) l -> StronglySorted (fun a b => d_key a <= d_key b) l).
    { intros l I H. induction H; constructor.
      - apply IHStronglySorted. intros v V. apply I. now right.
      - rewrite Forall_forall in *. intros v V. specialize (H0 v V).
        pose proof (CM a v (FX a (I a (or_introl eq_refl))) (FX v (I v (or_intror V)))). cbv zeta in *. lia. }
    auto. }
  assert (Ls : length s = length x) by (symmetry; now apply Permutation_length).
  destruct (quartiles_spec dbl dbl (fun v => v) (fun v w => Ok (davg v w)) davg D_ZERO s) as (med & lq & uq & E & FV); [lia|auto|].
  set (mm := fold_left (fun '(mn, mx) v => (if d_lt v mn then v else mn, if d_gt v mx then v else mx)) s (D_MAX, D_MINUS_MAX)).
  exists (Build_stats (Z.of_nat (length s)) med lq uq (fst mm) (snd mm)), s.
  assert (Fs : Forall (fun v => d_finite v = true) s) by (rewrite Forall_forall in *; auto).
  destruct (dmm_spec s D_MAX D_MINUS_MAX) as (M1 & M2 & M3 & M4 & M5); auto.
  fold mm in M1, M2, M3, M4, M5.
  assert (KB : forall v, d_finite v = true -> d_key D_MINUS_MAX <= d_key v <= d_key D_MAX).
  { intros v V. change (d_key D_MAX) with (D_INF_MAG - 1). change (d_key D_MINUS_MAX) with (- (D_INF_MAG - 1)).
    unfold d_finite in V. unfold d_key. assert (0 <= d_mag v) by (unfold d_mag; lia). destruct (d_sign v); lia. }
  assert (V0 : exists v0, In v0 s) by (clear - Ls L; destruct s as [|v0 s0]; [cbn in Ls; lia|exists v0; now left]). destruct V0 as (v0 & V0). pose proof (M1 v0 V0) as B0. rewrite Forall_forall in Fs. pose proof (KB v0 (Fs v0 V0)) as K0.
  split; [|split; auto; split; auto; split; [cbn; lia|split; auto; split; [|split]]].
  - unfold dstatistics. destruct x as [|a [|b x]]; [cbn in L; lia|cbn in L; lia|]. fold s. rewrite E. reflexivity.
  - cbn [st_min]. destruct M4 as [M4|M4]; [|exists (fst mm); auto]. exists v0. split; auto. rewrite <- M4 in *. lia.
  - cbn [st_max]. destruct M5 as [M5|M5]; [|exists (snd mm); auto]. exists v0. split; auto. rewrite <- M5 in *. lia.
  - intros v V. apply M1. eapply Permutation_in; eauto.
Qed.
Print Assumptions C41_double.

(** No data and one datum. *)
Theorem C41_small : forall qsort ovf qsortd davg,
  istatistics qsort ovf [] = Ok (Build_stats 0 0 0 0 0 0) /\
  (forall v, istatistics qsort ovf [v] = Ok (Build_stats 1 (2 * v) (2 * v) (2 * v) (2 * v) (2 * v))) /\
  dstatistics qsortd davg [] = Ok (Build_stats 0 D_ZERO D_ZERO D_ZERO D_ZERO D_ZERO) /\
  (forall v, dstatistics qsortd davg [v] = Ok (Build_stats 1 v v v v v)).
Proof. intros. repeat split. Qed.
Print Assumptions C41_small.

(** An insertion sort meets the contract; a run with it. *)
Fixpoint insert {A} (cmp : A -> A -> Z) (v : A) (l : list A) : list A :=
  match l with
  | [] => [v]
  | w :: l' => if cmp v w <=? 0 then v :: l else w :: insert cmp v l'
  end.
Definition isort {A} (cmp : A -> A -> Z) (l : list A) : list A := fold_right (insert cmp) [] l.
Lemma insert_perm {A} cmp (v : A) l : Permutation (v :: l) (insert cmp v l).
Proof.
  induction l as [|w l IH]; cbn; auto. destruct (cmp v w <=? 0); auto.
  etransitivity; [apply perm_swap|]. now constructor.
Qed.
Lemma isort_perm {A} cmp (l : list A) : Permutation l (isort cmp l).
Proof. induction l as [|v l IH]; cbn; auto. etransitivity; [|apply insert_perm]. now constructor. Qed.
Lemma isort_contract {A} : qsort_contract (@isort A).
Proof.
  intros cmp l [AS TR]. split; [apply isort_perm|].
  assert (G : forall m, incl m l -> StronglySorted (fun a b => cmp a b <= 0) (isort cmp m)).
  { induction m as [|v m IH]; intro I; [constructor|]. change (isort cmp (v :: m)) with (insert cmp v (isort cmp m)).
    assert (Im : incl m l) by (intros y Y; apply I; now right). specialize (IH Im).
    assert (Is : incl (isort cmp m) l) by (intros y Y; apply Im; eapply Permutation_in; [apply Permutation_sym, isort_perm|exact Y]).
    assert (Iv : In v l) by (apply I; now left).
    clear I Im. revert Is. generalize (isort cmp m) IH. clear IH m. intros sm IH Is. induction IH as [|w t S IHt F]; cbn; [constructor; constructor|].
    assert (Iw : In w l) by (apply Is; now left). assert (It : incl t l) by (intros y Y; apply Is; now right).
    destruct (Z.leb_spec (cmp v w) 0).
    - constructor; [constructor; auto|]. constructor; auto. rewrite Forall_forall in *. intros y Y. apply (TR v w y); auto.
    - constructor; auto. rewrite Forall_forall in *. intros y Y.
      eapply Permutation_in in Y; [|apply Permutation_sym, insert_perm]. destruct Y as [<-|Y]; auto. pose proof (AS v w Iv Iw). lia. }
  apply G. intros y Y. auto.
Qed.
Example C41_example : qsort_contract (@isort Z) /\
  istatistics isort (fun _ _ => 0) [7; 1; 5; 3; 9] = Ok (Build_stats 5 10 4 16 2 18) /\
  istatistics isort (fun _ _ => 0) [4; 1; 3; 2; 6; 5] = Ok (Build_stats 6 7 4 10 2 12).
Proof. split; [apply isort_contract|]. split; vm_compute; reflexivity. Qed.
