(** Proofs about src/nx_filter.c. *)
From Verif Require Import Base BaseLemmas Gray Flt FilterModel FilterSpec.
Local Open Scope Z_scope.

(** Writing computed values at consecutive places; each value may be computed
    from the places not yet written and those before. *)
Lemma fill1 {A} (d : A) (f : Z -> list A -> res A) (h : Z -> A) (o m : Z) (l0 : list A) :
  0 <= o -> o + m <= Z.of_nat (length l0) ->
  (forall i l, 0 <= i < m -> length l = length l0 ->
     (forall j, 0 <= j -> nth (Z.to_nat j) l d = if (o <=? j) && (j <? o + i) then h (j - o) else nth (Z.to_nat j) l0 d) -> f i l = Ok (h i)) ->
  exists l', for_each (fun i l => let* v := f i l in zset l (o + i) v) (zrange 0 m) l0 = Ok l' /\ length l' = length l0 /\
    forall j, 0 <= j -> nth (Z.to_nat j) l' d = if (o <=? j) && (j <? o + m) then h (j - o) else nth (Z.to_nat j) l0 d.
Proof.
  intros O M F. destruct (Z.le_gt_cases m 0) as [MN|MP].
  { rewrite zrange_empty by lia. exists l0. repeat split. intros j J. destruct (Z.leb_spec o j), (Z.ltb_spec j (o + m)); cbn; try reflexivity. lia. }
  assert (G : forall k, (k <= Z.to_nat m)%nat -> exists l', for_each (fun i l => let* v := f i l in zset l (o + i) v) (zrange 0 (Z.of_nat k)) l0 = Ok l' /\ length l' = length l0 /\
    forall j, 0 <= j -> nth (Z.to_nat j) l' d = if (o <=? j) && (j <? o + Z.of_nat k) then h (j - o) else nth (Z.to_nat j) l0 d).
  { induction k as [|k IH]; intro K.
    - exists l0. repeat split. intros j J. destruct (Z.leb_spec o j), (Z.ltb_spec j (o + Z.of_nat 0)); cbn; try reflexivity. lia.
    - destruct IH as (l & E & L & V); [lia|]. replace (Z.of_nat (S k)) with (Z.of_nat k + 1) by lia. rewrite zrange_snoc by lia. rewrite for_each_app, E. cbn [bind for_each].
      rewrite (F (Z.of_nat k) l) by (auto; lia). cbn [bind]. rewrite zset_lt' by lia. cbn [bind]. eexists. split; [reflexivity|]. rewrite lset_length. split; [exact L|].
      intros j J. rewrite nth_lset. destruct (Nat.eqb_spec (Z.to_nat (o + Z.of_nat k)) (Z.to_nat j)) as [EQ|NE]; cbn [andb].
      + replace (_ <? _)%nat with true by (symmetry; apply Nat.ltb_lt; lia). assert (j = o + Z.of_nat k) by lia.
        destruct (Z.leb_spec o j), (Z.ltb_spec j (o + (Z.of_nat k + 1))); try lia. cbn. f_equal. lia.
      + rewrite V by exact J. destruct (Z.leb_spec o j), (Z.ltb_spec j (o + Z.of_nat k)), (Z.ltb_spec j (o + (Z.of_nat k + 1))); cbn; try reflexivity; lia. }
  destruct (G (Z.to_nat m) ltac:(lia)) as (l' & E & L & V). rewrite Z2Nat.id in * by lia. exists l'. auto.
Qed.

Section Border.
Context {A : Type}.
Variable zero : A.
Notation "l @ i" := (nth (Z.to_nat i) l zero) (at level 9).
(** The border, given the data in the middle. *)
Lemma fill_border_ok n buf nb mode : 1 < n -> 0 <= nb -> n + 2 * nb <= Z.of_nat (length buf) -> (mode = BMirror -> nb < n) ->
  exists buf', fill_border zero n buf nb mode = Ok buf' /\ length buf' = length buf /\
    (forall j, - nb <= j < n + nb -> buf' @ (nb + j) = extended zero mode n (fun i => buf @ (nb + i)) j) /\
    (forall j, n + 2 * nb <= j -> buf' @ j = buf @ j).
Proof.
  intros N NB L M. unfold fill_border. destruct mode.
  - destruct (fill1 zero (fun _ _ => Ok zero) (fun _ => zero) 0 nb buf) as (b1 & E1 & L1 & V1); [lia|lia|reflexivity|]. cbn [bind] in E1. rewrite (for_each_eq _ (fun i buf => zset buf i zero)) in E1 by reflexivity.
    rewrite E1. cbn [bind]. destruct (fill1 zero (fun _ _ => Ok zero) (fun _ => zero) (n + nb) nb b1) as (b2 & E2 & L2 & V2); [lia|lia|reflexivity|]. cbn [bind] in E2.
    exists b2. split; [exact E2|]. split; [lia|]. split.
    + intros j J. rewrite V2, V1 by lia. unfold extended.
      destruct (Z.leb_spec 0 j), (Z.ltb_spec j n), (Z.leb_spec (n + nb) (nb + j)), (Z.ltb_spec (nb + j) (n + nb + nb)), (Z.leb_spec 0 (nb + j)), (Z.ltb_spec (nb + j) (0 + nb)); cbn; try reflexivity; lia.
    + intros j J. rewrite V2, V1 by lia. destruct (Z.leb_spec (n + nb) j), (Z.ltb_spec j (n + nb + nb)), (Z.leb_spec 0 j), (Z.ltb_spec j (0 + nb)); cbn; try reflexivity; lia.
  - rewrite (zget_lt buf nb zero) by lia. cbn [bind].
    destruct (fill1 zero (fun _ _ => Ok (buf @ nb)) (fun _ => buf @ nb) 0 nb buf) as (b1 & E1 & L1 & V1); [lia|lia|reflexivity|]. cbn [bind] in E1. rewrite (for_each_eq _ (fun i l => zset l i (buf @ nb))) in E1 by reflexivity.
    rewrite E1. cbn [bind]. rewrite (zget_lt b1 (nb + n - 1) zero) by lia. cbn [bind].
    destruct (fill1 zero (fun _ _ => Ok (b1 @ (nb + n - 1))) (fun _ => b1 @ (nb + n - 1)) (nb + n) nb b1) as (b2 & E2 & L2 & V2); [lia|lia|reflexivity|]. cbn [bind] in E2.
    exists b2. split; [exact E2|]. split; [lia|]. split.
    + intros j J. rewrite V2, !V1 by lia. unfold extended. replace (nb + 0) with nb by lia. replace (nb + (n - 1)) with (nb + n - 1) by lia.
      destruct (Z.leb_spec 0 j), (Z.ltb_spec j n), (Z.ltb_spec j 0), (Z.leb_spec (nb + n) (nb + j)), (Z.ltb_spec (nb + j) (nb + n + nb)), (Z.leb_spec 0 (nb + j)), (Z.ltb_spec (nb + j) (0 + nb)), (Z.leb_spec 0 (nb + n - 1)), (Z.ltb_spec (nb + n - 1) (0 + nb)); cbn; try reflexivity; lia.
    + intros j J. rewrite V2, !V1 by lia. destruct (Z.leb_spec (nb + n) j), (Z.ltb_spec j (nb + n + nb)), (Z.leb_spec 0 j), (Z.ltb_spec j (0 + nb)); cbn; try reflexivity; lia.
  - specialize (M eq_refl).
    destruct (fill1 zero (fun i l => zget l (2 * nb - i)) (fun i => buf @ (2 * nb - i)) 0 nb buf) as (b1 & E1 & L1 & V1); [lia|lia| |].
    { intros i l I LL V. rewrite (zget_lt l _ zero) by lia. rewrite V by lia. destruct (Z.leb_spec 0 (2 * nb - i)), (Z.ltb_spec (2 * nb - i) (0 + i)); cbn; try reflexivity; lia. }
    rewrite (for_each_eq _ (fun i l => let* v := zget l (2 * nb - i) in zset l i v)) in E1 by reflexivity. rewrite E1. cbn [bind].
    destruct (fill1 zero (fun i l => zget l (nb + n - i - 2)) (fun i => b1 @ (nb + n - i - 2)) (nb + n) nb b1) as (b2 & E2 & L2 & V2); [lia|lia| |].
    { intros i l I LL V. rewrite (zget_lt l _ zero) by lia. rewrite V by lia. destruct (Z.leb_spec (nb + n) (nb + n - i - 2)), (Z.ltb_spec (nb + n - i - 2) (nb + n + i)); cbn; try reflexivity; lia. }
    exists b2. split; [exact E2|]. split; [lia|]. split.
    + intros j J. rewrite V2 by lia. unfold extended. destruct (Z.leb_spec (nb + n) (nb + j)), (Z.ltb_spec (nb + j) (nb + n + nb)); cbn [andb]; try lia.
      * rewrite V1 by lia. destruct (Z.leb_spec 0 j), (Z.ltb_spec j n), (Z.ltb_spec j 0); cbn [andb]; try lia. 
        destruct (Z.leb_spec 0 (nb + n - (nb + j - (nb + n)) - 2)), (Z.ltb_spec (nb + n - (nb + j - (nb + n)) - 2) (0 + nb)); cbn [andb]; try lia. do 2 f_equal. lia.
      * rewrite V1 by lia. destruct (Z.leb_spec 0 j), (Z.ltb_spec j n), (Z.ltb_spec j 0), (Z.leb_spec 0 (nb + j)), (Z.ltb_spec (nb + j) (0 + nb)); cbn [andb]; try lia; try reflexivity. do 2 f_equal. lia.
    + intros j J. rewrite V2 by lia. destruct (Z.leb_spec (nb + n) j), (Z.ltb_spec j (nb + n + nb)); cbn [andb]; try lia. rewrite V1 by lia. destruct (Z.leb_spec 0 j), (Z.ltb_spec j (0 + nb)); cbn; try reflexivity; lia.
Qed.
Lemma extended_ext mode n s s' j : (forall i, 0 <= i < n -> s i = s' i) -> 1 < n -> (mode = BMirror -> - n < j < 2 * n - 1) ->
  extended zero mode n s j = extended zero mode n s' j.
Proof.
  intros H N M. unfold extended. destruct (Z.leb_spec 0 j), (Z.ltb_spec j n); cbn [andb]; try (apply H; lia); destruct mode; try reflexivity;
    destruct (Z.ltb_spec j 0); try (apply H; lia); specialize (M eq_refl); apply H; lia.
Qed.
Lemma copy_to_buffer_ok {B} (dB : B) (conv : B -> A) n buf data off stride nb mode :
  1 < n -> 0 <= nb -> n + 2 * nb <= Z.of_nat (length buf) -> (mode = BMirror -> nb < n) ->
  (forall i, 0 <= i < n -> 0 <= off + i * stride < Z.of_nat (length data)) ->
  exists buf', copy_to_buffer zero conv n buf data off stride nb mode = Ok buf' /\ length buf' = length buf /\
    (forall j, - nb <= j < n + nb -> buf' @ (nb + j) = extended zero mode n (fun i => conv (nth (Z.to_nat (off + i * stride)) data dB)) j) /\
    (forall j, n + 2 * nb <= j -> buf' @ j = buf @ j).
Proof.
  intros N NB L M D. unfold copy_to_buffer. destruct (Z.leb_spec n 1); [lia|].
  set (h := fun i => conv (nth (Z.to_nat (off + i * stride)) data dB)).
  destruct (fill1 zero (fun i _ => let* v := zget data (off + i * stride) in Ok (conv v)) h nb n buf) as (b1 & E1 & L1 & V1); [lia|lia| |].
  { intros i l I _ _. rewrite (zget_lt data _ dB) by auto. reflexivity. }
  rewrite (for_each_eq _ (fun i buf => let* v := zget data (off + i * stride) in zset buf (nb + i) (conv v))) in E1
    by (intros x l _; destruct (zget data (off + x * stride)); reflexivity).
  rewrite E1. cbn [bind]. destruct (fill_border_ok n b1 nb mode N NB ltac:(lia) M) as (b2 & E2 & L2 & V2 & T2). exists b2. split; [exact E2|]. split; [lia|]. split.
  - intros j J. rewrite V2 by exact J. apply extended_ext; [|lia|].
    + intros i I. rewrite V1 by lia. destruct (Z.leb_spec nb (nb + i)), (Z.ltb_spec (nb + i) (nb + n)); cbn; try lia. f_equal. lia.
    + intro E. specialize (M E). lia.
  - intros j J. rewrite T2, V1 by lia. destruct (Z.leb_spec nb j), (Z.ltb_spec j (nb + n)); cbn; try reflexivity; lia.
Qed.
(** Mirroring with a border at least as long as the data copies old memory. *)
Lemma mirror_short {B} (dB : B) (conv : B -> A) n buf data off stride nb :
  1 < n <= nb -> n + 2 * nb <= Z.of_nat (length buf) -> (forall i, 0 <= i < n -> 0 <= off + i * stride < Z.of_nat (length data)) ->
  exists buf', copy_to_buffer zero conv n buf data off stride nb BMirror = Ok buf' /\ buf' @ 0 = buf @ (2 * nb).
Proof.
  intros N L D. unfold copy_to_buffer. destruct (Z.leb_spec n 1); [lia|].
  set (h := fun i => conv (nth (Z.to_nat (off + i * stride)) data dB)).
  destruct (fill1 zero (fun i _ => let* v := zget data (off + i * stride) in Ok (conv v)) h nb n buf) as (b0 & E0 & L0 & V0); [lia|lia| |].
  { intros i l I _ _. rewrite (zget_lt data _ dB) by auto. reflexivity. }
  rewrite (for_each_eq _ (fun i buf => let* v := zget data (off + i * stride) in zset buf (nb + i) (conv v))) in E0
    by (intros x l _; destruct (zget data (off + x * stride)); reflexivity).
  rewrite E0. cbn [bind]. unfold fill_border.
  destruct (fill1 zero (fun i l => zget l (2 * nb - i)) (fun i => b0 @ (2 * nb - i)) 0 nb b0) as (b1 & E1 & L1 & V1); [lia|lia| |].
  { intros i l I LL V. rewrite (zget_lt l _ zero) by lia. rewrite V by lia. destruct (Z.leb_spec 0 (2 * nb - i)), (Z.ltb_spec (2 * nb - i) (0 + i)); cbn; try reflexivity; lia. }
  rewrite (for_each_eq _ (fun i l => let* v := zget l (2 * nb - i) in zset l i v)) in E1 by reflexivity. rewrite E1. cbn [bind].
  destruct (fill1 zero (fun i l => zget l (nb + n - i - 2)) (fun i => b1 @ (nb + n - i - 2)) (nb + n) nb b1) as (b2 & E2 & L2 & V2); [lia|lia| |].
  { intros i l I LL V. rewrite (zget_lt l _ zero) by lia. rewrite V by lia. destruct (Z.leb_spec (nb + n) (nb + n - i - 2)), (Z.ltb_spec (nb + n - i - 2) (nb + n + i)); cbn; try reflexivity; lia. }
  exists b2. split; [exact E2|]. rewrite V2 by lia. destruct (Z.leb_spec (nb + n) 0); [lia|]. cbn [andb]. rewrite V1 by lia.
  destruct (Z.ltb_spec 0 (0 + nb)); [|lia]. cbn [andb Z.leb Z.compare]. replace (2 * nb - (0 - 0)) with (2 * nb) by lia. rewrite V0 by lia.
  destruct (Z.leb_spec nb (2 * nb)), (Z.ltb_spec (2 * nb) (nb + n)); cbn; try reflexivity; lia.
Qed.
End Border.

Lemma zsum_bound f a m D : 0 <= D -> (forall j, a <= j < a + Z.of_nat m -> - D <= f j <= D) -> - (Z.of_nat m * D) <= zsum f a m <= Z.of_nat m * D.
Proof.
  intros D0 H. induction m as [|m IH]; cbn [zsum]; [lia|]. specialize (IH ltac:(intros; apply H; lia)). specialize (H (a + Z.of_nat m) ltac:(lia)). nia.
Qed.
Lemma zsum_front f a m : zsum f a (S m) = f a + zsum f (a + 1) m.
Proof. induction m as [|m IH]; [cbn; rewrite Z.add_0_r; lia|]. change (zsum f a (S (S m))) with (zsum f a (S m) + f (a + Z.of_nat (S m))). rewrite IH. cbn [zsum]. replace (a + 1 + Z.of_nat m) with (a + Z.of_nat (S m)) by lia. lia. Qed.
Lemma zsum_ext f g a m : (forall j, a <= j < a + Z.of_nat m -> f j = g j) -> zsum f a m = zsum g a m.
Proof. intro H. induction m as [|m IH]; cbn [zsum]; [reflexivity|]. rewrite IH, H by (intros; try apply H; lia). reflexivity. Qed.

Section Conv.
Context {A : Type}.
Variables (zero : A) (add mul : A -> A -> A).
Notation "l @ i" := (nth (Z.to_nat i) l zero) (at level 9).
Lemma conv_step_ok data kernel n_k i : 0 <= i -> 1 <= n_k <= Z.of_nat (length kernel) -> i + 2 * (n_k - 1) < Z.of_nat (length data) ->
  conv_step add mul data kernel n_k i = Ok (conv_sum add mul (fun k => kernel @ k) (fun j => data @ j) (i + (n_k - 1)) (Z.to_nat (n_k - 1))).
Proof.
  intros I K D. unfold conv_step. rewrite (zget_lt kernel 0 zero), (zget_lt data _ zero) by lia. cbn [bind]. set (c := i + n_k - 1). replace (i + (n_k - 1)) with c by lia.
  assert (G : forall m, (m < Z.to_nat n_k)%nat -> for_each (fun k sum => let* kk := zget kernel k in let* dm := zget data (c - k) in let* dp := zget data (c + k) in
    Ok (add sum (mul kk (add dm dp)))) (zrange 1 (Z.of_nat m + 1)) (mul (kernel @ 0) (data @ c)) = Ok (conv_sum add mul (fun k => kernel @ k) (fun j => data @ j) c m)).
  { induction m as [|m IH]; intro M; [reflexivity|]. replace (Z.of_nat (S m) + 1) with (Z.of_nat m + 1 + 1) by lia. rewrite zrange_snoc by lia. rewrite for_each_app, IH by lia. cbn [bind for_each].
    rewrite (zget_lt kernel _ zero), !(zget_lt data _ zero) by lia. cbn [bind]. cbn [conv_sum]. replace (Z.of_nat (S m)) with (Z.of_nat m + 1) by lia. reflexivity. }
  specialize (G (Z.to_nat (n_k - 1)) ltac:(lia)). replace (Z.of_nat (Z.to_nat (n_k - 1)) + 1) with n_k in G by lia. exact G.
Qed.
Lemma conv_sum_ext kernel kernel' s s' c m : (forall k, 0 <= k <= Z.of_nat m -> kernel k = kernel' k) -> (forall j, c - Z.of_nat m <= j <= c + Z.of_nat m -> s j = s' j) ->
  conv_sum add mul kernel s c m = conv_sum add mul kernel' s' c m.
Proof.
  induction m as [|m IH]; intros K S; cbn [conv_sum]; [rewrite K, S by lia; reflexivity|]. rewrite IH; [|intros; apply K; lia|intros; apply S; lia]. rewrite K, !S by lia. reflexivity.
Qed.
Lemma convolve_sym_ok n data n_k kernel : 1 < n -> 1 < n_k <= Z.of_nat (length kernel) -> n + 2 * (n_k - 1) <= Z.of_nat (length data) ->
  exists data', convolve_sym add mul n data n_k kernel = Ok data' /\ length data' = length data /\
    (forall i, 0 <= i < n -> data' @ i = conv_sum add mul (fun k => kernel @ k) (fun j => data @ j) (i + (n_k - 1)) (Z.to_nat (n_k - 1))) /\
    (forall i, n <= i -> data' @ i = data @ i).
Proof.
  intros N K D. unfold convolve_sym. destruct (Z.leb_spec n 1); [lia|]. destruct (Z.leb_spec n_k 1); [lia|]. cbn [orb].
  destruct (fill1 zero (fun i l => conv_step add mul l kernel n_k i) (fun i => conv_sum add mul (fun k => kernel @ k) (fun j => data @ j) (i + (n_k - 1)) (Z.to_nat (n_k - 1))) 0 n data) as (l' & E & L & V); [lia|lia| |].
  { intros i l I LL V. rewrite conv_step_ok by lia. f_equal. apply conv_sum_ext; [reflexivity|]. intros j J. rewrite V by lia.
    destruct (Z.leb_spec 0 j), (Z.ltb_spec j (0 + i)); cbn; try reflexivity. lia. }
  exists l'. split; [exact E|]. split; [exact L|]. split.
  - intros i I. rewrite V by lia. destruct (Z.leb_spec 0 i), (Z.ltb_spec i (0 + n)); cbn; try lia. now rewrite Z.sub_0_r.
  - intros i I. rewrite V by lia. destruct (Z.leb_spec 0 i), (Z.ltb_spec i (0 + n)); cbn; try lia. reflexivity.
Qed.

End Conv.

Section Box.
Context {A : Type}.
Variables (zero : A) (add sub : A -> A -> A) (divz : A -> Z -> A).
Notation "l @ i" := (nth (Z.to_nat i) l zero) (at level 9).
(** The box filter on samples that stand for integers of magnitude up to [D],
    when sums up to [B] are exact. *)
Variable rep : Z -> A.
Variable B : Z.
Hypothesis add_ok : forall a b, - B <= a <= B -> - B <= b <= B -> - B <= a + b <= B -> add (rep a) (rep b) = rep (a + b).
Hypothesis sub_ok : forall a b, - B <= a <= B -> - B <= b <= B -> - B <= a - b <= B -> sub (rep a) (rep b) = rep (a - b).
Lemma convolve_box_ok n data n_r (s : Z -> Z) D :
  1 < n -> 1 <= n_r -> n + 2 * n_r <= Z.of_nat (length data) -> 0 <= D -> (2 * n_r + 1) * D <= B ->
  (forall j, 0 <= j < n + 2 * n_r -> data @ j = rep (s j) /\ - D <= s j <= D) ->
  exists data', convolve_box add sub divz n data n_r = Ok data' /\ length data' = length data /\
    (forall i, 0 <= i < n -> data' @ i = divz (rep (zsum s i (Z.to_nat (2 * n_r + 1)))) (2 * n_r + 1)) /\
    (forall i, n <= i -> data' @ i = data @ i).
Proof.
  intros N R L D0 DB S. unfold convolve_box. destruct (Z.leb_spec n 1); [lia|]. destruct (Z.ltb_spec n_r 1); [lia|]. cbn [orb].
  set (w := Z.to_nat (2 * n_r + 1)).
  assert (SB : forall a m, 0 <= a -> (m <= w)%nat -> a + Z.of_nat m <= n + 2 * n_r -> - B <= zsum s a m <= B).
  { intros a m A0 M AM. pose proof (zsum_bound s a m D D0) as Q. assert (- (Z.of_nat m * D) <= zsum s a m <= Z.of_nat m * D) as Q' by (apply Q; intros; apply S; lia). nia. }
  assert (S1 : forall j, 0 <= j < n + 2 * n_r -> - B <= s j <= B) by (intros j J; destruct (S j J); nia).
  rewrite (zget_lt data 0 zero) by lia. cbn [bind].
  (* the first window *)
  assert (G1 : forall m, (1 <= m <= w)%nat -> exists d1, for_each (fun i data => let* a := zget data 0 in let* b := zget data (i + n_r) in zset data 0 (add a b))
      (zrange (- n_r + 1) (- n_r + Z.of_nat m)) data = Ok d1 /\ length d1 = length data /\ d1 @ 0 = rep (zsum s 0 m) /\ forall j, 1 <= j -> d1 @ j = data @ j).
  { intros m M. destruct m as [|m]; [lia|]. induction m as [|m IH].
    - rewrite zrange_empty by lia. exists data. split; [reflexivity|]. split; [reflexivity|]. split; [|reflexivity]. destruct (S 0 ltac:(lia)) as [-> _]. reflexivity.
    - destruct IH as (d1 & E & L1 & Z1 & V1); [lia|]. replace (- n_r + Z.of_nat (Datatypes.S (Datatypes.S m))) with (- n_r + Z.of_nat (Datatypes.S m) + 1) by lia.
      rewrite zrange_snoc by lia. rewrite for_each_app, E. cbn [bind for_each]. rewrite !(zget_lt d1 _ zero) by lia. cbn [bind]. rewrite zset_lt' by lia. cbn [bind].
      eexists. split; [reflexivity|]. rewrite lset_length. split; [exact L1|]. split.
      + rewrite nth_lset. rewrite Nat.eqb_refl. replace (_ <? _)%nat with true by (symmetry; apply Nat.ltb_lt; lia). cbn [andb]. rewrite Z1, V1 by lia.
        replace (- n_r + Z.of_nat (Datatypes.S m) + n_r) with (Z.of_nat (Datatypes.S m)) by lia. destruct (S (Z.of_nat (Datatypes.S m)) ltac:(lia)) as [-> _].
        change (zsum s 0 (Datatypes.S (Datatypes.S m))) with (zsum s 0 (Datatypes.S m) + s (0 + Z.of_nat (Datatypes.S m))). rewrite Z.add_0_l.
        apply add_ok; [apply SB; lia|apply S1; lia|]. pose proof (SB 0 (Datatypes.S (Datatypes.S m)) ltac:(lia) ltac:(lia) ltac:(lia)) as Q.
        change (zsum s 0 (Datatypes.S (Datatypes.S m))) with (zsum s 0 (Datatypes.S m) + s (0 + Z.of_nat (Datatypes.S m))) in Q. rewrite Z.add_0_l in Q. exact Q.
      + intros j J. rewrite nth_lset. destruct (Nat.eqb_spec (Z.to_nat 0) (Z.to_nat j)) as [EE|NE]; [cbn in EE; lia|]. cbn [andb]. apply V1, J. }
  destruct (G1 w ltac:(lia)) as (d1 & E1 & L1 & Z1 & V1). clear G1. replace (- n_r + Z.of_nat w) with (n_r + 1) in E1 by lia. rewrite E1. cbn [bind].
  (* the others *)
  assert (G2 : forall m, (1 <= m)%nat -> Z.of_nat m <= n -> exists d2, for_each (fun i '(data, prev) => let* di := zget data i in let* a := zget data (i - 1) in let* b := zget data (i + 2 * n_r) in
      let* data := zset data i (add (sub a prev) b) in Ok (data, di)) (zrange 1 (Z.of_nat m)) (d1, data @ 0) = Ok (d2, rep (s (Z.of_nat m - 1))) /\ length d2 = length data /\
      (forall i, 0 <= i < Z.of_nat m -> d2 @ i = rep (zsum s i w)) /\ forall j, Z.of_nat m <= j -> d2 @ j = data @ j).
  { intros m M1 M2. destruct m as [|m]; [lia|]. clear M1. induction m as [|m IH].
    - rewrite zrange_empty by lia. exists d1. replace (Z.of_nat 1 - 1) with 0 by lia. destruct (S 0 ltac:(lia)) as [-> _]. split; [reflexivity|]. split; [exact L1|]. split.
      + intros i I. replace i with 0 by lia. exact Z1.
      + intros j J. apply V1. lia.
    - destruct IH as (d2 & E & L2 & Z2 & V2); [lia|]. set (i := Z.of_nat (Datatypes.S m)) in *. replace (Z.of_nat (Datatypes.S (Datatypes.S m))) with (i + 1) in * by lia.
      rewrite zrange_snoc by lia. rewrite for_each_app, E. cbn [bind for_each]. rewrite !(zget_lt d2 _ zero) by lia. cbn [bind]. rewrite zset_lt' by lia. cbn [bind].
      rewrite (V2 i), (V2 (i + 2 * n_r)), (Z2 (i - 1)) by lia. destruct (S i ltac:(lia)) as [-> _]. destruct (S (i + 2 * n_r) ltac:(lia)) as [-> _].
      replace (i + 1 - 1) with i by lia. eexists. split; [reflexivity|]. rewrite lset_length. split; [exact L2|].
      assert (SL : add (sub (rep (zsum s (i - 1) w)) (rep (s (i - 1)))) (rep (s (i + 2 * n_r))) = rep (zsum s i w)).
      { assert (W1 : zsum s (i - 1) w = s (i - 1) + zsum s i (Z.to_nat (2 * n_r))).
        { replace w with (Datatypes.S (Z.to_nat (2 * n_r))) by lia. rewrite zsum_front. do 2 f_equal. lia. }
        assert (W2 : zsum s i w = zsum s i (Z.to_nat (2 * n_r)) + s (i + 2 * n_r)).
        { replace w with (Datatypes.S (Z.to_nat (2 * n_r))) by lia. cbn [zsum]. do 2 f_equal. lia. }
        pose proof (SB (i - 1) w ltac:(lia) ltac:(lia) ltac:(lia)). pose proof (SB i w ltac:(lia) ltac:(lia) ltac:(lia)).
        pose proof (SB i (Z.to_nat (2 * n_r)) ltac:(lia) ltac:(lia) ltac:(lia)).
        rewrite sub_ok; [|lia|apply S1; lia|lia]. rewrite add_ok; [f_equal; lia|lia|apply S1; lia|lia]. }
      split.
      + intros k K. rewrite nth_lset. destruct (Nat.eqb_spec (Z.to_nat i) (Z.to_nat k)) as [EE|NE]; cbn [andb].
        * replace (_ <? _)%nat with true by (symmetry; apply Nat.ltb_lt; lia). assert (k = i) as -> by lia. exact SL.
        * apply Z2. lia.
      + intros k K. rewrite nth_lset. destruct (Nat.eqb_spec (Z.to_nat i) (Z.to_nat k)) as [EE|NE]; [lia|]. cbn [andb]. apply V2. lia. }
  destruct (G2 (Z.to_nat n) ltac:(lia) ltac:(lia)) as (d2 & E2 & L2 & Z2 & V2). clear G2. rewrite Z2Nat.id in * by lia. rewrite E2. cbn [bind].
  destruct (fill1 zero (fun i l => let* a := zget l i in Ok (divz a (2 * n_r + 1))) (fun i => divz (rep (zsum s i w)) (2 * n_r + 1)) 0 n d2) as (d3 & E3 & L3 & V3); [lia|lia| |].
  { intros i l I LL V. rewrite (zget_lt l i zero) by lia. cbn [bind]. rewrite V by lia. destruct (Z.leb_spec 0 i), (Z.ltb_spec i (0 + i)); try lia. cbn [andb]. now rewrite Z2 by lia. }
  rewrite (for_each_eq _ (fun i data => let* a := zget data i in zset data i (divz a (2 * n_r + 1)))) in E3 by (intros x l _; destruct (zget l x); reflexivity).
  exists d3. split; [exact E3|]. split; [lia|]. split.
  - intros i I. rewrite V3 by lia. destruct (Z.leb_spec 0 i), (Z.ltb_spec i (0 + n)); try lia. cbn [andb]. now rewrite Z.sub_0_r.
  - intros i I. rewrite V3 by lia. destruct (Z.leb_spec 0 i), (Z.ltb_spec i (0 + n)); try lia. cbn [andb]. apply V2, I.
Qed.
End Box.
