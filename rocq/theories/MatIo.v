(** Lemmas about products, filling, and text files of matrices. *)
From Verif Require Import Base BaseLemmas BitsModel StrModel StrSpec StrProofs MatModel MatSpec MatProofs.

Local Open Scope nat_scope.

(** * Counting loops *)
Lemma for_upto {S} (f : Z -> S -> res S) (P : nat -> S -> Prop) n s :
  P 0 s -> (forall i s, i < n -> P i s -> exists s', f (Z.of_nat i) s = Ok s' /\ P (Datatypes.S i) s') ->
  exists s', for_each f (upto (Z.of_nat n)) s = Ok s' /\ P n s'.
Proof.
  intros H0 Hs. unfold upto. rewrite Nat2Z.id.
  assert (G : forall len i s, i + len = n -> P i s -> exists s', for_each f (map Z.of_nat (seq i len)) s = Ok s' /\ P n s').
  { induction len as [|len IH]; intros i s0 Hl Hp.
    - exists s0. split; auto. replace n with i by lia. auto.
    - destruct (Hs i s0) as [s1 [E1 H1]]; auto; [lia|].
      destruct (IH (Datatypes.S i) s1) as [s2 [E2 H2]]; auto; [lia|].
      exists s2. cbn [seq map for_each]. rewrite E1. cbn [bind]. auto. }
  apply (G n 0 s); auto.
Qed.

Lemma at_col_ok c ld r : (Z.of_nat c * Z.of_nat ld + Z.of_nat r <= INT_MAX)%Z ->
  at_col (Z.of_nat c) (Z.of_nat ld) (Z.of_nat r) = Ok (Z.of_nat (c * ld + r)).
Proof.
  intros H. unfold at_col, chk_int.
  replace (in_int (Z.of_nat c * Z.of_nat ld)) with true by (unfold in_int, INT_MIN, INT_MAX in *; lia).
  cbn [bind]. replace (in_int (Z.of_nat c * Z.of_nat ld + Z.of_nat r)) with true by (unfold in_int, INT_MIN, INT_MAX in *; lia).
  f_equal. lia.
Qed.

Lemma zget_nat {A} (l : list A) i v : nth_error l i = Some v -> zget l (Z.of_nat i) = Ok v.
Proof. intros H. unfold zget. replace (Z.of_nat i <? 0)%Z with false by lia. rewrite Nat2Z.id. apply aget_ok; auto. Qed.
Lemma zset_nat {A} (l : list A) i v : i < length l -> zset l (Z.of_nat i) v = Ok (lset l i v).
Proof. intros H. unfold zset. replace (Z.of_nat i <? 0)%Z with false by lia. rewrite Nat2Z.id. apply aset_lt; auto. Qed.

Lemma offset_inj m ld c r c' r' : m <= ld -> r < m -> r' < m -> c * ld + r = c' * ld + r' -> c = c' /\ r = r'.
Proof.
  intros H1 H2 H3 E.
  assert (c = c'); [|subst; lia].
  destruct (Nat.lt_trichotomy c c') as [L|[L|L]]; auto; exfalso; nia.
Qed.

Lemma nth_error_firstn_lt' {A} (l : list A) i k : i < k -> nth_error (firstn k l) i = nth_error l i.
Proof. revert l i. induction k; intros [|h t] [|i] H; simpl; auto; try lia. apply IHk. lia. Qed.

(** * Filling *)
Theorem set_ok {D} m n ld (A : list D) v :
  m <= ld -> (Z.of_nat n * Z.of_nat ld <= INT_MAX)%Z ->
  (forall r c, r < m -> c < n -> c * ld + r < length A) ->
  exists B, nx_dmat_set (Z.of_nat m) (Z.of_nat n) A (Z.of_nat ld) v = Ok B /\ length B = length A /\
    (forall r c, r < m -> c < n -> elem B ld r c = Some v) /\
    (forall k, (forall r c, r < m -> c < n -> k <> c * ld + r) -> nth_error B k = nth_error A k).
Proof.
  intros Hld Hmax Hsz. unfold nx_dmat_set. replace (Z.of_nat ld <? Z.of_nat m)%Z with false by lia.
  apply (for_upto _ (fun i B => length B = length A /\
    (forall r c, r < m -> c < i -> elem B ld r c = Some v) /\
    (forall k, (forall r c, r < m -> c < i -> k <> c * ld + r) -> nth_error B k = nth_error A k))).
  - split; auto. split; auto. intros; lia.
  - intros i B Hi [L [B1 B2]]. unfold chk_int.
    replace (in_int (Z.of_nat i * Z.of_nat ld)) with true by (unfold in_int, INT_MIN, INT_MAX in *; nia).
    cbn [bind]. replace (Z.of_nat m <? 0)%Z with false by lia.
    destruct (for_upto (fun j A => zset A (Z.of_nat i * Z.of_nat ld + j) v) (fun j B' => length B' = length A /\
      (forall r, r < j -> elem B' ld r i = Some v) /\
      (forall k, (forall r, r < j -> k <> i * ld + r) -> nth_error B' k = nth_error B k)) m B) as [B' [E [L' [C1 C2]]]].
    + split; auto. split; auto. intros; lia.
    + intros j B' Hj [L' [C1 C2]].
      replace (Z.of_nat i * Z.of_nat ld + Z.of_nat j)%Z with (Z.of_nat (i * ld + j)) by lia.
      rewrite zset_nat by (rewrite L'; auto). eexists. split; [reflexivity|].
      split; [rewrite lset_length; auto|]. split.
      * intros r Hr. unfold elem. destruct (Nat.eq_dec r j) as [->|].
        -- apply nth_error_lset_eq. rewrite L'. auto.
        -- rewrite nth_error_lset_neq by lia. apply C1. lia.
      * intros k Hk. rewrite nth_error_lset_neq by (intros E; apply (Hk j); lia). apply C2. intros; apply Hk; lia.
    + exists B'. split; [exact E|]. split; auto. split.
      * intros r c Hr Hc. destruct (Nat.eq_dec c i) as [->|]; auto.
        unfold elem. rewrite C2.
        -- apply B1; auto. lia.
        -- intros r' Hr' E2. apply (offset_inj m ld) in E2; auto. lia.
      * intros k Hk. rewrite C2; auto.
Qed.

(** * Product *)
Theorem mul_ok {D} zero add mul m n k (A : list D) ldA B ldB C ldC :
  m <= ldC ->
  (forall r j, r < m -> j < k -> j * ldA + r < length A /\ (Z.of_nat (j * ldA + r) <= INT_MAX)%Z) ->
  (forall j c, j < k -> c < n -> c * ldB + j < length B /\ (Z.of_nat (c * ldB + j) <= INT_MAX)%Z) ->
  (forall r c, r < m -> c < n -> c * ldC + r < length C /\ (Z.of_nat (c * ldC + r) <= INT_MAX)%Z) ->
  exists C', nx_dmat_mul zero add mul (Z.of_nat m) (Z.of_nat n) (Z.of_nat k) A (Z.of_nat ldA) B (Z.of_nat ldB) C (Z.of_nat ldC) = Ok C' /\
    length C' = length C /\
    (forall r c xs ys, r < m -> c < n -> is_row A ldA r k xs -> is_col B ldB c k ys -> elem C' ldC r c = Some (dot add mul zero xs ys)) /\
    (forall i, (forall r c, r < m -> c < n -> i <> c * ldC + r) -> nth_error C' i = nth_error C i).
Proof.
  intros Hld HA HB HC. unfold nx_dmat_mul.
  apply (for_upto _ (fun c C' => length C' = length C /\
    (forall r c' xs ys, r < m -> c' < c -> is_row A ldA r k xs -> is_col B ldB c' k ys -> elem C' ldC r c' = Some (dot add mul zero xs ys)) /\
    (forall i, (forall r c', r < m -> c' < c -> i <> c' * ldC + r) -> nth_error C' i = nth_error C i))).
  { split; auto. split; auto. intros; lia. }
  intros c C1 Hc [L1 [P1 P2]].
  match goal with |- exists s', for_each ?f _ _ = _ /\ _ =>
  destruct (for_upto f (fun r C' => length C' = length C /\
    (forall r' xs ys, r' < r -> is_row A ldA r' k xs -> is_col B ldB c k ys -> elem C' ldC r' c = Some (dot add mul zero xs ys)) /\
    (forall i, (forall r', r' < r -> i <> c * ldC + r') -> nth_error C' i = nth_error C1 i)) m C1) as [C2 [E2 [L2 [Q1 Q2]]]]
  end.
  { split; auto. split; auto. intros; lia. }
  - intros r C2 Hr [L2 [Q1 Q2]].
    destruct (HC r c Hr Hc) as [S1 S2].
    rewrite at_col_ok by lia. cbn [bind]. rewrite zset_nat by lia. cbn [bind].
    match goal with |- exists s', for_each ?f _ ?C0 = _ /\ _ =>
    destruct (for_upto f (fun j C' => length C' = length C /\
      (forall xs ys, is_row A ldA r j xs -> is_col B ldB c j ys -> nth_error C' (c * ldC + r) = Some (dot add mul zero xs ys)) /\
      (forall i, i <> c * ldC + r -> nth_error C' i = nth_error C2 i)) k C0) as [C3 [E3 [L3 [R1 R2]]]]
    end.
    + split; [rewrite lset_length; auto|]. split.
      * intros xs ys [X _] [Y _]. destruct xs; [|discriminate]. rewrite nth_error_lset_eq by lia. reflexivity.
      * intros i Hi. apply nth_error_lset_neq. auto.
    + intros j C3 Hj [L3 [R1 R2]].
      destruct (HA r j Hr Hj) as [A1 A2]. destruct (HB j c Hj Hc) as [B1 B2].
      rewrite at_col_ok by lia. cbn [bind].
      destruct (nth_error A (j * ldA + r)) as [a|] eqn:Ea; [|apply nth_error_None in Ea; lia].
      rewrite (zget_nat _ _ _ Ea). cbn [bind].
      rewrite at_col_ok by lia. cbn [bind].
      destruct (nth_error B (c * ldB + j)) as [b|] eqn:Eb; [|apply nth_error_None in Eb; lia].
      rewrite (zget_nat _ _ _ Eb). cbn [bind].
      destruct (nth_error C3 (c * ldC + r)) as [v|] eqn:Ev; [|apply nth_error_None in Ev; lia].
      rewrite (zget_nat _ _ _ Ev). cbn [bind]. rewrite zset_nat by lia.
      eexists. split; [reflexivity|]. split; [rewrite lset_length; auto|]. split.
      * intros xs ys [X1 X2] [Y1 Y2]. rewrite nth_error_lset_eq by lia. f_equal.
        assert (DS : forall (l : list D) x, length l = S j -> nth_error l j = Some x -> l = firstn j l ++ [x]).
        { intros l x Hl Hx. rewrite <- (firstn_S_nth_error _ _ _ Hx), firstn_all2; auto. lia. }
        rewrite (DS xs a) by (rewrite ?X2; unfold elem; auto; lia).
        rewrite (DS ys b) by (rewrite ?Y2; unfold elem; auto; lia).
        assert (Ev2 : Some v = Some (dot add mul zero (firstn j xs) (firstn j ys))).
        { apply R1.
          - split; [rewrite firstn_length; lia|]. intros i Hi. rewrite <- (X2 i) by lia.
            rewrite nth_error_firstn_lt' by lia. reflexivity.
          - split; [rewrite firstn_length; lia|]. intros i Hi. rewrite <- (Y2 i) by lia.
            rewrite nth_error_firstn_lt' by lia. reflexivity. }
        injection Ev2 as ->.
        assert (DA : forall x1 y1 v0, length x1 = length y1 -> dot add mul v0 (x1 ++ [a]) (y1 ++ [b]) = add (dot add mul v0 x1 y1) (mul a b)).
        { clear. induction x1 as [|x x1 IH]; intros [|y y1] v0 Hl; try discriminate; simpl; auto. }
        symmetry. apply DA. rewrite !firstn_length. lia.
      * intros i Hi. rewrite nth_error_lset_neq by auto. auto.
    + exists C3. split; [exact E3|]. split; auto. split.
      * intros r' xs ys Hr' Hx Hy. destruct (Nat.eq_dec r' r) as [->|].
        { unfold elem. apply R1; auto. }
        unfold elem. rewrite R2 by lia. apply Q1; auto. lia.
      * intros i Hi. rewrite R2 by (apply Hi; lia). apply Q2. intros; apply Hi; lia.
  - exists C2. split; [exact E2|]. split; auto. split.
    + intros r c' xs ys Hr Hc' Hx Hy. destruct (Nat.eq_dec c' c) as [->|]; [apply Q1; auto|].
      unfold elem. rewrite Q2.
      * apply P1; auto. lia.
      * intros r' Hr' E. apply (offset_inj m ldC) in E; auto. lia.
    + intros i Hi. rewrite Q2; auto.
Qed.

(** * Reading *)
Lemma cstr_before_nul l b : cstr (l ++ 0%N :: b) = Ok (before_nul l).
Proof.
  induction l as [|c l IH]; simpl; auto. destruct (c =? 0)%N; auto. rewrite IH. reflexivity.
Qed.

Lemma drealloc_length {D} (junk : nat -> D) A k : length (drealloc junk A k) = k.
Proof. unfold drealloc. rewrite app_length, map_length, seq_length, firstn_length. lia. Qed.
Lemma drealloc_prefix {D} (junk : nat -> D) A k sz : sz <= length A -> sz <= k -> firstn sz (drealloc junk A k) = firstn sz A.
Proof.
  intros H1 H2. unfold drealloc. rewrite firstn_app, firstn_firstn, firstn_length.
  replace (sz - Nat.min k (length A)) with 0 by lia. rewrite app_nil_r. f_equal. lia.
Qed.

Lemma firstn_lset {A} (l : list A) i v : firstn i (lset l i v) = firstn i l.
Proof. revert i. induction l as [|h t IH]; intros [|i]; simpl; auto. f_equal. auto. Qed.

Lemma parse_line_ok {D} junk (strtod : list N -> D * nat) t row :
  (forall t, snd (strtod t) <= length t) -> numbers strtod t row ->
  forall fuel A sz ml pre, length t < fuel -> sz <= length A -> 0 < length A -> firstn sz A = pre ->
  (0 <= ml)%Z -> (ml + Z.of_nat (length row) <= INT_MAX)%Z ->
  exists A', parse_line junk strtod fuel t A sz ml = Ok (A', sz + length row, (ml + Z.of_nat (length row))%Z) /\
    firstn (sz + length row) A' = pre ++ row /\ sz + length row <= length A' /\ 0 < length A'.
Proof.
  intros Hle Hn. induction Hn as [t E|t d k ds E Hk Hn IH]; intros fuel A sz ml pre Hf Hs H0 Hp Hm Hx;
    destruct fuel as [|fuel]; try lia; cbn [parse_line].
  - destruct (strtod t) as [d k]. cbn [snd] in E. subst k. cbn [Nat.eqb].
    exists A. cbn [length]. rewrite Nat.add_0_r, app_nil_r. split; [|auto]. do 2 f_equal. lia.
  - rewrite E. cbn [length] in *.
    pose proof (Hle t) as L. rewrite E in L. cbn [snd] in L.
    replace (k =? 0) with false by lia. replace (length t <? k) with false by lia.
    unfold chk_int. replace (in_int (ml + 1)) with true by (unfold in_int, INT_MIN, INT_MAX in *; lia).
    cbn [bind].
    set (A1 := if length A <=? sz then drealloc junk A (2 * length A) else A).
    assert (HA1 : sz < length A1 /\ firstn sz A1 = pre).
    { unfold A1. destruct (Nat.leb_spec (length A) sz).
      - rewrite drealloc_length, drealloc_prefix by lia. split; [lia|auto].
      - split; auto. }
    destruct HA1 as [L1 P1].
    rewrite aset_lt by auto. cbn [bind].
    destruct (IH fuel (lset A1 sz d) (S sz) (ml + 1)%Z (pre ++ [d])) as [A' [E' [F1 [F2 F3]]]].
    + rewrite skipn_length. lia.
    + rewrite lset_length. lia.
    + rewrite lset_length. lia.
    + rewrite (firstn_S_nth_error _ sz d) by (apply nth_error_lset_eq; auto). rewrite firstn_lset, P1. reflexivity.
    + lia.
    + lia.
    + exists A'. replace (sz + S (length ds)) with (S sz + length ds) by lia.
      replace (ml + Z.of_nat (S (length ds)))%Z with (ml + 1 + Z.of_nat (length ds))%Z by lia.
      split; auto. split; auto. rewrite F1, <- app_assoc. reflexivity.
Qed.

Lemma cstr_line line l : firstn (length l) line = l -> nth_error line (length l) = Some 0%N -> cstr line = Ok (before_nul l).
Proof.
  intros H1 H2. apply nth_error_split in H2. destruct H2 as [l1 [l2 [-> E]]].
  rewrite <- E in H1. rewrite firstn_app, firstn_all, Nat.sub_diag, app_nil_r in H1. subst.
  apply cstr_before_nul.
Qed.

Lemma lines_nonempty st l : In l (lines st) -> l <> [].
Proof. intros H. apply lines_shape in H. tauto. Qed.

Section Rows.
Context {D : Type}.
Variable strtod : list N -> D * nat.
Hypothesis Hle : forall t, snd (strtod t) <= length t.

(** The outcome for the rows found, given m and n so far. *)
Fixpoint rows_out (rows : list (list D)) (m n : Z) : option (Z * Z) :=
  match rows with
  | [] => Some (m, n)
  | row :: rows' =>
    if (n =? 0)%Z then rows_out rows' (Z.of_nat (length row)) 1
    else if (m =? Z.of_nat (length row))%Z then rows_out rows' m (n + 1)%Z else None
  end.

Lemma read_rows_ok junk junkd : forall rows st fuel line (A : list D) sz m n pre,
  Forall2 (fun l row => numbers strtod (before_nul l) row) (lines st) rows ->
  Forall (fun l => (N.of_nat (length l) < 2 ^ 30 - 1)%N) (lines st) ->
  length rows < fuel -> sz <= length A -> 0 < length A -> firstn sz A = pre ->
  (0 <= n)%Z -> (n + Z.of_nat (length rows) <= INT_MAX)%Z ->
  Forall (fun row => (Z.of_nat (length row) <= INT_MAX)%Z) rows ->
  match rows_out rows m n with
  | Some (m', n') => exists A', read_rows junk junkd strtod fuel line st A sz m n = Ok (A', m', n') /\
      firstn (sz + length (concat rows)) A' = pre ++ concat rows /\ sz + length (concat rows) <= length A' /\ 0 < length A'
  | None => read_rows junk junkd strtod fuel line st A sz m n = Fatal
  end.
Proof.
  induction rows as [|row rows IH]; intros st fuel line A sz m n pre HF Hlen Hf Hs H0 Hp Hn Hmax Hrow;
    destruct fuel as [|fuel]; try (cbn [length] in Hf; lia).
  - inversion HF as [E|]. symmetry in E. cbn [rows_out read_rows].
    destruct (getline_spec junk line st) as (line' & st' & Eg & _).
    { unfold first_line. rewrite E. reflexivity. }
    rewrite Eg. cbn [bind]. unfold first_line. rewrite E.
    change (Z.of_nat (length (@nil N)) <=? 0)%Z with true. cbv iota.
    exists A. cbn [concat length]. rewrite Nat.add_0_r, app_nil_r. auto.
  - remember (lines st) as ls eqn:El. destruct ls as [|l ls]; [inversion HF|].
    assert (Ef : first_line st = l) by (unfold first_line; rewrite <- El; reflexivity).
    assert (Hne : l <> []) by (apply (lines_nonempty st); rewrite <- El; left; auto).
    inversion HF as [|? ? ? ? Hnum HF']; subst x y l0 l'.
    inversion Hlen as [|? ? Hl1 Hlen']; subst x l0. inversion Hrow as [|? ? Hr1 Hrow']; subst x l0.
    cbn [read_rows].
    destruct (getline_spec junk line st) as (line' & st' & Eg & G1 & G2 & G3 & _); [rewrite Ef; auto|].
    rewrite Eg. cbn [bind]. rewrite Ef in *.
    assert (0 < length l) by (destruct l; [congruence|cbn; lia]).
    replace (Z.of_nat (length l) <=? 0)%Z with false by lia.
    rewrite (cstr_line line' l) by auto. cbn [bind].
    destruct (parse_line_ok junkd strtod (before_nul l) row Hle Hnum (S (length (before_nul l))) A sz 0%Z pre)
      as [A1 [E1 [F1 [F2 F3]]]]; auto; try lia.
    rewrite E1. cbn [bind]. rewrite Z.add_0_l.
    rewrite <- El in G3. cbn [tl] in G3. rewrite <- G3 in HF', Hlen'.
    cbn [rows_out concat length] in *. rewrite app_length.
    destruct (n =? 0)%Z eqn:En.
    + specialize (IH st' fuel line' A1 (sz + length row) (Z.of_nat (length row)) 1%Z (pre ++ row) HF' Hlen').
      destruct (rows_out rows (Z.of_nat (length row)) 1) as [[m' n']|]; [|apply IH; auto; lia].
      destruct IH as [A' [E' [I1 [I2 I3]]]]; auto; try lia.
      exists A'. split; auto. rewrite Nat.add_assoc, I1, <- app_assoc. auto.
    + destruct (m =? Z.of_nat (length row))%Z eqn:Em; cbn [negb]; auto.
      unfold chk_int. replace (in_int (n + 1)) with true by (unfold in_int, INT_MIN, INT_MAX in *; lia). cbn [bind].
      specialize (IH st' fuel line' A1 (sz + length row) m (n + 1)%Z (pre ++ row) HF' Hlen').
      destruct (rows_out rows m (n + 1)) as [[m' n']|]; [|apply IH; auto; lia].
      destruct IH as [A' [E' [I1 [I2 I3]]]]; auto; try lia.
      exists A'. split; auto. rewrite Nat.add_assoc, I1, <- app_assoc. auto.
Qed.
End Rows.

Lemma rows_out_same {D} (rows : list (list D)) k : forall n, (0 < n)%Z ->
  Forall (fun row => length row = k) rows -> rows_out rows (Z.of_nat k) n = Some (Z.of_nat k, (n + Z.of_nat (length rows))%Z).
Proof.
  induction rows as [|row rows IH]; intros n Hn HF; cbn [rows_out length].
  - rewrite Z.add_0_r. reflexivity.
  - inversion HF; subst. replace (n =? 0)%Z with false by lia. rewrite Z.eqb_refl, IH by (auto; lia).
    f_equal. f_equal. lia.
Qed.
Lemma rows_out_differ {D} (rows : list (list D)) k : forall n, (0 < n)%Z ->
  ~ Forall (fun row => length row = k) rows -> rows_out rows (Z.of_nat k) n = None.
Proof.
  induction rows as [|row rows IH]; intros n Hn HF; cbn [rows_out].
  - destruct HF. constructor.
  - replace (n =? 0)%Z with false by lia. destruct (Z.eqb_spec (Z.of_nat k) (Z.of_nat (length row))); auto.
    apply IH; [lia|]. intros HF'. apply HF. constructor; auto. lia.
Qed.

Lemma nth_concat_rows {D} (rows : list (list D)) k : Forall (fun row => length row = k) rows ->
  forall r c row, nth_error rows r = Some row -> c < k -> nth_error (concat rows) (r * k + c) = nth_error row c.
Proof.
  induction 1 as [|x rows Hx HF IH]; intros r c row Hr Hc; [destruct r; discriminate|].
  destruct r as [|r]; cbn [nth_error] in Hr; cbn [concat].
  - injection Hr as ->. rewrite nth_error_app1 by lia. reflexivity.
  - rewrite nth_error_app2 by lia. rewrite <- (IH r c row) by auto. f_equal. lia.
Qed.
Lemma concat_rows_length {D} (rows : list (list D)) k : Forall (fun row => length row = k) rows -> length (concat rows) = length rows * k.
Proof. induction 1; cbn [concat length]; auto. rewrite app_length. lia. Qed.

Theorem xread_ok {D} junk (junkd : nat -> D) raw strtod st rows :
  (forall t, snd (strtod t) <= length t) ->
  (forall k, bytes_ok (raw k) /\ length (raw k) = k) ->
  Forall2 (fun l row => numbers strtod (before_nul l) row) (lines st) rows ->
  Forall (fun l => (N.of_nat (length l) < 2 ^ 30 - 1)%N) (lines st) ->
  (Z.of_nat (length rows) <= INT_MAX)%Z -> (Z.of_nat (length (concat rows)) <= INT_MAX)%Z ->
  match rows with
  | [] => nx_dmat_xread junk junkd raw strtod (S (length (lines st))) st = Ok None
  | row0 :: _ =>
    (Forall (fun row => row = []) rows -> nx_dmat_xread junk junkd raw strtod (S (length (lines st))) st = Ok None) /\
    (~ Forall (fun row => length row = length row0) rows -> nx_dmat_xread junk junkd raw strtod (S (length (lines st))) st = Fatal) /\
    (row0 <> [] -> Forall (fun row => length row = length row0) rows ->
      exists A, nx_dmat_xread junk junkd raw strtod (S (length (lines st))) st = Ok (Some (Z.of_nat (length rows), Z.of_nat (length row0), A)) /\
        is_rows (length rows) (length row0) A rows)
  end.
Proof.
  intros Hle Hraw HF Hlen Hn Hc.
  assert (Hrow : Forall (fun row => (Z.of_nat (length row) <= INT_MAX)%Z) rows).
  { apply Forall_forall. intros row Hin. apply in_split in Hin. destruct Hin as [a [b ->]].
    rewrite concat_app, app_length in Hc. cbn [concat] in Hc. rewrite app_length in Hc. lia. }
  pose proof (read_rows_ok strtod Hle junk junkd rows st (S (length (lines st))) (map junk (seq 0 256)) (map junkd (seq 0 9)) 0 0%Z 0%Z []
    HF Hlen) as R.
  rewrite map_length, seq_length in R.
  rewrite (Forall2_length _ _ _ HF) in R |- *. specialize (R ltac:(lia) ltac:(lia) ltac:(lia) eq_refl ltac:(lia) ltac:(lia) Hrow).
  unfold nx_dmat_xread. destruct rows as [|row0 rows].
  - cbn [rows_out] in R. destruct R as [A' [E _]]. rewrite E. reflexivity.
  - cbn [rows_out Z.eqb] in R. split; [|split].
    + intros H0. inversion H0 as [|? ? R0 H1]; subst.
      assert (H2 : Forall (fun row : list D => length row = 0) rows)
        by (eapply Forall_impl; [|exact H1]; intros a ->; reflexivity).
      cbn [length] in R. rewrite (rows_out_same rows 0 1 ltac:(lia) H2) in R.
      destruct R as [A' [E _]]. cbn [length]. rewrite E. reflexivity.
    + intros H0. rewrite (rows_out_differ rows (length row0)) in R by (try lia; intros H1; apply H0; constructor; auto).
      rewrite R. reflexivity.
    + intros Hne Hall. assert (Hall' := Hall). inversion Hall' as [|? ? _ H1]; subst x l.
      rewrite (rows_out_same rows (length row0)) in R by (auto; lia).
      destruct R as [A' [E [F1 [F2 F3]]]]. rewrite E. cbn [bind].
      assert (0 < length row0) by (destruct row0; [congruence|cbn; lia]).
      replace (Z.of_nat (length row0) =? 0)%Z with false by lia.
      replace (1 + Z.of_nat (length rows) =? 0)%Z with false by lia. cbn [orb].
      replace (1 + Z.of_nat (length rows))%Z with (Z.of_nat (length (row0 :: rows))) by (cbn [length]; lia).
      set (m := length row0) in *. set (all := row0 :: rows) in *.
      assert (CL := concat_rows_length all m Hall). cbn [Nat.add app] in F1, F2.
      destruct (transpose_ok (raw (N.to_nat (nx_bit_array_n_bytes (Z.to_N (Z.of_nat m * Z.of_nat (length all)))))) m (length all) A')
        as [B [EB [T1 [T2 T3]]]]; auto.
      * cbn; lia.
      * lia.
      * lia.
      * apply Hraw.
      * rewrite (proj2 (Hraw _)). rewrite N2Nat.id. f_equal. lia.
      * rewrite EB. cbn [bind]. exists B. split; auto. split; auto. split.
        -- rewrite Forall_forall in Hall. auto.
        -- intros r c row Hr Hcm.
           assert (r < length all) by (apply nth_error_Some; congruence).
           rewrite (T2 c r) by auto. unfold elem.
           rewrite <- (nth_concat_rows all m Hall r c row Hr Hcm).
           rewrite <- F1. apply nth_error_firstn_lt'. nia.
Qed.

(** * Writing and reading back *)
Lemma rows_exist {D} m n (A : list D) : m * n <= length A -> exists rows, is_rows m n A rows.
Proof.
  intros H. destruct (Nat.eq_dec (m * n) 0) as [E|E].
  - exists (repeat [] m). split; [apply repeat_length|].
    destruct (Nat.eq_dec n 0) as [->|].
    + split; [intros row Hr; apply repeat_spec in Hr; subst; auto|]. intros; lia.
    + assert (m = 0) by nia. subst. split; [intros ? []|]. intros r c row Hr. destruct r; discriminate.
  - assert (exists d : D, True) as [d0 _] by (destruct A; [cbn in H; lia|eauto]).
    exists (map (fun r => map (fun c => nth (c * m + r) A d0) (seq 0 n)) (seq 0 m)).
    split; [rewrite map_length, seq_length; auto|]. split.
    + intros row Hr. apply in_map_iff in Hr. destruct Hr as [r [<- _]]. rewrite map_length, seq_length. auto.
    + intros r c row Hr Hc.
      assert (Hrm : r < m). { assert (nth_error (map (fun r => map (fun c => nth (c * m + r) A d0) (seq 0 n)) (seq 0 m)) r <> None) as L by congruence.
        apply nth_error_Some in L. rewrite map_length, seq_length in L. auto. }
      rewrite (map_nth_error _ r (seq 0 m) (d := r)) in Hr.
      2:{ rewrite (nth_error_nth' _ 0) by (rewrite seq_length; auto). rewrite seq_nth by auto. reflexivity. }
      injection Hr as <-. rewrite (map_nth_error _ c (seq 0 n) (d := c)).
      2:{ rewrite (nth_error_nth' _ 0) by (rewrite seq_length; auto). rewrite seq_nth by auto. reflexivity. }
      unfold elem. symmetry. apply nth_error_nth'. nia.
Qed.

Definition row_sep {D} (fmt : D -> list N) (row : list D) : list N := flat_map (fun d => fmt d ++ [32%N]) row.

Lemma row_text_snoc {D} (fmt : D -> list N) row d : row_text fmt (row ++ [d]) = row_sep fmt row ++ fmt d ++ [10%N].
Proof.
  induction row as [|x row IH]; auto. cbn [app row_sep flat_map]. rewrite <- !app_assoc.
  assert (E : forall l, l <> [] -> row_text fmt (x :: l) = fmt x ++ 32%N :: row_text fmt l) by (intros [|y l] Hl; [congruence|reflexivity]).
  rewrite E by (destruct row; discriminate). rewrite IH. reflexivity.
Qed.

Theorem xwrite_ok {D} (fmt : D -> list N) m n A rows :
  0 < n -> m * n <= length A -> (Z.of_nat m * Z.of_nat n <= INT_MAX)%Z -> is_rows m n A rows ->
  nx_dmat_xwrite fmt (Z.of_nat m) (Z.of_nat n) A = Ok (concat (map (row_text fmt) rows)).
Proof.
  intros Hn HL Hmax [R1 [R2 R3]]. unfold nx_dmat_xwrite.
  replace (Z.of_nat m <? 0)%Z with false by lia. replace (Z.of_nat n <? 0)%Z with false by lia.
  match goal with |- for_each ?f _ _ = _ =>
    destruct (for_upto f (fun r out => out = concat (map (row_text fmt) (firstn r rows))) m []) as [out [E P]] end.
  - reflexivity.
  - intros r out Hr ->.
    destruct (nth_error rows r) as [row|] eqn:Er; [|apply nth_error_None in Er; lia].
    assert (Lr : length row = n) by (apply R2; eapply nth_error_In; eauto).
    match goal with |- exists s', for_each ?f _ ?o = _ /\ _ =>
      destruct (for_upto f (fun c out => out = o ++ (if c =? n then row_text fmt row else row_sep fmt (firstn c row))) n o) as [out2 [E2 P2]] end.
    + replace (0 =? n) with false by lia. rewrite app_nil_r. reflexivity.
    + intros c out Hc ->. replace (c =? n) with false by lia.
      rewrite at_col_ok by nia. cbn [bind].
      destruct (nth_error A (c * m + r)) as [d|] eqn:Ed; [|apply nth_error_None in Ed; nia].
      rewrite (zget_nat _ _ _ Ed). cbn [bind]. eexists. split; [reflexivity|].
      assert (Ec : nth_error row c = Some d) by (rewrite (R3 r c row Er Hc); exact Ed).
      rewrite <- app_assoc. f_equal.
      destruct (Nat.eqb_spec (S c) n) as [E3|E3].
      * replace (Z.of_nat c =? Z.of_nat n - 1)%Z with true by lia.
        rewrite <- row_text_snoc, <- (firstn_S_nth_error _ _ _ Ec). rewrite firstn_all2 by lia. reflexivity.
      * replace (Z.of_nat c =? Z.of_nat n - 1)%Z with false by lia.
        rewrite (firstn_S_nth_error _ _ _ Ec). unfold row_sep. rewrite flat_map_app. cbn [flat_map]. rewrite app_nil_r. reflexivity.
    + exists out2. split; [exact E2|]. rewrite P2, Nat.eqb_refl.
      rewrite (firstn_S_nth_error _ _ _ Er), map_app, concat_app. cbn [map concat]. rewrite app_nil_r. reflexivity.
  - rewrite E, P. rewrite firstn_all2 by lia. reflexivity.
Qed.

Lemma lines_app_line l st : ~ In 10%N l -> lines (l ++ 10%N :: st) = (l ++ [10%N]) :: lines st.
Proof.
  induction l as [|c l IH]; intros H.
  - reflexivity.
  - cbn [app lines]. destruct (N.eqb_spec c 10); [subst; destruct H; left; auto|].
    rewrite IH by (intros H'; apply H; right; auto). reflexivity.
Qed.

Section Back.
Context {D : Type}.
Variables (fmt : D -> list N) (strtod : list N -> D * nat).
Hypothesis HB : reads_back fmt strtod.

Lemma row_text_shape row : row <> [] -> exists l, row_text fmt row = l ++ [10%N] /\ ~ In 10%N l /\ ~ In 0%N l.
Proof.
  destruct HB as [_ [_ [_ HF]]].
  induction row as [|d row IH]; intros Hne; [congruence|]. destruct (HF d) as [_ [Z T]].
  destruct row as [|d' row].
  - exists (fmt d). auto.
  - destruct IH as [l [E [I1 I2]]]; [discriminate|]. exists (fmt d ++ 32%N :: l). split.
    + change (row_text fmt (d :: d' :: row)) with (fmt d ++ 32%N :: row_text fmt (d' :: row)). rewrite E, <- app_assoc. reflexivity.
    + split; intros H; apply in_app_or in H; destruct H as [H|[H|H]]; auto; discriminate.
Qed.

Lemma row_numbers row : row <> [] ->
  numbers strtod (row_text fmt row) row /\ numbers strtod (32%N :: row_text fmt row) row.
Proof.
  pose proof HB as [H1 [H2 [H3 HF]]].
  induction row as [|d row IH]; intros Hne; [congruence|].
  assert (L : 0 < length (fmt d)) by (destruct (HF d) as [X _]; destruct (fmt d); [congruence|cbn; lia]).
  destruct row as [|d' row].
  - cbn [row_text]. split; eapply numbers_more.
    + apply H1. auto.
    + auto.
    + rewrite skipn_app, skipn_all, Nat.sub_diag. apply numbers_end. auto.
    + apply H2. auto.
    + lia.
    + cbn [skipn]. rewrite skipn_app, skipn_all, Nat.sub_diag. apply numbers_end. auto.
  - destruct IH as [I1 I2]; [discriminate|].
    change (row_text fmt (d :: d' :: row)) with (fmt d ++ 32%N :: row_text fmt (d' :: row)).
    split; eapply numbers_more.
    + apply H1. auto.
    + auto.
    + rewrite skipn_app, skipn_all, Nat.sub_diag. exact I2.
    + apply H2. auto.
    + lia.
    + cbn [skipn]. rewrite skipn_app, skipn_all, Nat.sub_diag. exact I2.
Qed.

Lemma before_nul_id l : ~ In 0%N l -> before_nul l = l.
Proof.
  induction l as [|c l IH]; intros H; auto. cbn [before_nul]. destruct (N.eqb_spec c 0); [subst; destruct H; left; auto|].
  rewrite IH; auto. intros H'; apply H; right; auto.
Qed.

Lemma text_lines rows : (forall row, In row rows -> row <> []) ->
  lines (concat (map (row_text fmt) rows)) = map (row_text fmt) rows /\
  Forall2 (fun l row => numbers strtod (before_nul l) row) (map (row_text fmt) rows) rows.
Proof.
  induction rows as [|row rows IH]; intros Hne; [split; [reflexivity|constructor]|].
  destruct IH as [I1 I2]; [intros; apply Hne; right; auto|].
  assert (Hr : row <> []) by (apply Hne; left; auto).
  destruct (row_text_shape row Hr) as [l [E [T Z]]]. cbn [map concat].
  split.
  - rewrite E, <- app_assoc. cbn [app]. rewrite lines_app_line, I1 by auto. reflexivity.
  - constructor; auto. rewrite before_nul_id; [apply row_numbers; auto|].
    rewrite E. intros H. apply in_app_or in H. destruct H as [H|[H|[]]]; auto; discriminate.
Qed.
End Back.

Theorem round_trip {D} junk (junkd : nat -> D) raw fmt strtod m n A :
  (forall t, snd (strtod t) <= length t) -> reads_back fmt strtod ->
  (forall k, bytes_ok (raw k) /\ length (raw k) = k) ->
  0 < m -> 0 < n -> m * n <= length A -> (Z.of_nat m * Z.of_nat n <= INT_MAX)%Z ->
  (forall row, length row = n -> (forall d, In d row -> In d A) -> (N.of_nat (length (row_text fmt row)) < 2 ^ 30 - 1)%N) ->
  exists st B, nx_dmat_xwrite fmt (Z.of_nat m) (Z.of_nat n) A = Ok st /\
    nx_dmat_xread junk junkd raw strtod (S m) st = Ok (Some (Z.of_nat m, Z.of_nat n, B)) /\
    (forall r c, r < m -> c < n -> elem B m r c = elem A m r c).
Proof.
  intros Hle HB Hraw Hm Hn HL Hmax Hlen.
  destruct (rows_exist m n A HL) as [rows HR]. pose proof HR as [R1 [R2 R3]].
  assert (Hne : forall row, In row rows -> row <> []) by (intros row Hr ->; apply R2 in Hr; cbn in Hr; lia).
  destruct (text_lines fmt strtod HB rows Hne) as [TL TN].
  set (st := concat (map (row_text fmt) rows)) in *.
  exists st.
  assert (Hall : Forall (fun row => length row = n) rows) by (apply Forall_forall; auto).
  assert (CL := concat_rows_length rows n Hall).
  pose proof (xread_ok junk junkd raw strtod st rows Hle Hraw) as X. rewrite TL in X.
  specialize (X TN). rewrite map_length, R1 in X.
  destruct rows as [|row0 rows']; [cbn in R1; lia|]. set (rows := row0 :: rows') in *.
  assert (L0 : length row0 = n) by (apply R2; left; auto).
  destruct X as [_ [_ X]].
  - apply Forall_map. apply Forall_forall. intros row Hr. apply Hlen; auto.
    intros d Hd. apply In_nth_error in Hd. destruct Hd as [c Hd]. apply In_nth_error in Hr. destruct Hr as [r Hr].
    assert (c < n) by (rewrite <- (R2 row (nth_error_In _ _ Hr)); apply nth_error_Some; congruence).
    rewrite (R3 r c row Hr) in Hd by auto. eapply nth_error_In; eauto.
  - unfold INT_MAX in *. nia.
  - rewrite CL. lia.
  - destruct X as [B [EB [B1 [B2 B3]]]].
    + apply Hne. left; auto.
    + rewrite L0. exact Hall.
    + exists B. split; [apply xwrite_ok; auto|]. rewrite L0 in *. rewrite EB. split; auto.
      intros r c Hr Hc. destruct (nth_error rows r) as [row|] eqn:Er; [|apply nth_error_None in Er; lia].
      rewrite <- (R3 r c row Er Hc). symmetry. apply (B3 r c row Er Hc).
Qed.
