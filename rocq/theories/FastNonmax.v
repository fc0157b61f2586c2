(** Non-maximum suppression keeps exactly the local maxima. *)
From Verif Require Import Base BaseLemmas Gray FastModel FastSpec FastProofs.
Local Open Scope Z_scope.

Definition d0 : kp := key_at 0 (0, 0).
(** [k'] touches [k] and scores at least as much. *)
Definition beats (k k' : kp) : bool :=
  (Z.abs (k_x k - k_x k') <=? 1) && (Z.abs (k_y k - k_y k') <=? 1) && negb ((k_x k =? k_x k') && (k_y k =? k_y k')) && (k_score k <=? k_score k').
Definition beaten (c : list kp) (k : kp) : bool := existsb (beats k) c.
Definition kept (c : list kp) : list kp := filter (fun k => negb (beaten c k)) c.

Lemma beats_iff k k' : beats k k' = true <-> touching k k' /\ k_score k <= k_score k'.
Proof.
  unfold beats, touching, pos. rewrite !Bool.andb_true_iff, Bool.negb_true_iff, !Z.leb_le. split.
  - intros [[[A B] C] D]. repeat split; auto. intros [= E F]. rewrite E, F, !Z.eqb_refl in C. discriminate.
  - intros [(A & B & C) D]. repeat split; auto. apply Bool.not_true_iff_false. intro X. apply Bool.andb_true_iff in X as [E F].
    apply Z.eqb_eq in E, F. apply C. congruence.
Qed.
Lemma kept_ok c : StronglySorted before (map pos c) -> maxima_of c (kept c).
Proof.
  intro S. constructor.
  - apply SSorted_map, SSorted_filter, (SSorted_map_inv before pos), S.
  - intro k. unfold kept. rewrite filter_In. apply and_iff_compat_l. rewrite Bool.negb_true_iff, <- Bool.not_true_iff_false.
    unfold beaten, local_max. rewrite existsb_exists. split.
    + intros H k' I T. destruct (Z.le_gt_cases (k_score k) (k_score k')); [|lia]. exfalso. apply H. exists k'. split; [exact I|]. now apply beats_iff.
    + intros H (k' & I & B). apply beats_iff in B as [T L]. specialize (H k' I T). lia.
Qed.

Section NM.
Variable c : list kp.
Hypothesis Hs : StronglySorted before (map pos c).
Hypothesis Hy : forall k, In k c -> 0 <= k_y k.

Notation X i := (k_x (nth i c d0)).
Notation Y i := (k_y (nth i c d0)).
Notation SC i := (k_score (nth i c d0)).

Lemma ord i j : (i < j < length c)%nat -> Y i < Y j \/ (Y i = Y j /\ X i < X j).
Proof. intro L. pose proof (SSorted_nth before _ (pos d0) i j Hs) as H. rewrite map_length, !map_nth in H. exact (H L). Qed.
Lemma ordY i j : (i <= j < length c)%nat -> Y i <= Y j.
Proof. intro L. destruct (Nat.eq_dec i j) as [->|]; [lia|]. destruct (ord i j); lia. Qed.
Lemma Ypos i : (i < length c)%nat -> 0 <= Y i.
Proof. intro L. apply Hy, nth_In, L. Qed.
Lemma lt_of_before i j : (i < length c)%nat -> (j < length c)%nat -> Y i < Y j \/ (Y i = Y j /\ X i < X j) -> (i < j)%nat.
Proof.
  intros Li Lj B. destruct (Nat.lt_ge_cases i j) as [|G]; [assumption|]. destruct (Nat.eq_dec i j) as [->|]; [lia|].
  pose proof (ord j i ltac:(lia)). lia.
Qed.
Lemma in_nth k : In k c -> exists i, (i < length c)%nat /\ nth i c d0 = k.
Proof. intro I. apply In_nth with (d := d0) in I. destruct I as (i & L & E). eauto. Qed.
Lemma zget_c (i : nat) : (i < length c)%nat -> zget c (Z.of_nat i) = Ok (nth i c d0).
Proof. intro L. rewrite (zget_lt _ _ d0) by lia. now rewrite Nat2Z.id. Qed.

(** ** Where rows start *)
Definition last_row : Z := Y (length c - 1).
Definition starts (n : nat) (rs : list Z) : Prop :=
  length rs = Z.to_nat (last_row + 1) /\
  forall y, 0 <= y <= last_row ->
    (nth (Z.to_nat y) rs (-1) = -1 /\ forall j, (j < n)%nat -> Y j <> y) \/
    (exists i, (i < n)%nat /\ nth (Z.to_nat y) rs (-1) = Z.of_nat i /\ Y i = y /\ forall j, (j < i)%nat -> Y j < y).
Lemma row_starts_ok : (0 < length c)%nat -> exists rs, row_starts c last_row = Ok rs /\ starts (length c) rs.
Proof.
  intro L. unfold row_starts. pose proof (Ypos (length c - 1) ltac:(lia)) as Lp. change (Y (length c - 1)) with last_row in Lp.
  destruct (Z.ltb_spec (last_row + 1) 0); [lia|].
  assert (forall n, (n <= length c)%nat -> exists st, for_each (fun i '(rs, prev) =>
      let* k := aget c i in
      if k_y k =? prev then Ok (rs, prev)
      else let* rs := zset rs (k_y k) (Z.of_nat i) in Ok (rs, k_y k))
    (seq 0 n) (repeat (-1) (Z.to_nat (last_row + 1)), -1) = Ok st /\ starts n (fst st) /\
    snd st = match n with O => -1 | S m => Y m end) as K.
  { induction n as [|n IH]; intro N.
    - eexists. split; [reflexivity|]. cbn [fst snd]. split; [|reflexivity]. split; [now rewrite repeat_length|].
      intros y I. left. rewrite nth_repeat. split; [reflexivity|]. intros j J. lia.
    - destruct (IH ltac:(lia)) as ([rs prev] & E & [SL SR] & P). cbn [fst snd] in *. rewrite seq_S, for_each_app, E. cbn [bind for_each].
      rewrite (aget_lt _ _ d0) by lia. cbn [bind]. change (0 + n)%nat with n.
      assert (Y n <= last_row) as YL by (apply ordY; lia). pose proof (Ypos n ltac:(lia)) as YP.
      destruct (Z.eqb_spec (Y n) prev) as [Ep|Ep].
      + eexists. split; [reflexivity|]. cbn [fst snd]. split; [|congruence]. split; [exact SL|]. intros y I.
        destruct (SR y I) as [[A B]|(i & A & B & C & D)].
        * left. split; [exact A|]. intros j J. destruct (Nat.eq_dec j n) as [->|]; [|apply B; lia].
          destruct n as [|m]; [lia|]. rewrite Ep, P. apply B. lia.
        * right. exists i. repeat split; auto.
      + rewrite zset_lt' by (rewrite SL; lia). cbn [bind]. eexists. split; [reflexivity|]. cbn [fst snd]. split; [|reflexivity].
        split; [now rewrite lset_length|]. intros y I. rewrite nth_lset.
        assert (forall j, (j < n)%nat -> Y j < Y n) as LT.
        { intros j J. destruct n as [|m]; [lia|]. pose proof (ordY j m ltac:(lia)). pose proof (ordY m (S m) ltac:(lia)). lia. }
        destruct (Nat.eqb_spec (Z.to_nat (Y n)) (Z.to_nat y)) as [Ey|Ey]; cbn [andb].
        * replace (Z.to_nat (Y n) <? length rs)%nat with true by (symmetry; apply Nat.ltb_lt; lia).
          right. exists n. assert (Y n = y) as <- by lia. repeat split; auto.
        * destruct (SR y I) as [[A B]|(i & A & B & C & D)].
          -- left. split; [exact A|]. intros j J. destruct (Nat.eq_dec j n) as [->|]; [lia|apply B; lia].
          -- right. exists i. repeat split; auto. }
  destruct (K (length c) ltac:(lia)) as ([rs prev] & E & SS & _). cbv beta in E. rewrite E. cbn [bind]. exists rs. auto.
Qed.

(** ** Cursors *)
Section At.
Variable i : nat.
Hypothesis Hi : (i < length c)%nat.
Notation x := (X i).
Notation y := (Y i).
Notation sc := (SC i).

Lemma adv_above_ok fuel : forall p, (p <= i)%nat -> (i - p < fuel)%nat ->
  exists q, adv_above fuel c x y (Z.of_nat p) = Ok (Z.of_nat q) /\ (p <= q <= i)%nat /\
    (forall n, (p <= n < q)%nat -> Y n < y /\ X n < x - 1) /\ ~ (Y q < y /\ X q < x - 1).
Proof.
  induction fuel as [|f IH]; intros p P F; [lia|]. cbn [adv_above]. rewrite zget_c by lia. cbn [bind].
  destruct (Z.ltb_spec (Y p) y) as [A|A]; [destruct (Z.ltb_spec (X p) (x - 1)) as [B|B]|]; cbn [andb].
  - assert (p <> i) by (intro; subst; lia). replace (Z.of_nat p + 1) with (Z.of_nat (S p)) by lia.
    destruct (IH (S p) ltac:(lia) ltac:(lia)) as (q & E & Q & R & T). exists q. rewrite E. split; [reflexivity|]. split; [lia|]. split; [|exact T].
    intros n N. destruct (Nat.eq_dec n p) as [->|]; [auto|apply R; lia].
  - exists p. split; [reflexivity|]. split; [lia|]. split; [lia|lia].
  - exists p. split; [reflexivity|]. split; [lia|]. split; [lia|lia].
Qed.
Lemma scan_above_ok fuel : forall p, (p <= i)%nat -> (i - p < fuel)%nat ->
  exists b, scan_above fuel c x y sc (Z.of_nat p) = Ok b /\
    (b = true <-> exists m, (p <= m < i)%nat /\ x - 1 <= X m <= x + 1 /\ sc <= SC m /\ forall n, (p <= n <= m)%nat -> Y n < y /\ X n <= x + 1).
Proof.
  induction fuel as [|f IH]; intros p P F; [lia|]. cbn [scan_above]. rewrite zget_c by lia. cbn [bind].
  destruct (Z.ltb_spec (Y p) y) as [A|A]; [destruct (Z.leb_spec (X p) (x + 1)) as [B|B]|]; cbn [andb].
  - assert (p <> i) by (intro; subst; lia).
    destruct (((X p =? x - 1) || (X p =? x) || (X p =? x + 1)) && (sc <=? SC p)) eqn:H1.
    + exists true. split; [reflexivity|]. split; [intros _|reflexivity]. exists p. split; [lia|]. split; [lia|]. split; [lia|].
      intros n N. replace n with p by lia. auto.
    + replace (Z.of_nat p + 1) with (Z.of_nat (S p)) by lia. destruct (IH (S p) ltac:(lia) ltac:(lia)) as (b & E & R). exists b. split; [exact E|].
      rewrite R. split; intros (m & M1 & M2 & M3 & M4).
      * exists m. split; [lia|]. split; [exact M2|]. split; [exact M3|]. intros n N. destruct (Nat.eq_dec n p) as [->|]; [auto|apply M4; lia].
      * assert (m <> p) by (intro; subst; lia). exists m. split; [lia|]. split; [exact M2|]. split; [exact M3|]. intros n N. apply M4. lia.
  - exists false. split; [reflexivity|]. split; [discriminate|]. intros (m & M1 & M2 & M3 & M4). specialize (M4 p ltac:(lia)). lia.
  - exists false. split; [reflexivity|]. split; [discriminate|]. intros (m & M1 & M2 & M3 & M4). specialize (M4 p ltac:(lia)). lia.
Qed.
Lemma adv_below_ok fuel : forall p, (p <= length c)%nat -> (length c - p < fuel)%nat ->
  exists q, adv_below fuel c x y (Z.of_nat p) = Ok (Z.of_nat q) /\ (p <= q <= length c)%nat /\
    (forall n, (p <= n < q)%nat -> Y n = y + 1 /\ X n < x - 1) /\ ((q < length c)%nat -> ~ (Y q = y + 1 /\ X q < x - 1)).
Proof.
  induction fuel as [|f IH]; intros p P F; [lia|]. cbn [adv_below].
  destruct (Z.ltb_spec (Z.of_nat p) (Z.of_nat (length c))) as [L|L].
  2: { exists p. split; [reflexivity|]. split; [lia|]. split; lia. }
  rewrite zget_c by lia. cbn [bind].
  destruct (Z.eqb_spec (Y p) (y + 1)) as [A|A]; [destruct (Z.ltb_spec (X p) (x - 1)) as [B|B]|]; cbn [andb].
  - replace (Z.of_nat p + 1) with (Z.of_nat (S p)) by lia.
    destruct (IH (S p) ltac:(lia) ltac:(lia)) as (q & E & Q & R & T). exists q. rewrite E. split; [reflexivity|]. split; [lia|]. split; [|exact T].
    intros n N. destruct (Nat.eq_dec n p) as [->|]; [auto|apply R; lia].
  - exists p. split; [reflexivity|]. split; [lia|]. split; lia.
  - exists p. split; [reflexivity|]. split; [lia|]. split; lia.
Qed.
Lemma scan_below_ok fuel : forall p, (p <= length c)%nat -> (length c - p < fuel)%nat ->
  exists b, scan_below fuel c x y sc (Z.of_nat p) = Ok b /\
    (b = true <-> exists m, (p <= m < length c)%nat /\ x - 1 <= X m <= x + 1 /\ sc <= SC m /\ forall n, (p <= n <= m)%nat -> Y n = y + 1 /\ X n <= x + 1).
Proof.
  induction fuel as [|f IH]; intros p P F; [lia|]. cbn [scan_below].
  destruct (Z.ltb_spec (Z.of_nat p) (Z.of_nat (length c))) as [L|L].
  2: { exists false. split; [reflexivity|]. split; [discriminate|]. intros (m & M1 & _). lia. }
  rewrite zget_c by lia. cbn [bind].
  destruct (Z.eqb_spec (Y p) (y + 1)) as [A|A]; [destruct (Z.leb_spec (X p) (x + 1)) as [B|B]|]; cbn [andb].
  - destruct (((X p =? x - 1) || (X p =? x) || (X p =? x + 1)) && (sc <=? SC p)) eqn:H1.
    + exists true. split; [reflexivity|]. split; [intros _|reflexivity]. exists p. split; [lia|]. split; [lia|]. split; [lia|].
      intros n N. replace n with p by lia. auto.
    + replace (Z.of_nat p + 1) with (Z.of_nat (S p)) by lia. destruct (IH (S p) ltac:(lia) ltac:(lia)) as (b & E & R). exists b. split; [exact E|].
      rewrite R. split; intros (m & M1 & M2 & M3 & M4).
      * exists m. split; [lia|]. split; [exact M2|]. split; [exact M3|]. intros n N. destruct (Nat.eq_dec n p) as [->|]; [auto|apply M4; lia].
      * assert (m <> p) by (intro; subst; lia). exists m. split; [lia|]. split; [exact M2|]. split; [exact M3|]. intros n N. apply M4. lia.
  - exists false. split; [reflexivity|]. split; [discriminate|]. intros (m & M1 & M2 & M3 & M4). specialize (M4 p ltac:(lia)). lia.
  - exists false. split; [reflexivity|]. split; [discriminate|]. intros (m & M1 & M2 & M3 & M4). specialize (M4 p ltac:(lia)). lia.
Qed.

(** A rival in row y + dy. *)
Definition rival (dy : Z) : Prop := exists m, (m < length c)%nat /\ Y m = y + dy /\ x - 1 <= X m <= x + 1 /\ (dy = 0 -> X m <> x) /\ sc <= SC m.
Lemma beaten_iff : beaten c (nth i c d0) = true <-> rival (-1) \/ rival 0 \/ rival 1.
Proof.
  unfold beaten. rewrite existsb_exists. split.
  - intros (k & I & B). apply beats_iff in B as [(A1 & A2 & A3) L]. destruct (in_nth k I) as (m & Lm & <-).
    assert (Y m = y - 1 \/ Y m = y \/ Y m = y + 1) as C by lia. destruct C as [C|[C|C]].
    + left. exists m. repeat split; try lia; auto.
    + right. left. exists m. repeat split; try lia; auto. intros _ E. apply A3. unfold pos. congruence.
    + right. right. exists m. repeat split; try lia; auto.
  - intros [H|[H|H]]; destruct H as (m & Lm & H1 & H2 & H3 & H4); exists (nth m c d0); (split; [apply nth_In, Lm|]); apply beats_iff; (split; [|exact H4]).
    + split; [lia|]. split; [lia|]. unfold pos. intros [= E1 E2]. lia.
    + split; [lia|]. split; [lia|]. unfold pos. intros [= E1 E2]. specialize (H3 eq_refl). lia.
    + split; [lia|]. split; [lia|]. unfold pos. intros [= E1 E2]. lia.
Qed.

Definition lside : Prop := exists m, (m < length c)%nat /\ Y m = y /\ X m = x - 1 /\ sc <= SC m.
Definition rside : Prop := exists m, (m < length c)%nat /\ Y m = y /\ X m = x + 1 /\ sc <= SC m.
Lemma rival0 : rival 0 <-> lside \/ rside.
Proof.
  split.
  - intros (m & A & B & C & D & E). specialize (D eq_refl). assert (X m = x - 1 \/ X m = x + 1) as F by lia.
    destruct F; [left|right]; exists m; (split; [exact A|]); (split; [lia|]); auto.
  - intros [(m & A & B & C & D)|(m & A & B & C & D)]; exists m; (split; [exact A|]); (split; [lia|]); (split; [lia|]); (split; [lia|exact D]).
Qed.
Lemma lft_ok : exists b, (if 0 <? Z.of_nat i then beside c (nth i c d0) (Z.of_nat i - 1) (-1) else Ok false) = Ok b /\ (b = true <-> lside).
Proof.
  destruct (Z.ltb_spec 0 (Z.of_nat i)) as [P|P].
  - unfold beside. replace (Z.of_nat i - 1) with (Z.of_nat (i - 1)) by lia. rewrite zget_c by lia. cbn [bind]. eexists. split; [reflexivity|].
    rewrite !Bool.andb_true_iff, !Z.eqb_eq, Z.leb_le. split.
    + intros [[A B] C]. exists (i - 1)%nat. repeat split; try lia.
    + intros (m & A & B & C & D). assert (m < i)%nat as Lm by (apply lt_of_before; lia).
      assert (m = i - 1)%nat as ->.
      { destruct (Nat.eq_dec m (i - 1)); [assumption|]. pose proof (ord m (i - 1) ltac:(lia)). pose proof (ord (i - 1) i ltac:(lia)). lia. }
      repeat split; lia.
  - exists false. split; [reflexivity|]. split; [discriminate|]. intros (m & A & B & C & D). assert (m < i)%nat as Lm by (apply lt_of_before; lia). lia.
Qed.
Lemma rgt_ok : exists b, (if Z.of_nat i <? Z.of_nat (length c) - 1 then beside c (nth i c d0) (Z.of_nat i + 1) 1 else Ok false) = Ok b /\ (b = true <-> rside).
Proof.
  destruct (Z.ltb_spec (Z.of_nat i) (Z.of_nat (length c) - 1)) as [P|P].
  - unfold beside. replace (Z.of_nat i + 1) with (Z.of_nat (i + 1)) by lia. rewrite zget_c by lia. cbn [bind]. eexists. split; [reflexivity|].
    rewrite !Bool.andb_true_iff, !Z.eqb_eq, Z.leb_le. split.
    + intros [[A B] C]. exists (i + 1)%nat. repeat split; try lia.
    + intros (m & A & B & C & D). assert (i < m)%nat as Lm by (apply lt_of_before; lia).
      assert (m = i + 1)%nat as ->.
      { destruct (Nat.eq_dec m (i + 1)); [assumption|]. pose proof (ord (i + 1) m ltac:(lia)). pose proof (ord i (i + 1) ltac:(lia)). lia. }
      repeat split; lia.
  - exists false. split; [reflexivity|]. split; [discriminate|]. intros (m & A & B & C & D). assert (i < m)%nat as Lm by (apply lt_of_before; lia). lia.
Qed.

(** Everything below the cursor comes before (x - 1, y + dy). *)
Definition passed (dy : Z) (p : nat) : Prop := forall n, (n < p)%nat -> Y n < y + dy \/ (Y n = y + dy /\ X n < x - 1).
Variable rs : list Z.
Hypothesis Hrs : starts (length c) rs.
Lemma ylast : 0 <= y <= last_row.
Proof. split; [now apply Ypos|]. apply ordY. lia. Qed.
Lemma above_ok p : (p <= i)%nat -> passed (-1) p ->
  exists q b,
   (let* above_row := (if negb (y =? 0) then let* r := zget rs (y - 1) in Ok (negb (r =? -1)) else Ok false) in
    if above_row then
      let* ka := zget c (Z.of_nat p) in
      let* pa := (if k_y ka <? y - 1 then zget rs (y - 1) else Ok (Z.of_nat p)) in
      let* pa := adv_above (S (length c)) c x y pa in
      let* hit := scan_above (S (length c)) c x y sc pa in
      Ok (pa, hit)
    else Ok (Z.of_nat p, false)) = Ok (Z.of_nat q, b) /\ (q <= i)%nat /\ passed (-1) q /\ (b = true <-> rival (-1)).
Proof.
  intros P Q. pose proof ylast as YL.
  destruct (Z.eqb_spec y 0) as [E|E]; cbn [negb bind].
  { exists p, false. split; [reflexivity|]. split; [exact P|]. split; [exact Q|]. split; [discriminate|].
    intros (m & A & B & _). pose proof (Ypos m A). lia. }
  destruct Hrs as [RL RS]. rewrite (zget_lt _ _ (-1)) by (rewrite RL; lia). cbn [bind].
  destruct (RS (y - 1) ltac:(lia)) as [[R1 R2]|(s & S1 & S2 & S3 & S4)].
  { rewrite R1. cbn [Z.eqb negb Pos.eqb bind]. exists p, false. split; [reflexivity|]. split; [exact P|]. split; [exact Q|]. split; [discriminate|].
    intros (m & A & B & _). exfalso. apply (R2 m A). lia. }
  rewrite S2. destruct (Z.eqb_spec (Z.of_nat s) (-1)) as [Es|Es]; [lia|]. cbn [negb bind]. rewrite zget_c by lia. cbn [bind].
  assert (s < i)%nat as Si by (apply lt_of_before; lia).
  assert (exists p1, (if Y p <? y - 1 then Ok (Z.of_nat s) else Ok (Z.of_nat p)) = Ok (Z.of_nat p1) /\ (p1 <= i)%nat /\ passed (-1) p1 /\ y - 1 <= Y p1) as (p1 & -> & P1 & Q1 & YP).
  { destruct (Z.ltb_spec (Y p) (y - 1)).
    - exists s. split; [reflexivity|]. split; [lia|]. split; [|lia]. intros n N. left. specialize (S4 n N). lia.
    - exists p. split; [reflexivity|]. split; [lia|]. split; [exact Q|lia]. }
  cbn [bind]. destruct (adv_above_ok (S (length c)) p1 P1 ltac:(lia)) as (q & -> & Q2 & Q3 & Q4). cbn [bind].
  assert (passed (-1) q) as PQ.
  { intros n N. destruct (Nat.lt_ge_cases n p1) as [|G]; [now apply Q1|]. destruct (Q3 n ltac:(lia)). pose proof (ordY p1 n ltac:(lia)). right. lia. }
  destruct (scan_above_ok (S (length c)) q ltac:(lia) ltac:(lia)) as (b & -> & B). cbn [bind]. exists q, b.
  split; [reflexivity|]. split; [lia|]. split; [exact PQ|]. rewrite B. split.
  - intros (m & M1 & M2 & M3 & M4). exists m. destruct (M4 m ltac:(lia)). pose proof (ordY p1 m ltac:(lia)). repeat split; try lia.
  - intros (m & M1 & M2 & M3 & _ & M4). assert (q <= m)%nat as QM.
    { destruct (Nat.le_gt_cases q m) as [|G]; [assumption|]. destruct (PQ m G); lia. }
    assert (m < i)%nat as MI by (apply lt_of_before; lia). exists m. split; [lia|]. split; [exact M3|]. split; [exact M4|].
    intros n N. pose proof (ordY n m ltac:(lia)). pose proof (ordY p1 n ltac:(lia)). split; [lia|].
    destruct (Nat.eq_dec n m) as [->|]; [lia|]. pose proof (ord n m ltac:(lia)). lia.
Qed.
Lemma below_ok p : (p <= length c)%nat -> passed 1 p ->
  exists q b,
   (let* below_row := (if negb (y =? last_row) then let* r := zget rs (y + 1) in Ok (negb (r =? -1)) else Ok false) in
    if below_row && (Z.of_nat p <? Z.of_nat (length c)) then
      let* kb := zget c (Z.of_nat p) in
      let* pb := (if k_y kb <? y + 1 then zget rs (y + 1) else Ok (Z.of_nat p)) in
      let* pb := adv_below (S (length c)) c x y pb in
      let* hit := scan_below (S (length c)) c x y sc pb in
      Ok (pb, hit)
    else Ok (Z.of_nat p, false)) = Ok (Z.of_nat q, b) /\ (q <= length c)%nat /\ passed 1 q /\ (b = true <-> rival 1).
Proof.
  intros P Q. pose proof ylast as YL.
  destruct (Z.eqb_spec y last_row) as [E|E]; cbn [negb bind andb].
  { exists p, false. split; [reflexivity|]. split; [exact P|]. split; [exact Q|]. split; [discriminate|].
    intros (m & A & B & _). pose proof (ordY m (length c - 1) ltac:(lia)). change (Y (length c - 1)) with last_row in *. lia. }
  destruct Hrs as [RL RS]. rewrite (zget_lt _ _ (-1)) by (rewrite RL; lia). cbn [bind].
  destruct (RS (y + 1) ltac:(lia)) as [[R1 R2]|(s & S1 & S2 & S3 & S4)].
  { rewrite R1. cbn [Z.eqb negb Pos.eqb bind andb]. exists p, false. split; [reflexivity|]. split; [exact P|]. split; [exact Q|]. split; [discriminate|].
    intros (m & A & B & _). exfalso. apply (R2 m A). lia. }
  rewrite S2. destruct (Z.eqb_spec (Z.of_nat s) (-1)) as [Es|Es]; [lia|]. cbn [negb bind andb].
  destruct (Z.ltb_spec (Z.of_nat p) (Z.of_nat (length c))) as [PL|PL].
  2: { exists p, false. split; [reflexivity|]. split; [exact P|]. split; [exact Q|]. split; [discriminate|].
       intros (m & A & B & C & _). destruct (Q m ltac:(lia)); lia. }
  rewrite zget_c by lia. cbn [bind].
  assert (exists p1, (if Y p <? y + 1 then Ok (Z.of_nat s) else Ok (Z.of_nat p)) = Ok (Z.of_nat p1) /\ (p1 < length c)%nat /\ passed 1 p1 /\ y + 1 <= Y p1) as (p1 & -> & P1 & Q1 & YP).
  { destruct (Z.ltb_spec (Y p) (y + 1)).
    - exists s. split; [reflexivity|]. split; [lia|]. split; [|lia]. intros n N. left. specialize (S4 n N). lia.
    - exists p. split; [reflexivity|]. split; [lia|]. split; [exact Q|lia]. }
  cbn [bind]. destruct (adv_below_ok (S (length c)) p1 ltac:(lia) ltac:(lia)) as (q & -> & Q2 & Q3 & Q4). cbn [bind].
  assert (passed 1 q) as PQ.
  { intros n N. destruct (Nat.lt_ge_cases n p1) as [|G]; [now apply Q1|]. destruct (Q3 n ltac:(lia)). right. lia. }
  destruct (scan_below_ok (S (length c)) q ltac:(lia) ltac:(lia)) as (b & -> & B). cbn [bind]. exists q, b.
  split; [reflexivity|]. split; [lia|]. split; [exact PQ|]. rewrite B. split.
  - intros (m & M1 & M2 & M3 & M4). exists m. destruct (M4 m ltac:(lia)). repeat split; try lia.
  - intros (m & M1 & M2 & M3 & _ & M4). assert (q <= m)%nat as QM.
    { destruct (Nat.le_gt_cases q m) as [|G]; [assumption|]. destruct (PQ m G); lia. }
    exists m. split; [lia|]. split; [exact M3|]. split; [exact M4|].
    intros n N. pose proof (ordY n m ltac:(lia)). pose proof (ordY p1 n ltac:(lia)). split; [lia|].
    destruct (Nat.eq_dec n m) as [->|]; [lia|]. pose proof (ord n m ltac:(lia)). lia.
Qed.

Definition keep1 (out : list kp) : list kp := if beaten c (nth i c d0) then out else out ++ [nth i c d0].
Lemma step_ok n_max p q out : (p <= i)%nat -> (q <= length c)%nat -> passed (-1) p -> passed 1 q -> Z.of_nat (length out) < n_max ->
  exists p' q', nonmax_step c rs last_row n_max i (Z.of_nat p, Z.of_nat q, out, false) =
    Ok (Z.of_nat p', Z.of_nat q', keep1 out, Z.of_nat (length (keep1 out)) =? n_max) /\
    (p' <= i)%nat /\ (q' <= length c)%nat /\ passed (-1) p' /\ passed 1 q'.
Proof.
  intros P Q PP PQ M. unfold nonmax_step. rewrite (aget_lt _ _ d0) by exact Hi. cbn [bind].
  pose proof beaten_iff as BI. rewrite rival0 in BI. unfold keep1.
  assert ((Z.of_nat (length out) =? n_max) = false) as NF by lia.
  destruct lft_ok as (b1 & -> & B1). cbn [bind]. destruct b1.
  { assert (beaten c (nth i c d0) = true) as -> by (apply BI; right; left; left; now apply B1). rewrite NF. exists p, q. auto. }
  destruct rgt_ok as (b2 & -> & B2). cbn [bind]. destruct b2.
  { assert (beaten c (nth i c d0) = true) as -> by (apply BI; right; left; right; now apply B2). rewrite NF. exists p, q. auto. }
  destruct (above_ok p P PP) as (p' & b3 & E3 & P' & PP' & B3).
  destruct (if negb (y =? 0) then let* r := zget rs (y - 1) in Ok (negb (r =? -1)) else Ok false) as [ar| | |]; try discriminate E3.
  cbn [bind] in E3 |- *. rewrite E3. clear E3. cbn [bind]. destruct b3.
  { assert (beaten c (nth i c d0) = true) as -> by (apply BI; left; now apply B3). rewrite NF. exists p', q. auto. }
  destruct (below_ok q Q PQ) as (q' & b4 & E4 & Q' & PQ' & B4).
  destruct (if negb (y =? last_row) then let* r := zget rs (y + 1) in Ok (negb (r =? -1)) else Ok false) as [br| | |]; try discriminate E4.
  cbn [bind] in E4 |- *. rewrite E4. clear E4. cbn [bind]. destruct b4.
  { assert (beaten c (nth i c d0) = true) as -> by (apply BI; right; right; now apply B4). rewrite NF. exists p', q'. auto. }
  assert (beaten c (nth i c d0) = false) as ->.
  { apply Bool.not_true_iff_false. intro B. apply BI in B. destruct B as [B|[[B|B]|B]]; [apply B3 in B|apply B1 in B|apply B2 in B|apply B4 in B]; discriminate. }
  exists p', q'. auto.
Qed.
End At.

Lemma passed_next i dy p : (S i < length c)%nat -> passed i dy p -> passed (S i) dy p.
Proof. intros L H n N. specialize (H n N). pose proof (ord i (S i) ltac:(lia)). lia. Qed.
Lemma loop_ok rs n_max : starts (length c) rs -> 1 <= n_max -> forall n, (n <= length c)%nat ->
  exists p q b, for_each (nonmax_step c rs last_row n_max) (seq 0 n) (0, 0, [], false) =
    Ok (Z.of_nat p, Z.of_nat q, firstn (Z.to_nat n_max) (filter (fun k => negb (beaten c k)) (firstn n c)), b) /\
    (b = true -> (Z.to_nat n_max <= length (filter (fun k => negb (beaten c k)) (firstn n c)))%nat) /\
    (b = false -> (length (filter (fun k => negb (beaten c k)) (firstn n c)) < Z.to_nat n_max)%nat /\
                  (p <= n)%nat /\ (q <= length c)%nat /\ ((n < length c)%nat -> passed n (-1) p /\ passed n 1 q)).
Proof.
  intros R M. induction n as [|n IH]; intro L.
  - exists 0%nat, 0%nat, false. cbn [seq for_each firstn filter length]. rewrite firstn_nil. split; [reflexivity|]. split; [discriminate|].
    intros _. split; [lia|]. split; [lia|]. split; [lia|]. intros _. split; intros j J; lia.
  - destruct (IH ltac:(lia)) as (p & q & b & E & B1 & B2). rewrite seq_S, for_each_app, E. cbn [bind for_each]. change (0 + n)%nat with n.
    assert (firstn (S n) c = firstn n c ++ [nth n c d0]) as FN.
    { clear -L. revert n L. induction c as [|a l IH]; intros n L; cbn [length] in L; [lia|]. destruct n; [reflexivity|]. cbn. f_equal. apply IH. lia. }
    rewrite FN, filter_app, app_length. cbn [filter].
    destruct b.
    + specialize (B1 eq_refl). exists p, q, true. cbn [nonmax_step bind]. split; [|split; [intros _; lia|discriminate]].
      rewrite firstn_app. replace (Z.to_nat n_max - _)%nat with 0%nat by lia. cbn [firstn]. now rewrite app_nil_r.
    + destruct (B2 eq_refl) as (LN & P & Q & PA). destruct (PA ltac:(lia)) as [PP PQ]. rewrite firstn_all2 by lia.
      destruct (step_ok n ltac:(lia) rs R n_max p q (filter (fun k => negb (beaten c k)) (firstn n c)) P Q PP PQ ltac:(lia)) as (p' & q' & -> & P' & Q' & PP' & PQ').
      cbn [bind]. exists p', q'. eexists. split.
      { f_equal. f_equal. f_equal. unfold keep1. destruct (beaten c (nth n c d0)); cbn [negb]; [rewrite app_nil_r; symmetry; apply firstn_all2; lia|].
        symmetry. apply firstn_all2. rewrite app_length. cbn. lia. }
      unfold keep1. destruct (beaten c (nth n c d0)); cbn [negb length].
      * rewrite Nat.add_0_r. split; [intro T; apply Z.eqb_eq in T; lia|]. intros _. split; [lia|]. split; [lia|]. split; [lia|].
        intro LL. split; apply passed_next; auto.
      * rewrite app_length. cbn [length]. split; [intro T; apply Z.eqb_eq in T; lia|]. intro T. apply Z.eqb_neq in T. split; [lia|]. split; [lia|]. split; [lia|].
        intro LL. split; apply passed_next; auto.
Qed.
Lemma nonmax_kept n_max : nonmax n_max c = Ok (firstn (Z.to_nat n_max) (kept c)).
Proof.
  unfold nonmax. destruct (Z.ltb_spec (Z.of_nat (length c)) 1) as [L|L]; cbn [orb].
  { assert (c = []) as -> by (destruct c; [reflexivity|cbn in L; lia]). now rewrite firstn_nil. }
  destruct (Z.leb_spec n_max 0) as [M|M].
  { replace (Z.to_nat n_max) with 0%nat by lia. reflexivity. }
  rewrite (aget_lt _ _ d0) by lia. cbn [bind]. fold last_row.
  destruct row_starts_ok as (rs & -> & R); [lia|]. cbn [bind].
  destruct (loop_ok rs n_max R ltac:(lia) (length c) ltac:(lia)) as (p & q & b & -> & _). cbn [bind snd]. now rewrite firstn_all.
Qed.
End NM.

Definition renumber (l : list kp) : list kp := map (fun '(i, k) => k_with_id k (Z.of_nat i)) (combine (seq 0 (length l)) l).
Lemma suppress_ok c n_max : StronglySorted before (map pos c) -> (forall k, In k c -> 0 <= k_y k) ->
  suppress_keypoints n_max c = Ok (renumber (firstn (Z.to_nat n_max) (kept c))).
Proof. intros S Y. unfold suppress_keypoints. rewrite nonmax_kept by assumption. reflexivity. Qed.
