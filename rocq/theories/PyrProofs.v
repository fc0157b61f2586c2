From Verif Require Import Base BaseLemmas Gray Flt Img FilterModel FilterSpec ImgModel ImgSpec ImgProofs PyrModel PyrSpec.
Local Open Scope Z_scope.

Lemma nth_lset_same {A} (l : list A) i v d : (i < length l)%nat -> nth i (lset l i v) d = v.
Proof. intro L. rewrite nth_lset, Nat.eqb_refl. destruct (Nat.ltb_spec i (length l)); [reflexivity|lia]. Qed.
Lemma nth_lset_other {A} (l : list A) i j v d : i <> j -> nth j (lset l i v) d = nth j l d.
Proof. intro N. rewrite nth_lset. destruct (Nat.eqb_spec i j); [contradiction|reflexivity]. Qed.

Section Gen.
Variables I T : Type.
Variables (smooth_self smooth_to : T -> I -> res I) (down aa : I -> res I) (shrink : Z -> I -> res I) (copy : I -> I).
Variables (sigma_g : T -> T -> T) (positive : T -> bool) (mul : T -> T -> T) (one half init : T) (sig : Z -> T).
Variable d : I.
Notation at' l i := (nth (Z.to_nat i) l d).
Notation g0 := (sigma_g init (sig 0)).

(** What the smoothing of level 0 does. *)
Definition first_of (l0 l : I) : Prop := if positive g0 then smooth_self g0 l0 = Ok l else l = l0.
Lemma first_ok l0 l : first_of l0 l -> first_level I T smooth_self sigma_g positive init sig l0 = Ok (l, if positive g0 then sig 0 else init).
Proof. unfold first_of, first_level. destruct (positive g0); intro E; [rewrite E; reflexivity|subst; reflexivity]. Qed.

(** ** Fast *)
Lemma update_fast_ok (P : Z -> I -> Prop) levels l : levels <> [] -> first_of (at' levels 0) l -> P 0 l ->
  (forall i p, 1 <= i < Z.of_nat (length levels) -> P (i - 1) p -> exists q, aa p = Ok q /\ P i q) ->
  exists ls, update_fast I T smooth_self aa sigma_g positive init sig levels = Ok ls /\ length ls = length levels /\ at' ls 0 = l /\
    (forall i, 0 <= i < Z.of_nat (length levels) -> P i (at' ls i)) /\ (forall i, 1 <= i < Z.of_nat (length levels) -> aa (at' ls (i - 1)) = Ok (at' ls i)).
Proof.
  intros NE F P0 AA. assert (L : (0 < length levels)%nat) by (destruct levels; [contradiction|cbn; lia]). unfold update_fast.
  rewrite (zget_lt _ _ d) by lia. cbn [bind]. rewrite (first_ok _ _ F). cbn [bind]. rewrite zset_lt' by lia. cbn [bind]. set (l1 := lset levels _ l).
  assert (L1 : length l1 = length levels) by apply lset_length. assert (V1 : at' l1 0 = l) by (unfold l1; apply nth_lset_same; lia). clearbody l1. rewrite L1.
  enough (H : forall n, (1 <= n)%nat -> (n <= length levels)%nat -> exists ls,
    for_each (fun i levels => let* p := zget levels (i - 1) in let* l := aa p in zset levels i l) (zrange 1 (Z.of_nat n)) l1 = Ok ls /\ length ls = length levels /\ at' ls 0 = l /\
    (forall i, 0 <= i < Z.of_nat n -> P i (at' ls i)) /\ (forall i, 1 <= i < Z.of_nat n -> aa (at' ls (i - 1)) = Ok (at' ls i))) by (apply (H (length levels)); lia).
  induction n as [|n IH]; intros N1 N2; [lia|]. destruct (Nat.eq_dec n 0) as [->|N0].
  - exists l1. split; [reflexivity|]. split; [exact L1|]. split; [exact V1|]. split; [intros i Hi; replace i with 0 by lia; rewrite V1; exact P0|intros; lia].
  - destruct IH as (ls & E & LL & V & PV & AV); [lia|lia|]. replace (Z.of_nat (S n)) with (Z.of_nat n + 1) by lia. rewrite zrange_snoc, for_each_app, E by lia. cbn [bind for_each].
    rewrite (zget_lt _ _ d) by lia. cbn [bind]. destruct (AA (Z.of_nat n) (at' ls (Z.of_nat n - 1))) as (q & EQ & PQ); [lia|apply PV; lia|]. rewrite EQ. cbn [bind]. rewrite zset_lt' by lia. cbn [bind].
    exists (lset ls (Z.to_nat (Z.of_nat n)) q). split; [reflexivity|]. split; [now rewrite lset_length|]. split; [rewrite nth_lset_other by lia; exact V|]. split.
    + intros i Hi. destruct (Z.eq_dec i (Z.of_nat n)) as [->|NI]; [rewrite nth_lset_same by lia; exact PQ|rewrite nth_lset_other by lia; apply PV; lia].
    + intros i Hi. destruct (Z.eq_dec i (Z.of_nat n)) as [->|NI]; [rewrite nth_lset_same, nth_lset_other by lia; exact EQ|rewrite !nth_lset_other by lia; apply AV; lia].
Qed.

(** ** Fine *)
Section Fine.
Variables n_oct steps : Z.
Hypothesis NO : 1 <= n_oct.
Hypothesis NS : 1 <= steps.
Notation mult o := (half_pow T mul one half (Z.to_nat o)).
Notation wanted' := (wanted T mul one half sig steps).
Notation reached' := (reached T sigma_g mul positive one half init sig steps).
Notation added' := (added T sigma_g mul positive one half init sig steps).
Variable P : Z -> I -> Prop.
(** Level [i] is made from level i - 1. *)
Definition fine_step (ls : list I) (i : Z) : Prop :=
  exists w, smooth_to (added' i) (at' ls (i - 1)) = Ok w /\ if i mod steps =? 0 then down w = Ok (at' ls i) else at' ls i = w.
Hypothesis SM : forall i p, 1 <= i < n_oct * steps -> P ((i - 1) / steps) p -> exists q, smooth_to (added' i) p = Ok q /\ P ((i - 1) / steps) q.
Hypothesis DN : forall o p, 0 <= o < n_oct - 1 -> P o p -> exists q, down p = Ok q /\ P (o + 1) q.
Definition upto (levels ls : list I) (l : I) (n : Z) : Prop :=
  length ls = length levels /\ at' ls 0 = l /\ (forall i, 0 <= i < n -> P (i / steps) (at' ls i)) /\ (forall i, 1 <= i < n -> fine_step ls i).
Lemma fine_set ls i v j : (Z.to_nat i < length ls)%nat -> 1 <= j < i -> fine_step ls j -> fine_step (lset ls (Z.to_nat i) v) j.
Proof. intros L J (w & A & B). exists w. rewrite !nth_lset_other by lia. auto. Qed.
Lemma split_index o j : 0 <= j < steps -> (o * steps + j) / steps = o /\ (o * steps + j) mod steps = j.
Proof. intro J. split; [rewrite Z.div_add_l, Z.div_small by lia; lia|rewrite Z.add_comm, Z.mod_add, Z.mod_small by lia; lia]. Qed.
Lemma reached_in o j : 0 <= o -> 1 <= j < steps -> reached' (o * steps + j) = mul (sig (o * steps + j)) (mult o) /\ wanted' (o * steps + j) = mul (sig (o * steps + j)) (mult o).
Proof.
  intros O J. destruct (split_index o j ltac:(lia)) as [D M]. unfold reached, wanted. rewrite D, M. assert (0 <= o * steps) by (apply Z.mul_nonneg_nonneg; lia).
  destruct (Z.eqb_spec (o * steps + j) 0); [lia|]. destruct (Z.eqb_spec j 0); [lia|]. auto.
Qed.
Lemma reached_next o : 0 <= o -> reached' ((o + 1) * steps) = mul (mul (sig ((o + 1) * steps)) (mult o)) half /\ wanted' ((o + 1) * steps) = mul (sig ((o + 1) * steps)) (mult o).
Proof.
  intro O. destruct (split_index (o + 1) 0 ltac:(lia)) as [D M]. rewrite Z.add_0_r in D, M. unfold reached, wanted. rewrite D, M. assert (1 * 1 <= (o + 1) * steps) by (apply Z.mul_le_mono_nonneg; lia).
  destruct (Z.eqb_spec ((o + 1) * steps) 0); [lia|]. cbn [Z.eqb]. replace (o + 1 - 1) with o by lia. auto.
Qed.
(** The loop over the steps of octave [o]. *)
Lemma octave_steps levels l o ls : Z.of_nat (length levels) = n_oct * steps -> 0 <= o < n_oct -> upto levels ls l (o * steps + 1) ->
  exists ls', for_each (fun j '(levels, cur) => let desired := mul (sig (o * steps + j)) (mult o) in let* p := zget levels (o * steps + j - 1) in let* l := smooth_to (sigma_g cur desired) p in
      let* levels := zset levels (o * steps + j) l in Ok (levels, desired)) (zrange 1 steps) (ls, reached' (o * steps)) = Ok (ls', reached' (o * steps + (steps - 1))) /\
    upto levels ls' l (o * steps + steps).
Proof.
  intros L O U0. assert (OS : 0 <= o * steps) by (apply Z.mul_nonneg_nonneg; lia). assert (OS2 : o * steps + steps <= n_oct * steps) by (replace (o * steps + steps) with ((o + 1) * steps) by ring; apply Z.mul_le_mono_nonneg_r; lia).
  enough (H : forall n, (1 <= n)%nat -> Z.of_nat n <= steps -> exists ls', for_each (fun j '(levels, cur) => let desired := mul (sig (o * steps + j)) (mult o) in let* p := zget levels (o * steps + j - 1) in let* l := smooth_to (sigma_g cur desired) p in
      let* levels := zset levels (o * steps + j) l in Ok (levels, desired)) (zrange 1 (Z.of_nat n)) (ls, reached' (o * steps)) = Ok (ls', reached' (o * steps + (Z.of_nat n - 1))) /\ upto levels ls' l (o * steps + Z.of_nat n)).
  { destruct (H (Z.to_nat steps)) as (ls' & E & UP); [lia|lia|]. rewrite Z2Nat.id in * by lia. exists ls'. auto. }
  induction n as [|n IH]; intros N1 N2; [lia|]. destruct (Nat.eq_dec n 0) as [->|N0].
  - exists ls. split; [cbn [for_each zrange]; change (zrange 1 (Z.of_nat 1)) with (@nil Z); cbn [for_each]; change (Z.of_nat 1 - 1) with 0; rewrite Z.add_0_r; reflexivity|]. change (Z.of_nat 1) with 1. exact U0.
  - destruct IH as (ls' & E & LL & V & PV & FV); [lia|lia|]. replace (Z.of_nat (S n)) with (Z.of_nat n + 1) by lia. rewrite zrange_snoc, for_each_app, E by lia. cbn [bind for_each]. set (k := Z.of_nat n) in *.
    rewrite (zget_lt _ _ d) by lia. cbn [bind]. replace (o * steps + (k - 1)) with (o * steps + k - 1) by lia.
    destruct (reached_in o k ltac:(lia) ltac:(lia)) as [R1 R2]. rewrite <- R2. change (sigma_g (reached' (o * steps + k - 1)) (wanted' (o * steps + k))) with (added' (o * steps + k)).
    assert (DK : (o * steps + k - 1) / steps = o) by (replace (o * steps + k - 1) with (o * steps + (k - 1)) by lia; apply split_index; lia).
    destruct (SM (o * steps + k) (at' ls' (o * steps + k - 1))) as (q & EQ & PQ); [lia|apply PV; lia|]. rewrite EQ. cbn [bind]. rewrite zset_lt' by lia. cbn [bind].
    exists (lset ls' (Z.to_nat (o * steps + k)) q). split; [f_equal; f_equal; rewrite R2; replace (o * steps + (k + 1 - 1)) with (o * steps + k) by lia; now rewrite R1|].
    split; [now rewrite lset_length|]. split; [rewrite nth_lset_other by lia; exact V|]. replace (o * steps + (k + 1)) with (o * steps + k + 1) by lia. destruct (split_index o k ltac:(lia)) as [D M]. split.
    + intros i Hi. destruct (Z.eq_dec i (o * steps + k)) as [->|NI]; [rewrite nth_lset_same, D by lia; rewrite DK in PQ; exact PQ|rewrite nth_lset_other by lia; apply PV; lia].
    + intros i Hi. destruct (Z.eq_dec i (o * steps + k)) as [->|NI].
      * exists q. rewrite M. destruct (Z.eqb_spec k 0); [lia|]. rewrite nth_lset_same, nth_lset_other by lia. auto.
      * apply fine_set; [lia|lia|]. apply FV. lia.
Qed.
Lemma update_fine_ok levels l : Z.of_nat (length levels) = n_oct * steps -> first_of (at' levels 0) l -> P 0 l ->
  exists ls, update_fine I T smooth_self smooth_to down sigma_g positive mul one half init sig n_oct steps levels = Ok ls /\ length ls = length levels /\ at' ls 0 = l /\
    (forall i, 0 <= i < n_oct * steps -> P (i / steps) (at' ls i)) /\ (forall i, 1 <= i < n_oct * steps -> fine_step ls i).
Proof.
  intros L F P0. unfold update_fine. assert (NN : 1 * 1 <= n_oct * steps) by (apply Z.mul_le_mono_nonneg; lia).
  enough (H : forall n, (1 <= n)%nat -> Z.of_nat n <= n_oct -> exists ls c m,
    for_each (fine_octave I T smooth_self smooth_to down sigma_g positive mul half init sig n_oct steps) (zrange 0 (Z.of_nat n)) (levels, init, one) = Ok (ls, c, m) /\
    (Z.of_nat n < n_oct -> c = reached' (Z.of_nat n * steps) /\ m = mult (Z.of_nat n) /\ upto levels ls l (Z.of_nat n * steps + 1)) /\ (Z.of_nat n = n_oct -> upto levels ls l (n_oct * steps))).
  { destruct (H (Z.to_nat n_oct)) as (ls & c & m & E & _ & UP); [lia|lia|]. rewrite Z2Nat.id in * by lia. rewrite E. cbn [bind fst]. exists ls. split; [reflexivity|]. apply UP. reflexivity. }
  assert (OCT : forall o ls0, 0 <= o < n_oct -> upto levels ls0 l (o * steps + 1) -> exists ls c m,
    (let* (levels, cur) := for_each (fun j '(levels, cur) => let desired := mul (sig (o * steps + j)) (mult o) in let* p := zget levels (o * steps + j - 1) in let* l := smooth_to (sigma_g cur desired) p in
        let* levels := zset levels (o * steps + j) l in Ok (levels, desired)) (zrange 1 steps) (ls0, reached' (o * steps)) in
     if o =? n_oct - 1 then Ok (levels, cur, mult o) else
      let desired := mul (sig (o * steps + steps)) (mult o) in let* p := zget levels (o * steps + steps - 1) in let* w := smooth_to (sigma_g cur desired) p in let* l := down w in
      let* levels := zset levels (o * steps + steps) l in Ok (levels, mul desired half, mul (mult o) half)) = Ok (ls, c, m) /\
    (o + 1 < n_oct -> c = reached' ((o + 1) * steps) /\ m = mult (o + 1) /\ upto levels ls l ((o + 1) * steps + 1)) /\ (o + 1 = n_oct -> upto levels ls l (n_oct * steps))).
  { intros o ls0 O UP. destruct (octave_steps levels l o ls0 L O UP) as (ls1 & E1 & U1). rewrite E1. cbn [bind]. replace (o * steps + steps) with ((o + 1) * steps) in * by ring.
    assert (OS : 0 <= o * steps) by (apply Z.mul_nonneg_nonneg; lia).
    destruct (Z.eqb_spec o (n_oct - 1)) as [->|NL]; [exists ls1, (reached' ((n_oct - 1) * steps + (steps - 1))), (mult (n_oct - 1)); split; [reflexivity|]; split; [lia|]; intros _; replace ((n_oct - 1 + 1) * steps) with (n_oct * steps) in U1 by ring; exact U1|].
    destruct U1 as (LL & V & PV & FV). assert (OS2 : (o + 1) * steps + 1 * steps <= n_oct * steps) by (rewrite <- Z.mul_add_distr_r; apply Z.mul_le_mono_nonneg_r; lia).
    assert (OS3 : (o + 1) * steps = o * steps + steps) by ring.
    cbv zeta. rewrite (zget_lt _ _ d) by lia. cbn [bind]. replace (o * steps + (steps - 1)) with ((o + 1) * steps - 1) by ring. destruct (reached_next o ltac:(lia)) as [R1 R2]. rewrite <- R2.
    change (sigma_g (reached' ((o + 1) * steps - 1)) (wanted' ((o + 1) * steps))) with (added' ((o + 1) * steps)).
    assert (DK : ((o + 1) * steps - 1) / steps = o) by (replace ((o + 1) * steps - 1) with (o * steps + (steps - 1)) by ring; apply split_index; lia).
    destruct (SM ((o + 1) * steps) (at' ls1 ((o + 1) * steps - 1))) as (q & EQ & PQ); [lia|apply PV; lia|]. rewrite EQ. cbn [bind].
    rewrite DK in PQ. destruct (DN o q ltac:(lia) PQ) as (r & ER & PR). rewrite ER. cbn [bind]. rewrite zset_lt' by lia. cbn [bind].
    exists (lset ls1 (Z.to_nat ((o + 1) * steps)) r), (mul (wanted' ((o + 1) * steps)) half), (mul (mult o) half). split; [reflexivity|]. split; [intros _|lia].
    split; [rewrite R1, R2; reflexivity|]. split; [replace (Z.to_nat (o + 1)) with (S (Z.to_nat o)) by lia; reflexivity|].
    split; [now rewrite lset_length|]. split; [rewrite nth_lset_other by lia; exact V|]. destruct (split_index (o + 1) 0 ltac:(lia)) as [D M]. rewrite Z.add_0_r in D, M. split.
    - intros i Hi. destruct (Z.eq_dec i ((o + 1) * steps)) as [->|NI]; [rewrite nth_lset_same, D by lia; exact PR|rewrite nth_lset_other by lia; apply PV; lia].
    - intros i Hi. destruct (Z.eq_dec i ((o + 1) * steps)) as [->|NI].
      + exists q. rewrite M. cbn [Z.eqb]. rewrite nth_lset_same, nth_lset_other by lia. auto.
      + apply fine_set; [lia|lia|]. apply FV. lia. }
  induction n as [|n IH]; intros N1 N2; [lia|]. destruct (Nat.eq_dec n 0) as [->|N0].
  - change (zrange 0 (Z.of_nat 1)) with [0]. cbn [for_each]. unfold fine_octave. cbn [Z.eqb]. change (0 * steps) with 0. rewrite (zget_lt _ _ d) by lia. cbn [bind]. rewrite (first_ok _ _ F). cbn [bind]. rewrite zset_lt' by lia. cbn [bind].
    assert (U0 : upto levels (lset levels (Z.to_nat 0) l) l (0 + 1)).
    { split; [apply lset_length|]. split; [apply nth_lset_same; lia|]. split; [|intros; lia]. intros i Hi. replace i with 0 by lia. rewrite Z.div_0_l by lia. rewrite nth_lset_same by lia. exact P0. }
    destruct (OCT 0 _ ltac:(lia) U0) as (ls & c & m & E & H1 & H2). change (0 * steps) with 0 in E. change (mult 0) with one in E. change (reached' 0) with (if positive g0 then sig 0 else init) in E.
    exists ls, c, m. change (0 + 1) with 1 in *. change (Z.of_nat 1) with 1. split; [|auto]. lazymatch type of E with ?x = _ => change (bind x (fun s => Ok s) = Ok (ls, c, m)) end. rewrite E. reflexivity.
  - destruct IH as (ls & c & m & E & UP & _); [lia|lia|]. destruct UP as (-> & -> & UP); [lia|]. replace (Z.of_nat (S n)) with (Z.of_nat n + 1) by lia. rewrite zrange_snoc, for_each_app, E by lia. cbn [bind for_each].
    destruct (OCT (Z.of_nat n) ls ltac:(lia) UP) as (ls' & c' & m' & E' & H1 & H2). exists ls', c', m'. split; [|auto]. unfold fine_octave. destruct (Z.eqb_spec (Z.of_nat n) 0); [lia|]. cbn [bind]. lazymatch type of E' with ?x = _ => change (bind x (fun s => Ok s) = Ok (ls', c', m')) end. rewrite E'. reflexivity.
Qed.
End Fine.

(** ** Scaled *)
(** The blur of the work image after level [i]. *)
Definition scaled_at (i : Z) : T := if i =? 0 then (if positive g0 then sig 0 else init) else sig i.
Lemma update_scaled_ok (P : Z -> I -> Prop) levels l : levels <> [] -> first_of (at' levels 0) l -> P 0 (copy l) ->
  (forall i p, 1 <= i < Z.of_nat (length levels) -> P (i - 1) p -> exists q r, smooth_self (sigma_g (scaled_at (i - 1)) (sig i)) p = Ok q /\ P i q /\ shrink i q = Ok r) ->
  exists ls (work : Z -> I), update_scaled I T smooth_self shrink copy sigma_g positive init sig levels = Ok ls /\ length ls = length levels /\ at' ls 0 = l /\ work 0 = copy l /\
    forall i, 1 <= i < Z.of_nat (length levels) -> P i (work i) /\ smooth_self (sigma_g (scaled_at (i - 1)) (sig i)) (work (i - 1)) = Ok (work i) /\ shrink i (work i) = Ok (at' ls i).
Proof.
  intros NE F P0 SM. assert (L : (0 < length levels)%nat) by (destruct levels; [contradiction|cbn; lia]). unfold update_scaled.
  rewrite (zget_lt _ _ d) by lia. cbn [bind]. rewrite (first_ok _ _ F). cbn [bind]. rewrite zset_lt' by lia. cbn [bind]. set (l1 := lset levels _ l).
  assert (L1 : length l1 = length levels) by apply lset_length. assert (V1 : at' l1 0 = l) by (unfold l1; apply nth_lset_same; lia). clearbody l1. rewrite L1.
  enough (H : forall n, (1 <= n)%nat -> (n <= length levels)%nat -> exists ls work,
    for_each (fun i '(levels, work, cur) => let desired := sig i in let* work := smooth_self (sigma_g cur desired) work in let* l := shrink i work in let* levels := zset levels i l in Ok (levels, work, desired))
      (zrange 1 (Z.of_nat n)) (l1, copy l, if positive g0 then sig 0 else init) = Ok (ls, work (Z.of_nat n - 1), scaled_at (Z.of_nat n - 1)) /\
    length ls = length levels /\ at' ls 0 = l /\ work 0 = copy l /\ P (Z.of_nat n - 1) (work (Z.of_nat n - 1)) /\
    forall i, 1 <= i < Z.of_nat n -> P i (work i) /\ smooth_self (sigma_g (scaled_at (i - 1)) (sig i)) (work (i - 1)) = Ok (work i) /\ shrink i (work i) = Ok (at' ls i)).
  { destruct (H (length levels)) as (ls & work & E & LL & V & W0 & _ & Q); [lia|lia|]. exists ls, work. split; [|auto]. lazymatch type of E with ?x = _ => change (bind x (fun s => Ok (fst (fst s))) = Ok ls) end. rewrite E. reflexivity. }
  induction n as [|n IH]; intros N1 N2; [lia|]. destruct (Nat.eq_dec n 0) as [->|N0].
  - exists l1, (fun _ => copy l). split; [reflexivity|]. split; [exact L1|]. split; [exact V1|]. split; [reflexivity|]. split; [exact P0|]. intros; lia.
  - destruct IH as (ls & work & E & LL & V & W0 & PW & Q); [lia|lia|]. replace (Z.of_nat (S n)) with (Z.of_nat n + 1) by lia. rewrite zrange_snoc, for_each_app, E by lia. cbn [bind for_each].
    destruct (SM (Z.of_nat n) (work (Z.of_nat n - 1)) ltac:(lia) PW) as (q & r & E1 & PQ & E2). rewrite E1. cbn [bind]. rewrite E2. cbn [bind]. rewrite zset_lt' by lia. cbn [bind].
    exists (lset ls (Z.to_nat (Z.of_nat n)) r), (fun i => if i =? Z.of_nat n then q else work i). replace (Z.of_nat n + 1 - 1) with (Z.of_nat n) by lia. rewrite Z.eqb_refl.
    split; [unfold scaled_at at 1; destruct (Z.eqb_spec (Z.of_nat n) 0); [lia|reflexivity]|]. split; [now rewrite lset_length|]. split; [rewrite nth_lset_other by lia; exact V|].
    split; [destruct (Z.eqb_spec 0 (Z.of_nat n)); [lia|exact W0]|]. split; [exact PQ|].
    intros i Hi. destruct (Z.eqb_spec i (Z.of_nat n)) as [->|NI].
    + destruct (Z.eqb_spec (Z.of_nat n - 1) (Z.of_nat n)); [lia|]. rewrite nth_lset_same by lia. auto.
    + destruct (Z.eqb_spec (i - 1) (Z.of_nat n)); [lia|]. rewrite nth_lset_other by lia. apply Q. lia.
Qed.
End Gen.
