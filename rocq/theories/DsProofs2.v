From Verif Require Import Base BaseLemmas CsvModel CsvSpec CsvProofs CsvProofs2 DfModel DfCsvProofs PnmModel PnmSpec PnmProofs PnmSave DsModel DsSpec DsProofs.
From Coq Require Import String Ascii.
Local Open Scope list_scope.
Local Open Scope nat_scope.

Lemma bind_ok {A B} (m : res A) (k : A -> res B) r : bind m k = Ok r -> exists a, m = Ok a /\ k a = Ok r.
Proof. destruct m; try discriminate. intro E. eauto. Qed.

Section Scan.
Context {num : Type}.
Variable scan : list N -> option (num * list N).
Hypothesis SC : scan_ok scan.

Lemma reads_skip s vs r : vs <> [] -> reads scan (skip_space s) vs r <-> reads scan s vs r.
Proof.
  intro NE. destruct vs as [|v vs]; [congruence|]. split; intro R; inversion R; subst; (econstructor; [|eassumption]).
  - now rewrite <- (scan_skip scan SC).
  - now rewrite (scan_skip scan SC).
Qed.
Definition row_text (i : nat) (t : list N) : list N := text "P" ++ [one_digit i] ++ text ":" ++ t.
Lemma calib_complete i t vs r : reads scan t vs r -> List.length vs = 12 -> fscanf scan (calib_fmt i) (row_text i t) = (vs, skip_space r).
Proof.
  intros R L. unfold row_text, calib_fmt. change (text "P") with [80%N]. change (text ":") with [58%N]. unfold one_digit. cbn [app]. rewrite lf12_lfs.
  cbn [fscanf]. rewrite N.eqb_refl. rewrite N.eqb_refl. rewrite N.eqb_refl. rewrite (scanf_enough scan SC [Ws] 11 (skip_space t) vs r).
  - cbn [fscanf]. now rewrite app_nil_r.
  - apply reads_skip; [|exact R]. intros ->. discriminate.
  - exact L.
Qed.
Lemma calib_sound i s vs s' : fscanf scan (calib_fmt i) s = (vs, s') -> List.length vs = 12 -> exists t r, s = row_text i t /\ reads scan t vs r /\ s' = skip_space r.
Proof.
  intros E L. unfold calib_fmt in E. rewrite lf12_lfs in E. cbn [app fscanf] in E.
  assert (Z : forall q : list N, (@nil num, q) = (vs, s') -> False) by (intros q X; injection X as <- <-; discriminate).
  destruct s as [|c0 s]; [now apply Z in E|]. destruct (N.eqb_spec c0 80) as [->|]; [|now apply Z in E].
  destruct s as [|c1 s]; [now apply Z in E|]. destruct (N.eqb_spec c1 (48 + N.of_nat i)) as [->|]; [|now apply Z in E].
  destruct s as [|c2 s]; [now apply Z in E|]. destruct (N.eqb_spec c2 58) as [->|]; [|now apply Z in E].
  change (fscanf scan (lfs 11 ++ [Ws]) (skip_space s) = (vs, s')) in E.
  destruct (all_exist scan SC (skip_space s)) as (us & q & R & T). exists s. destruct (Nat.lt_ge_cases (List.length us) 12) as [SH|EN].
  - pose proof (scanf_short scan SC [Ws] 11 _ us q R T SH) as X. rewrite E in X. cbn [fst] in X. subst. lia.
  - rewrite <- (firstn_skipn 12 us) in R. destruct (reads_app _ _ _ _ _ R) as (m & R1 & R2). assert (L1 : List.length (firstn 12 us) = 12) by (rewrite firstn_length; lia).
    set (w := firstn 12 us) in *. clearbody w. rewrite (scanf_enough scan SC [Ws] 11 _ w m R1 L1) in E. cbn [fscanf] in E. rewrite app_nil_r in E. injection E as <- <-. exists m. split; [reflexivity|]. split; [|reflexivity].
    apply reads_skip; [|exact R1]. intros ->. discriminate.
Qed.
Lemma calib_rows_sound : forall k i cal s st, for_each (calib_row scan) (seq i k) (cal, s) = Ok st -> exists rows, calibration scan i s rows /\ List.length rows = k.
Proof.
  induction k as [|k IH]; intros i cal s st E; [exists []; split; [constructor|reflexivity]|]. cbn [seq for_each] in E. apply bind_ok in E. destruct E as ([cal1 s1] & E1 & E2).
  unfold calib_row in E1. destruct (fscanf scan (calib_fmt i) s) as [vs s'] eqn:F. destruct (Nat.eqb_spec (List.length vs) 12) as [L|]; [|discriminate].
  apply bind_ok in E1. destruct E1 as (P & _ & E1). apply bind_ok in E1. destruct E1 as (P' & _ & E1). apply bind_ok in E1. destruct E1 as (c' & _ & E1). injection E1 as <- <-.
  destruct (calib_sound i s vs s' F L) as (t & r & -> & R & ->). destruct (IH _ _ _ _ E2) as (rows & C & LR). exists (vs :: rows). split; [|cbn; lia].
  econstructor; [exact R|exact L|now apply next_line_skip|exact C].
Qed.
Lemma calib_rows_complete : forall rows i cal s, calibration scan i s rows -> List.length cal = i + List.length rows -> Forall (fun P => List.length P = 12) cal ->
  exists cal' s', for_each (calib_row scan) (seq i (List.length rows)) (cal, s) = Ok (cal', s') /\ List.length cal' = List.length cal /\
    (forall j, j < i -> nth_error cal' j = nth_error cal j) /\
    forall j vs, nth_error rows j = Some vs -> exists P, nth_error cal' (i + j) = Some P /\ matrix_3x4 vs 0 P.
Proof.
  induction rows as [|vs rows IH]; intros i cal s C L F.
  - exists cal, s. split; [reflexivity|]. split; [reflexivity|]. split; [auto|]. intros [|j]; discriminate.
  - inversion C as [|? t ? r s2 ? R LV NL C2]; subst. cbn [List.length seq for_each]. unfold calib_row at 1. change (text "P" ++ [one_digit i] ++ text ":" ++ t) with (row_text i t). rewrite (calib_complete i t vs r R LV).
    destruct (Nat.eqb_spec (List.length vs) 12); [|lia]. cbn [List.length] in L. unfold aget. destruct (nth_error cal i) as [P|] eqn:EP; [|apply nth_error_None in EP; lia]. cbn [bind].
    assert (LP : List.length P = 12) by (rewrite Forall_forall in F; apply F; eapply nth_error_In; eauto). destruct (store12 vs P LV LP) as (Q & EQ & M). rewrite EQ. cbn [bind].
    destruct (aset_ok cal i Q ltac:(lia)) as (c1 & E1 & L1 & N1 & O1). rewrite E1. cbn [bind]. apply next_line_skip in NL. subst s2.
    destruct (IH (S i) c1 (skip_space r) C2) as (cal' & s' & E' & L' & K' & V'); [lia| |].
    { apply Forall_forall. intros X IX. apply In_nth_error in IX. destruct IX as (j & J). destruct (Nat.eq_dec j i) as [->|NE]; [rewrite N1 in J; injection J as <-; apply M|]. rewrite O1 in J by auto. rewrite Forall_forall in F. apply F. eapply nth_error_In; eauto. }
    exists cal', s'. split; [exact E'|]. split; [lia|]. split.
    + intros j J. rewrite K' by lia. apply O1. lia.
    + intros [|j] ws W.
      * injection W as <-. exists Q. rewrite Nat.add_0_r, K' by lia. auto.
      * destruct (V' j ws W) as (P2 & A & B). exists P2. replace (i + S j) with (S i + j) by lia. auto.
Qed.

(** nine numbers of a homography *)
Lemma vgg_cells_sound : forall cells h s h' s', for_each (vgg_cell scan) cells (h, s) = Ok (h', s') -> exists vs, reads scan s vs s' /\ List.length vs = List.length cells.
Proof.
  induction cells as [|c cells IH]; intros h s h' s' E; [injection E as <- <-; exists []; split; [constructor|reflexivity]|]. cbn [for_each] in E. apply bind_ok in E. destruct E as ([h1 s1] & E1 & E2).
  unfold vgg_cell in E1. cbn [fscanf] in E1. destruct (scan s) as [[v s2]|] eqn:S; [|discriminate]. apply bind_ok in E1. destruct E1 as (h2 & _ & E1). injection E1 as <- <-.
  destruct (IH _ _ _ _ E2) as (vs & R & L). exists (v :: vs). split; [econstructor; eauto|cbn; lia].
Qed.
Lemma vgg_h_sound s m : vgg_h scan s = Ok m -> exists vs r, reads scan s vs r /\ List.length vs = 9.
Proof. intro E. apply bind_ok in E. destruct E as ([h s'] & E & _). destruct (vgg_cells_sound _ _ _ _ _ E) as (vs & R & L). exists vs, s'. auto. Qed.
Lemma vgg_h_complete s vs r : reads scan s vs r -> List.length vs = 9 -> exists m, vgg_h scan s = Ok m /\ matrix_3x3 vs m.
Proof.
  intros R L. do 10 (destruct vs as [|? vs]; try discriminate L). repeat match goal with H : reads _ _ (_ :: _) _ |- _ => inversion H; clear H; subst end.
  unfold vgg_h, vgg_cell. cbn [list_prod map app for_each fscanf fst snd].
  repeat (match goal with H : scan ?x = _ |- context [scan ?x] => rewrite H end; cbn [bind]; unfold aset; cbn [List.length Nat.mul Nat.add Nat.ltb Nat.leb lset repeat bind]).
  eexists. split; [reflexivity|]. split; [reflexivity|]. intros i c I C. destruct i as [|[|[|i]]]; try lia; (destruct c as [|[|[|c]]]; try lia); (eexists; split; reflexivity).
Qed.

(** boxes *)
Lemma gt_row_sound s vs s' : fscanf scan gt_fmt s = (vs, s') -> List.length vs = 4 -> forall rows, boxes scan s' rows -> boxes scan s (vs :: rows).
Proof.
  intros E L rows B. unfold gt_fmt in E. cbn [fscanf] in E.
  repeat match goal with
  | E : context [match scan ?x with _ => _ end] |- _ => destruct (scan x) as [[? ?]|] eqn:?; [|injection E as <- <-; discriminate]
  | E : context [match ?x with [] => _ | _ :: _ => _ end] |- _ => is_var x; destruct x as [|? x]; [injection E as <- <-; discriminate|]
  | E : context [(?a =? ?b)%N] |- _ => destruct (N.eqb_spec a b); [subst|injection E as <- <-; discriminate]
  end.
  injection E as <- <-. econstructor; try eassumption. now apply next_line_skip.
Qed.
Lemma gt_sound : forall n i gt s st, for_each (tc_gt_row scan) (seq i n) (gt, s) = Ok st -> exists rows, boxes scan s rows /\ List.length rows = n.
Proof.
  induction n as [|n IH]; intros i gt s st E; [exists []; split; [constructor|reflexivity]|]. cbn [seq for_each] in E. apply bind_ok in E. destruct E as ([g1 s1] & E1 & E2).
  unfold tc_gt_row in E1. destruct (fscanf scan gt_fmt s) as [vs s'] eqn:F. destruct (Nat.eqb_spec (List.length vs) 4) as [L|]; [|discriminate].
  apply bind_ok in E1. destruct E1 as (P & _ & E1). apply bind_ok in E1. destruct E1 as (P' & _ & E1). apply bind_ok in E1. destruct E1 as (c' & _ & E1). injection E1 as <- <-.
  destruct (IH _ _ _ _ E2) as (rows & B & LR). exists (vs :: rows). split; [eapply gt_row_sound; eauto|cbn; lia].
Qed.
Lemma gt_complete : forall rows i gt s, boxes scan s rows -> List.length gt = i + List.length rows -> Forall (fun P => List.length P = 4) gt ->
  exists gt' s', for_each (tc_gt_row scan) (seq i (List.length rows)) (gt, s) = Ok (gt', s') /\ List.length gt' = List.length gt /\
    (forall j, j < i -> nth_error gt' j = nth_error gt j) /\ forall j vs, nth_error rows j = Some vs -> nth_error gt' (i + j) = Some (map Some vs).
Proof.
  induction rows as [|vs rows IH]; intros i gt s B L F.
  - exists gt, s. split; [reflexivity|]. split; [reflexivity|]. split; [auto|]. intros [|j]; discriminate.
  - inversion B as [|? a s1 b s2 c s3 d r s4 ? H1 H2 H3 H4 NL B2]; subst. cbn [List.length seq for_each]. unfold tc_gt_row at 1. unfold gt_fmt. cbn [fscanf]. rewrite H1, N.eqb_refl, H2, N.eqb_refl, H3, N.eqb_refl, H4.
    cbn [List.length Nat.eqb]. cbn [List.length] in L. unfold aget. destruct (nth_error gt i) as [P|] eqn:EP; [|apply nth_error_None in EP; lia]. cbn [bind].
    assert (LP : List.length P = 4) by (rewrite Forall_forall in F; apply F; eapply nth_error_In; eauto). do 5 (destruct P as [|? P]; try discriminate LP).
    match goal with |- context [store ?p ?v ?q] => change (store p v q) with (Ok (map Some [a; b; c; d])) end. cbn [bind]. set (Q := map Some [a; b; c; d]) in *.
    destruct (aset_ok gt i Q ltac:(lia)) as (c1 & E1 & L1 & N1 & O1). rewrite E1. cbn [bind]. apply next_line_skip in NL. subst s4.
    destruct (IH (S i) c1 (skip_space r) B2) as (gt' & s' & E' & L' & K' & V'); [lia| |].
    { apply Forall_forall. intros X IX. apply In_nth_error in IX. destruct IX as (j & J). destruct (Nat.eq_dec j i) as [->|NE]; [rewrite N1 in J; injection J as <-; reflexivity|]. rewrite O1 in J by auto. rewrite Forall_forall in F. apply F. eapply nth_error_In; eauto. }
    exists gt', s'. split; [exact E'|]. split; [lia|]. split.
    + intros j J. rewrite K' by lia. apply O1. lia.
    + intros [|j] ws W.
      * injection W as <-. rewrite Nat.add_0_r, K' by lia. exact N1.
      * replace (i + S j) with (S i + j) by lia. now apply V'.
Qed.
End Scan.

(** * Names *)
Lemma has_prefix_iff b : forall a, has_prefix a b = true <-> begins_with b a.
Proof.
  induction b as [|c b IH]; intro a; [split; [intros _; now exists a|now destruct a]|]. destruct a as [|d a]; cbn [has_prefix].
  - split; [discriminate|]. intros (t & T). discriminate.
  - rewrite andb_true_iff, N.eqb_eq, IH. split; [intros (-> & t & ->); now exists t|]. intros (t & T). injection T as <- ->. split; [reflexivity|now exists t].
Qed.
Lemma name_found_iff names name : name_found names name = true <-> exists std, In std names /\ begins_with std name.
Proof.
  unfold name_found. assert (G : forall b, fold_left (fun found std => if has_prefix name std then true else found) names b = true <-> b = true \/ exists std, In std names /\ begins_with std name).
  { induction names as [|n names IH]; intro b; cbn [fold_left]; [split; [auto|intros [H|(s & [] & _)]; exact H]|]. rewrite IH. destruct (has_prefix name n) eqn:E.
    - apply has_prefix_iff in E. split; [intros _; right; exists n; split; [now left|exact E]|auto].
    - split; [intros [->|(s & I & B)]; [auto|right; exists s; split; [now right|exact B]]|]. intros [->|(s & [<-|I] & B)]; [auto| |right; eauto]. apply has_prefix_iff in B. congruence. }
  rewrite G. split; [intros [H|H]; [discriminate|exact H]|auto].
Qed.

(** * Numbers in paths *)
Lemma pad_two id : id < 22 -> print_pad 2 (Z.of_nat id) = two_digits id.
Proof. intro L. do 22 (destruct id as [|id]; [reflexivity|]). lia. Qed.
Lemma pad_spec w z : (0 <= z)%Z -> padded w z (print_pad w z).
Proof.
  intro P. unfold print_pad. destruct (Z.ltb_spec z 0); [lia|]. set (k := w - List.length (print_int z)). destruct (print_pos (Z.to_N z)) as (ds & E & D & V).
  assert (EI : print_int z = ds) by (unfold print_int; destruct (Z.ltb_spec z 0); [lia|exact E]). exists k, ds. rewrite EI. split; [reflexivity|]. split; [exact D|]. split; [lia|]. rewrite app_length, repeat_length. unfold k. rewrite EI. clear. split; lia.
Qed.

(** * Attributes *)
Lemma chunk_line l s : ~ In 10%N l -> List.length l < 7 -> get_chunk 7 (l ++ 10%N :: s) = (l ++ [10%N], s).
Proof.
  generalize 7. intro n. revert n. induction l as [|c l IH]; intros n I L; destruct n as [|n]; try (cbn in L; lia); cbn [app get_chunk].
  - reflexivity.
  - destruct (N.eqb_spec c 10) as [->|]; [exfalso; apply I; now left|]. rewrite IH; [reflexivity|intro X; apply I; now right|cbn in L; lia].
Qed.
Lemma attr_line i a : nth_error attribute_names i = Some a -> ~ In 10%N a /\ List.length a < 7 /\ attr_of tc_attributes 0 (a ++ [10%N]) = Z.shiftl 1 (Z.of_nat i) /\ Z.shiftl 1 (Z.of_nat i) <> 0%Z.
Proof.
  intro E. do 11 (destruct i as [|i]; [injection E as <-; split; [intros X; repeat (destruct X as [X|X]; [discriminate|]); destruct X|]; split; [cbn; lia|]; split; [reflexivity|discriminate]|]). destruct i; discriminate.
Qed.
Lemma attr_lines_loop : forall ls fuel acc, Forall (fun l => In l attribute_names) ls -> List.length (attribute_lines ls) < fuel ->
  exists m, attr_loop fuel (attribute_lines ls) acc = Ok m /\ forall i a, nth_error attribute_names i = Some a -> Z.testbit m (Z.of_nat i) = (Z.testbit acc (Z.of_nat i) || if in_dec (list_eq_dec N.eq_dec) a ls then true else false).
Proof.
  induction ls as [|l ls IH]; intros fuel acc F L; (destruct fuel as [|fuel]; [lia|]).
  - cbn. exists (Z.lor acc 0). split; [reflexivity|]. intros i a _. rewrite Z.lor_0_r. now rewrite orb_false_r.
  - inversion F as [|? ? I F']; subst. apply In_nth_error in I. destruct I as (k & K). destruct (attr_line k l K) as (A1 & A2 & A3 & A4).
    unfold attribute_lines in *. cbn [flat_map attr_loop] in *. rewrite <- app_assoc in *. cbn [app] in *.
    assert (G : get_attr (l ++ 10%N :: flat_map (fun l => l ++ [10%N]) ls) = (Z.shiftl 1 (Z.of_nat k), flat_map (fun l => l ++ [10%N]) ls)).
    { unfold get_attr. destruct (l ++ 10%N :: flat_map (fun l => l ++ [10%N]) ls) eqn:X; [destruct l; discriminate|]. rewrite <- X. rewrite chunk_line by assumption. now rewrite A3. }
    rewrite G. destruct (Z.eqb_spec (Z.shiftl 1 (Z.of_nat k)) 0); [congruence|]. rewrite app_length in L. cbn [List.length] in L.
    destruct (IH fuel (Z.lor acc (Z.shiftl 1 (Z.of_nat k))) F' ltac:(lia)) as (m & E & H). exists m. split; [exact E|]. intros i a IA. rewrite (H i a IA).
    rewrite Z.lor_spec. rewrite Z.shiftl_spec by lia. destruct (Nat.eq_dec i k) as [->|NE].
    + rewrite Z.sub_diag. change (Z.testbit 1 0) with true. rewrite orb_true_r. cbn [orb]. rewrite IA in K. injection K as ->. destruct (in_dec (list_eq_dec N.eq_dec) l (l :: ls)) as [|X]; [now rewrite orb_true_r|exfalso; apply X; now left].
    + assert (B : Z.testbit 1 (Z.of_nat i - Z.of_nat k) = false). { destruct (Z.lt_ge_cases (Z.of_nat i - Z.of_nat k) 0); [now apply Z.testbit_neg_r|]. change 1%Z with (2 ^ 0)%Z. rewrite Z.pow2_bits_false by lia. reflexivity. }
      rewrite B, orb_false_r. f_equal. assert (ND : a <> l).
      { intros ->. apply NE. assert (U : NoDup attribute_names) by (repeat constructor; intro X; repeat (destruct X as [X|X]; [discriminate|]); destruct X).
        apply (proj1 (NoDup_nth_error attribute_names) U); [apply nth_error_Some; congruence|congruence]. }
      destruct (in_dec (list_eq_dec N.eq_dec) a ls) as [X|X], (in_dec (list_eq_dec N.eq_dec) a (l :: ls)) as [Y|Y]; try reflexivity; exfalso; [apply Y; now right|destruct Y; congruence].
Qed.
Lemma attr_zero names i b : (forall a, In a names -> has_prefix b a = false) -> attr_of names i b = 0%Z.
Proof. revert i. induction names as [|a names IH]; intros i H; [reflexivity|]. cbn [attr_of]. rewrite H by now left. apply IH. intros; apply H; now right. Qed.

(** * Integers *)
Lemma read_digits_shape s : forall v n, exists ds, s = ds ++ snd (read_digits 10 s v n) /\ Forall (fun b => 48 <= b <= 57)%N ds /\ read_digits 10 s v n = (fold_left (fun v d => v * 10 + (Z.of_N d - 48))%Z ds v, n + List.length ds, snd (read_digits 10 s v n)).
Proof.
  induction s as [|c s IH]; intros v n; [exists []; cbn; rewrite Nat.add_0_r; auto|]. cbn [read_digits].
  match goal with |- context [if ?t then _ else _] => destruct t eqn:T end.
  - destruct (IH (v * 10 + digit_value c)%Z (S n)) as (ds & A & B & C). exists (c :: ds).
    assert (D : (48 <= c <= 57)%N /\ digit_value c = (Z.of_N c - 48)%Z) by (unfold digit_value in *; repeat match goal with H : context [if ?t then _ else _] |- _ => destruct t eqn:? end; lia).
    destruct D as [D1 D2]. split; [cbn; now f_equal|]. split; [now constructor|]. rewrite C. cbn [fold_left List.length snd]. rewrite D2. do 2 f_equal. lia.
  - exists []. cbn. rewrite Nat.add_0_r. auto.
Qed.
Lemma scan_int_sound s z r : scan_int s = Ok (Some (z, r)) -> exists ws t, s = ws ++ t ++ r /\ spaces ws /\ int_text t z.
Proof.
  intro E. destruct (skip_space_split s) as (ws & A & B & _). exists ws. unfold scan_int in E. rewrite B. clear B. set (s1 := skip_space s) in *. clearbody s1.
  assert (G : exists sg neg s2, s1 = sg ++ s2 /\ sign_ok sg /\ (forall v, sign_of sg v = if neg : bool then (- v)%Z else v) /\
     match s1 with c :: s' => if (c =? 45)%N then (true, s') else if (c =? 43)%N then (false, s') else (false, s1) | [] => (false, []) end = (neg, s2)).
  { destruct s1 as [|c s']; [exists [], false, []; unfold sign_ok; auto|]. destruct (N.eqb_spec c 45) as [->|]; [exists [45%N], true, s'; unfold sign_ok; auto|].
    destruct (N.eqb_spec c 43) as [->|]; [exists [43%N], false, s'; unfold sign_ok; auto|]. exists [], false, (c :: s'). unfold sign_ok; auto. }
  destruct G as (sg & neg & s2 & -> & SG & SV & EQ). rewrite EQ in E. clear EQ. destruct (read_digits_shape s2 0%Z 0) as (ds & D1 & D2 & D3). rewrite D3 in E. cbn [Nat.add] in E.
  destruct (Nat.eqb_spec (List.length ds) 0); [discriminate|]. apply bind_ok in E. destruct E as (z' & E1 & E2). injection E2 as -> E2. unfold chk_int in E1. destruct (in_int _); [|discriminate]. injection E1 as E1.
  exists (sg ++ ds). rewrite <- E2. rewrite <- app_assoc. rewrite <- D1. split; [reflexivity|]. split; [exact A|]. exists sg, ds, (dec_value ds). split; [reflexivity|]. split; [exact SG|]. split; [split; [intros ->; cbn in *; lia|split; [exact D2|reflexivity]]|]. rewrite SV. exact E1.
Qed.
Lemma read_digits_stop s : forall v n c r, snd (read_digits 10 s v n) = c :: r -> ~ (48 <= c <= 57)%N.
Proof.
  induction s as [|d s IH]; intros v n c r; cbn [read_digits]; [discriminate|].
  match goal with |- context [if ?t then _ else _] => destruct t eqn:T end; [apply IH|]. cbn [snd]. intros X D. injection X as -> ->.
  unfold digit_value in T. repeat match goal with H : context [if ?t then _ else _] |- _ => destruct t eqn:? end; lia.
Qed.
Lemma scan_int_stop s z r : scan_int s = Ok (Some (z, r)) -> in_int z = true /\ forall c r', r = c :: r' -> ~ (48 <= c <= 57)%N.
Proof.
  intro E. unfold scan_int in E. destruct (match skip_space s with c :: s' => _ | [] => _ end) as [neg s2]. pose proof (read_digits_stop s2 0%Z 0) as ST.
  destruct (read_digits 10 s2 0 0) as [[v n] rest]. destruct (Nat.eqb_spec n 0); [discriminate|]. apply bind_ok in E. destruct E as (z' & E1 & E2). injection E2 as -> ->.
  unfold chk_int in E1. destruct (in_int (if neg then (- v)%Z else v)) eqn:I; [|discriminate]. injection E1 as <-. split; [exact I|]. intros c r' ->. exact (ST c r' eq_refl).
Qed.
Lemma scan_int_complete ws t z r : spaces ws -> int_text t z -> (forall c r', r = c :: r' -> ~ (48 <= c <= 57)%N) -> in_int z = true -> scan_int (ws ++ t ++ r) = Ok (Some (z, r)).
Proof.
  intros SP (sg & ds & v & -> & SG & (NE & D & V) & SV) NR IZ.
  assert (ND : no_dig 10 r).
  { unfold no_dig. destruct r as [|c r']; [exact Logic.I|]. specialize (NR c r' eq_refl). unfold digit_value. repeat match goal with |- context [if ?t then _ else _] => destruct t eqn:? end; try lia. }
  destruct ds as [|d ds]; [congruence|]. assert (D1 : (48 <= d <= 57)%N) by (inversion D; auto).
  assert (RD : read_digits 10 ((d :: ds) ++ r) 0 0 = (v, S (List.length ds), r)).
  { rewrite read_digits_app; [|now apply dec_digs|exact ND]. cbn [List.length Nat.add]. f_equal. f_equal.
    subst v. unfold dec_value. generalize 0%Z. clear -D. induction D as [|c l C A IH]; intro v; cbn [fold_left]; [reflexivity|]. rewrite IH. f_equal. rewrite digit_value_dec by lia. lia. }
  unfold scan_int. rewrite <- app_assoc. destruct SG as [->|[->| ->]]; cbn [app] in *; rewrite skip_space_app; auto.
  - destruct (N.eqb_spec d 45); [lia|]. destruct (N.eqb_spec d 43); [lia|]. rewrite RD. cbn [Nat.eqb]. cbn in SV. subst z. unfold chk_int. now rewrite IZ.
  - destruct (isspace d) eqn:E; [apply isspace_iff in E; lia|reflexivity].
  - cbn [N.eqb Pos.eqb]. rewrite RD. cbn [Nat.eqb]. cbn in SV. subst z. unfold chk_int. now rewrite IZ.
  - cbn [N.eqb Pos.eqb]. rewrite RD. cbn [Nat.eqb]. cbn in SV. subst z. unfold chk_int. now rewrite IZ.
Qed.

(** A decimal text is determined by its value. *)
Lemma dec_value_snoc l d : dec_value (l ++ [d]) = (dec_value l * 10 + (Z.of_N d - 48))%Z.
Proof. unfold dec_value. now rewrite fold_left_app. Qed.
Definition lead (l : list N) : Prop := Forall (fun b => 48 <= b <= 57)%N l /\ forall d l', l = d :: l' -> d <> 48%N.
Lemma lead_nonneg l : Forall (fun b => 48 <= b <= 57)%N l -> (0 <= dec_value l)%Z.
Proof. induction l as [|d l IH] using rev_ind; intro F; [cbn; lia|]. apply Forall_app in F. destruct F as [F1 F2]. inversion F2; subst. rewrite dec_value_snoc. specialize (IH F1). lia. Qed.
Lemma lead_pos l : lead l -> l <> [] -> (0 < dec_value l)%Z.
Proof.
  induction l as [|d l IH] using rev_ind; intros (F & H) NE; [congruence|]. apply Forall_app in F. destruct F as [F1 F2]. inversion F2; subst. rewrite dec_value_snoc. destruct l as [|c l].
  - specialize (H d [] eq_refl). cbn [dec_value fold_left]. unfold dec_value. cbn [fold_left]. lia.
  - assert (P : (0 < dec_value (c :: l))%Z) by (apply IH; [split; [exact F1|intros d0 l0 X; injection X as <- <-; now apply (H c (l ++ [d]))]|discriminate]). lia.
Qed.
Lemma lead_unique l : forall l', lead l -> lead l' -> dec_value l = dec_value l' -> l = l'.
Proof.
  assert (INI : forall m d, lead (m ++ [d]) -> lead m) by (intros m d (F & H); apply Forall_app in F; split; [apply F|]; intros c l0 ->; now apply (H c (l0 ++ [d]))).
  induction l as [|d l IH] using rev_ind; intros l' L L' E.
  - destruct l' as [|c l']; [reflexivity|]. pose proof (lead_pos _ L' ltac:(discriminate)) as P. change (dec_value []) with 0%Z in E. lia.
  - destruct l' as [|d' m] using rev_ind. { assert (NE : l ++ [d] <> []) by (destruct l; discriminate). pose proof (lead_pos _ L NE) as P. change (dec_value []) with 0%Z in E. lia. }
    clear IHm. rewrite !dec_value_snoc in E. pose proof L as (F & _). pose proof L' as (F' & _). apply Forall_app in F. apply Forall_app in F'. destruct F as (F0 & F1). destruct F' as (F0' & F1'). inversion F1; inversion F1'; subst.
    assert (DD : d = d') by lia. subst d'. f_equal. apply IH; [eapply INI; eauto|eapply INI; eauto|lia].
Qed.
Lemma dec_digits_unique ds ds' : decimal_digits ds -> decimal_digits ds' -> dec_value ds = dec_value ds' -> ds = ds'.
Proof.
  assert (LD : forall l, decimal_digits l -> l = [48%N] \/ lead l /\ l <> []).
  { intros l [->|(d & m & -> & D & F)]; [now left|]. right. split; [|discriminate]. split; [constructor; [lia|exact F]|]. intros c l0 X. injection X as <- <-. lia. }
  intros D D' E. destruct (LD _ D) as [->|(L & NE)], (LD _ D') as [->|(L' & NE')].
  - reflexivity.
  - pose proof (lead_pos _ L' NE') as P. change (dec_value [48%N]) with 0%Z in E. lia.
  - pose proof (lead_pos _ L NE) as P. change (dec_value [48%N]) with 0%Z in E. lia.
  - now apply lead_unique.
Qed.
