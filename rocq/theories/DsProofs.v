From Verif Require Import Base BaseLemmas CsvModel CsvSpec CsvProofs CsvProofs2 DfModel DfCsvProofs PnmModel PnmSpec PnmProofs PnmSave DsModel DsSpec.
From Coq Require Import String Ascii.
Local Open Scope list_scope.
Local Open Scope nat_scope.

Lemma skip_space_split s : exists ws, spaces ws /\ s = ws ++ skip_space s /\ forall c s', skip_space s = c :: s' -> ~ spaces [c].
Proof.
  induction s as [|c s (ws & A & B & C)]; [exists []; split; [constructor|]; split; [reflexivity|discriminate]|]. cbn [skip_space]. destruct (isspace c) eqn:E.
  - exists (c :: ws). split; [constructor; [now apply isspace_iff|exact A]|]. split; [cbn; now f_equal|exact C].
  - exists []. split; [constructor|]. split; [reflexivity|]. intros c' s' X S. injection X as <- <-. inversion S as [|? ? P]. apply isspace_iff in P. congruence.
Qed.
Lemma next_line_skip r s : next_line r s <-> s = skip_space r.
Proof.
  split.
  - intros (ws & S & -> & H). induction S as [|c ws P S IH].
    + cbn [app]. destruct s as [|c s]; [reflexivity|]. cbn [skip_space]. destruct (isspace c) eqn:E; [|reflexivity]. exfalso. apply (H c s eq_refl). constructor; [now apply isspace_iff|constructor].
    + cbn [app skip_space]. apply isspace_iff in P. now rewrite P.
  - intros ->. destruct (skip_space_split r) as (ws & A & B & C). exists ws. auto.
Qed.

Section Scan.
Context {num : Type}.
Variable scan : list N -> option (num * list N).
Hypothesis SC : scan_ok scan.
Lemma scan_skip s : scan (skip_space s) = scan s.
Proof. destruct (skip_space_split s) as (ws & A & B & _). rewrite B at 2. symmetry. now apply (proj1 SC). Qed.
Lemma all_exist s : exists vs, all_numbers scan s vs.
Proof.
  remember (List.length s) as n eqn:E. revert s E. induction n as [n IH] using lt_wf_ind. intros s E. destruct (scan s) as [[v r]|] eqn:H.
  - pose proof (proj2 SC _ _ _ H) as L. destruct (IH (List.length r) ltac:(lia) r eq_refl) as (vs & t & R & T). exists (v :: vs), t. split; [econstructor; eauto|exact T].
  - exists [], s. split; [constructor|exact H].
Qed.
Lemma reads_app s vs ws r : reads scan s (vs ++ ws) r -> exists m, reads scan s vs m /\ reads scan m ws r.
Proof.
  revert s. induction vs as [|v vs IH]; intros s R; [exists s; split; [constructor|exact R]|]. inversion R; subst. destruct (IH _ H4) as (m & A & B). exists m. split; [econstructor; eauto|exact B].
Qed.
Lemma reads_length s vs r : reads scan s vs r -> List.length vs + List.length r <= List.length s.
Proof. induction 1 as [s|s v s1 vs r E R IH]; cbn [List.length]; [lia|]. apply (proj2 SC) in E. lia. Qed.
(** conversions separated by white space *)
Definition lfs (k : nat) : list directive := Conv :: List.concat (repeat [Ws; Conv] k).
Lemma scanf_enough f : forall k s vs r, reads scan s vs r -> List.length vs = S k -> fscanf scan (lfs k ++ f) s = (let (ws, q) := fscanf scan f r in (vs ++ ws, q)).
Proof.
  induction k as [|k IH]; intros s vs r R L.
  - destruct vs as [|v [|? ?]]; try discriminate. inversion R; subst. inversion H4; subst. cbn. rewrite H2. now destruct (fscanf scan f r).
  - destruct vs as [|v vs]; [discriminate|]. inversion R; subst. unfold lfs. cbn [repeat List.concat app fscanf]. rewrite H2.
    specialize (IH s' vs r H4 ltac:(cbn in L; lia)). unfold lfs in IH. cbn [app fscanf] in IH. rewrite scan_skip.
    destruct (scan s') as [[v1 s1]|] eqn:E1; [|destruct vs; [discriminate|inversion H4; congruence]]. rewrite IH. destruct (fscanf scan f r). reflexivity.
Qed.
Lemma scanf_short f : forall k s vs r, reads scan s vs r -> scan r = None -> List.length vs < S k -> fst (fscanf scan (lfs k ++ f) s) = vs.
Proof.
  induction k as [|k IH]; intros s vs r R T L.
  - destruct vs; [|cbn in L; lia]. inversion R; subst. cbn. now rewrite T.
  - destruct vs as [|v vs]. { inversion R; subst. unfold lfs. cbn [app fscanf]. now rewrite T. }
    inversion R; subst. unfold lfs. cbn [repeat List.concat app fscanf]. rewrite H2.
    specialize (IH s' vs r H4 T ltac:(cbn in L; lia)). unfold lfs in IH. cbn [app fscanf] in IH. rewrite scan_skip.
    destruct (scan s') as [[v1 s1]|] eqn:E1; [|cbn [fst] in IH |- *; now rewrite <- IH].
    match type of IH with fst ?t = _ => destruct t as [ws q] end. cbn [fst] in IH |- *. now rewrite IH.
Qed.
Lemma lf12_lfs : lf12 = lfs 11. Proof. reflexivity. Qed.

(** storing twelve numbers *)
Lemma store12 (vs : list num) P : List.length vs = 12 -> List.length P = 12 -> exists Q, store places12 vs P = Ok Q /\ matrix_3x4 vs 0 Q.
Proof.
  intros L LP. do 13 (destruct vs as [|? vs]; try discriminate L). do 13 (destruct P as [|? P]; try discriminate LP).
  eexists. split; [reflexivity|]. split; [reflexivity|]. intros r c R C.
  destruct r as [|[|[|r]]]; try lia; (destruct c as [|[|[|[|c]]]]; try lia); (eexists; split; reflexivity).
Qed.
Lemma matrix_at (vs : list num) k Q : matrix_3x4 (skipn k vs) 0 Q -> matrix_3x4 vs k Q.
Proof.
  intros (L & H). split; [exact L|]. intros r c R C. destruct (H r c R C) as (v & A & B). exists v. split; [|exact B].
  rewrite <- A. replace (k + 4 * r + c) with (k + (0 + 4 * r + c)) by lia. generalize (0 + 4 * r + c). clear. intro i. revert vs. induction k as [|k IH]; intro vs; [reflexivity|]. destruct vs as [|v vs]; [now destruct i|]. apply IH.
Qed.
Lemma matrix_first (vs ws : list num) Q : List.length vs = 12 -> matrix_3x4 vs 0 Q -> matrix_3x4 (vs ++ ws) 0 Q.
Proof.
  intros L (LQ & H). split; [exact LQ|]. intros r c R C. destruct (H r c R C) as (v & A & B). exists v. split; [|exact B]. rewrite nth_error_app1 by lia. exact A.
Qed.

Lemma aset_ok {A} (l : list A) i v : i < List.length l -> exists l', aset l i v = Ok l' /\ List.length l' = List.length l /\ nth_error l' i = Some v /\ forall j, j <> i -> nth_error l' j = nth_error l j.
Proof.
  intro L. unfold aset. apply Nat.ltb_lt in L as E. rewrite E. exists (lset l i v). split; [reflexivity|]. clear E. revert i L. induction l as [|a l IH]; intros i L; [cbn in L; lia|].
  destruct i as [|i]; cbn [lset List.length].
  - split; [reflexivity|]. split; [reflexivity|]. intros [|j] J; [lia|reflexivity].
  - destruct (IH i ltac:(cbn in L; lia)) as (A1 & A2 & A3). split; [lia|]. split; [exact A2|]. intros [|j] J; [reflexivity|]. apply A3. lia.
Qed.
Lemma grow {A} (l : list (option A)) n m : n <= List.length l -> 0 < m ->
  let l' := if List.length l <=? n then l ++ repeat None m else l in n < List.length l' /\ forall j, j < n -> nth_error l' j = nth_error l j.
Proof.
  intros L M. destruct (Nat.leb_spec (List.length l) n); cbv zeta.
  - rewrite app_length, repeat_length. split; [lia|]. intros j J. apply nth_error_app1. lia.
  - split; [lia|auto].
Qed.

Lemma pose_loop_ok : forall fuel s P arr n vs r, List.length P = 12 -> n <= List.length arr -> reads scan s vs r -> scan r = None -> List.length s < fuel ->
  exists arr', pose_loop scan fuel s P arr n = Ok (arr', n + List.length vs / 12) /\ (forall j, j < n -> nth_error arr' j = nth_error arr j) /\
    forall k, k < List.length vs / 12 -> exists p, nth_error arr' (n + k) = Some (Some p) /\ matrix_3x4 vs (12 * k) p.
Proof.
  induction fuel as [|fuel IH]; intros s P arr n vs r LP LA R T F; [lia|]. cbn [pose_loop]. rewrite lf12_lfs. rewrite <- (app_nil_r (lfs 11)).
  destruct (Nat.lt_ge_cases (List.length vs) 12) as [SH|EN].
  - pose proof (scanf_short [] 11 s vs r R T SH) as E. destruct (fscanf scan (lfs 11 ++ []) s) as [us s']. cbn [fst] in E. subst us.
    destruct (Nat.eqb_spec (List.length vs) 12); [lia|]. exists arr. rewrite Nat.div_small by lia. rewrite Nat.add_0_r. split; [reflexivity|]. split; [auto|]. intros k K. lia.
  - rewrite <- (firstn_skipn 12 vs) in R. destruct (reads_app _ _ _ _ R) as (m & R1 & R2). assert (L1 : List.length (firstn 12 vs) = 12) by (rewrite firstn_length; lia).
    rewrite (scanf_enough [] 11 s (firstn 12 vs) m R1 L1). cbn [fscanf]. rewrite app_nil_r. destruct (Nat.eqb_spec (List.length (firstn 12 vs)) 12); [|lia].
    destruct (store12 (firstn 12 vs) P L1 LP) as (Q & EQ & M). rewrite EQ. cbn [bind].
    destruct (grow arr n 1000 LA ltac:(lia)) as (G1 & G2). cbv zeta in G1, G2. set (arr1 := if List.length arr <=? n then arr ++ repeat None 1000 else arr) in *. clearbody arr1.
    destruct (aset_ok arr1 n (Some Q) G1) as (arr2 & E2 & L2 & N2 & O2). rewrite E2. cbn [bind].
    pose proof (reads_length _ _ _ R1) as RL. destruct (IH m Q arr2 (S n) (skipn 12 vs) r) as (arr' & E' & K' & V'); [apply M|lia|exact R2|exact T|lia|].
    assert (D : List.length vs / 12 = S (List.length (skipn 12 vs) / 12)).
    { rewrite skipn_length. replace (List.length vs) with (1 * 12 + (List.length vs - 12)) at 1 by lia. rewrite Nat.div_add_l by lia. lia. }
    exists arr'. rewrite D. replace (n + S (List.length (skipn 12 vs) / 12)) with (S n + List.length (skipn 12 vs) / 12) by lia. split; [exact E'|]. split.
    + intros j J. rewrite K' by lia. rewrite O2 by lia. now apply G2.
    + intros [|k] K.
      * exists Q. rewrite Nat.add_0_r, K' by lia. split; [exact N2|]. change (12 * 0) with 0. rewrite <- (firstn_skipn 12 vs). now apply matrix_first.
      * destruct (V' k ltac:(lia)) as (p & A & B). exists p. replace (n + S k) with (S n + k) by lia. split; [exact A|].
        apply matrix_at in B || idtac. apply matrix_at. replace (12 * S k) with (12 * k + 12) by lia.
        destruct B as (LB & B). split; [exact LB|]. intros r0 c0 HR HC. destruct (B r0 c0 HR HC) as (v & V1 & V2). exists v. split; [|exact V2].
        rewrite <- V1. clear. replace (0 + 4 * r0 + c0) with (4 * r0 + c0) by lia. assert (SK : forall k i (l : list num), nth_error (skipn k l) i = nth_error l (k + i)).
        { induction k0 as [|k0 IH]; intros i l; [reflexivity|]. destruct l as [|x l]; [now destruct i|]. apply IH. }
        rewrite !SK. f_equal. lia.
Qed.
Lemma read_poses_ok s vs : all_numbers scan s vs ->
  exists arr, read_poses scan s = Ok (arr, List.length vs / 12) /\ forall k, k < List.length vs / 12 -> exists p, nth_error arr k = Some (Some p) /\ matrix_3x4 vs (12 * k) p.
Proof.
  intros (r & R & T). destruct (pose_loop_ok (S (List.length s)) s (repeat None 12) (repeat None 300) 0 vs r) as (arr & E & _ & V); [reflexivity|lia|exact R|exact T|lia|].
  exists arr. split; [exact E|exact V].
Qed.
Lemma time_loop_ok : forall fuel s arr n vs r, n <= List.length arr -> reads scan s vs r -> scan r = None -> List.length s < fuel ->
  exists arr', time_loop scan fuel s arr n = Ok (arr', n + List.length vs) /\ (forall j, j < n -> nth_error arr' j = nth_error arr j) /\
    forall k v, nth_error vs k = Some v -> nth_error arr' (n + k) = Some (Some v).
Proof.
  induction fuel as [|fuel IH]; intros s arr n vs r LA R T F; [lia|]. cbn [time_loop fscanf]. destruct vs as [|v vs].
  - inversion R; subst. rewrite T. exists arr. cbn [List.length]. rewrite Nat.add_0_r. split; [reflexivity|]. split; [auto|]. intros [|k] v; discriminate.
  - inversion R; subst. rewrite H2. destruct (grow arr n 1000 LA ltac:(lia)) as (G1 & G2). cbv zeta in G1, G2. set (arr1 := if List.length arr <=? n then arr ++ repeat None 1000 else arr) in *. clearbody arr1.
    destruct (aset_ok arr1 n (Some v) G1) as (arr2 & E2 & L2 & N2 & O2). rewrite E2. cbn [bind]. pose proof (proj2 SC _ _ _ H2) as LL.
    destruct (IH s' arr2 (S n) vs r) as (arr' & E' & K' & V'); [lia|exact H4|exact T|lia|]. exists arr'. cbn [List.length]. replace (n + S (List.length vs)) with (S n + List.length vs) by lia.
    split; [exact E'|]. split.
    + intros j J. rewrite K' by lia. rewrite O2 by lia. now apply G2.
    + intros [|k] w W.
      * injection W as <-. rewrite Nat.add_0_r, K' by lia. exact N2.
      * replace (n + S k) with (S n + k) by lia. now apply V'.
Qed.
Lemma read_times_ok s vs : all_numbers scan s vs ->
  exists arr, read_times scan s = Ok (arr, List.length vs) /\ forall k v, nth_error vs k = Some v -> nth_error arr k = Some (Some v).
Proof.
  intros (r & R & T). destruct (time_loop_ok (S (List.length s)) s (repeat None 300) 0 vs r) as (arr & E & _ & V); [lia|exact R|exact T|lia|]. exists arr. split; [exact E|exact V].
Qed.
End Scan.
