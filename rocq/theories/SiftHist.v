From Verif Require Import Base BaseLemmas Gray Flt MatModel MatIo KeyProofs ShaModel SiftProofs SiftDogModel SiftDogSpec.

Local Open Scope Z_scope.

Lemma blit_ok {A} (l : list A) o d : (o + length d <= length l)%nat -> blit l o d = Ok (firstn o l ++ d ++ skipn (o + length d) l).
Proof. intros H. unfold blit. destruct (Nat.leb_spec (o + length d) (length l)); [reflexivity|lia]. Qed.

Lemma ca_length h : length (circular_average h) = 36%nat.
Proof. unfold circular_average. now rewrite map_length, seq_length. Qed.
Lemma ca_nth h i : (i < 36)%nat -> nth_error (circular_average h) i = Some (avg3 (bin h (i + 35)) (bin h i) (bin h (i + 1))).
Proof.
  intros H. unfold circular_average. rewrite nth_error_map. rewrite (nth_error_nth' (seq 0 36) 0%nat) by (rewrite seq_length; lia). rewrite seq_nth by lia. reflexivity.
Qed.
Lemma bin_small h i : length h = 36%nat -> (i < 36)%nat -> nth_error h i = Some (bin h i).
Proof. intros L I. unfold bin. rewrite Nat.mod_small by lia. apply nth_error_nth'. lia. Qed.

(** The buffer at the start of a round: last bin, all bins, first bin. *)
Lemma ext_nth h j : length h = 36%nat -> (j < 38)%nat -> nth_error (bin h 35 :: h ++ [bin h 36]) j = Some (bin h (j + 35)).
Proof.
  intros L J. destruct j as [|j]; [reflexivity|]. cbn [nth_error]. destruct (Nat.lt_ge_cases j 36) as [I|I].
  - rewrite nth_error_app1 by lia. rewrite bin_small by lia. f_equal. unfold bin. f_equal. replace (S j + 35)%nat with (j + 1 * 36)%nat by lia. now rewrite Nat.mod_add.
  - assert (j = 36)%nat as -> by lia. rewrite nth_error_app2 by lia. rewrite L. reflexivity.
Qed.

Lemma smooth_pass_ok a h z buf : length h = 36%nat -> length buf = 38%nat ->
  smooth_pass (a :: h ++ [z]) buf = Ok (a :: circular_average h ++ [z], circular_average h ++ [bin h 35; bin h 36]).
Proof.
  intros L Lb. unfold smooth_pass.
  assert (F : firstn 36 (skipn 1 (a :: h ++ [z])) = h).
  { change (skipn 1 (a :: h ++ [z])) with (h ++ [z]). rewrite firstn_app, L, Nat.sub_diag, firstn_O, app_nil_r. apply firstn_all2. lia. }
  rewrite F. rewrite blit_ok by lia. cbn [bind]. rewrite L.
  destruct buf as [|b0 buf]; [discriminate|]. cbn [length] in Lb. change (firstn 1 (b0 :: buf)) with [b0].
  assert (exists b1, skipn (1 + 36) (b0 :: buf) = [b1]) as (b1 & ->).
  { change (skipn (1 + 36) (b0 :: buf)) with (skipn 36 buf). assert (length (skipn 36 buf) = 1%nat) by (rewrite skipn_length; lia).
    destruct (skipn 36 buf) as [|b1 [|]]; try discriminate. eauto. }
  change ([b0] ++ h ++ [b1]) with (b0 :: h ++ [b1]). unfold BINS.
  assert (G36 : zget (b0 :: h ++ [b1]) 36 = Ok (bin h 35)).
  { change 36 with (Z.of_nat 36). apply zget_nat. change (nth_error (h ++ [b1]) 35 = Some (bin h 35)). rewrite nth_error_app1 by lia. apply bin_small; lia. }
  rewrite G36. cbn [bind]. change 0 with (Z.of_nat 0) at 1. rewrite zset_nat by (cbn; lia). cbn [bind lset].
  assert (G1 : zget (bin h 35 :: h ++ [b1]) 1 = Ok (bin h 36)).
  { change 1 with (Z.of_nat 1). apply zget_nat. change (nth_error (h ++ [b1]) 0 = Some (bin h 36)). rewrite nth_error_app1 by lia. rewrite bin_small by lia. reflexivity. }
  rewrite G1. cbn [bind]. change (36 + 1) with (Z.of_nat 37). rewrite zset_nat by (cbn [length]; rewrite app_length; cbn; lia). cbn [bind].
  assert (E0 : lset (bin h 35 :: h ++ [b1]) 37 (bin h 36) = bin h 35 :: h ++ [bin h 36]).
  { apply list_ext. intro j. destruct (Nat.eq_dec j 37) as [->|Ne].
    - rewrite nth_error_lset_eq by (cbn [length]; rewrite app_length; cbn; lia). rewrite ext_nth by lia. reflexivity.
    - rewrite nth_error_lset_neq by lia. destruct j as [|j]; [reflexivity|]. cbn [nth_error]. destruct (Nat.lt_ge_cases j 36); [now rewrite !nth_error_app1 by lia|].
      assert (X : forall v : flt, nth_error (h ++ [v]) j = None) by (intro v; apply nth_error_None; rewrite app_length; cbn; lia). now rewrite !X. }
  rewrite E0. set (ext := bin h 35 :: h ++ [bin h 36]) in *.
  assert (Le : length ext = 38%nat) by (unfold ext; cbn [length]; rewrite app_length; cbn; lia).
  destruct (for_upto (fun i buf =>
    let j := i + 1 in
    let* a := zget buf (j - 1) in
    let* b := zget buf j in
    let* c := zget buf (j + 1) in
    zset buf (j - 1) (avg3 a b c)) (fun i s => s = firstn i (circular_average h) ++ skipn i ext) 36 ext) as (s & E & P).
  - reflexivity.
  - intros i s I ->. cbv zeta. replace (Z.of_nat i + 1 - 1) with (Z.of_nat i) by lia. replace (Z.of_nat i + 1) with (Z.of_nat (i + 1)) by lia. replace (Z.of_nat (i + 1) + 1) with (Z.of_nat (i + 2)) by lia.
    assert (LF : length (firstn i (circular_average h)) = i) by (rewrite firstn_length, ca_length; lia).
    assert (N : forall k, (i + k < 38)%nat -> nth_error (firstn i (circular_average h) ++ skipn i ext) (i + k) = Some (bin h (i + k + 35))).
    { intros k K. rewrite nth_error_app2 by lia. rewrite LF. replace (i + k - i)%nat with k by lia. rewrite nth_error_skipn_add. unfold ext. apply ext_nth; auto. }
    pose proof (N 0%nat ltac:(lia)) as N0. rewrite Nat.add_0_r in N0.
    rewrite (zget_nat _ _ _ N0). cbn [bind]. rewrite (zget_nat _ _ _ (N 1%nat ltac:(lia))). cbn [bind]. rewrite (zget_nat _ _ _ (N 2%nat ltac:(lia))). cbn [bind].
    rewrite zset_nat by (rewrite app_length, skipn_length; lia). eexists. split; [reflexivity|].
    assert (V1 : bin h (i + 1 + 35) = bin h i) by (unfold bin; f_equal; replace (i + 1 + 35)%nat with (i + 1 * 36)%nat by lia; now rewrite Nat.mod_add).
    assert (V2 : bin h (i + 2 + 35) = bin h (i + 1)) by (unfold bin; f_equal; replace (i + 2 + 35)%nat with (i + 1 + 1 * 36)%nat by lia; now rewrite Nat.mod_add).
    rewrite V1, V2. apply list_ext. intro j.
    assert (LS : length (firstn (S i) (circular_average h)) = S i) by (rewrite firstn_length, ca_length; lia).
    destruct (Nat.lt_trichotomy j i) as [J|[->|J]].
    + rewrite nth_error_lset_neq by lia. rewrite !nth_error_app1 by lia. rewrite !nth_error_firstn_lt' by lia. reflexivity.
    + rewrite nth_error_lset_eq by (rewrite app_length, skipn_length; lia). rewrite nth_error_app1 by lia. rewrite nth_error_firstn_lt' by lia. now rewrite ca_nth.
    + rewrite nth_error_lset_neq by lia. rewrite !nth_error_app2 by lia. rewrite LF, LS, !nth_error_skipn_add. f_equal. lia.
  - cbv zeta in E. change (upto 36) with (upto (Z.of_nat 36)). rewrite E. cbn [bind]. rewrite P. clear E P s.
    rewrite (firstn_all2 (circular_average h)) by (rewrite ca_length; lia).
    assert (X : skipn 36 ext = [bin h 35; bin h 36]).
    { unfold ext. change (skipn 36 (bin h 35 :: h ++ [bin h 36])) with (skipn 35 (h ++ [bin h 36])). rewrite skipn_app, L. change (skipn (35 - 36) [bin h 36]) with [bin h 36].
      rewrite (skipn_cons h 35 (bin h 35)) by (apply bin_small; lia). rewrite (skipn_all2 h) by lia. reflexivity. }
    rewrite X.
    assert (F2 : firstn 36 (circular_average h ++ [bin h 35; bin h 36]) = circular_average h).
    { rewrite firstn_app, ca_length, Nat.sub_diag, firstn_O, app_nil_r. apply firstn_all2. rewrite ca_length. lia. }
    rewrite F2. rewrite blit_ok by (cbn [length]; rewrite app_length, ca_length; cbn; lia). cbn [bind]. rewrite ca_length.
    change (firstn 1 (a :: h ++ [z])) with [a]. change (skipn (1 + 36) (a :: h ++ [z])) with (skipn 36 (h ++ [z])).
    rewrite skipn_app, L, Nat.sub_diag. rewrite (skipn_all2 h) by lia. reflexivity.
Qed.

Fixpoint smooth_n (n : nat) (h : list flt) : list flt := match n with O => h | S n => circular_average (smooth_n n h) end.
Lemma smooth_length n h : length h = 36%nat -> length (smooth_n n h) = 36%nat.
Proof. destruct n; [auto|]. intros _. apply ca_length. Qed.

(** * The largest bin *)
Lemma f_lt_trans a b c : f_lt a b = true -> f_lt b c = true -> f_lt a c = true.
Proof. destruct a as [x|[]|], b as [y|[]|], c as [z|[]|]; cbn; try discriminate; auto. rewrite !Z.ltb_lt. lia. Qed.
Lemma f_gt_total a b c : f_gt a b = false -> f_gt c b = true -> f_gt a c = false.
Proof. unfold f_gt. destruct a as [x|[]|], b as [y|[]|], c as [z|[]|]; cbn; try discriminate; auto. rewrite Z.ltb_ge, Z.ltb_lt, Z.ltb_ge. lia. Qed.
Lemma f_gt_irrefl a : f_gt a a = false.
Proof. unfold f_gt. destruct a as [x|[]|]; cbn; auto. apply Z.ltb_irrefl. Qed.
Lemma f_gt_asym a b : f_gt a b = true -> f_gt b a = false.
Proof. unfold f_gt. destruct a as [x|[]|], b as [y|[]|]; cbn; try discriminate; auto. rewrite Z.ltb_ge, Z.ltb_lt. lia. Qed.
Lemma max_ok (hist : list flt) l : forall seen p is,
  Forall2 (fun i v => zget hist i = Ok v) is l -> In p seen -> (forall v, In v seen -> f_gt v p = false) ->
  exists m, for_each (fun i peak => let* v := zget hist i in Ok (if f_gt v peak then v else peak)) is p = Ok m /\ largest (seen ++ l) m.
Proof.
  induction l as [|v l IH]; intros seen p is F I G; inversion F as [|i ? is' ? F1' F2]; subst; cbn [for_each].
  - exists p. split; [reflexivity|]. rewrite app_nil_r. now split.
  - rewrite F1'. cbn [bind]. destruct (IH (seen ++ [v]) (if f_gt v p then v else p) is' F2) as (m & E & L).
    + destruct (f_gt v p); apply in_or_app; [right; now left|now left].
    + intros u Iu. apply in_app_or in Iu. destruct (f_gt v p) eqn:C.
      * destruct Iu as [Iu|[<-|[]]]; [|apply f_gt_irrefl]. eapply f_gt_total; eauto.
      * destruct Iu as [Iu|[<-|[]]]; auto.
    + exists m. split; [exact E|]. now rewrite <- app_assoc in L.
Qed.

Lemma zrange_zget (hist : list flt) (h : list flt) a z k : hist = a :: h ++ [z] -> (k <= length h)%nat ->
  Forall2 (fun i v => zget hist i = Ok v) (zrange (Z.of_nat k + 1) (Z.of_nat (length h) + 1)) (skipn k h).
Proof.
  intros -> K. unfold zrange. replace (Z.to_nat (Z.of_nat (length h) + 1 - (Z.of_nat k + 1))) with (length (skipn k h)) by (rewrite skipn_length; lia).
  assert (G : forall l s, (forall i v, nth_error l i = Some v -> nth_error h (k + s + i) = Some v) -> Forall2 (fun i v => zget (a :: h ++ [z]) i = Ok v) (map (fun i => Z.of_nat k + 1 + Z.of_nat i) (seq s (length l))) l).
  { induction l as [|v l IH]; intros s Q; cbn [length seq map]; constructor.
    - replace (Z.of_nat k + 1 + Z.of_nat s) with (Z.of_nat (S (k + s))) by lia. apply zget_nat. cbn [nth_error]. specialize (Q 0%nat v eq_refl). rewrite Nat.add_0_r in Q.
      rewrite nth_error_app1; [exact Q|]. apply nth_error_Some. congruence.
    - apply IH. intros i u E. specialize (Q (S i) u E). rewrite <- Q. f_equal. lia. }
  apply G. intros i v E. rewrite nth_error_skipn_add in E. rewrite <- E. f_equal. lia.
Qed.

Lemma finish_ok a h z buf : length h = 36%nat -> length buf = 38%nat ->
  exists m, ori_hist_finish (a :: h ++ [z]) buf = Ok (bin (smooth_n 5 h) 35 :: smooth_n 6 h ++ [bin (smooth_n 6 h) 0], m) /\ largest (smooth_n 6 h) m.
Proof.
  intros L Lb. unfold ori_hist_finish.
  assert (E6 : for_each (fun _ s => smooth_pass (fst s) (snd s)) (upto 6) (a :: h ++ [z], buf) = Ok (a :: smooth_n 6 h ++ [z], smooth_n 6 h ++ [bin (smooth_n 5 h) 35; bin (smooth_n 5 h) 36])).
  { change (upto 6) with [0; 1; 2; 3; 4; 5]. cbn [for_each fst snd].
    rewrite smooth_pass_ok by auto. cbn [bind fst snd].
    do 5 (rewrite smooth_pass_ok by (rewrite ?app_length, ?ca_length; reflexivity); cbn [bind fst snd]). reflexivity. }
  rewrite E6. cbn [bind]. clear E6. set (s5 := smooth_n 5 h). set (s6 := smooth_n 6 h).
  assert (L6 : length s6 = 36%nat) by (apply smooth_length; auto).
  assert (G : zget (s6 ++ [bin s5 35; bin s5 36]) BINS = Ok (bin s5 35)).
  { unfold BINS. change 36 with (Z.of_nat 36). apply zget_nat. rewrite nth_error_app2 by lia. rewrite L6. reflexivity. }
  rewrite G. cbn [bind]. change 0 with (Z.of_nat 0) at 1. rewrite zset_nat by (cbn; lia). cbn [bind lset].
  assert (G1 : zget (bin s5 35 :: s6 ++ [z]) 1 = Ok (bin s6 0)).
  { change 1 with (Z.of_nat 1). apply zget_nat. change (nth_error (s6 ++ [z]) 0 = Some (bin s6 0)). rewrite nth_error_app1 by lia. apply bin_small; lia. }
  rewrite G1. cbn [bind]. unfold BINS. change (36 + 1) with (Z.of_nat 37). rewrite zset_nat by (cbn [length]; rewrite app_length; cbn; lia). cbn [bind].
  assert (E : lset (bin s5 35 :: s6 ++ [z]) 37 (bin s6 0) = bin s5 35 :: s6 ++ [bin s6 0]).
  { apply list_ext. intro j. destruct (Nat.eq_dec j 37) as [->|Ne].
    - rewrite nth_error_lset_eq by (cbn [length]; rewrite app_length; cbn; lia). change (nth_error (bin s5 35 :: s6 ++ [bin s6 0]) 37) with (nth_error (s6 ++ [bin s6 0]) 36). rewrite nth_error_app2 by lia. now rewrite L6.
    - rewrite nth_error_lset_neq by lia. destruct j as [|j]; [reflexivity|]. cbn [nth_error]. destruct (Nat.lt_ge_cases j 36); [now rewrite !nth_error_app1 by lia|].
      assert (X : forall v : flt, nth_error (s6 ++ [v]) j = None) by (intro v; apply nth_error_None; rewrite app_length; cbn; lia). now rewrite !X. }
  rewrite E. set (hist := bin s5 35 :: s6 ++ [bin s6 0]).
  assert (G2 : zget hist 1 = Ok (bin s6 0)).
  { change 1 with (Z.of_nat 1). apply zget_nat. change (nth_error (s6 ++ [bin s6 0]) 0 = Some (bin s6 0)). rewrite nth_error_app1 by lia. apply bin_small; lia. }
  rewrite G2. cbn [bind].
  destruct (max_ok hist (skipn 1 s6) [bin s6 0] (bin s6 0) (zrange 2 (Z.of_nat 37))) as (m & Em & Lm).
  - pose proof (zrange_zget hist s6 (bin s5 35) (bin s6 0) 1 eq_refl ltac:(lia)) as F. rewrite L6 in F. exact F.
  - now left.
  - intros v [<-|[]]. apply f_gt_irrefl.
  - rewrite Em. cbn [bind]. exists m. split; [reflexivity|].
    assert (X : [bin s6 0] ++ skipn 1 s6 = s6).
    { pose proof (skipn_cons s6 0 (bin s6 0) (bin_small _ 0 L6 ltac:(lia))) as Q. cbn [skipn] in Q. symmetry. exact Q. }
    now rewrite X in Lm.
Qed.

Lemma peaks_ok a h z m : length h = 36%nat -> exists out, peak_bins (a :: h ++ [z]) m = Ok out /\
  forall b, In b out <-> 1 <= b <= 36 /\
    f_gt (bin h (Z.to_nat b - 1)) (nth (Z.to_nat b - 1) (a :: h) FNaN) = true /\
    f_gt (bin h (Z.to_nat b - 1)) (nth (Z.to_nat b) (h ++ [z]) FNaN) = true /\
    f_gt (bin h (Z.to_nat b - 1)) (fmul m F08) = true.
Proof.
  intros L. unfold peak_bins.
  set (Q := fun b => f_gt (bin h (Z.to_nat b - 1)) (nth (Z.to_nat b - 1) (a :: h) FNaN) = true /\
    f_gt (bin h (Z.to_nat b - 1)) (nth (Z.to_nat b) (h ++ [z]) FNaN) = true /\ f_gt (bin h (Z.to_nat b - 1)) (fmul m F08) = true).
  assert (G : forall bs out, Forall (fun b => 1 <= b <= 36) bs -> exists new,
    for_each (fun b out => let* h0 := zget (a :: h ++ [z]) b in let* l := zget (a :: h ++ [z]) (b - 1) in let* r := zget (a :: h ++ [z]) (b + 1) in
      Ok (if f_gt h0 l && f_gt h0 r && f_gt h0 (fmul m F08) then out ++ [b] else out)) bs out = Ok (out ++ new) /\ forall b, In b new <-> In b bs /\ Q b).
  { induction bs as [|b bs IH]; intros out F; cbn [for_each].
    - exists []. rewrite app_nil_r. split; [reflexivity|]. cbn. tauto.
    - inversion F as [|? ? F1' F2]; subst.
      assert (Z1 : zget (a :: h ++ [z]) b = Ok (bin h (Z.to_nat b - 1))).
      { replace b with (Z.of_nat (S (Z.to_nat b - 1))) at 1 by lia. apply zget_nat. cbn [nth_error]. rewrite nth_error_app1 by lia. apply bin_small; lia. }
      assert (Z2 : zget (a :: h ++ [z]) (b - 1) = Ok (nth (Z.to_nat b - 1) (a :: h) FNaN)).
      { replace (b - 1) with (Z.of_nat (Z.to_nat b - 1)) by lia. apply zget_nat. change (a :: h ++ [z]) with ((a :: h) ++ [z]). rewrite nth_error_app1 by (cbn; lia). apply nth_error_nth'. cbn; lia. }
      assert (Z3 : zget (a :: h ++ [z]) (b + 1) = Ok (nth (Z.to_nat b) (h ++ [z]) FNaN)).
      { replace (b + 1) with (Z.of_nat (S (Z.to_nat b))) by lia. apply zget_nat. cbn [nth_error]. apply nth_error_nth'. rewrite app_length. cbn; lia. }
      rewrite Z1, Z2, Z3. cbn [bind]. destruct (f_gt _ (nth (Z.to_nat b - 1) (a :: h) FNaN) && f_gt _ (nth (Z.to_nat b) (h ++ [z]) FNaN) && f_gt _ (fmul m F08)) eqn:C.
      + apply andb_true_iff in C as [C C3]. apply andb_true_iff in C as [C1 C2].
        destruct (IH (out ++ [b]) F2) as (new & -> & Qn). exists (b :: new). rewrite <- app_assoc. split; [reflexivity|]. intros b'. cbn [In]. rewrite Qn. unfold Q.
        split; [intros [<-|]; tauto|]. intros [[<-|] ?]; tauto.
      + destruct (IH out F2) as (new & -> & Qn). exists new. split; [reflexivity|]. intros b'. cbn [In]. rewrite Qn. split; [tauto|]. intros [[<-|] HH]; [|tauto].
        exfalso. destruct HH as (C1 & C2 & C3). rewrite C1, C2, C3 in C. discriminate. }
  destruct (G (zrange 1 (BINS + 1)) []) as (out & E & Qo).
  - apply Forall_forall. intros b I. apply zrange_in in I. unfold BINS in I. lia.
  - exists out. split; [exact E|]. intro b. rewrite Qo, zrange_in. unfold BINS, Q. split; intros [H1 H2]; (split; [lia|exact H2]).
Qed.

Lemma orientations_ok a h z buf : length h = 36%nat -> length buf = 38%nat ->
  exists m out, orientations (a :: h ++ [z]) buf = Ok out /\ largest (smooth_n 6 h) m /\
    (forall i, (1 <= i < 36)%nat -> (In (Z.of_nat i + 1) out <-> circular_peak (smooth_n 6 h) m i)) /\
    (In 1 out <-> f_gt (bin (smooth_n 6 h) 0) (bin (smooth_n 5 h) 35) = true /\ f_gt (bin (smooth_n 6 h) 0) (bin (smooth_n 6 h) 1) = true /\ f_gt (bin (smooth_n 6 h) 0) (fmul m F08) = true) /\
    (forall b, In b out -> 1 <= b <= 36).
Proof.
  intros L Lb. unfold orientations. destruct (finish_ok a h z buf L Lb) as (m & -> & Lm). cbn [bind fst snd].
  assert (L6 : length (smooth_n 6 h) = 36%nat) by (apply smooth_length; auto). set (s6 := smooth_n 6 h) in *.
  destruct (peaks_ok (bin (smooth_n 5 h) 35) s6 (bin s6 0) m L6) as (out & E & Q). exists m, out. split; [exact E|]. split; [exact Lm|].
  assert (R : forall i, (i < 36)%nat -> nth (S i) (s6 ++ [bin s6 0]) FNaN = bin s6 (i + 1)).
  { intros i I. unfold bin at 2. destruct (Nat.eq_dec i 35) as [->|Ne].
    - rewrite app_nth2 by lia. rewrite L6. reflexivity.
    - rewrite app_nth1 by lia. rewrite Nat.mod_small by lia. f_equal. lia. }
  split; [|split].
  - intros i I. rewrite Q. replace (Z.to_nat (Z.of_nat i + 1)) with (S i) by lia. replace (S i - 1)%nat with i by lia. rewrite R by lia.
    assert (Lf : nth i (bin (smooth_n 5 h) 35 :: s6) FNaN = bin s6 (i + 35)).
    { destruct i as [|i]; [lia|]. cbn [nth]. unfold bin. f_equal. replace (S i + 35)%nat with (i + 1 * 36)%nat by lia. rewrite Nat.mod_add by lia. rewrite Nat.mod_small by lia. reflexivity. }
    rewrite Lf. unfold circular_peak. split; [tauto|]. intros H; split; [lia|tauto].
  - rewrite Q. change (Z.to_nat 1) with 1%nat. change (1 - 1)%nat with 0%nat. rewrite R by lia. cbn [nth Nat.add]. split; [tauto|]. intros H; split; [lia|tauto].
  - intros b I. apply Q in I. lia.
Qed.
