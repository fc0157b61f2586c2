(** Lemmas for C163. *)
From Verif Require Import Base BaseLemmas ViModel ViSpec.

Definition one (h : option nat) (b : nat) : nat := match h with Some c => if c =? b then 1 else 0 | None => 0 end.
Fixpoint cnt (l : list (option nat)) (b : nat) : nat := match l with [] => 0 | h :: l => one h b + cnt l b end.
Lemma cnt_lset l b : forall i v, i < length l -> cnt (lset l i v) b + one (nth i l None) b = cnt l b + one v b.
Proof. induction l as [|h l IH]; intros [|i] v L; cbn in *; try lia. specialize (IH i v ltac:(lia)). lia. Qed.
Lemma cnt_pos l b : 0 < cnt l b <-> exists i, nth i l None = Some b.
Proof.
  induction l as [|h l IH]; cbn [cnt].
  - split; [lia|]. intros ([|i] & E); discriminate.
  - split.
    + intro P. destruct (one h b) eqn:O.
      * destruct (proj1 IH ltac:(lia)) as (i & E). now exists (S i).
      * exists 0. destruct h as [c|]; [|discriminate]. cbn in O. destruct (Nat.eqb_spec c b); [now subst|discriminate].
    + intros ([|i] & E); cbn in E.
      * subst h. cbn. rewrite Nat.eqb_refl. lia.
      * assert (0 < cnt l b) by (apply IH; eauto). lia.
Qed.
(** Blocks count their owners, and [e], an owner that is no variable. *)
Record inv (w : world) (e : option nat) : Prop := mkInv {
  i_ref : forall b k, nth_error (blocks w) b = Some k -> refs k = cnt (vars w) b + one e b /\ img k < length (alive w);
  i_var : forall b, 0 < cnt (vars w) b + one e b -> b < length (blocks w);
  i_inj : forall b b' k k', nth_error (blocks w) b = Some k -> nth_error (blocks w) b' = Some k' -> frees k = true -> frees k' = true -> img k = img k' -> b = b';
  i_live : forall m, nth_error (alive w) m = Some true <-> exists b k, nth_error (blocks w) b = Some k /\ frees k = true /\ img k = m /\ 0 < refs k }.
(** What a pointer refers to. *)
Definition refer (bl : list block) (h : option nat) : ref :=
  match h with None => None | Some b => match nth_error bl b with Some k => Some (img k, frees k) | None => None end end.
Definition same_blocks (a b : list block) : Prop := forall h, refer a h = refer b h.
Lemma refer_lset bl b k r : nth_error bl b = Some k -> same_blocks (lset bl b (mkBlock r (frees k) (img k))) bl.
Proof.
  intros E [c|]; [|reflexivity]. unfold refer. destruct (Nat.eq_dec b c) as [<-|N].
  - rewrite nth_error_lset_eq by (apply nth_error_Some; congruence). now rewrite E.
  - now rewrite nth_error_lset_neq.
Qed.
Lemma lset_cases {A} (l : list A) i v j x : nth_error (lset l i v) j = Some x -> (i = j /\ x = v /\ i < length l) \/ (i <> j /\ nth_error l j = Some x).
Proof.
  intro E. destruct (Nat.eq_dec i j) as [<-|N].
  - left. assert (i < length l) by (rewrite <- (lset_length l i v); apply nth_error_Some; congruence). rewrite nth_error_lset_eq in E by auto. split; [auto|]. split; [congruence|auto].
  - right. rewrite nth_error_lset_neq in E by auto. auto.
Qed.
Lemma release_ok w b : inv w (Some b) -> exists w', release b w = Ok w' /\ inv w' None /\ vars w' = vars w /\ same_blocks (blocks w') (blocks w) /\ length (alive w') = length (alive w).
Proof.
  intro I. assert (B : b < length (blocks w)) by (apply (i_var _ _ I); cbn; rewrite Nat.eqb_refl; lia).
  destruct (nth_error (blocks w) b) as [k|] eqn:E; [|apply nth_error_None in E; lia].
  destruct (i_ref _ _ I b k E) as [R M]. cbn [one] in R. rewrite Nat.eqb_refl in R.
  unfold release, aget. rewrite E. cbn [bind]. destruct (refs k) as [|r] eqn:RK; [lia|]. assert (r = cnt (vars w) b) by lia.
  set (bl := lset (blocks w) b (mkBlock r (frees k) (img k))).
  assert (V : forall al, length al = length (alive w) ->
    (forall m, nth_error al m = Some true <-> exists b k, nth_error bl b = Some k /\ frees k = true /\ img k = m /\ 0 < refs k) -> inv (mkW (vars w) bl al) None).
  { intros al L LV. constructor; cbn [vars blocks alive]; auto.
    - intros c q Q. apply lset_cases in Q as [(<- & -> & _)|(N & Q)]; cbn [refs img one].
      + split; lia.
      + destruct (i_ref _ _ I c q Q) as [R' M']. cbn [one] in R'. destruct (Nat.eqb_spec b c); [contradiction|]. split; lia.
    - intros c P. cbn [one] in P. unfold bl. rewrite lset_length. apply (i_var _ _ I). lia.
    - intros c c' q q' Q Q' F F' G. apply lset_cases in Q as [(<- & -> & _)|(N & Q)]; apply lset_cases in Q' as [(<- & -> & _)|(N' & Q')]; cbn [frees img] in *; auto; eauto using (i_inj _ _ I). }
  destruct ((r =? 0) && frees k) eqn:T.
  - apply andb_true_iff in T as [T F]. apply Nat.eqb_eq in T.
    assert (A : nth_error (alive w) (img k) = Some true) by (apply (i_live _ _ I); exists b, k; repeat split; auto; lia). rewrite A. cbn [bind].
    eexists. split; [reflexivity|]. cbn [vars blocks alive]. split; [|split; [reflexivity|split; [now apply refer_lset|apply lset_length]]].
    apply V; [apply lset_length|]. intro m. destruct (Nat.eq_dec m (img k)) as [->|N].
    + rewrite nth_error_lset_eq by auto. split; [discriminate|]. intros (c & q & Q & FQ & G & P). exfalso.
      apply lset_cases in Q as [(<- & -> & _)|(N & Q)]; [cbn in P; lia|]. apply N. eapply (i_inj _ _ I); eauto.
    + rewrite nth_error_lset_neq by auto. rewrite (i_live _ _ I m). split; intros (c & q & Q & FQ & G & P).
      * destruct (Nat.eq_dec b c) as [<-|NC]; [rewrite E in Q; injection Q as <-; congruence|]. exists c, q. unfold bl. now rewrite nth_error_lset_neq.
      * apply lset_cases in Q as [(<- & -> & _)|(NC & Q)]; [cbn in G; congruence|]. now exists c, q.
  - eexists. split; [reflexivity|]. cbn [vars blocks alive]. split; [|split; [reflexivity|split; [now apply refer_lset|reflexivity]]].
    apply V; [reflexivity|]. intro m. rewrite (i_live _ _ I m). split; intros (c & q & Q & FQ & G & P).
    + destruct (Nat.eq_dec b c) as [<-|NC].
      * rewrite E in Q. injection Q as <-. exists b, (mkBlock r (frees k) (img k)). unfold bl. rewrite nth_error_lset_eq by auto. cbn. repeat split; auto.
        rewrite FQ, andb_true_r in T. apply Nat.eqb_neq in T. lia.
      * exists c, q. unfold bl. now rewrite nth_error_lset_neq.
    + apply lset_cases in Q as [(<- & -> & _)|(NC & Q)]; cbn in *; [exists b, k; repeat split; auto; lia|now exists c, q].
Qed.
Lemma assign_ok w i h : inv w h -> i < length (vars w) ->
  exists w', assign i h w = Ok w' /\ inv w' None /\ vars w' = lset (vars w) i h /\ same_blocks (blocks w') (blocks w) /\ length (alive w') = length (alive w).
Proof.
  intros I L. unfold assign. rewrite (aget_lt _ _ None) by auto. cbn [bind]. set (old := nth i (vars w) None).
  assert (J : inv (mkW (lset (vars w) i h) (blocks w) (alive w)) old).
  { assert (C : forall b, cnt (lset (vars w) i h) b + one old b = cnt (vars w) b + one h b) by (intro b; now apply cnt_lset).
    destruct I as [R V J LV]. constructor; cbn [vars blocks alive]; auto.
    - intros b k E. rewrite C. now apply R.
    - intros b. rewrite C. apply V. }
  destruct old as [b|].
  - destruct (release_ok _ _ J) as (w' & E & A & B & C & D). exists w'. auto.
  - eexists. split; [reflexivity|]. split; [exact J|]. repeat split; reflexivity.
Qed.
(** The variables refer to what is expected. *)
Definition rel (w : world) (s : list ref * nat) : Prop := inv w None /\ fst s = map (refer (blocks w)) (vars w) /\ snd s = length (alive w).
Lemma map_lset {A B} (f : A -> B) l : forall i v, map f (lset l i v) = lset (map f l) i (f v).
Proof. induction l as [|h l IH]; intros [|i] v; cbn; f_equal; auto. Qed.
Lemma nth_refer bl l i : nth i (map (refer bl) l) None = refer bl (nth i l None).
Proof. exact (map_nth (refer bl) l None i). Qed.
Lemma alive_owned w v n m : rel w (v, n) -> nth_error (alive w) m = Some true <-> owned v m.
Proof.
  intros (I & V & _). cbn [fst] in V. subst v. rewrite (i_live _ _ I). unfold owned. split.
  - intros (b & k & E & F & <- & P). destruct (i_ref _ _ I b k E) as [R _]. cbn [one] in R. destruct (proj1 (cnt_pos (vars w) b) ltac:(lia)) as (i & N).
    exists i. rewrite nth_refer, N. cbn. now rewrite E, F.
  - intros (i & E). rewrite nth_refer in E. destruct (nth i (vars w) None) as [b|] eqn:N; [|discriminate]. cbn in E. destruct (nth_error (blocks w) b) as [k|] eqn:K; [|discriminate].
    injection E as E F. exists b, k. repeat split; auto. destruct (i_ref _ _ I b k K) as [R _]. assert (0 < cnt (vars w) b) by (apply cnt_pos; eauto). lia.
Qed.
(** A new block. *)
Lemma inv_new w f m al : inv w None -> length (alive w) <= length al -> m < length al ->
  (f = true -> m = length (alive w) /\ al = alive w ++ [true]) -> (f = false -> al = alive w) ->
  inv (mkW (vars w) (blocks w ++ [mkBlock 1 f m]) al) (Some (length (blocks w))).
Proof.
  intros [R V J LV] L M T F.
  assert (Z : cnt (vars w) (length (blocks w)) = 0) by (destruct (cnt (vars w) (length (blocks w))) eqn:Z; [reflexivity|specialize (V (length (blocks w))); cbn in V; lia]).
  assert (Sp : forall b k, nth_error (blocks w ++ [mkBlock 1 f m]) b = Some k -> (nth_error (blocks w) b = Some k /\ b < length (blocks w)) \/ (b = length (blocks w) /\ k = mkBlock 1 f m)).
  { intros b k E. destruct (Nat.lt_ge_cases b (length (blocks w))) as [B|B]; [left; rewrite nth_error_app1 in E by auto; auto|right]. rewrite nth_error_app2 in E by auto.
    destruct (b - length (blocks w)) as [|d] eqn:D; [split; [lia|cbn in E; congruence]|]. destruct d; discriminate. }
  assert (Nw : nth_error (blocks w ++ [mkBlock 1 f m]) (length (blocks w)) = Some (mkBlock 1 f m)) by (rewrite nth_error_app2, Nat.sub_diag by auto; reflexivity).
  constructor; cbn [vars blocks alive].
  - intros b k E. apply Sp in E as [[E B]|[-> ->]].
    + destruct (R b k E) as [A C]. cbn [one] in *. destruct (Nat.eqb_spec (length (blocks w)) b); [lia|]. split; lia.
    + cbn. rewrite Nat.eqb_refl. lia.
  - intros b P. rewrite app_length. cbn [length one] in *. destruct (Nat.eqb_spec (length (blocks w)) b); [lia|]. specialize (V b). cbn [one] in V. lia.
  - intros b b' k k' E E' G G' H. apply Sp in E as [[E B]|[-> ->]]; apply Sp in E' as [[E' B']|[-> ->]]; eauto; cbn in *.
    + destruct (T G') as [-> _]. destruct (R b k E). lia.
    + destruct (T G) as [-> _]. destruct (R b' k' E'). lia.
  - intro q. destruct f.
    + destruct (T eq_refl) as [-> ->]. destruct (Nat.lt_ge_cases q (length (alive w))) as [Q|Q].
      * rewrite nth_error_app1 by auto. rewrite LV. split; intros (b & k & E & G & H & P).
        -- exists b, k. rewrite nth_error_app1 by (apply nth_error_Some; congruence). auto.
        -- apply Sp in E as [[E _]|[-> ->]]; [eauto 6|cbn in H; lia].
      * rewrite nth_error_app2 by auto. split.
        -- intro E. destruct (q - length (alive w)) as [|d] eqn:D; [|destruct d; discriminate]. exists (length (blocks w)), (mkBlock 1 true (length (alive w))). cbn. repeat split; auto. lia.
        -- intros (b & k & E & G & H & P). apply Sp in E as [[E _]|[-> ->]]; [destruct (R b k E); lia|]. cbn in H. subst q. now rewrite Nat.sub_diag.
    + rewrite (F eq_refl). rewrite LV. split; intros (b & k & E & G & H & P).
      * exists b, k. rewrite nth_error_app1 by (apply nth_error_Some; congruence). auto.
      * apply Sp in E as [[E _]|[-> ->]]; [eauto 6|discriminate].
Qed.
Lemma refer_app bl k l b : (forall b, 0 < cnt l b -> b < length bl) -> map (refer (bl ++ [k])) l = map (refer bl) l /\ (b = length bl -> refer (bl ++ [k]) (Some b) = Some (img k, frees k)).
Proof.
  intro V. split.
  - apply map_ext_in. intros [c|] I; [|reflexivity]. cbn. rewrite nth_error_app1; [reflexivity|]. apply V. apply cnt_pos. apply (In_nth _ _ None) in I as (i & _ & E). eauto.
  - intros ->. cbn. now rewrite nth_error_app2, Nat.sub_diag by auto.
Qed.
Lemma step_ok w s o : rel w s -> proper (fst s) o -> exists w', step o w = Ok w' /\ rel w' (expect o s).
Proof.
  destruct s as [v n]. intros HR. pose proof HR as (I & V & N). cbn [fst snd] in *. intro P.
  assert (LV : length v = length (vars w)) by (subst v; apply map_length).
  assert (VB : forall b, 0 < cnt (vars w) b -> b < length (blocks w)) by (intros b Q; apply (i_var _ _ I); lia).
  destruct o as [i|i j|i j|i j|i|i]; cbn [proper expect step] in *.
  - pose proof (inv_new w true (length (alive w)) (alive w ++ [true]) I) as J. rewrite app_length in J. cbn in J.
    specialize (J ltac:(lia) ltac:(lia) ltac:(auto) ltac:(discriminate)).
    destruct (assign_ok _ i _ J) as (w' & E & A & B & C & D); [cbn; lia|]. exists w'. split; [exact E|]. cbn [vars blocks alive] in *. rewrite app_length in D. cbn in D.
    split; [exact A|]. cbn [fst snd]. split; [|lia]. rewrite B, map_lset, (map_ext _ _ C), (C (Some _)).
    destruct (refer_app (blocks w) (mkBlock 1 true (length (alive w))) (vars w) (length (blocks w)) VB) as [-> Q]. rewrite Q by auto. cbn. now rewrite N, V.
  - destruct P as [Pi Pj]. rewrite (aget_lt _ _ None) by lia. cbn [bind]. destruct (nth j (vars w) None) as [b|] eqn:Hj.
    + assert (B : b < length (blocks w)) by (apply VB, cnt_pos; eauto). destruct (nth_error (blocks w) b) as [k|] eqn:K; [|apply nth_error_None in K; lia].
      unfold acquire, aget. rewrite K. cbn [bind].
      assert (J : inv (mkW (vars w) (lset (blocks w) b (mkBlock (S (refs k)) (frees k) (img k))) (alive w)) (Some b)).
      { destruct I as [R V' J LV']. constructor; cbn [vars blocks alive].
        - intros c q Q. apply lset_cases in Q as [(<- & -> & _)|(NC & Q)]; cbn [refs img one].
          + destruct (R b k K) as [A C]. cbn [one] in A. rewrite Nat.eqb_refl. split; lia.
          + destruct (R c q Q) as [A C]. cbn [one] in A. destruct (Nat.eqb_spec b c); [contradiction|]. split; lia.
        - intros c Q. rewrite lset_length. cbn [one] in Q. destruct (Nat.eqb_spec b c); [now subst|]. apply V'. lia.
        - intros c c' q q' Q Q' F F' G. apply lset_cases in Q as [(<- & -> & _)|(NC & Q)]; apply lset_cases in Q' as [(<- & -> & _)|(NC' & Q')]; cbn [frees img] in *; eauto.
        - intro m. rewrite LV'. destruct (R b k K) as [A _]. assert (0 < cnt (vars w) b) by (apply cnt_pos; eauto). split; intros (c & q & Q & F & G & PP).
          + destruct (Nat.eq_dec b c) as [<-|NC]; [rewrite K in Q; injection Q as <-; exists b, (mkBlock (S (refs k)) (frees k) (img k)); rewrite nth_error_lset_eq by auto; cbn; repeat split; auto; lia|].
            exists c, q. now rewrite nth_error_lset_neq.
          + apply lset_cases in Q as [(<- & -> & _)|(NC & Q)]; cbn in *; [exists b, k; repeat split; auto; lia|eauto 6]. }
      destruct (assign_ok _ i _ J) as (w' & E & A & B' & C & D); [cbn; lia|]. exists w'. split; [exact E|]. cbn [vars blocks alive] in *.
      assert (C' : same_blocks (blocks w') (blocks w)) by (intro h; rewrite C; now apply refer_lset).
      split; [exact A|]. cbn [fst snd]. split; [|lia]. rewrite B', map_lset, (map_ext _ _ C'), (C' (Some b)). rewrite V at 1. f_equal. rewrite V, nth_refer. now rewrite Hj.
    + cbn [acquire bind]. destruct (assign_ok w i None I) as (w' & E & A & B' & C & D); [lia|]. exists w'. split; [exact E|]. split; [exact A|]. cbn [fst snd]. split; [|lia].
      rewrite B', map_lset, (map_ext _ _ C). rewrite V at 1. f_equal. rewrite V, nth_refer. now rewrite Hj.
  - destruct P as [Pi Pj]. rewrite (aget_lt _ _ None) by lia. cbn [bind]. destruct (nth j (vars w) None) as [b|] eqn:Hj.
    + assert (B : b < length (blocks w)) by (apply VB, cnt_pos; eauto). destruct (nth_error (blocks w) b) as [k|] eqn:K; [|apply nth_error_None in K; lia].
      unfold aget at 1. rewrite K. cbn [bind]. pose proof (inv_new w false (img k) (alive w) I ltac:(lia) (proj2 (i_ref _ _ I b k K)) ltac:(discriminate) ltac:(auto)) as J.
      destruct (assign_ok _ i _ J) as (w' & E & A & B' & C & D); [cbn; lia|]. exists w'. split; [exact E|]. cbn [vars blocks alive] in *.
      split; [exact A|]. cbn [fst snd]. split; [|lia]. rewrite B', map_lset, (map_ext _ _ C), (C (Some _)).
      destruct (refer_app (blocks w) (mkBlock 1 false (img k)) (vars w) (length (blocks w)) VB) as [-> Q]. rewrite Q by auto. rewrite V at 1. f_equal. rewrite V, nth_refer, Hj. cbn. now rewrite K.
    + destruct (assign_ok w i None I) as (w' & E & A & B' & C & D); [lia|]. exists w'. split; [exact E|]. split; [exact A|]. cbn [fst snd]. split; [|lia].
      rewrite B', map_lset, (map_ext _ _ C). rewrite V at 1. f_equal. rewrite V, nth_refer. now rewrite Hj.
  - destruct P as [Pi Pj]. rewrite !(aget_lt _ _ None) by lia. cbn [bind]. eexists. split; [reflexivity|].
    assert (Ct : forall b, cnt (lset (lset (vars w) i (nth j (vars w) None)) j (nth i (vars w) None)) b = cnt (vars w) b).
    { intro b. pose proof (cnt_lset (vars w) b i (nth j (vars w) None) ltac:(lia)) as Q1.
      pose proof (cnt_lset (lset (vars w) i (nth j (vars w) None)) b j (nth i (vars w) None) ltac:(rewrite lset_length; lia)) as Q2.
      rewrite nth_lset in Q2. destruct (Nat.eqb_spec i j) as [<-|NE]; cbn [andb] in Q2; [destruct (Nat.ltb_spec i (length (vars w))); lia|lia]. }
    split; [|cbn [fst snd vars blocks alive]; split; [rewrite !map_lset; rewrite V, !nth_refer; reflexivity|lia]].
    destruct I as [R V' J L']. constructor; cbn [vars blocks alive]; auto.
    + intros b k K. rewrite Ct. now apply R.
    + intros b Q. rewrite Ct in Q. now apply V'.
  - destruct (assign_ok w i None I) as (w' & E & A & B' & C & D); [lia|]. exists w'. split; [exact E|]. split; [exact A|]. cbn [fst snd]. split; [|lia].
    rewrite B', map_lset, (map_ext _ _ C). now rewrite V.
  - destruct P as (m & u & E & O). pose proof (proj2 (alive_owned w v n m HR) O) as AL. rewrite V, nth_refer in E.
    assert (Li : i < length (vars w)) by (destruct (Nat.lt_ge_cases i (length (vars w))); [auto|rewrite nth_overflow in E by auto; discriminate]).
    rewrite (aget_lt _ _ None) by auto. cbn [bind]. destruct (nth i (vars w) None) as [b|]; [|discriminate]. cbn in E. unfold aget. destruct (nth_error (blocks w) b) as [k|]; [|discriminate].
    injection E as <- _. cbn [bind]. rewrite AL. cbn [bind]. exists w. auto.
Qed.
