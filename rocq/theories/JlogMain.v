(** Clearing, and whole histories. *)
From Verif Require Import Base BaseLemmas Heap LexModel JsonModel JsonSpec JsonProofs JsonParseProofs JsonApiProofs JlogModel JlogSpec JlogProofs.
Local Open Scope nat_scope.

Lemma inv_same s F G A B : (forall i, F i = G i) -> (forall i, A i = B i) -> inv s F A -> inv s G B.
Proof.
  intros EF EA (H1 & H2 & H3 & H4 & H5). split; [|split; [|split; [|split]]].
  - unfold owns in *. destruct (j_tab s); [|intros i; rewrite <- EF; auto]. destruct H1 as [G1 G2]. split; [auto|]. intros i Hi. rewrite <- EF. auto.
  - intros i Hi. rewrite <- EF. auto.
  - intros i. rewrite <- EF, <- EA. apply H3.
  - intros i j t u. rewrite <- !EF. apply H4.
  - intros q x Hx. destruct (H5 q x Hx) as (i & t & G1 & G2). exists i, t. rewrite <- EF. auto.
Qed.

Lemma free_one h t : tree_at h None t -> NoDup (ids t) -> exists h', tree_free (S (length h)) h (Some (iid t)) = Ok h' /\
  forall q, (In q (ids t) -> cell h' q = None) /\ (~ In q (ids t) -> cell h' q = cell h q).
Proof.
  intros Hat Hn. pose proof (kids_len _ _ _ Hat Hn) as Hlen. assert (fids [t] = ids t) as Ef by (cbn; apply app_nil_r).
  destruct (free_forest (S (length h)) h [t]) as (h' & E & _ & Hq); [split; [auto|exact I]|rewrite Ef; auto|rewrite Ef; lia|].
  exists h'. split; [exact E|]. rewrite Ef in Hq. exact Hq.
Qed.

Lemma clear_ok s F A i : inv s F A -> (0 <= i < 32)%Z -> exists s', clear_stream s i = Ok s' /\ inv s' (set F i None) (set A i []) /\
  forall q, (match F i with Some t => In q (ids t) | None => False end -> cell (j_heap s') q = None) /\
            (~ match F i with Some t => In q (ids t) | None => False end -> cell (j_heap s') q = cell (j_heap s) q).
Proof.
  intros Hinv Hi. pose proof Hinv as (H1 & H2 & H3 & H4 & H5). unfold clear_stream, N_STREAMS. replace ((i <? 0)%Z || (i >=? 32)%Z) with false by lia.
  assert (F i = None -> inv s (set F i None) (set A i [])) as Hnone.
  { intros E. eapply inv_same; [| |exact Hinv]; intros j; unfold set; destruct (Z.eqb_spec j i) as [->|]; auto. pose proof (H3 i) as G. rewrite E in G. auto. }
  unfold owns in H1. destruct (j_tab s) as [T|] eqn:ET.
  - destruct H1 as [HT1 HT2]. assert (zget T i = Ok (option_map iid (F i))) as Ez. { unfold zget, aget. replace (i <? 0)%Z with false by lia. rewrite HT2 by auto. reflexivity. }
    rewrite Ez. cbn [bind]. destruct (F i) as [t|] eqn:Ei; cbn [option_map].
    + pose proof (H3 i) as G. rewrite Ei in G. destruct G as (G1 & G2 & G3). destruct (free_one _ _ G1 G2) as (h' & E & Hq). rewrite E. cbn [bind].
      assert (zset T i None = Ok (lset T (Z.to_nat i) None)) as Es. { unfold zset. replace (i <? 0)%Z with false by lia. apply aset_lt. lia. }
      rewrite Es. cbn [bind]. eexists. split; [reflexivity|]. split; [|exact Hq]. split; [|split; [|split; [|split]]]; cbn [j_heap j_tab].
      * split; [rewrite lset_length; auto|]. intros j Hj. destruct (Z.eq_dec j i) as [->|Hn]; [rewrite set_eq; apply nth_error_lset_eq; lia|]. rewrite set_neq by auto. rewrite nth_error_lset_neq by lia. auto.
      * intros j Hj. rewrite set_neq by lia. auto.
      * intros j. destruct (Z.eq_dec j i) as [->|Hn]; [rewrite !set_eq; auto|]. rewrite !set_neq by auto. pose proof (H3 j) as G. destruct (F j) as [u|] eqn:Eu; [|auto]. destruct G as (U1 & U2 & U3).
        split; [|auto]. apply (tree_frame (j_heap s)); [|auto]. intros q Hqu. apply Hq. exact (H4 j i u t Hn Eu Ei q Hqu).
      * intros a b u v Hab Ea Eb. destruct (Z.eq_dec a i) as [->|Ha]; [rewrite set_eq in Ea; discriminate|]. destruct (Z.eq_dec b i) as [->|Hb]; [rewrite set_eq in Eb; discriminate|].
        rewrite set_neq in Ea, Eb by auto. exact (H4 a b u v Hab Ea Eb).
      * intros q x Hx. destruct (in_dec Nat.eq_dec q (ids t)) as [Hqt|Hqt]; [apply Hq in Hqt; congruence|]. apply Hq in Hqt as Eq. rewrite Eq in Hx. destruct (H5 q x Hx) as (j & u & Eu & Hqu).
        destruct (Z.eq_dec j i) as [->|Hj]; [congruence|]. exists j, u. rewrite set_neq by auto. auto.
    + exists s. split; [reflexivity|]. split; [auto|]. intros q. split; [intros []|auto].
  - exists s. rewrite H1 in *. split; [reflexivity|]. split; [auto|]. intros q. split; [intros []|auto].
Qed.

Lemma free_all_ok (F : owner) (js : list Z) : NoDup js -> (forall i j t u, i <> j -> F i = Some t -> F j = Some u -> apart (ids t) (ids u)) ->
  forall h, (forall i t, In i js -> F i = Some t -> tree_at h None t /\ NoDup (ids t)) ->
  exists h', free_all h (map (fun i => option_map iid (F i)) js) = Ok h' /\
    forall q, ((exists i t, In i js /\ F i = Some t /\ In q (ids t)) -> cell h' q = None) /\ (~ (exists i t, In i js /\ F i = Some t /\ In q (ids t)) -> cell h' q = cell h q).
Proof.
  intros Hn Hap. induction Hn as [|i js Hi Hn IH]; intros h Ht; cbn [map free_all].
  - exists h. split; [reflexivity|]. intros q. split; [intros (i & t & [] & _)|auto].
  - assert (exists h1, tree_free (S (length h)) h (option_map iid (F i)) = Ok h1 /\ forall q, ((exists t, F i = Some t /\ In q (ids t)) -> cell h1 q = None) /\ (~ (exists t, F i = Some t /\ In q (ids t)) -> cell h1 q = cell h q)) as (h1 & E1 & Hq1).
    { destruct (F i) as [t|] eqn:Ei; cbn [option_map].
      - destruct (Ht i t (or_introl eq_refl) Ei) as [G1 G2]. destruct (free_one h t G1 G2) as (h1 & E & Hq). exists h1. split; [auto|]. intros q. split.
        + intros (u & [= <-] & Hu). apply Hq. auto.
        + intros G. apply Hq. intros Hu. apply G. eauto.
      - exists h. split; [reflexivity|]. intros q. split; [intros (t & [=] & _)|auto]. }
    rewrite E1. cbn [bind]. destruct (IH h1) as (h2 & E2 & Hq2).
    { intros j t Hj Et. destruct (Ht j t (or_intror Hj) Et) as [G1 G2]. split; [|auto]. apply (tree_frame h); [|auto]. intros q Hq. apply Hq1. intros (u & Eu & Hu).
      assert (j <> i) as Hne by (intros ->; auto). exact (Hap j i t u Hne Et Eu q Hq Hu). }
    exists h2. split; [exact E2|]. intros q. split.
    + intros (j & t & [<-|Hj] & Et & Hq); [|apply Hq2; eauto].
      rewrite (proj2 (Hq2 q)); [apply Hq1; eauto|]. intros (k & u & Hk & Ek & Hu). assert (k <> i) as Hne by (intros ->; auto). exact (Hap k i u t Hne Ek Et q Hu Hq).
    + intros G. rewrite (proj2 (Hq2 q)); [apply Hq1|].
      * intros (t & Et & Hq). apply G. exists i, t. split; [left; auto|auto].
      * intros (j & t & Hj & Et & Hq). apply G. exists j, t. split; [right; auto|auto].
Qed.

Definition all_ids : list Z := map Z.of_nat (seq 0 32).
Lemma all_ids_in i : In i all_ids <-> (0 <= i < 32)%Z.
Proof.
  unfold all_ids. rewrite in_map_iff. split.
  - intros (k & <- & Hk). apply in_seq in Hk. lia.
  - intros H. exists (Z.to_nat i). split; [lia|]. apply in_seq. lia.
Qed.
Lemma tab_list T (F : owner) : length T = 32 -> (forall i, (0 <= i < 32)%Z -> nth_error T (Z.to_nat i) = Some (option_map iid (F i))) -> T = map (fun i => option_map iid (F i)) all_ids.
Proof.
  intros Hl H. apply (nth_ext _ _ None None); [rewrite map_length; auto|]. intros n Hn. rewrite Hl in Hn. specialize (H (Z.of_nat n) ltac:(lia)). rewrite Nat2Z.id in H.
  erewrite nth_error_nth by exact H. symmetry. apply nth_error_nth. unfold all_ids. rewrite !nth_error_map.
  assert (nth_error (seq 0 32) n = Some n) as ->; [|reflexivity]. rewrite (nth_error_nth' _ 0) by (rewrite seq_length; auto). rewrite seq_nth by auto. reflexivity.
Qed.
Lemma free_ok s F A : inv s F A -> exists s', log_free s = Ok s' /\ inv s' (fun _ => None) (fun _ => []) /\ j_tab s' = None /\ forall q, cell (j_heap s') q = None.
Proof.
  intros (H1 & H2 & H3 & H4 & H5). unfold log_free, owns in *. destruct (j_tab s) as [T|] eqn:ET.
  - destruct H1 as [HT1 HT2]. rewrite (tab_list T F HT1 HT2). destruct (free_all_ok F all_ids) with (h := j_heap s) as (h' & E & Hq).
    + apply FinFun.Injective_map_NoDup; [intros a b; lia|apply seq_NoDup].
    + exact H4.
    + intros i t _ Et. pose proof (H3 i) as G. rewrite Et in G. split; apply G.
    + rewrite E. cbn [bind]. eexists. split; [reflexivity|]. cbn [j_heap j_tab].
      assert (forall q, cell h' q = None) as Hd.
      { intros q. destruct (cell h' q) as [x|] eqn:Ex; [|auto]. exfalso. destruct (cell (j_heap s) q) as [y|] eqn:Ey.
        - destruct (H5 q y Ey) as (i & t & Et & Hqt). rewrite (proj1 (Hq q)) in Ex; [discriminate|]. exists i, t. split; [|auto]. apply all_ids_in.
          destruct (Z_le_gt_dec 0 i); destruct (Z_lt_ge_dec i 32); try lia; rewrite H2 in Et by lia; discriminate.
        - rewrite (proj2 (Hq q)) in Ex; [congruence|]. intros (i & t & _ & Et & Hqt). pose proof (H3 i) as G. rewrite Et in G. destruct G as (G & _). destruct (tree_cells _ _ _ G q Hqt). congruence. }
      split; [|auto]. split; [intros i; auto|]. split; [auto|]. split; [auto|]. split; [intros; discriminate|]. intros q x Hx. cbn in Hx. rewrite Hd in Hx. discriminate.
  - exists s. split; [reflexivity|]. assert (forall q, cell (j_heap s) q = None) as Hd. { intros q. destruct (cell (j_heap s) q) as [x|] eqn:Ex; [|auto]. destruct (H5 q x Ex) as (i & t & Et & _). rewrite H1 in Et. discriminate. }
    split; [|auto]. split; [unfold owns; rewrite ET; auto|]. split; [auto|]. split; [auto|]. split; [intros; discriminate|]. intros q x Hx. rewrite Hd in Hx. discriminate.
Qed.

Lemma perform_ok s F A c : inv s F A -> valid c -> exists s' F', perform s c = Ok s' /\ inv s' F' (fun i => entries_step i (A i) c) /\
  (forall j u, ~ clears c j -> F j = Some u -> exists u', F' j = Some u' /\ iid u' = iid u).
Proof.
  intros Hi Hv. destruct c as [id key v|id key v|id|id|]; cbn [valid stream_of perform entries_step] in *; unfold valid in Hv; cbn in Hv.
  - destruct (value_ok s F A id key v Hi Hv) as (s' & F' & E & Hi' & Hst). exists s', F'. split; [auto|]. split; [|auto]. eapply inv_ext; [|exact Hi'].
    intros j. unfold set. rewrite (Z.eqb_sym id j). destruct (Z.eqb_spec j id) as [->|]; reflexivity.
  - destruct (add_ok s F A id key v Hi Hv) as (s' & F' & E & Hi' & Hst). exists s', F'. split; [auto|]. split; [|auto]. eapply inv_ext; [|exact Hi'].
    intros j. unfold set. rewrite (Z.eqb_sym id j). destruct (Z.eqb_spec j id) as [->|]; reflexivity.
  - destruct (get_ok s F A id Hi Hv) as (s' & F' & t & E & Hi' & Et & _ & Ho & Hs). exists s', F'. rewrite E. split; [reflexivity|]. split; [exact Hi'|]. intros j u _ Eu.
    destruct (Z.eq_dec j id) as [->|Hj]; [exists t; rewrite (Hs u Eu); auto|]. rewrite Ho by auto. eauto.
  - destruct (clear_ok s F A id Hi Hv) as (s' & E & Hi' & _). exists s', (set F id None). split; [auto|]. split.
    + eapply inv_ext; [|exact Hi']. intros j. unfold set. rewrite (Z.eqb_sym id j). destruct (Z.eqb_spec j id) as [->|]; reflexivity.
    + intros j u Hn Eu. rewrite set_neq; [eauto|]. intros ->. apply Hn. left. auto.
  - destruct (free_ok s F A Hi) as (s' & E & Hi' & _). exists s', (fun _ => None). split; [auto|]. split; [auto|]. intros j u Hn. exfalso. apply Hn. right. auto.
Qed.

Lemma run_ok cs : forall s F A, inv s F A -> Forall valid cs -> exists s' F', run s cs = Ok s' /\ inv s' F' (fun i => fold_left (entries_step i) cs (A i)) /\
  (forall j u, Forall (fun c => ~ clears c j) cs -> F j = Some u -> exists u', F' j = Some u' /\ iid u' = iid u).
Proof.
  induction cs as [|c cs IH]; intros s F A Hi Hv; cbn [run fold_left].
  - exists s, F. split; [auto|]. split; [auto|]. eauto.
  - apply Forall_cons_iff in Hv as [Hc Hv]. destruct (perform_ok s F A c Hi Hc) as (s1 & F1 & E & Hi1 & Hst). rewrite E. cbn [bind]. destruct (IH s1 F1 _ Hi1 Hv) as (s2 & F2 & E2 & Hi2 & Hst2).
    exists s2, F2. split; [auto|]. split; [auto|]. intros j u Hn Eu. apply Forall_cons_iff in Hn as [Hn1 Hn2]. destruct (Hst j u Hn1 Eu) as (u1 & Eu1 & Ei1). destruct (Hst2 j u1 Hn2 Eu1) as (u2 & Eu2 & Ei2). exists u2. split; [auto|congruence].
Qed.
Lemma start_inv : inv start (fun _ => None) (fun _ => []).
Proof.
  split; [intros i; auto|]. split; [auto|]. split; [auto|]. split; [intros; discriminate|]. intros q x Hx. cbn in Hx. unfold cell in Hx. destruct q; discriminate.
Qed.
Lemma start_run cs : Forall valid cs -> exists s F, run start cs = Ok s /\ inv s F (entries cs).
Proof. intros Hv. destruct (run_ok cs _ _ _ start_inv Hv) as (s & F & E & Hi & _). exists s, F. split; [auto|exact Hi]. Qed.
Lemma run_app s a b : run s (a ++ b) = bind (run s a) (fun s => run s b).
Proof. revert s. induction a as [|c a IH]; intros s; [reflexivity|]. cbn [app run]. destruct (perform s c); cbn [bind]; auto. Qed.
