(** Lemmas for C166. *)
From Verif Require Import Base BaseLemmas ProjModel GeoSpec ProjSpec GeoProofs HomoProofs PanModel PanSpec.
From Coq Require Import Lra Lia.
Local Open Scope R_scope.

Lemma put_eq {A} (f : nat -> A) i v : put f i v i = v.
Proof. unfold put. now rewrite Nat.eqb_refl. Qed.
Lemma put_neq {A} (f : nat -> A) i v j : j <> i -> put f i v j = f j.
Proof. intro H. unfold put. destruct (Nat.eqb_spec j i); [contradiction|reflexivity]. Qed.
Lemma r_lt_spec a b : r_lt a b = true /\ a < b \/ r_lt a b = false /\ b <= a.
Proof. unfold r_lt. destruct (Rlt_dec a b); [left|right]; split; auto; lra. Qed.

Section Paths.
Variables (big B : R) (n : nat) (w : nat -> nat -> R) (source : nat).
Hypothesis SRC : (source < n)%nat.
Hypothesis B0 : 0 <= B.
Hypothesis WB : forall i j, (i < n)%nat -> (j < n)%nat -> w i j <= B.
Hypothesis BIG : INR n * B < big.

Lemma pick_spec s : match pick big n s with
  | (None, _) => forall i, (i < n)%nat -> vis s i = false -> big <= val s i
  | (Some c, _) => (c < n)%nat /\ vis s c = false /\ val s c < big /\ forall i, (i < n)%nat -> vis s i = false -> val s c <= val s i
  end.
Proof.
  unfold pick.
  assert (H : forall m, let '(cur, cv) := fold_left (fun '(cur, cv) i => if negb (vis s i) && r_lt (val s i) cv then (Some i, val s i) else (cur, cv)) (seq 0 m) (None, big) in
    (forall i, (i < m)%nat -> vis s i = false -> cv <= val s i) /\ cv <= big /\
    match cur with None => cv = big | Some c => (c < m)%nat /\ vis s c = false /\ val s c < big /\ cv = val s c end).
  { induction m as [|m IH]; [cbn; repeat split; [lia|lra]|]. rewrite seq_S, fold_left_app. cbn [fold_left Nat.add].
    destruct (fold_left _ (seq 0 m) (None, big)) as [cur cv]. destruct IH as (A & C & D).
    destruct (vis s m) eqn:V; cbn [negb andb].
    - split; [intros i I VI; apply A; auto; assert (i <> m) by congruence; lia|]. split; [exact C|]. destruct cur; [|auto]. destruct D as (D1 & D2). split; [lia|exact D2].
    - destruct (r_lt_spec (val s m) cv) as [[-> L]|[-> L]].
      + split; [|split; [lra|repeat split; [lia|exact V|lra]]]. intros i I VI. assert (i < m \/ i = m)%nat as [Q|Q] by lia; [specialize (A i Q VI); lra|subst i; lra].
      + split; [|split; [exact C|destruct cur; [destruct D as (D1 & D2); split; [lia|exact D2]|exact D]]].
        intros i I VI. assert (i < m \/ i = m)%nat as [Q|Q] by lia; [auto|subst i; exact L]. }
  specialize (H n). destruct (fold_left _ (seq 0 n) (None, big)) as [[c|] cv]; destruct H as (A & C & D).
  - destruct D as (D1 & D2 & D3 & D4). repeat split; auto. intros i I V. rewrite <- D4. auto.
  - intros i I V. rewrite <- D. auto.
Qed.
(** What relaxing does to each node. *)
Definition cost (c i : nat) : R := if r_lt (w c i) 0 then big else w c i.
Lemma relax_spec c s : vis s c = true -> forall m, let s' := fold_left (relax big w c) (seq 0 m) s in
  vis s' = vis s /\ forall i,
    (i < m)%nat /\ vis s i = false /\ val s c + cost c i < val s i /\ val s' i = val s c + cost c i /\ next s' i = Some c \/
    ((i < m)%nat -> vis s i = false -> val s i <= val s c + cost c i) /\ val s' i = val s i /\ next s' i = next s i.
Proof.
  intros VC. induction m as [|m IH]; [cbn; split; [reflexivity|]; intro i; right; repeat split; lia|].
  rewrite seq_S, fold_left_app. cbn [fold_left Nat.add]. set (s1 := fold_left (relax big w c) (seq 0 m) s) in *. cbv zeta in *. destruct IH as (V & P).
  assert (VLC : val s1 c = val s c) by (destruct (P c) as [(_ & X & _)|(_ & X & _)]; [congruence|exact X]).
  assert (VM : val s1 m = val s m /\ next s1 m = next s m) by (destruct (P m) as [(X & _)|(_ & X)]; [lia|exact X]). destruct VM as [VM NM].
  assert (KEEP : vis s m = true \/ val s m <= val s c + cost c m -> vis s1 = vis s /\ forall i,
    (i < S m)%nat /\ vis s i = false /\ val s c + cost c i < val s i /\ val s1 i = val s c + cost c i /\ next s1 i = Some c \/
    ((i < S m)%nat -> vis s i = false -> val s i <= val s c + cost c i) /\ val s1 i = val s i /\ next s1 i = next s i).
  { intro K. split; [exact V|]. intro i. destruct (P i) as [(X & Y)|(X & Y)]; [left; split; [lia|exact Y]|right; split; [|exact Y]]. intros I VI.
    assert (i < m \/ i = m)%nat as [Q|Q] by lia; [auto|subst i]. destruct K as [K|K]; [congruence|exact K]. }
  remember (relax big w c s1 m) as s2 eqn:E2. unfold relax in E2. fold (cost c m) in E2. cbv zeta in E2. rewrite V, VLC, VM in E2.
  destruct (vis s m) eqn:VSM; [rewrite E2; apply KEEP; left; reflexivity|].
  destruct (r_lt_spec (val s c + cost c m) (val s m)) as [[E L]|[E L]]; rewrite E in E2; rewrite E2; [|apply KEEP; right; exact L].
  cbn [val next vis]. split; [reflexivity|]. intro i. destruct (Nat.eq_dec i m) as [->|N].
  - left. rewrite !put_eq. repeat split; auto.
  - rewrite !put_neq by auto. destruct (P i) as [(X & Y)|(X & Y)]; [left; split; [lia|exact Y]|right; split; [|exact Y]]. intros I. apply X. lia.
Qed.

(** The invariant after [k] rounds. *)
Record inv (k : nat) (s : st) : Prop := mkInv {
  v_list : exists l, NoDup l /\ length l = k /\ (forall i, vis s i = true <-> In i l) /\ (forall i, In i l -> (i < n)%nat);
  v_src : val s source = 0 /\ next s source = Some source;
  v_pos : forall i, (i < n)%nat -> 0 <= val s i <= big;
  v_bound : forall i, (i < n)%nat -> val s i < big -> val s i <= INR k * B;
  v_next : forall i, (i < n)%nat -> val s i < big -> i = source \/ exists c, next s i = Some c /\ vis s c = true /\ c <> i /\ 0 <= w c i /\ val s i = w c i + val s c;
  v_edge : forall c i, (i < n)%nat -> vis s c = true -> 0 <= w c i -> val s i <= val s c + w c i;
  v_order : forall a b, vis s a = true -> (b < n)%nat -> vis s b = false -> val s a <= val s b;
  v_fin : forall c, vis s c = true -> val s c < big;
  v_tree : forall c, vis s c = true -> exists d, (d < k)%nat /\ follows n w source (next s) c (val s c) d }.

Lemma big_pos : 0 < big.
Proof. assert (0 <= INR n * B) by (apply Rmult_le_pos; [apply pos_INR|auto]). lra. Qed.
Lemma init_inv : inv 0 (init big source).
Proof.
  pose proof big_pos as BP. unfold init. constructor; cbn [val next vis]; try discriminate.
  - exists []. split; [constructor|]. split; [reflexivity|]. split; [intro i; split; [discriminate|intros []]|intros i []].
  - now rewrite !put_eq.
  - intros i _. unfold put. destruct (Nat.eqb i source); lra.
  - intros i _. unfold put. destruct (Nat.eqb i source); cbn [INR]; lra.
  - intros i _. unfold put. destruct (Nat.eqb_spec i source); [auto|lra].
Qed.
(** Paths through visited nodes survive. *)
Lemma follows_keep (v : nat -> bool) nx nx' c l d : (forall i, v i = true -> nx' i = nx i) ->
  (forall i j, v i = true -> i <> source -> nx i = Some j -> v j = true) -> v c = true -> follows n w source nx c l d -> follows n w source nx' c l d.
Proof.
  intros K Cl V F. induction F as [E|i j l k NS E J NE W F IH]; [apply F_end; rewrite K; auto|].
  apply F_step; auto; [rewrite K; auto|]. apply IH. eapply Cl; eauto.
Qed.
Lemma round_inv k s : (k < n)%nat -> inv k s -> round big n w s = UB \/ exists s', round big n w s = Ok s' /\ inv (S k) s'.
Proof.
  intros KN I. unfold round. pose proof (pick_spec s) as PK. destruct (pick big n s) as [[c|] cv]; cbn [fst]; [|now left]. right. eexists. split; [reflexivity|].
  destruct PK as (CN & VC & CB & CM). destruct I as [(l & ND & LL & LI & LN) (S0 & SN) VP VB VN VE VO VF VT].
  set (s0 := mkSt (val s) (next s) (put (vis s) c true)).
  assert (V0 : vis s0 c = true) by (cbn; apply put_eq). pose proof (relax_spec c s0 V0 n) as RX. cbv zeta in RX. set (s' := fold_left (relax big w c) (seq 0 n) s0) in *.
  destruct RX as (V' & P). cbn [val next vis s0] in P.
  assert (VS : forall i, vis s' i = true <-> i = c \/ vis s i = true).
  { intro i. rewrite V'. cbn [vis s0]. unfold put. destruct (Nat.eqb_spec i c); [subst; tauto|tauto]. }
  assert (OLD : forall i, i = c \/ vis s i = true -> val s' i = val s i /\ next s' i = next s i).
  { intros i H. destruct (P i) as [(_ & X & _)|(_ & X)]; [|exact X]. exfalso. unfold put in X. destruct (Nat.eqb_spec i c); [discriminate|]. destruct H; congruence. }
  (* Every node: unchanged, or improved through c by an existing edge. *)
  assert (Q : forall i, (i < n)%nat -> (val s' i = val s i /\ next s' i = next s i) \/
    (i <> c /\ vis s i = false /\ 0 <= w c i /\ val s c + w c i < val s i /\ val s' i = val s c + w c i /\ next s' i = Some c)).
  { intros i IN. destruct (P i) as [(_ & X & Y & Z & T)|(_ & X)]; [right|left; exact X].
    assert (NE : i <> c) by (intro; subst; rewrite put_eq in X; discriminate). rewrite put_neq in X by auto. unfold cost in *.
    destruct (r_lt_spec (w c i) 0) as [[E L]|[E L]]; rewrite E in *; [|auto 7]. exfalso. pose proof (VP c CN). pose proof (VP i IN). lra. }
  assert (LE : forall i, (i < n)%nat -> val s' i <= val s i) by (intros i IN; destruct (Q i IN) as [[-> _]|(_ & _ & _ & X & -> & _)]; lra).
  destruct (OLD c (or_introl eq_refl)) as [OC ON].
  assert (BND : 0 <= INR k * B) by (apply Rmult_le_pos; [apply pos_INR|auto]).
  assert (KB : INR (S k) * B = INR k * B + B) by (rewrite S_INR; ring).
  assert (KNB : INR (S k) * B <= INR n * B) by (apply Rmult_le_compat_r; [auto|apply le_INR; lia]).
  assert (NC : forall i, (i < n)%nat -> vis s i = false -> val s c <= val s' i) by (intros i IN VI; destruct (Q i IN) as [[-> _]|(_ & _ & X & _ & -> & _)]; [auto|lra]).
  constructor.
  - exists (c :: l). split; [constructor; auto; rewrite <- LI; congruence|]. split; [cbn; lia|]. split; [|intros i [<-|H]; auto].
    intro i. rewrite VS, LI. cbn. split; intros [A|A]; auto.
  - destruct (Q source SRC) as [[-> ->]|(_ & _ & X & Y & _)]; [auto|]. exfalso. pose proof (VP c CN). lra.
  - intros i IN. pose proof (VP i IN). pose proof (VP c CN). pose proof (LE i IN). destruct (Q i IN) as [[-> _]|(_ & _ & X & Y & -> & _)]; lra.
  - intros i IN L. destruct (Q i IN) as [[E _]|(_ & _ & X & Y & E & _)]; rewrite E in *; [pose proof (VB i IN L); lra|]. pose proof (VB c CN CB). pose proof (WB c i CN IN). lra.
  - intros i IN L. destruct (Q i IN) as [[E EN]|(NE & _ & X & Y & E & EN)].
    + rewrite E in L. destruct (VN i IN L) as [->|(p & A & A1 & A2 & A3 & A4)]; [auto|right]. exists p. rewrite EN, E. destruct (OLD p (or_intror A1)) as [-> _].
      repeat split; auto. apply VS. auto.
    + right. exists c. rewrite EN, E, OC. repeat split; auto; [apply VS; auto|lra].
  - intros a i IN VA W. apply VS in VA as [->|VA].
    + rewrite OC. destruct (vis s i) eqn:VI.
      * destruct (OLD i (or_intror VI)) as [-> _]. pose proof (VO i c VI CN VC). lra.
      * destruct (Nat.eq_dec i c) as [->|NE]; [rewrite OC; lra|]. destruct (P i) as [(_ & _ & _ & X & _)|(X & Y & _)].
        -- destruct (Q i IN) as [[E _]|(_ & _ & _ & _ & -> & _)]; [|lra]. rewrite X. unfold cost. destruct (r_lt_spec (w c i) 0) as [[_ Z]|[-> _]]; lra.
        -- rewrite Y. specialize (X IN). rewrite put_neq in X by auto. specialize (X VI). unfold cost in X. destruct (r_lt_spec (w c i) 0) as [[_ Z]|[E _]]; [lra|]. rewrite E in X. exact X.
    + destruct (OLD a (or_intror VA)) as [-> _]. pose proof (VE a i IN VA W). pose proof (LE i IN). lra.
  - intros a b VA BN VB'. assert (VBF : vis s b = false) by (destruct (vis s b) eqn:E; [|reflexivity]; rewrite (proj2 (VS b) (or_intror E)) in VB'; discriminate).
    apply VS in VA as [->|VA]; [rewrite OC; auto|]. destruct (OLD a (or_intror VA)) as [-> _]. pose proof (VO a c VA CN VC). pose proof (NC b BN VBF). lra.
  - intros a VA. apply VS in VA. destruct (OLD a VA) as [-> _]. destruct VA as [->|VA]; auto.
  - assert (KP : forall a l d, vis s a = true -> follows n w source (next s) a l d -> follows n w source (next s') a l d).
    { intros a l0 d VA. apply (follows_keep (vis s)); auto; [intros i VI; apply OLD; auto|]. intros i j VI NS E. assert (IN : (i < n)%nat) by (apply LN, LI, VI).
      destruct (VN i IN (VF i VI)) as [X|(p & A & A1 & _)]; [contradiction|]. congruence. }
    intros a VA. apply VS in VA as [->|VA].
    + rewrite OC. destruct (VN c CN CB) as [->|(p & A & A1 & A2 & A3 & A4)].
      * exists 0%nat. split; [lia|]. rewrite S0. apply F_end. rewrite ON. exact SN.
      * destruct (Nat.eq_dec c source) as [->|NS]; [exists 0%nat; split; [lia|]; rewrite S0; apply F_end; rewrite ON; exact SN|].
        destruct (VT p A1) as (d & DK & F). exists (S d). split; [lia|]. rewrite A4. apply F_step; auto; [congruence|apply LN, LI, A1].
    + destruct (VT a VA) as (d & DK & F). exists d. split; [lia|]. destruct (OLD a (or_intror VA)) as [-> _]. auto.
Qed.
Lemma all_visited k s : inv k s -> (n <= k)%nat -> forall i, (i < n)%nat -> vis s i = true.
Proof.
  intros [(l & ND & LL & LI & LN) _ _ _ _ _ _ _ _] K i IN. apply LI.
  assert (X : incl (seq 0 n) l) by (apply NoDup_length_incl; [exact ND|rewrite seq_length; lia|intros j J; apply in_seq; specialize (LN j J); lia]). apply X, in_seq. lia.
Qed.
Lemma some_unvisited k s : inv k s -> (k < n)%nat -> exists i, (i < n)%nat /\ vis s i = false.
Proof.
  intros [(l & ND & LL & LI & LN) _ _ _ _ _ _ _ _] K. destruct (forallb (vis s) (seq 0 n)) eqn:F.
  - exfalso. rewrite forallb_forall in F. assert (X : incl (seq 0 n) l) by (intros j J; apply LI, F, J). apply NoDup_incl_length in X; [|apply seq_NoDup]. rewrite seq_length in X. lia.
  - clear -F. assert (G : forall m, forallb (vis s) m = false -> exists i, In i m /\ vis s i = false).
    { induction m as [|a m IH]; cbn; [discriminate|]. destruct (vis s a) eqn:V; cbn; [|intros _; exists a; auto]. intro E. destruct (IH E) as (i & A & C). exists i. auto. }
    destruct (G _ F) as (i & A & V). exists i. apply in_seq in A. split; [lia|exact V].
Qed.
Lemma round_goes k s : (k < n)%nat -> inv k s -> (forall i, (i < n)%nat -> exists l, path n w source i l) -> round big n w s <> UB.
Proof.
  intros KN I CO. unfold round. pose proof (pick_spec s) as PK. destruct (pick big n s) as [[c|] cv]; cbn [fst]; [discriminate|]. exfalso.
  assert (A : forall i l, path n w source i l -> vis s i = true).
  { intros i l P. induction P as [|i j l IN JN W P IH].
    - destruct (vis s source) eqn:V; [reflexivity|]. specialize (PK source SRC V). rewrite (proj1 (v_src _ _ I)) in PK. pose proof big_pos. lra.
    - destruct (vis s i) eqn:V; [reflexivity|]. specialize (PK i IN V). pose proof (v_edge _ _ I j i IN IH W) as E. pose proof (v_bound _ _ I j JN (v_fin _ _ I j IH)). pose proof (WB j i JN IN).
      assert (INR (S k) * B <= INR n * B) by (apply Rmult_le_compat_r; [auto|apply le_INR; lia]). rewrite S_INR in *. lra. }
  destruct (some_unvisited k s I KN) as (i & IN & V). destruct (CO i IN) as (l & P). rewrite (A i l P) in V. discriminate.
Qed.
Lemma rounds_inv m : (m <= n)%nat -> for_each (fun _ s => round big n w s) (seq 0 m) (init big source) = UB \/
  exists s, for_each (fun _ s => round big n w s) (seq 0 m) (init big source) = Ok s /\ inv m s.
Proof.
  induction m as [|m IH]; intro M; [right; exists (init big source); split; [reflexivity|apply init_inv]|].
  rewrite seq_S, for_each_app. destruct (IH ltac:(lia)) as [->|(s & -> & I)]; [now left|]. cbn [bind for_each].
  destruct (round_inv m s ltac:(lia) I) as [->|(s' & -> & I')]; [now left|]. right. exists s'. auto.
Qed.
Lemma rounds_go m : (m <= n)%nat -> (forall i, (i < n)%nat -> exists l, path n w source i l) ->
  exists s, for_each (fun _ s => round big n w s) (seq 0 m) (init big source) = Ok s /\ inv m s.
Proof.
  intros M CO. induction m as [|m IH]; [exists (init big source); split; [reflexivity|apply init_inv]|].
  rewrite seq_S, for_each_app. destruct (IH ltac:(lia)) as (s & -> & I). cbn [bind for_each].
  destruct (round_inv m s ltac:(lia) I) as [E|(s' & -> & I')]; [exfalso; exact (round_goes m s ltac:(lia) I CO E)|]. exists s'. auto.
Qed.
Lemma shortest s : inv n s -> forall i l, path n w source i l -> val s i <= l.
Proof.
  intros I i l P. induction P as [|i j l IN JN W P IH]; [rewrite (proj1 (v_src _ _ I)); lra|].
  pose proof (v_edge _ _ I j i IN (all_visited n s I (le_n _) j JN) W). lra.
Qed.
Lemma follows_path nx i l d : (i < n)%nat -> follows n w source nx i l d -> path n w source i l.
Proof. intros IN F. revert IN. induction F; intro IN; [constructor|]. constructor; auto. Qed.
End Paths.

Lemma walk_ok n w source H nx : (forall i j, (i < n)%nat -> (j < n)%nat -> i <> j -> 0 <= w j i -> exists h, H j i = Some h) ->
  forall i l d, follows n w source nx i l d -> (i < n)%nat -> forall fuel acc, (d < fuel)%nat ->
  exists h, walk fuel H nx i acc = Ok h /\ forall x z y, maps_to acc x z -> carried H nx i z y -> maps_to h x y.
Proof.
  intros HH i l d F. induction F as [E|i j l k NS E J NE W F IH]; intros IN [|fuel] acc FU; try lia; cbn [walk]; rewrite E.
  - rewrite Nat.eqb_refl. exists acc. split; [reflexivity|]. intros x z y M C. inversion C; subst; [exact M|congruence].
  - destruct (Nat.eqb_spec i j); [contradiction|]. destruct (HH i j IN J NE W) as (h & EH). rewrite EH.
    destruct (IH J fuel (dmat3_mul h acc) ltac:(lia)) as (r & ER & C). exists r. split; [exact ER|]. intros x z y M CA. inversion CA as [i0 x0 E0|i0 j0 h0 x0 z0 y0 NE0 E0 EH0 M0 C0]; subst; [congruence|].
    assert (j0 = j) by congruence. subst j0. assert (h0 = h) by congruence. subst h0. eapply C; [|exact C0]. eapply maps_compose; eauto.
Qed.
