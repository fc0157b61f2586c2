(** Proofs about string arrays. *)
From Verif Require Import Base BaseLemmas Bytes Heap ShaModel StrModel StrSpec StrProofs StrArrModel StrArrSpec.
Local Open Scope nat_scope.

Lemma bytes_eqb_eq a b : bytes_eqb a b = true <-> a = b.
Proof.
  revert b; induction a as [|x a IH]; intros [|y b]; cbn; try (split; congruence).
  rewrite andb_true_iff, N.eqb_eq, IH. split; [intros [-> ->]; auto|intros [= -> ->]; auto].
Qed.

(** *** NX_ENSURE_CAPACITY *)
Lemma ensure_capacity_spec cap req : (0 <= cap <= INT_MAX)%Z -> (req <= INT_MAX)%Z ->
  ((cap + 8) * 3 <= INT_MAX \/ req <= cap)%Z ->
  exists c, ensure_capacity cap req = Ok c /\ (req <= c)%Z /\ (cap <= c <= INT_MAX)%Z /\
            (req <= cap -> c = cap)%Z /\ (cap < req -> cap * 3 <= c * 2)%Z.
Proof.
  intros H1 H2 H3. unfold ensure_capacity. destruct (Z.ltb_spec cap req) as [H|H].
  - unfold chk_int, in_int. destruct H3 as [H3|]; [|lia].
    replace (_ && _) with true by (unfold INT_MIN, INT_MAX in *; lia). cbn [bind].
    replace (_ && _) with true by (unfold INT_MIN, INT_MAX in *; lia). cbn [bind].
    eexists. split; [reflexivity|].
    pose proof (Z.div_mod ((cap + 8) * 3) 2 ltac:(lia)) as Hd.
    pose proof (Z.mod_pos_bound ((cap + 8) * 3) 2 ltac:(lia)) as Hm.
    destruct (Z.ltb_spec ((cap + 8) * 3 / 2) req); lia.
  - exists cap. repeat split; auto; lia.
Qed.

(** *** Representation *)
Definition slot_rep (h : sheap) (sl : slot) (e : option (list N)) : Prop :=
  match sl, e with
  | Some None, None => True
  | Some (Some p), Some s => exists t, cell h p = Some (s ++ 0%N :: t) /\ cstr_ok s
  | _, _ => False
  end.
Definition slot_ptr (sl : slot) : list nat := match sl with Some (Some p) => [p] | _ => [] end.
Definition ptrs (l : list slot) : list nat := flat_map slot_ptr l.

(** [rep h act l]: the slots [act] hold the strings [l]; the live cells are
    exactly those they point to, each pointed to once. *)
Definition rep (h : sheap) (act : list slot) (l : strings) : Prop :=
  Forall2 (slot_rep h) act l /\ NoDup (ptrs act) /\ (forall p, cell h p <> None <-> In p (ptrs act)).

Definition inv (h : sheap) (sa : sarr) (l : strings) : Prop :=
  exists act spare, elems sa = act ++ spare /\ size sa = length act /\ rep h act l.

Lemma ptrs_app a b : ptrs (a ++ b) = ptrs a ++ ptrs b.
Proof. apply flat_map_app. Qed.

Lemma slot_rep_ext h h' sl e : (forall p, In p (slot_ptr sl) -> cell h' p = cell h p) ->
  slot_rep h sl e -> slot_rep h' sl e.
Proof.
  unfold slot_rep. destruct sl as [[p|]|], e; auto. intros H (t & Hc & Hok).
  exists t. rewrite H by (left; reflexivity). auto.
Qed.

Lemma reps_ext h h' act l : (forall p, In p (ptrs act) -> cell h' p = cell h p) ->
  Forall2 (slot_rep h) act l -> Forall2 (slot_rep h') act l.
Proof.
  intros H HF. induction HF as [|sl e act l Hs HF IH]; constructor.
  - eapply slot_rep_ext; [|exact Hs]. intros p Hp. apply H. cbn [ptrs flat_map]. apply in_or_app. auto.
  - apply IH. intros p Hp. apply H. cbn [ptrs flat_map]. apply in_or_app. auto.
Qed.

Lemma aget_mid {A} (a : list A) x b : aget (a ++ x :: b) (length a) = Ok x.
Proof. unfold aget. rewrite nth_error_app2, Nat.sub_diag by lia. reflexivity. Qed.
Lemma aset_mid {A} (a : list A) x b y : aset (a ++ x :: b) (length a) y = Ok (a ++ y :: b).
Proof.
  unfold aset. rewrite app_length. cbn [length]. replace (length a <? length a + S (length b)) with true by lia.
  f_equal. induction a as [|h t IH]; cbn; congruence.
Qed.

(** *** Freeing a slot *)
Lemma free_slot h sl e : slot_rep h sl e -> exists h', 
  (let* p := (match sl with Some p => Ok p | None => UB end) in nx_free h p) = Ok h' /\
  length h' = length h /\
  (forall q, cell h' q = if in_dec Nat.eq_dec q (slot_ptr sl) then None else cell h q).
Proof.
  unfold slot_rep. destruct sl as [[p|]|]; destruct e as [s|]; try contradiction.
  - intros (t & Hc & _). exists (lset h p None). cbn [bind nx_free]. rewrite (hfree_ok h p _ Hc).
    split; [reflexivity|]. split; [apply lset_length|]. intros q. rewrite cell_lset by (eapply cell_lt; eauto).
    cbn [slot_ptr]. destruct (Nat.eqb_spec q p), (in_dec Nat.eq_dec q [p]); auto; cbn in *; intuition congruence.
  - intros _. exists h. repeat split. 
Qed.

Lemma slot_get_mid a sl b : slot_get (a ++ sl :: b) (length a) = match sl with Some p => Ok p | None => UB end.
Proof. unfold slot_get. rewrite aget_mid. reflexivity. Qed.

(** Freeing consecutive slots (used by the shrinking resize and by free). *)
Lemma shrink_loop b : forall h a spare l,
  Forall2 (slot_rep h) b l -> NoDup (ptrs b) ->
  exists h', for_each shrink_step (seq (length a) (length b)) (h, a ++ b ++ spare) =
               Ok (h', a ++ repeat (Some None) (length b) ++ spare) /\
    length h' = length h /\
    (forall q, cell h' q = if in_dec Nat.eq_dec q (ptrs b) then None else cell h q).
Proof.
  induction b as [|sl b IH]; intros h a spare l HF Hnd.
  - exists h. cbn. auto.
  - inversion HF as [|? e ? l' Hs HF' E1 E2]; subst. cbn [length seq for_each]. unfold shrink_step at 1.
    cbn [app]. rewrite slot_get_mid. destruct (free_slot h sl e Hs) as (h1 & E & Hlen & Hcell).
    destruct sl as [p|]; [|contradiction Hs]. cbn [bind] in *. rewrite E. cbn [bind].
    rewrite aset_mid. cbn [bind].
    cbn [ptrs flat_map] in Hnd.
    assert (Forall2 (slot_rep h1) b l') as HF1.
    { eapply reps_ext; [|exact HF']. intros q Hq. rewrite Hcell. destruct (in_dec Nat.eq_dec q (slot_ptr (Some p))) as [Hi|]; auto.
      exfalso. apply NoDup_app_iff in Hnd as (_ & _ & Hd). apply (Hd q); auto. }
    destruct (IH h1 (a ++ [Some None]) spare l' HF1) as (h2 & E2 & Hlen2 & Hcell2).
    { apply NoDup_app_iff in Hnd. apply Hnd. }
    rewrite app_length in E2. cbn [length] in E2. replace (length a + 1) with (S (length a)) in E2 by lia.
    rewrite <- !app_assoc in E2. cbn [app] in E2.
    exists h2. split; [exact E2|]. split; [congruence|].
    intros q. rewrite Hcell2, Hcell. cbn [ptrs flat_map].
    change (flat_map slot_ptr b) with (ptrs b).
    destruct (in_dec Nat.eq_dec q (ptrs b)) as [H1|H1], (in_dec Nat.eq_dec q (slot_ptr (Some p))) as [H2|H2],
      (in_dec Nat.eq_dec q (slot_ptr (Some p) ++ ptrs b)) as [H3|H3]; auto; rewrite in_app_iff in H3; tauto.
Qed.

Lemma fill_loop n : forall a old spare, length old = n ->
  for_each fill_step (seq (length a) n) (a ++ old ++ spare) = Ok (a ++ repeat (Some None) n ++ spare).
Proof.
  induction n as [|n IH]; intros a old spare Hl.
  - destruct old; [reflexivity|discriminate].
  - destruct old as [|x old]; [discriminate|]. cbn [seq for_each]. unfold fill_step at 1.
    cbn [app]. rewrite aset_mid. cbn [bind].
    specialize (IH (a ++ [Some None]) old spare). rewrite app_length in IH. cbn [length] in IH.
    replace (length a + 1) with (S (length a)) in IH by lia. rewrite <- !app_assoc in IH. cbn [app] in IH.
    rewrite IH by (cbn in Hl; lia). reflexivity.
Qed.

Lemma slots_grow_app act spare n : length act + length spare <= n ->
  slots_grow (act ++ spare) n = act ++ spare ++ repeat None (n - length (act ++ spare)).
Proof.
  intros H. unfold slots_grow. rewrite firstn_all2 by (rewrite app_length; lia). rewrite <- app_assoc. reflexivity.
Qed.

Lemma rep_nulls h act l n : rep h act l -> rep h (act ++ repeat (Some None) n) (l ++ repeat None n).
Proof.
  intros (HF & Hnd & Hlive).
  assert (ptrs (act ++ repeat (Some None) n) = ptrs act) as E.
  { rewrite ptrs_app. assert (ptrs (repeat (Some None) n) = []) as ->; [|apply app_nil_r].
    induction n; cbn; auto. }
  unfold rep. rewrite E. split; [|auto]. apply Forall2_app; auto.
  clear E. induction n as [|n IHn]; cbn [repeat]; constructor; [exact I|exact IHn].
Qed.

Lemma resize_spec h sa l n : inv h sa l ->
  (Z.of_nat n <= 2 ^ 29 + 1)%Z -> (Z.of_nat (size sa) <= 2 ^ 29 + 1)%Z -> (Z.of_nat (length (elems sa)) <= INT_MAX)%Z ->
  exists h' sa', nx_string_array_resize h sa (Z.of_nat n) = Ok (h', sa') /\
    inv h' sa' (firstn n l ++ repeat None (n - length l)) /\ (Z.of_nat (length (elems sa')) <= INT_MAX)%Z /\
    (size sa <= n -> h' = h /\ exists sp, elems sa' = firstn (size sa) (elems sa) ++ repeat (Some None) (n - size sa) ++ sp).
Proof.
  intros (act & spare & Eel & Esz & Hrep) Hn Hsz Hcap. unfold nx_string_array_resize.
  replace (Z.of_nat n <? 0)%Z with false by lia. rewrite Nat2Z.id.
  pose proof (Forall2_length _ _ _ (proj1 Hrep)) as HL.
  destruct (Nat.ltb_spec n (size sa)) as [Hlt|Hge].
  - destruct Hrep as (HF & Hnd & Hlive).
    rewrite <- (firstn_skipn n act) in HF, Hnd, Hlive, Eel.
    rewrite <- (firstn_skipn n l) in HF.
    set (a := firstn n act) in *. set (b := skipn n act) in *.
    assert (length a = n) as Ha by (unfold a; rewrite firstn_length; lia).
    assert (length b = size sa - n) as Hb by (unfold b; rewrite skipn_length; lia).
    assert (length (firstn n l) = n) as Hla by (rewrite firstn_length; lia).
    apply Forall2_app_inv_l in HF as (l1 & l2 & HFa & HFb & El).
    assert (l1 = firstn n l /\ l2 = skipn n l) as [-> ->].
    { apply app_eq_app_l; [|auto]. pose proof (Forall2_length _ _ _ HFa). lia. }
    rewrite ptrs_app in Hnd, Hlive. apply NoDup_app_iff in Hnd as (Hnda & Hndb & Hdis).
    destruct (shrink_loop b h a spare _ HFb Hndb) as (h' & E & _ & Hcell).
    rewrite Eel, <- app_assoc. 
    replace (seq n (size sa - n)) with (seq (length a) (length b)) by (rewrite Ha, Hb; reflexivity).
    rewrite E. cbn [bind].
    do 2 eexists. split; [reflexivity|]. split; [|split; [|lia]].
    + exists a, (repeat (Some None) (length b) ++ spare). cbn [elems size].
      split; [reflexivity|]. split; [auto|].
      replace (n - length l) with 0 by lia. cbn [repeat]. rewrite app_nil_r.
      split; [|split; [auto|]].
      * eapply reps_ext; [|exact HFa]. intros p Hp. rewrite Hcell.
        destruct (in_dec Nat.eq_dec p (ptrs b)); auto. exfalso. apply (Hdis p); auto.
      * intros p. rewrite Hcell. destruct (in_dec Nat.eq_dec p (ptrs b)) as [Hi|Hi].
        -- split; [congruence|]. intros Hp. exfalso. apply (Hdis p); auto.
        -- rewrite Hlive, in_app_iff. tauto.
    + cbn [elems]. rewrite Eel, !app_length in Hcap. rewrite !app_length, repeat_length. lia.
  - destruct (ensure_capacity_spec (Z.of_nat (length (elems sa))) (Z.of_nat n)) as (c & Ec & Hc1 & Hc2 & _).
    + lia.
    + unfold INT_MAX. lia.
    + unfold INT_MAX. lia.
    + rewrite Ec. cbn [bind]. rewrite Eel. rewrite slots_grow_app by (rewrite Eel, app_length in Hc2; lia).
      set (rest := spare ++ repeat None (Z.to_nat c - length (act ++ spare))).
      assert (length act + length rest = Z.to_nat c) as Hrest.
      { unfold rest. rewrite Eel in Hc2. rewrite app_length, repeat_length. rewrite app_length in *. lia. }
      rewrite <- (firstn_skipn (n - size sa) rest).
      replace (seq (size sa) (n - size sa)) with (seq (length act) (n - size sa)) by (rewrite Esz; reflexivity).
      rewrite fill_loop by (rewrite firstn_length; lia). cbn [bind].
      do 2 eexists. split; [reflexivity|]. split; [|split].
      * exists (act ++ repeat (Some None) (n - size sa)), (skipn (n - size sa) rest). cbn [elems size].
        split; [rewrite <- app_assoc; reflexivity|]. split; [rewrite app_length, repeat_length; lia|].
        rewrite (firstn_all2 l) by lia. replace (n - length l) with (n - size sa) by lia.
        apply rep_nulls; auto.
      * cbn [elems]. rewrite !app_length, repeat_length, skipn_length. lia.
      * intros _. split; [reflexivity|]. exists (skipn (n - size sa) rest). cbn [elems].
        rewrite Esz, firstn_app, Nat.sub_diag. change (firstn 0 spare) with (@nil slot). rewrite app_nil_r, firstn_all. reflexivity.
Qed.

(** *** Replacing one slot *)
Lemma rep_split h a sl b l : rep h (a ++ sl :: b) l ->
  exists la e lb, l = la ++ e :: lb /\ length la = length a /\
    Forall2 (slot_rep h) a la /\ slot_rep h sl e /\ Forall2 (slot_rep h) b lb.
Proof.
  intros (HF & _). apply Forall2_app_inv_l in HF as (la & l2 & Ha & HF & ->).
  inversion HF as [|? e ? lb Hs Hb]; subst. exists la, e, lb.
  repeat split; auto. symmetry. eapply Forall2_length; eauto.
Qed.

Lemma put_mid {A} (a : list A) x b v : put (a ++ x :: b) (length a) v = a ++ v :: b.
Proof.
  unfold put. rewrite firstn_app, Nat.sub_diag, firstn_all. change (firstn 0 (x :: b)) with (@nil A).
  rewrite app_nil_r. f_equal. cbn [app]. f_equal.
  rewrite skipn_app. replace (S (length a) - length a) with 1 by lia.
  rewrite skipn_all2 by lia. reflexivity.
Qed.

Lemma replace_null h h1 a sl b la e lb :
  rep h (a ++ sl :: b) (la ++ e :: lb) -> length la = length a ->
  (forall q, cell h1 q = if in_dec Nat.eq_dec q (slot_ptr sl) then None else cell h q) ->
  rep h1 (a ++ Some None :: b) (la ++ None :: lb).
Proof.
  intros (HF & Hnd & Hlive) Hla Hc.
  rewrite ptrs_app in Hnd. cbn [ptrs flat_map] in Hnd. fold (ptrs b) in Hnd.
  apply Forall2_app_inv_l in HF as (la' & l2 & Ha & HF & El).
  assert (la' = la /\ l2 = e :: lb) as [-> ->].
  { apply app_eq_app_l; [|auto]. rewrite <- (Forall2_length _ _ _ Ha). auto. }
  inversion HF as [|? ? ? ? Hs Hb]; subst.
  apply NoDup_app_iff in Hnd as (Hna & Hnb & Hd). apply NoDup_app_iff in Hnb as (Hns & Hnb & Hd2).
  split; [|split].
  - apply Forall2_app; [|constructor; [exact I|]].
    + eapply reps_ext; [|exact Ha]. intros p Hp. rewrite Hc. destruct (in_dec Nat.eq_dec p (slot_ptr sl)); auto.
      exfalso. apply (Hd p); auto. apply in_or_app; auto.
    + eapply reps_ext; [|exact Hb]. intros p Hp. rewrite Hc. destruct (in_dec Nat.eq_dec p (slot_ptr sl)); auto.
      exfalso. apply (Hd2 p); auto.
  - rewrite ptrs_app. cbn [ptrs flat_map slot_ptr app]. fold (ptrs b). apply NoDup_app_iff. split; [auto|]. split; [auto|].
    intros x Hx Hxb. apply (Hd x); auto. apply in_or_app; auto.
  - intros p. rewrite Hc, ptrs_app, in_app_iff. cbn [ptrs flat_map slot_ptr app]. fold (ptrs b).
    specialize (Hlive p). rewrite ptrs_app, in_app_iff in Hlive. cbn [ptrs flat_map] in Hlive. fold (ptrs b) in Hlive.
    rewrite in_app_iff in Hlive.
    destruct (in_dec Nat.eq_dec p (slot_ptr sl)) as [Hi|Hi].
    + split; [congruence|]. intros [Hp|Hp]; exfalso; [apply (Hd p); auto; apply in_or_app; auto|apply (Hd2 p); auto].
    + tauto.
Qed.

Lemma rep_alloc h a b la lb s t :
  rep h (a ++ Some None :: b) (la ++ None :: lb) -> length la = length a -> cstr_ok s ->
  rep (h ++ [Some (s ++ 0%N :: t)]) (a ++ Some (Some (length h)) :: b) (la ++ Some s :: lb).
Proof.
  intros (HF & Hnd & Hlive) Hla Hs.
  assert (forall p, In p (ptrs a ++ ptrs b) -> p < length h) as Hold.
  { intros p Hp. specialize (Hlive p). rewrite ptrs_app in Hlive. cbn [ptrs flat_map slot_ptr app] in Hlive. fold (ptrs b) in Hlive.
    apply Hlive in Hp. destruct (cell h p) eqn:E; [|congruence]. eapply cell_lt; eauto. }
  rewrite ptrs_app in Hnd. cbn [ptrs flat_map slot_ptr app] in Hnd. fold (ptrs b) in Hnd.
  assert (forall p, In p (ptrs a ++ ptrs b) -> cell (h ++ [Some (s ++ 0%N :: t)]) p = cell h p) as Hsame.
  { intros p Hp. apply cell_app_old. auto. }
  apply Forall2_app_inv_l in HF as (la' & l2 & Ha & HF & El).
  assert (la' = la /\ l2 = None :: lb) as [-> ->].
  { apply app_eq_app_l; [|auto]. rewrite <- (Forall2_length _ _ _ Ha). auto. }
  inversion HF as [|? ? ? ? _ Hb]; subst.
  split; [|split].
  - apply Forall2_app; [|constructor].
    + eapply reps_ext; [|exact Ha]. intros p Hp. apply Hsame, in_or_app; auto.
    + exists t. rewrite cell_alloc_new. auto.
    + eapply reps_ext; [|exact Hb]. intros p Hp. apply Hsame, in_or_app; auto.
  - rewrite ptrs_app. cbn [ptrs flat_map slot_ptr app]. fold (ptrs b). apply NoDup_Add with (a := length h) (l := ptrs a ++ ptrs b).
    + apply Add_app.
    + split; [auto|]. intros Hi. apply Hold in Hi. lia.
  - intros p. rewrite cell_alloc, ptrs_app, in_app_iff. cbn [ptrs flat_map slot_ptr app]. fold (ptrs b). cbn [In].
    specialize (Hlive p). rewrite ptrs_app, in_app_iff in Hlive. cbn [ptrs flat_map slot_ptr app] in Hlive. fold (ptrs b) in Hlive.
    destruct (Nat.eqb_spec p (length h)) as [->|Hn]; [split; [tauto|congruence]|].
    rewrite Hlive. intuition congruence.
Qed.

(** A pointer argument: NULL, foreign, or a pointer held by another slot. *)
Definition arg_means (h : sheap) (other : list slot) (s : strarg) (v : option (list N)) : Prop :=
  match s, v with
  | ANull, None => True
  | AExt s, Some v => s = v /\ cstr_ok v
  | APtr q, Some v => In q (ptrs other) /\ (exists t, cell h q = Some (v ++ 0%N :: t)) /\ cstr_ok v
  | _, _ => False
  end.

Lemma set_spec h sa l i s v : inv h sa l -> i < length l ->
  (forall a sl b spare, elems sa = a ++ sl :: b ++ spare -> length a = i -> size sa = length a + S (length b) ->
     arg_means h (a ++ b) s v) ->
  exists h' sa', nx_string_array_set h sa (Z.of_nat i) s = Ok (h', sa') /\ inv h' sa' (put l i v) /\
    size sa' = size sa /\ length (elems sa') = length (elems sa).
Proof.
  intros (act & spare & Eel & Esz & Hrep) Hi Harg.
  pose proof (Forall2_length _ _ _ (proj1 Hrep)) as HL.
  unfold nx_string_array_set. replace ((0 <=? Z.of_nat i)%Z && (Z.of_nat i <? Z.of_nat (size sa))%Z) with true by lia.
  rewrite Nat2Z.id.
  destruct (nth_error act i) as [sl|] eqn:En; [|apply nth_error_None in En; lia].
  apply nth_error_split in En as (a & b & -> & Ha).
  destruct (rep_split h a sl b l Hrep) as (la & e & lb & -> & Hla & HFa & Hs & HFb).
  rewrite app_length in Esz. cbn [length] in Esz.
  assert (arg_means h (a ++ b) s v) as Harg'.
  { apply (Harg a sl b spare); auto. rewrite Eel, <- app_assoc. reflexivity. }
  destruct (free_slot h sl e Hs) as (h1 & Ef & Hlen & Hcell).
  assert (elems sa = a ++ sl :: (b ++ spare)) as Eel' by (rewrite Eel, <- app_assoc; reflexivity).
  rewrite Eel'. rewrite <- Ha. rewrite slot_get_mid.
  destruct sl as [p|]; [|destruct e; contradiction Hs]. cbn [bind] in *.
  unfold nx_strredup. rewrite Ef. cbn [bind].
  pose proof (replace_null h h1 a (Some p) b la e lb Hrep Hla Hcell) as Hnull.
  rewrite <- Hla. rewrite put_mid.
  assert (forall v' h' q, rep h' (a ++ Some q :: b) (la ++ v' :: lb) ->
    inv h' (mkSarr (a ++ Some q :: b ++ spare) (size sa)) (la ++ v' :: lb)) as Hfin.
  { intros v' h' q Hr. exists (a ++ Some q :: b), spare. cbn [elems size]. rewrite <- app_assoc, app_length. cbn [length app]. auto. }
  destruct s as [|s|q], v as [v|]; try contradiction Harg'.
  - cbn [bind]. rewrite Hla, aset_mid. cbn [bind].
    do 2 eexists. split; [reflexivity|]. cbn [size elems]. split; [apply Hfin; auto|].
    rewrite !app_length. cbn [length]. auto.
  - destruct Harg' as [-> Hok]. cbn [nx_strdup halloc bind]. rewrite Hla, aset_mid. cbn [bind].
    do 2 eexists. split; [reflexivity|]. cbn [size elems]. split; [|rewrite !app_length; cbn [length]; auto].
    apply Hfin. apply (rep_alloc h1 a b la lb v []); auto.
  - destruct Harg' as (Hin & (t & Hq) & Hok).
    assert (cell h1 q = Some (v ++ 0%N :: t)) as Hq1.
    { rewrite Hcell. destruct (in_dec Nat.eq_dec q (slot_ptr (Some p))) as [Hi'|]; auto. exfalso.
      destruct Hrep as (_ & Hnd & _). rewrite ptrs_app in Hnd. cbn [ptrs flat_map] in Hnd. fold (ptrs b) in Hnd.
      apply NoDup_app_iff in Hnd as (_ & Hnb & Hd). apply NoDup_app_iff in Hnb as (_ & _ & Hd2).
      rewrite ptrs_app, in_app_iff in Hin. destruct Hin as [Hin|Hin].
      - apply (Hd q); auto. apply in_or_app; auto.
      - apply (Hd2 q); auto. }
    rewrite (proj2 (hget_cell h1 q _) Hq1). cbn [bind]. rewrite cstr_block by auto. cbn [bind nx_strdup halloc].
    rewrite Hla, aset_mid. cbn [bind].
    do 2 eexists. split; [reflexivity|]. cbn [size elems]. split; [|rewrite !app_length; cbn [length]; auto].
    apply Hfin. apply (rep_alloc h1 a b la lb v []); auto.
Qed.

Lemma setf_spec junk h sa l i text : inv h sa l -> i < length l -> str_ok text ->
  exists h' sa', nx_string_array_setf junk h sa (Z.of_nat i) text = Ok (h', sa') /\ inv h' sa' (put l i (Some text)) /\
    size sa' = size sa /\ length (elems sa') = length (elems sa).
Proof.
  intros (act & spare & Eel & Esz & Hrep) Hi [Hok Hlt].
  pose proof (Forall2_length _ _ _ (proj1 Hrep)) as HL.
  unfold nx_string_array_setf. replace ((0 <=? Z.of_nat i)%Z && (Z.of_nat i <? Z.of_nat (size sa))%Z) with true by lia.
  rewrite Nat2Z.id.
  destruct (nth_error act i) as [sl|] eqn:En; [|apply nth_error_None in En; lia].
  apply nth_error_split in En as (a & b & -> & Ha).
  destruct (rep_split h a sl b l Hrep) as (la & e & lb & -> & Hla & HFa & Hs & HFb).
  rewrite app_length in Esz. cbn [length] in Esz.
  destruct (free_slot h sl e Hs) as (h1 & Ef & Hlen & Hcell).
  assert (elems sa = a ++ sl :: (b ++ spare)) as Eel' by (rewrite Eel, <- app_assoc; reflexivity).
  rewrite Eel'. rewrite <- Ha. rewrite slot_get_mid.
  destruct sl as [p|]; [|destruct e; contradiction Hs]. cbn [bind] in *.
  rewrite Ef. cbn [bind].
  destruct (vfstr_spec junk text Hok Hlt) as (blk & t & Ev & ->). rewrite Ev. cbn [bind halloc].
  pose proof (replace_null h h1 a (Some p) b la e lb Hrep Hla Hcell) as Hnull.
  rewrite aset_mid. cbn [bind]. rewrite <- Hla. rewrite put_mid.
  do 2 eexists. split; [reflexivity|]. cbn [size elems]. split; [|rewrite !app_length; cbn [length]; auto].
  exists (a ++ Some (Some (length h1)) :: b), spare. cbn [elems size]. rewrite <- app_assoc, app_length. cbn [length app].
  split; [auto|]. split; [auto|]. apply rep_alloc; auto.
Qed.

(** *** Lookups *)
Lemma get_spec h sa l j e : inv h sa l -> nth_error l j = Some e ->
  exists p, nx_string_array_get sa (Z.of_nat j) = Ok p /\ slot_rep h (Some p) e /\
            nth_error (firstn (size sa) (elems sa)) j = Some (Some p).
Proof.
  intros (act & spare & Eel & Esz & Hrep) Hj. destruct Hrep as (HF & _).
  pose proof (Forall2_length _ _ _ HF) as HL.
  assert (j < length l) by (apply nth_error_Some; congruence).
  unfold nx_string_array_get. replace ((0 <=? Z.of_nat j)%Z && (Z.of_nat j <? Z.of_nat (size sa))%Z) with true by lia.
  rewrite Nat2Z.id. unfold slot_get, aget. rewrite Eel, nth_error_app1 by lia.
  destruct (nth_error act j) as [sl|] eqn:En; [|apply nth_error_None in En; lia].
  assert (slot_rep h sl e) as Hs.
  { clear -HF En Hj. revert j En Hj. induction HF as [|x y act l Hxy HF IH]; intros [|j] En Hj; cbn in *; try discriminate.
    - congruence.
    - eapply IH; eauto. }
  destruct sl as [p|]; [|destruct e; contradiction Hs]. exists p. split; [reflexivity|]. split; [auto|].
  rewrite Esz, firstn_app, Nat.sub_diag, firstn_all. cbn [firstn]. rewrite app_nil_r. auto.
Qed.

Lemma elem_str_rep h p s : slot_rep h (Some (Some p)) (Some s) -> elem_str h (Some p) = Ok s.
Proof.
  intros (t & Hc & Hok). unfold elem_str. rewrite (proj2 (hget_cell h p _) Hc). cbn [bind]. apply cstr_block; auto.
Qed.

Lemma find_loop_spec h b : forall a spare l s z,
  Forall2 (slot_rep h) b l -> first_index s l (Z.of_nat (length a)) = Some z ->
  find_loop h (a ++ b ++ spare) (seq (length a) (length b)) s = Ok z.
Proof.
  induction b as [|sl b IH]; intros a spare l s z HF Hz.
  - inversion HF; subst. cbn in *. congruence.
  - inversion HF as [|? e ? l' Hs HF']; subst. cbn [length seq find_loop]. cbn [app]. rewrite slot_get_mid.
    cbn [first_index] in Hz. destruct e as [e|]; [|discriminate].
    destruct sl as [[p|]|]; try contradiction Hs. cbn [bind]. rewrite (elem_str_rep h p e Hs). cbn [bind].
    destruct (bytes_eqb s e); [congruence|].
    specialize (IH (a ++ [Some (Some p)]) spare l' s z HF'). rewrite app_length in IH. cbn [length] in IH.
    replace (length a + 1) with (S (length a)) in IH by lia. rewrite <- app_assoc in IH. cbn [app] in IH.
    apply IH. rewrite <- Hz. f_equal. lia.
Qed.

Lemma find_spec h sa l s z : inv h sa l -> first_index s l 0 = Some z -> nx_string_array_find h sa s = Ok z.
Proof.
  intros (act & spare & Eel & Esz & HF & _) Hz. unfold nx_string_array_find. rewrite Eel, Esz.
  apply (find_loop_spec h act [] spare l s z HF Hz).
Qed.

(** *** Histories *)
Definition cap_ok (sa : sarr) : Prop := (Z.of_nat (length (elems sa)) <= INT_MAX)%Z.

Lemma inv_size h sa l : inv h sa l -> size sa = length l.
Proof. intros (act & spare & _ & -> & HF & _). eapply Forall2_length; eauto. Qed.

Lemma grow_one h sa l : inv h sa l -> cap_ok sa -> (Z.of_nat (length l) <= 2 ^ 29)%Z ->
  exists sa', (let* n1 := chk_int (Z.of_nat (size sa) + 1) in nx_string_array_resize h sa n1) = Ok (h, sa') /\
    inv h sa' (l ++ [None]) /\ cap_ok sa' /\
    (exists sp, elems sa' = firstn (size sa) (elems sa) ++ Some None :: sp).
Proof.
  intros Hinv Hcap Hl. pose proof (inv_size _ _ _ Hinv) as Hs.
  destruct (resize_spec h sa l (S (length l)) Hinv) as (h' & sa' & E & Hi & Hc & Hk); try lia; auto.
  destruct Hk as [-> (sp & Hel)]; [lia|].
  exists sa'. unfold chk_int, in_int. replace (_ && _) with true by (unfold INT_MIN, INT_MAX; lia). cbn [bind].
  replace (Z.of_nat (size sa) + 1)%Z with (Z.of_nat (S (length l))) by lia.
  split; [exact E|]. split.
  - rewrite firstn_all2 in Hi by lia. replace (S (length l) - length l) with 1 in Hi by lia. exact Hi.
  - split; [exact Hc|]. exists sp. rewrite Hel. replace (S (length l) - size sa) with 1 by lia. reflexivity.
Qed.

Lemma append_spec h sa l s v : inv h sa l -> cap_ok sa -> (Z.of_nat (length l) <= 2 ^ 29)%Z ->
  arg_means h (firstn (size sa) (elems sa)) s v ->
  exists h' sa', nx_string_array_append h sa s = Ok (h', sa', Z.of_nat (length l)) /\ inv h' sa' (l ++ [v]) /\ cap_ok sa'.
Proof.
  intros Hinv Hcap Hl Harg. pose proof (inv_size _ _ _ Hinv) as Hs.
  destruct (grow_one h sa l Hinv Hcap Hl) as (sa1 & E1 & Hi1 & Hc1 & sp & Hel).
  unfold nx_string_array_append.
  apply bind_ok in E1 as (n1 & -> & E1). cbn [bind]. rewrite E1. cbn [bind].
  destruct (set_spec h sa1 (l ++ [None]) (length l) s v Hi1) as (h2 & sa2 & E2 & Hi2 & Hs2 & Hl2).
  - rewrite app_length. cbn. lia.
  - intros a sl b spare Ha Hla Hsz.
    pose proof (inv_size _ _ _ Hi1) as Hs1. rewrite app_length in Hs1. cbn [length] in Hs1.
    assert (b = []) as -> by (destruct b; [reflexivity|cbn [length] in Hsz; lia]).
    assert (a = firstn (size sa) (elems sa)) as ->.
    { rewrite Hel in Ha. apply app_eq_app_l in Ha; [symmetry; apply Ha|].
      destruct Hinv as (act & sp0 & Eel & Esz & _). rewrite firstn_length, Eel, app_length. lia. }
    rewrite app_nil_r. exact Harg.
  - rewrite Hs, E2. cbn [bind]. do 2 eexists. split; [reflexivity|]. split.
    + rewrite put_mid in Hi2. exact Hi2.
    + unfold cap_ok in *. rewrite Hl2. exact Hc1.
Qed.

Lemma appendf_spec junk h sa l t : inv h sa l -> cap_ok sa -> (Z.of_nat (length l) <= 2 ^ 29)%Z -> str_ok t ->
  exists h' sa', nx_string_array_appendf junk h sa t = Ok (h', sa', Z.of_nat (length l)) /\ inv h' sa' (l ++ [Some t]) /\ cap_ok sa'.
Proof.
  intros Hinv Hcap Hl Hok. pose proof (inv_size _ _ _ Hinv) as Hs.
  destruct (grow_one h sa l Hinv Hcap Hl) as (sa1 & E1 & Hi1 & Hc1 & _).
  unfold nx_string_array_appendf.
  apply bind_ok in E1 as (n1 & -> & E1). cbn [bind]. rewrite E1. cbn [bind].
  destruct (setf_spec junk h sa1 (l ++ [None]) (length l) t Hi1) as (h2 & sa2 & E2 & Hi2 & Hs2 & Hl2); auto.
  - rewrite app_length. cbn. lia.
  - rewrite Hs, E2. cbn [bind]. do 2 eexists. split; [reflexivity|]. split.
    + rewrite put_mid in Hi2. exact Hi2.
    + unfold cap_ok in *. rewrite Hl2. exact Hc1.
Qed.

Lemma put_length {A} (l : list A) i v : i < length l -> length (put l i v) = length l.
Proof. intros H. unfold put. rewrite !app_length, firstn_length, skipn_length. cbn [length]. lia. Qed.

Lemma slot_rep_arg h other p e : slot_rep h (Some p) e -> (forall q, p = Some q -> In q (ptrs other)) ->
  arg_means h other (ptr p) e.
Proof.
  intros Hs Hin. destruct p as [q|], e as [s|]; try contradiction Hs; cbn; auto.
  destruct Hs as (t & Hc & Hok). eauto.
Qed.

Lemma in_ptrs_nth act j q : nth_error act j = Some (Some (Some q)) -> In q (ptrs act).
Proof. intros H. apply nth_error_In in H. apply in_flat_map. eexists. split; [exact H|]. cbn. auto. Qed.

Lemma ext_arg h other s : (match s with Some s => str_ok s | None => True end) -> arg_means h other (ext s) s.
Proof. destruct s as [s|]; cbn; auto. intros [H _]. auto. Qed.

Lemma step_spec junk h sa l o l' x : inv h sa l -> cap_ok sa -> (Z.of_nat (length l) <= 2 ^ 29)%Z ->
  op_ok o -> sa_spec l o = Some (l', x) ->
  exists h' sa', sa_step junk h sa o = Ok (h', sa', x) /\ inv h' sa' l' /\ cap_ok sa' /\
    (length l' <= S (length l) \/ (Z.of_nat (length l') <= 2 ^ 28)%Z).
Proof.
  intros Hinv Hcap Hl Hok Hsp. pose proof (inv_size _ _ _ Hinv) as Hs.
  destruct o as [s|j|t|n|i s|i j|i t|s|i]; cbn [sa_spec op_ok] in Hsp, Hok; cbn [sa_step].
  - injection Hsp as <- <-. destruct (append_spec h sa l (ext s) s Hinv Hcap Hl) as (h' & sa' & E & Hi & Hc).
    { apply ext_arg. destruct s; auto. }
    rewrite E. cbn [bind]. do 2 eexists. split; [reflexivity|]. split; [exact Hi|]. split; [exact Hc|].
    left. rewrite app_length. cbn. lia.
  - destruct (nth_error l j) as [e|] eqn:Ej; [|discriminate]. injection Hsp as <- <-.
    destruct (get_spec h sa l j e Hinv Ej) as (p & Eg & Hr & Hn). rewrite Eg. cbn [bind].
    destruct (append_spec h sa l (ptr p) e Hinv Hcap Hl) as (h' & sa' & E & Hi & Hc).
    { apply slot_rep_arg; auto. intros q ->. eapply in_ptrs_nth; eauto. }
    rewrite E. cbn [bind]. do 2 eexists. split; [reflexivity|]. split; [exact Hi|]. split; [exact Hc|].
    left. rewrite app_length. cbn. lia.
  - injection Hsp as <- <-. destruct (appendf_spec junk h sa l t Hinv Hcap Hl Hok) as (h' & sa' & E & Hi & Hc).
    rewrite E. cbn [bind]. do 2 eexists. split; [reflexivity|]. split; [exact Hi|]. split; [exact Hc|].
    left. rewrite app_length. cbn. lia.
  - injection Hsp as <- <-. destruct (resize_spec h sa l n Hinv) as (h' & sa' & E & Hi & Hc & _); try lia; auto.
    rewrite E. cbn [bind]. do 2 eexists. split; [reflexivity|]. split; [exact Hi|]. split; [exact Hc|].
    right. rewrite app_length, firstn_length, repeat_length. lia.
  - destruct (Nat.ltb_spec i (length l)) as [Hlt|]; [|discriminate]. injection Hsp as <- <-.
    destruct (set_spec h sa l i (ext s) s Hinv Hlt) as (h' & sa' & E & Hi & H1 & H2).
    { intros. apply ext_arg. destruct s; auto. }
    rewrite E. cbn [bind]. do 2 eexists. split; [reflexivity|]. split; [exact Hi|].
    split; [unfold cap_ok in *; rewrite H2; auto|]. left. rewrite put_length by auto. lia.
  - destruct (nth_error l j) as [e|] eqn:Ej; [|discriminate].
    destruct ((i <? length l) && negb (i =? j)) eqn:Ec; [|discriminate]. injection Hsp as <- <-.
    destruct (get_spec h sa l j e Hinv Ej) as (p & Eg & Hr & Hn). rewrite Eg. cbn [bind].
    destruct (set_spec h sa l i (ptr p) e Hinv) as (h' & sa' & E & Hi & H1 & H2); [lia| |].
    { intros a sl b spare Hel Ha Hsz. apply slot_rep_arg; auto. intros q ->.
      assert (firstn (size sa) (elems sa) = a ++ sl :: b) as Ef.
      { rewrite Hel. change (a ++ sl :: b ++ spare) with (a ++ (sl :: b) ++ spare). rewrite app_assoc.
        assert (size sa = length (a ++ sl :: b)) as -> by (rewrite app_length; cbn [length]; lia).
        rewrite firstn_app, Nat.sub_diag, firstn_all. cbn [firstn]. apply app_nil_r. }
      rewrite Ef in Hn. apply in_flat_map. exists (Some (Some q)). split; [|cbn; auto].
      destruct (Nat.lt_ge_cases j (length a)) as [Hj|Hj].
      - rewrite nth_error_app1 in Hn by lia. apply nth_error_In in Hn. apply in_or_app; auto.
      - rewrite nth_error_app2 in Hn by lia. destruct (j - length a) as [|k] eqn:Ek; [lia|].
        cbn in Hn. apply nth_error_In in Hn. apply in_or_app; auto. }
    rewrite E. cbn [bind]. do 2 eexists. split; [reflexivity|]. split; [exact Hi|].
    split; [unfold cap_ok in *; rewrite H2; auto|]. left. rewrite put_length by lia. lia.
  - destruct (Nat.ltb_spec i (length l)) as [Hlt|]; [|discriminate]. injection Hsp as <- <-.
    destruct (setf_spec junk h sa l i t Hinv Hlt Hok) as (h' & sa' & E & Hi & H1 & H2).
    rewrite E. cbn [bind]. do 2 eexists. split; [reflexivity|]. split; [exact Hi|].
    split; [unfold cap_ok in *; rewrite H2; auto|]. left. rewrite put_length by auto. lia.
  - destruct (first_index s l 0) as [z|] eqn:Ez; [|discriminate]. injection Hsp as <- <-.
    rewrite (find_spec h sa l s z Hinv Ez). cbn [bind]. do 2 eexists. split; [reflexivity|]. auto.
  - destruct (nth_error l i) as [e|] eqn:Ei; [|discriminate]. injection Hsp as <- <-.
    destruct (get_spec h sa l i e Hinv Ei) as (p & Eg & Hr & Hn). rewrite Eg. cbn [bind].
    destruct p as [q|], e as [s|]; try contradiction Hr.
    + rewrite (elem_str_rep h q s Hr). cbn [bind]. do 2 eexists. split; [reflexivity|]. auto.
    + do 2 eexists. split; [reflexivity|]. auto.
Qed.

Lemma run_spec junk : forall os h sa l l' xs k, inv h sa l -> cap_ok sa ->
  (Z.of_nat (length l) <= 2 ^ 28 + k)%Z -> (0 <= k)%Z -> (k + Z.of_nat (length os) <= 2 ^ 28)%Z ->
  Forall op_ok os -> sa_spec_run l os = Some (l', xs) ->
  exists h' sa', sa_run junk h sa os = Ok (h', sa', xs) /\ inv h' sa' l' /\ cap_ok sa'.
Proof.
  induction os as [|o os IH]; intros h sa l l' xs k Hinv Hcap Hl Hk Hlen HF Hsp.
  - cbn in Hsp. injection Hsp as <- <-. exists h, sa. cbn. auto.
  - cbn [sa_spec_run] in Hsp. destruct (sa_spec l o) as [[l1 x]|] eqn:E1; [|discriminate].
    destruct (sa_spec_run l1 os) as [[l2 ys]|] eqn:E2; [|discriminate]. injection Hsp as <- <-.
    cbn [length] in Hlen.
    destruct (step_spec junk h sa l o l1 x) as (h1 & sa1 & Es & Hi1 & Hc1 & Hb1); auto; [lia|apply (Forall_inv HF)|].
    cbn [sa_run]. rewrite Es. cbn [bind].
    destruct (IH h1 sa1 l1 l2 ys (k + 1)%Z) as (h2 & sa2 & Er & Hi2 & Hc2); auto; try lia.
    { apply (Forall_inv_tail HF). }
    rewrite Er. cbn [bind]. eauto 10.
Qed.

Lemma inv_init h : (forall p, cell h p = None) -> inv h nx_string_array_alloc [].
Proof.
  intros H. exists [], (repeat None 2). split; [reflexivity|]. split; [reflexivity|].
  split; [constructor|]. split; [constructor|].
  intros p. rewrite H. cbn. split; [congruence|intros []].
Qed.

(** Releasing the array frees every string. *)
Lemma free_loop_spec b : forall h a spare l,
  Forall2 (slot_rep h) b l -> NoDup (ptrs b) ->
  exists h', for_each (free_step (a ++ b ++ spare)) (seq (length a) (length b)) h = Ok h' /\
    (forall q, cell h' q = if in_dec Nat.eq_dec q (ptrs b) then None else cell h q).
Proof.
  induction b as [|sl b IH]; intros h a spare l HF Hnd.
  - exists h. cbn. auto.
  - inversion HF as [|? e ? l' Hs HF' E1 E2]; subst. cbn [length seq for_each]. unfold free_step at 1.
    cbn [app]. rewrite slot_get_mid. destruct (free_slot h sl e Hs) as (h1 & E & Hlen & Hcell).
    destruct sl as [p|]; [|contradiction Hs]. cbn [bind] in *. rewrite E. cbn [bind].
    cbn [ptrs flat_map] in Hnd.
    assert (Forall2 (slot_rep h1) b l') as HF1.
    { eapply reps_ext; [|exact HF']. intros q Hq. rewrite Hcell. destruct (in_dec Nat.eq_dec q (slot_ptr (Some p))) as [Hi|]; auto.
      exfalso. apply NoDup_app_iff in Hnd as (_ & _ & Hd). apply (Hd q); auto. }
    destruct (IH h1 (a ++ [Some p]) spare l' HF1) as (h2 & E2 & Hcell2).
    { apply NoDup_app_iff in Hnd. apply Hnd. }
    rewrite app_length in E2. cbn [length] in E2. replace (length a + 1) with (S (length a)) in E2 by lia.
    rewrite <- !app_assoc in E2. cbn [app] in E2.
    exists h2. split; [exact E2|].
    intros q. rewrite Hcell2, Hcell. cbn [ptrs flat_map].
    change (flat_map slot_ptr b) with (ptrs b).
    destruct (in_dec Nat.eq_dec q (ptrs b)) as [H1|H1], (in_dec Nat.eq_dec q (slot_ptr (Some p))) as [H2|H2],
      (in_dec Nat.eq_dec q (slot_ptr (Some p) ++ ptrs b)) as [H3|H3]; auto; rewrite in_app_iff in H3; tauto.
Qed.

Lemma free_spec h sa l : inv h sa l -> exists h', nx_string_array_free h sa = Ok h' /\ forall p, cell h' p = None.
Proof.
  intros (act & spare & Eel & Esz & HF & Hnd & Hlive). unfold nx_string_array_free. rewrite Eel, Esz.
  destruct (free_loop_spec act h [] spare l HF Hnd) as (h' & E & Hc). exists h'. split; [exact E|].
  intros p. rewrite Hc. destruct (in_dec Nat.eq_dec p (ptrs act)) as [|Hn]; auto.
  destruct (cell h p) eqn:Ec; auto. exfalso. apply Hn, Hlive. congruence.
Qed.

(** *** Serialization *)
Definition sa_image (ls : list (list N)) : list N :=
  int_bytes (Z.of_nat (length ls)) ++ flat_map nx_strwrite ls.

Lemma write_loop_spec h b : forall a spare ls out,
  Forall2 (slot_rep h) b (map Some ls) ->
  for_each (write_step h (a ++ b ++ spare)) (seq (length a) (length b)) out = Ok (out ++ flat_map nx_strwrite ls).
Proof.
  induction b as [|sl b IH]; intros a spare ls out HF.
  - destruct ls; [|inversion HF]. cbn. rewrite app_nil_r. reflexivity.
  - destruct ls as [|s ls]; [inversion HF|]. cbn [map] in HF. inversion HF as [|? ? ? ? Hs HF']; subst.
    cbn [length seq for_each]. unfold write_step at 1. cbn [app]. rewrite slot_get_mid.
    destruct sl as [[p|]|]; try contradiction Hs. cbn [bind]. rewrite (elem_str_rep h p s Hs). cbn [bind].
    specialize (IH (a ++ [Some (Some p)]) spare ls (out ++ nx_strwrite s) HF'). rewrite app_length in IH. cbn [length] in IH.
    replace (length a + 1) with (S (length a)) in IH by lia. rewrite <- !app_assoc in IH. cbn [app] in IH.
    rewrite IH. cbn [flat_map]. rewrite <- ?app_assoc. reflexivity.
Qed.

Lemma write_spec h sa ls : inv h sa (map Some ls) -> nx_string_array_write h sa = Ok (sa_image ls).
Proof.
  intros (act & spare & Eel & Esz & HF & _). pose proof (Forall2_length _ _ _ HF) as HL. rewrite map_length in HL.
  unfold nx_string_array_write. rewrite Eel, Esz. rewrite (write_loop_spec h act [] spare ls _ HF).
  unfold sa_image. rewrite HL. reflexivity.
Qed.

Definition big_ok (s : list N) : Prop := cstr_ok s /\ (N.of_nat (length s) + 1 < 2 ^ 64)%N.

Lemma slot_block h sl e : slot_rep h sl e -> exists p b,
  sl = Some p /\ (match p with None => Ok [] | Some q => hget h q end) = Ok b.
Proof.
  destruct sl as [[p|]|], e as [s|]; intros H; try contradiction H.
  - destruct H as (t & Hc & _). exists (Some p), (s ++ 0%N :: t). split; auto. apply hget_cell; auto.
  - exists None, []. auto.
Qed.

Lemma strwrite_length s : length (nx_strwrite s) = 8 + length s.
Proof. unfold nx_strwrite. rewrite app_length, size_bytes_length. reflexivity. Qed.

Lemma read_loop_spec junk rest : forall ls b a spare h la lb,
  rep h (a ++ b) (la ++ lb) -> length la = length a -> length b = length ls -> Forall big_ok ls ->
  exists h' b', read_loop junk (seq (length a) (length b)) h (a ++ b ++ spare) (flat_map nx_strwrite ls ++ rest) =
    Ok (0%Z, h', a ++ b' ++ spare, rest) /\ length b' = length b /\ rep h' (a ++ b') (la ++ map Some ls).
Proof.
  induction ls as [|s ls IH]; intros b a spare h la lb Hrep Hla Hb HF.
  - destruct b; [|discriminate]. exists h, []. cbn. split; [reflexivity|]. split; [reflexivity|].
    pose proof (Forall2_length _ _ _ (proj1 Hrep)) as HL. rewrite !app_length in HL. cbn in HL.
    destruct lb; [exact Hrep|cbn in HL; lia].
  - destruct b as [|sl b]; [discriminate|].
    destruct (rep_split h a sl b _ Hrep) as (la' & e & lb' & El & Hla' & HFa & Hs & HFb).
    apply app_eq_app_l in El as [<- ->]; [|congruence].
    destruct (Forall_inv HF) as [Hok Hlen].
    cbn [length seq read_loop]. cbn [app]. rewrite slot_get_mid.
    destruct (slot_block h sl e Hs) as (p & blk & -> & Eb). cbn [bind]. rewrite Eb. cbn [bind flat_map].
    rewrite <- app_assoc. rewrite app_length, strwrite_length. cbn [Nat.ltb Nat.leb Nat.add].
    destruct (strread_strwrite junk blk 0%N s (flat_map nx_strwrite ls ++ rest) Hok Hlen ltac:(lia)) as (b' & Er & t & ->).
    rewrite Er. cbn [bind].
    destruct (free_slot h (Some p) e Hs) as (h1 & Ef & Hlen1 & Hcell). cbn [bind] in Ef. rewrite Ef. cbn [bind halloc].
    rewrite aset_mid. cbn [bind Z.eqb].
    pose proof (replace_null h h1 a (Some p) b la e lb' Hrep Hla Hcell) as Hnull.
    pose proof (rep_alloc h1 a b la lb' s t Hnull Hla Hok) as Hnew.
    destruct (IH b (a ++ [Some (Some (length h1))]) spare (h1 ++ [Some (s ++ 0%N :: t)]) (la ++ [Some s]) lb') as (h2 & b2 & E2 & Hb2 & Hrep2).
    + rewrite <- !app_assoc. exact Hnew.
    + rewrite !app_length. cbn. lia.
    + cbn in Hb. lia.
    + apply (Forall_inv_tail HF).
    + rewrite app_length in E2. cbn [length] in E2. replace (length a + 1) with (S (length a)) in E2 by lia.
      rewrite <- !app_assoc in E2. cbn [app] in E2. rewrite <- !app_assoc in Hrep2. cbn [app] in Hrep2.
      exists h2, (Some (Some (length h1)) :: b2). cbn [app]. rewrite E2.
      split; [reflexivity|]. split; [cbn; lia|]. exact Hrep2.
Qed.

Lemma read_spec junk h sa l ls rest : inv h sa l -> cap_ok sa -> (Z.of_nat (length l) <= 2 ^ 29)%Z ->
  (Z.of_nat (length ls) <= 2 ^ 29)%Z -> Forall big_ok ls ->
  exists h' sa', nx_string_array_read junk h sa (sa_image ls ++ rest) = Ok (0%Z, h', sa', rest) /\
    inv h' sa' (map Some ls) /\ cap_ok sa'.
Proof.
  intros Hinv Hcap Hl Hls HF. pose proof (inv_size _ _ _ Hinv) as Hs.
  unfold nx_string_array_read, sa_image. rewrite <- app_assoc. rewrite (take_app 4) by apply int_bytes_length.
  rewrite int_bytes_length. cbn [Nat.ltb Nat.leb].
  rewrite int_bytes_decode by (unfold INT_MIN, INT_MAX; lia).
  destruct (resize_spec h sa l (length ls) Hinv) as (h1 & sa1 & E1 & Hi1 & Hc1 & _); try lia; auto.
  rewrite E1. cbn [bind]. destruct Hi1 as (act & spare & Eel & Esz & Hrep). rewrite Eel, Esz.
  pose proof (Forall2_length _ _ _ (proj1 Hrep)) as HL.
  destruct (read_loop_spec junk rest ls act [] spare h1 [] _ Hrep eq_refl) as (h2 & b2 & E2 & Hb2 & Hrep2); auto.
  { rewrite app_length, firstn_length, repeat_length in HL. lia. }
  cbn [length app] in E2. rewrite E2. cbn [bind]. do 2 eexists. split; [reflexivity|]. split.
  - exists b2, spare. cbn [elems size]. split; [auto|]. split; [congruence|]. exact Hrep2.
  - unfold cap_ok in *. cbn [elems]. rewrite Eel, app_length in Hc1. rewrite app_length. lia.
Qed.

Lemma read_loop_truncated junk : forall ls b a spare h la lb k,
  rep h (a ++ b) (la ++ lb) -> length la = length a -> length b = length ls -> Forall big_ok ls ->
  k < length (flat_map nx_strwrite ls) ->
  exists h' el' st', read_loop junk (seq (length a) (length b)) h (a ++ b ++ spare) (firstn k (flat_map nx_strwrite ls)) =
    Ok ((-1)%Z, h', el', st').
Proof.
  induction ls as [|s ls IH]; intros b a spare h la lb k Hrep Hla Hb HF Hk; [cbn in Hk; lia|].
  destruct b as [|sl b]; [discriminate|].
  destruct (rep_split h a sl b _ Hrep) as (la' & e & lb' & El & Hla' & HFa & Hs & HFb).
  apply app_eq_app_l in El as [<- ->]; [|congruence].
  destruct (Forall_inv HF) as [Hok Hlen].
  cbn [length seq read_loop]. cbn [app]. rewrite slot_get_mid.
  destruct (slot_block h sl e Hs) as (p & blk & -> & Eb). cbn [bind]. rewrite Eb. cbn [bind flat_map].
  cbn [flat_map] in Hk. rewrite app_length in Hk. rewrite firstn_app.
  destruct (free_slot h (Some p) e Hs) as (h1 & Ef & Hlen1 & Hcell). cbn [bind] in Ef.
  destruct (Nat.lt_ge_cases k (length (nx_strwrite s))) as [Hks|Hks].
  - replace (k - length (nx_strwrite s)) with 0 by lia. change (firstn 0 _) with (@nil N). rewrite app_nil_r.
    destruct (Nat.ltb_spec (length (firstn k (nx_strwrite s))) 8) as [H8|H8]; [eauto 10|].
    destruct (strread_truncated junk blk 0%N s k Hok Hlen ltac:(lia) Hks) as (b' & st' & Er). rewrite Er. cbn [bind].
    rewrite Ef. cbn [bind halloc]. rewrite aset_mid. cbn [bind Z.eqb]. eauto 10.
  - rewrite (firstn_all2 (nx_strwrite s)) by lia.
    match goal with |- context [(?x <? 8)] => replace (x <? 8) with false by (rewrite app_length, strwrite_length; lia) end.
    destruct (strread_strwrite junk blk 0%N s (firstn (k - length (nx_strwrite s)) (flat_map nx_strwrite ls)) Hok Hlen ltac:(lia)) as (b' & Er & t & ->).
    rewrite Er. cbn [bind]. rewrite Ef. cbn [bind halloc].
    rewrite aset_mid. cbn [bind Z.eqb].
    pose proof (replace_null h h1 a (Some p) b la e lb' Hrep Hla Hcell) as Hnull.
    pose proof (rep_alloc h1 a b la lb' s t Hnull Hla Hok) as Hnew.
    destruct (IH b (a ++ [Some (Some (length h1))]) spare (h1 ++ [Some (s ++ 0%N :: t)]) (la ++ [Some s]) lb' (k - length (nx_strwrite s)))
      as (h2 & b2 & st2 & E2).
    + rewrite <- !app_assoc. exact Hnew.
    + rewrite !app_length. cbn. lia.
    + cbn in Hb. lia.
    + apply (Forall_inv_tail HF).
    + lia.
    + rewrite app_length in E2. cbn [length] in E2. replace (length a + 1) with (S (length a)) in E2 by lia.
      rewrite <- !app_assoc in E2. cbn [app] in E2. rewrite E2. eauto.
Qed.

Lemma read_truncated junk h sa l ls k : inv h sa l -> cap_ok sa -> (Z.of_nat (length l) <= 2 ^ 29)%Z ->
  (Z.of_nat (length ls) <= 2 ^ 29)%Z -> Forall big_ok ls -> k < length (sa_image ls) ->
  exists h' sa' st', nx_string_array_read junk h sa (firstn k (sa_image ls)) = Ok ((-1)%Z, h', sa', st').
Proof.
  intros Hinv Hcap Hl Hls HF Hk. pose proof (inv_size _ _ _ Hinv) as Hs.
  unfold nx_string_array_read, sa_image in *. rewrite app_length, int_bytes_length in Hk.
  rewrite firstn_app, int_bytes_length.
  destruct (Nat.lt_ge_cases k 4) as [H4|H4].
  - replace (k - 4) with 0 by lia. change (firstn 0 _) with (@nil N). rewrite app_nil_r. unfold take.
    rewrite !firstn_length, int_bytes_length. replace (Nat.min 4 (Nat.min k 4) <? 4) with true by lia. eauto.
  - rewrite (firstn_all2 (int_bytes _)) by (rewrite int_bytes_length; lia).
    rewrite (take_app 4) by apply int_bytes_length. rewrite int_bytes_length. cbn [Nat.ltb Nat.leb].
    rewrite int_bytes_decode by (unfold INT_MIN, INT_MAX; lia).
    destruct (resize_spec h sa l (length ls) Hinv) as (h1 & sa1 & E1 & Hi1 & Hc1 & _); try lia; auto.
    rewrite E1. cbn [bind]. destruct Hi1 as (act & spare & Eel & Esz & Hrep). rewrite Eel, Esz.
    pose proof (Forall2_length _ _ _ (proj1 Hrep)) as HL.
    destruct (read_loop_truncated junk ls act [] spare h1 [] _ (k - 4) Hrep eq_refl) as (h2 & b2 & st2 & E2); auto.
    { rewrite app_length, firstn_length, repeat_length in HL. lia. }
    { lia. }
    cbn [length app] in E2. rewrite E2. cbn [bind]. eauto.
Qed.

(** *** Observing the contents through the API *)
Lemma gets_spec junk h sa l : inv h sa l -> forall k n, k + n = length l ->
  sa_run junk h sa (map SaGet (seq k n)) = Ok (h, sa, map OutStr (skipn k l)).
Proof.
  intros Hinv k n. revert k. induction n as [|n IH]; intros k Hk.
  - cbn. rewrite skipn_all2 by lia. reflexivity.
  - cbn [seq map sa_run sa_step].
    destruct (nth_error l k) as [e|] eqn:Ek; [|apply nth_error_None in Ek; lia].
    destruct (get_spec h sa l k e Hinv Ek) as (p & Eg & Hr & Hn). rewrite Eg. cbn [bind].
    assert (skipn k l = e :: skipn (S k) l) as ->.
    { clear -Ek. revert k Ek; induction l as [|x l IH]; intros [|k] E; cbn in *; try discriminate; [congruence|]. apply IH; auto. }
    destruct p as [q|], e as [s|]; try contradiction Hr.
    + rewrite (elem_str_rep h q s Hr). cbn [bind]. rewrite IH by lia. reflexivity.
    + cbn [bind]. rewrite IH by lia. reflexivity.
Qed.

Lemma self_set_ub h sa l i s : inv h sa l -> nth_error l i = Some (Some s) ->
  (let* p := nx_string_array_get sa (Z.of_nat i) in nx_string_array_set h sa (Z.of_nat i) (ptr p)) = UB.
Proof.
  intros Hinv Hi. destruct (get_spec h sa l i _ Hinv Hi) as (p & Eg & Hr & Hn). rewrite Eg. cbn [bind].
  destruct p as [q|]; [|contradiction Hr]. unfold nx_string_array_set.
  pose proof Eg as Eg2. unfold nx_string_array_get in Eg2.
  destruct (_ && _); [|discriminate]. rewrite Eg2. cbn [bind ptr].
  unfold nx_strredup, nx_free. destruct Hr as (t & Hc & _). rewrite (hfree_ok h q _ Hc). cbn [bind].
  unfold hget. pose proof (cell_lset h q q None (cell_lt _ _ _ Hc)) as Hd. rewrite Nat.eqb_refl in Hd.
  unfold cell in Hd. destruct (nth_error (lset h q None) q) as [[x|]|]; try discriminate; reflexivity.
Qed.
