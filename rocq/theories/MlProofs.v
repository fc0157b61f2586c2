(** Histories on match lists. *)
From Verif Require Import Base BaseLemmas ProjModel GeoSpec ProjSpec GeoProofs NormProofs MlModel MlSpec.
From Coq Require Import Permutation Sorted Lra Lia.
Local Open Scope nat_scope.

Definition linked (st : list stats) (o : nat * list pmatch) (m : mlist) : Prop := snd o = fst m /\ nth_error st (fst o) = Some (snd m).
Definition winv (w : world) (A : list mlist) : Prop := holds w A /\ NoDup (map fst (w_objs w)).

Lemma mid_get {X} (a : list X) x b : aget (a ++ x :: b) (length a) = Ok x.
Proof. unfold aget. rewrite nth_error_app2, Nat.sub_diag by lia. reflexivity. Qed.
Lemma mid_set {X} (a : list X) x b y : lset (a ++ x :: b) (length a) y = a ++ y :: b.
Proof. induction a as [|z a IH]; cbn; [reflexivity|]. f_equal. exact IH. Qed.
Lemma F2_split w A m B : winv w (A ++ m :: B) -> exists OA o OB, w_objs w = OA ++ o :: OB /\ length OA = length A /\
  Forall2 (linked (w_stats w)) OA A /\ linked (w_stats w) o m /\ Forall2 (linked (w_stats w)) OB B /\ NoDup (map fst (OA ++ o :: OB)).
Proof.
  intros [H N]. unfold holds in H. apply Forall2_app_inv_r in H as (OA & R & H1 & H2 & E). inversion H2 as [|o m' OB B' Ho HB]; subst. exists OA, o, OB. rewrite E in *.
  split; [auto|]. split; [eapply Forall2_length; exact H1|]. split; [exact H1|]. split; [exact Ho|]. split; [exact HB|exact N].
Qed.
Lemma link_frame st st' OA A : (forall o, In o OA -> nth_error st' (fst o) = nth_error st (fst o)) -> Forall2 (linked st) OA A -> Forall2 (linked st') OA A.
Proof.
  intros H F. induction F as [|o m OA A Ho F IH]; [constructor|]. constructor.
  - destruct Ho as [H1 H2]. split; [auto|]. rewrite H by (left; auto). auto.
  - apply IH. intros x Hx. apply H. right. auto.
Qed.
Lemma handles_neq OA (o : nat * list pmatch) OB x : NoDup (map fst (OA ++ o :: OB)) -> In x OA \/ In x OB -> fst x <> fst o.
Proof.
  rewrite map_app. cbn. intros N Hx E. apply NoDup_remove_2 in N. apply N, in_or_app. rewrite <- E. destruct Hx; [left|right]; apply in_map; auto.
Qed.
Lemma set_obj st OA o OB A B l' s' : Forall2 (linked st) OA A -> Forall2 (linked st) OB B -> fst o < length st -> NoDup (map fst (OA ++ o :: OB)) ->
  winv (W (lset st (fst o) s') (OA ++ (fst o, l') :: OB)) (A ++ (l', s') :: B).
Proof.
  intros HA HB Hl N. split.
  - unfold holds. cbn [w_objs w_stats]. apply Forall2_app; [|constructor].
    + apply (link_frame st); [|auto]. intros x Hx. apply nth_error_lset_neq. apply not_eq_sym, (handles_neq OA o OB x N). auto.
    + split; [reflexivity|]. cbn [fst snd]. apply nth_error_lset_eq. auto.
    + apply (link_frame st); [|auto]. intros x Hx. apply nth_error_lset_neq. apply not_eq_sym, (handles_neq OA o OB x N). auto.
  - cbn [w_objs]. rewrite map_app in *. exact N.
Qed.
Lemma keep_obj st OA o OB A B l' s : Forall2 (linked st) OA A -> Forall2 (linked st) OB B -> nth_error st (fst o) = Some s -> NoDup (map fst (OA ++ o :: OB)) ->
  winv (W st (OA ++ (fst o, l') :: OB)) (A ++ (l', s) :: B).
Proof.
  intros HA HB Hl N. split; [unfold holds; cbn [w_objs w_stats]; apply Forall2_app; [auto|constructor; [split; auto|auto]]|]. cbn [w_objs]. rewrite map_app in *. exact N.
Qed.
Lemma new_obj w A l s : winv w A -> winv (W (w_stats w ++ [s]) (w_objs w ++ [(length (w_stats w), l)])) (A ++ [(l, s)]).
Proof.
  intros [H N]. assert (forall o, In o (w_objs w) -> fst o < length (w_stats w)) as Hl.
  { intros o Ho. unfold holds in H. clear N. induction H as [|o' m OA A' Ho' F IH]; [destruct Ho|]. destruct Ho as [->|Ho]; [|auto]. destruct Ho' as [_ E]. apply nth_error_Some. congruence. }
  split.
  - unfold holds. cbn [w_objs w_stats]. apply Forall2_app.
    + apply (link_frame (w_stats w)); [|exact H]. intros o Ho. apply nth_error_app1. auto.
    + constructor; [|constructor]. split; [reflexivity|]. cbn [fst snd]. rewrite nth_error_app2, Nat.sub_diag by lia. reflexivity.
  - cbn [w_objs]. rewrite map_app. cbn. apply NoDup_app_iff. split; [auto|]. split; [repeat constructor; intros []|]. intros x Hx [<-|[]]. apply in_map_iff in Hx as (o & E & Ho). apply Hl in Ho. lia.
Qed.

Lemma normalize_spec l s l' : normalized l s l' -> normalize_matches l = (s, l').
Proof.
  intros (H1 & H2 & H3 & H4 & H5). pose proof (norm_stats l) as E. pose proof (norm_list l) as L. destruct (normalize_matches l) as [st0 l0]. cbn [fst snd] in E, L.
  assert (st0 = s) as ->.
  { destruct st0 as [a ap b bp], s as [m mp d dp]. cbn [sm smp sd sdp] in *. injection E as E1 E2 E3 E4. rewrite <- H1 in E1. rewrite <- H2 in E2. subst a ap. f_equal; [rewrite H3, E3|rewrite H4, E4]; reflexivity. }
  f_equal. rewrite L, H5. reflexivity.
Qed.
Lemma denormalize_spec l s l' : denormalized l s l' -> denormalize_matches s l = l'.
Proof. intros ->. reflexivity. Qed.

Lemma do_ok sort w A c A' : winv w A -> effect sort A c A' -> exists w', ml_do sort w c = Ok w' /\ winv w' A'.
Proof.
  intros Hw He. destruct He as [A|A B l s|A B l s|A B l s c|A B l1 c l2 s b|A B l s l' s' Hs Hs' Hn|A B l s l' Hd|A B l s]; cbn [ml_do].
  - eexists. split; [reflexivity|]. apply new_obj. auto.
  - pose proof Hw as Hw'. apply F2_split in Hw' as (OA & o & OB & E & Hl & HA & [Ho1 Ho2] & HB & N). unfold ml_clone. rewrite E, <- Hl, mid_get. cbn [bind]. unfold aget. rewrite Ho2. cbn [bind snd fst] in *.
    eexists. split; [reflexivity|]. rewrite <- E, Ho1. rewrite app_comm_cons, app_assoc. apply new_obj. auto.
  - apply F2_split in Hw as (OA & o & OB & E & Hl & HA & [Ho1 Ho2] & HB & N). unfold ml_clear. rewrite E, <- Hl, mid_get. cbn [bind]. assert (fst o < length (w_stats w)) as Hlt by (apply nth_error_Some; congruence). rewrite aset_lt by auto. cbn [bind].
    eexists. split; [reflexivity|]. rewrite mid_set. apply set_obj; auto.
  - apply F2_split in Hw as (OA & o & OB & E & Hl & HA & [Ho1 Ho2] & HB & N). unfold ml_add. rewrite E, <- Hl, mid_get. cbn [bind]. eexists. split; [reflexivity|]. rewrite mid_set, Ho1. cbn [fst snd] in *. apply keep_obj; auto.
  - apply F2_split in Hw as (OA & o & OB & E & Hl & HA & [Ho1 Ho2] & HB & N). unfold ml_set_inlier. rewrite E, <- Hl, mid_get. cbn [bind]. rewrite Ho1. cbn [fst snd] in *.
    unfold zget, zset. replace (Z.of_nat (length l1) <? 0)%Z with false by lia. rewrite Nat2Z.id, mid_get. cbn [bind]. rewrite aset_lt by (rewrite app_length; cbn; lia). cbn [bind]. rewrite mid_set.
    eexists. split; [reflexivity|]. rewrite mid_set. apply keep_obj; auto.
  - apply F2_split in Hw as (OA & o & OB & E & Hl & HA & [Ho1 Ho2] & HB & N). unfold ml_normalize. rewrite E, <- Hl, mid_get. cbn [bind]. rewrite Ho1. cbn [fst snd] in *. rewrite (normalize_spec _ _ _ Hn).
    assert (fst o < length (w_stats w)) as Hlt by (apply nth_error_Some; congruence). rewrite aset_lt by auto. cbn [bind]. eexists. split; [reflexivity|]. rewrite mid_set. apply set_obj; auto.
  - apply F2_split in Hw as (OA & o & OB & E & Hl & HA & [Ho1 Ho2] & HB & N). unfold ml_denormalize. rewrite E, <- Hl, mid_get. cbn [bind]. rewrite Ho1. cbn [fst snd] in *. unfold aget. rewrite Ho2. cbn [bind]. rewrite (denormalize_spec _ _ _ Hd).
    assert (fst o < length (w_stats w)) as Hlt by (apply nth_error_Some; congruence). rewrite aset_lt by auto. cbn [bind]. eexists. split; [reflexivity|]. rewrite mid_set. apply set_obj; auto.
  - apply F2_split in Hw as (OA & o & OB & E & Hl & HA & [Ho1 Ho2] & HB & N). unfold ml_sort. rewrite E, <- Hl, mid_get. cbn [bind]. eexists. split; [reflexivity|]. rewrite mid_set, Ho1. cbn [fst snd] in *. apply keep_obj; auto.
Qed.
Lemma history_ok sort A cs A' : history sort A cs A' -> forall w, winv w A -> exists w', ml_run sort w cs = Ok w' /\ winv w' A'.
Proof.
  induction 1 as [A|A c A1 cs A2 He Hh IH]; intros w Hw; [exists w; auto|]. destruct (do_ok sort w A c A1 Hw He) as (w1 & E & Hw1). cbn [ml_run]. rewrite E. cbn [bind]. auto.
Qed.
Lemma winv_nil : winv (W [] []) [].
Proof. split; constructor. Qed.

(** ** Round trips *)
Lemma nth_mid {X} (A : list X) x B i : nth_error (A ++ x :: B) i = if i =? length A then Some x else nth_error (A ++ B) (if i <? length A then i else i - 1).
Proof.
  destruct (Nat.eqb_spec i (length A)) as [->|Hn]; [rewrite nth_error_app2, Nat.sub_diag by lia; reflexivity|]. destruct (Nat.ltb_spec i (length A)); [rewrite !nth_error_app1 by auto; reflexivity|].
  rewrite !nth_error_app2 by lia. replace (i - length A) with (S (i - 1 - length A)) by lia. reflexivity.
Qed.
Lemma map_unflag_mid l1 c l2 b : map unflagged (l1 ++ PM (mx c) (mxp c) (cost c) (sigma c) (sigmap c) (mid c) (midp c) b :: l2) = map unflagged (l1 ++ c :: l2).
Proof. rewrite !map_app. reflexivity. Qed.
Lemma effect_keep sort A c A' i l s : sorts sort -> effect sort A c A' -> harmless i c -> nth_error A i = Some (l, s) ->
  exists l', nth_error A' i = Some (l', s) /\ Permutation (map unflagged l) (map unflagged l').
Proof.
  intros Hso He Hh Hn. assert (i < length A) as Hi by (apply nth_error_Some; congruence).
  assert (forall (A B : list mlist) x y, nth_error (A ++ x :: B) i = Some (l, s) -> length A <> i -> nth_error (A ++ y :: B) i = Some (l, s)) as Hoth.
  { intros A0 B0 x y. rewrite !nth_mid. destruct (Nat.eqb_spec i (length A0)); [congruence|auto]. }
  destruct He as [A|A B l0 s0|A B l0 s0|A B l0 s0 c|A B l1 c l2 s0 b|A B l0 s0 l' s' Hs Hs' Hnm|A B l0 s0 l' Hd|A B l0 s0]; cbn [harmless] in Hh; try (solve [exists l; split; [apply Hoth with (1 := Hn); auto|auto]]).
  - exists l. rewrite nth_error_app1 by auto. auto.
  - exists l. rewrite app_comm_cons, app_assoc, nth_error_app1 by auto. auto.
  - destruct (Nat.eq_dec (length A) i) as [<-|Hne]; [|exists l; split; [apply Hoth with (1 := Hn); auto|auto]]. rewrite nth_mid, Nat.eqb_refl in Hn. injection Hn as <- <-.
    eexists. rewrite nth_mid, Nat.eqb_refl. split; [reflexivity|]. rewrite map_unflag_mid. auto.
  - destruct (Nat.eq_dec (length A) i) as [<-|Hne]; [|exists l; split; [apply Hoth with (1 := Hn); auto|auto]]. rewrite nth_mid, Nat.eqb_refl in Hn. injection Hn as <- <-.
    eexists. rewrite nth_mid, Nat.eqb_refl. split; [reflexivity|]. apply Permutation_map, Hso.
Qed.
Lemma history_keep sort A cs A' : sorts sort -> history sort A cs A' -> forall i l s, Forall (harmless i) cs -> nth_error A i = Some (l, s) ->
  exists l', nth_error A' i = Some (l', s) /\ Permutation (map unflagged l) (map unflagged l').
Proof.
  intros Hso. induction 1 as [A|A c A1 cs A2 He Hh IH]; intros i l s Hf Hn; [exists l; auto|]. apply Forall_cons_iff in Hf as [Hc Hf].
  destruct (effect_keep sort A c A1 i l s Hso He Hc Hn) as (l1 & H1 & P1). destruct (IH i l1 s Hf H1) as (l2 & H2 & P2). exists l2. split; [auto|]. eapply perm_trans; eauto.
Qed.
Lemma history_app sort A cs1 cs2 A' : history sort A (cs1 ++ cs2) A' -> exists A1, history sort A cs1 A1 /\ history sort A1 cs2 A'.
Proof.
  revert A. induction cs1 as [|c cs1 IH]; intros A H; [exists A; split; [constructor|auto]|]. inversion H as [|? ? A1 ? ? He Hh]; subst. destruct (IH A1 Hh) as (A2 & H1 & H2). exists A2. split; [econstructor; eauto|auto].
Qed.
Lemma norm_inv sort A i A' l s : effect sort A (MNormalize i) A' -> nth_error A i = Some (l, s) -> exists l' s', nth_error A' i = Some (l', s') /\ spread mx l /\ spread mxp l /\ normalized l s' l'.
Proof.
  intros He Hn. inversion He as [| | | | |A0 B l0 s0 l' s' Hs Hs' Hnm| |]; subst. rewrite nth_mid, Nat.eqb_refl in Hn. injection Hn as -> ->. exists l', s'. rewrite nth_mid, Nat.eqb_refl. auto.
Qed.
Lemma denorm_inv sort A i A' l s : effect sort A (MDenormalize i) A' -> nth_error A i = Some (l, s) -> exists l', nth_error A' i = Some (l', neutral) /\ denormalized l s l'.
Proof.
  intros He Hn. inversion He as [| | | | | |A0 B l0 s0 l' Hd|]; subst. rewrite nth_mid, Nat.eqb_refl in Hn. injection Hn as -> ->. exists l'. rewrite nth_mid, Nat.eqb_refl. auto.
Qed.
Lemma denorm_perm s l l' : Permutation (map unflagged l) (map unflagged l') -> Permutation (map unflagged (denormalize_matches s l)) (map unflagged (denormalize_matches s l')).
Proof.
  intros P. unfold denormalize_matches. rewrite !map_map. set (g := fun c => unflagged _). assert (forall x, map g x = map g (map unflagged x)) as E by (intros x; rewrite map_map; reflexivity).
  rewrite (E l), (E l'). apply Permutation_map. exact P.
Qed.
Lemma round_ok sort A cs A' i l s : sorts sort -> history sort A (MNormalize i :: cs ++ [MDenormalize i]) A' -> Forall (harmless i) cs -> nth_error A i = Some (l, s) ->
  exists l', nth_error A' i = Some (l', neutral) /\ Permutation (map unflagged l) (map unflagged l').
Proof.
  intros Hso H Hf Hn. inversion H as [|? ? A1 ? ? He Hh]; subst. destruct (norm_inv _ _ _ _ _ _ He Hn) as (l1 & s1 & N1 & S1 & S2 & Hnm). apply history_app in Hh as (A2 & Hh & Hd).
  destruct (history_keep sort A1 cs A2 Hso Hh i l1 s1 Hf N1) as (l2 & N2 & P2). inversion Hd as [|? ? A3 ? ? He3 Hh3]; subst. inversion Hh3; subst.
  destruct (denorm_inv _ _ _ _ _ _ He3 N2) as (l3 & N3 & D3). exists l3. split; [auto|]. apply denormalize_spec in D3. apply normalize_spec in Hnm. subst l3.
  pose proof (roundtrip l S1 S2) as R. rewrite Hnm in R. cbn [fst snd] in R. rewrite <- R at 1. apply denorm_perm. exact P2.
Qed.
