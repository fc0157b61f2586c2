From Verif Require Import Base BaseLemmas Heap MemModel MemSpec MemProofs PnmModel ImemModel ImemSpec.
From Coq Require Import Lia.
Local Open Scope nat_scope.

(** What the block operations do to the table of blocks. *)
Ltac inv_ok1 := match goal with
  | H : bind _ _ = Ok _ |- _ => let r := fresh "r" in let E := fresh "E" in let H' := fresh "H" in apply bind_ok in H; destruct H as (r & E & H'); rename H' into H
  | H : (let '(_, _) := ?r in _) = Ok _ |- _ => destruct r
  end.
Ltac inv_ok := repeat inv_ok1.
Lemma get_blk_ok m i b : get_blk m i = Ok b <-> nth_error (blks m) i = Some (Some b).
Proof. unfold get_blk. destruct (nth_error (blks m) i) as [[x|]|]; split; intros H; congruence. Qed.

Definition step_blks_post (m m' : mstate) (o : mop) : Prop :=
  match o with
  | MAlloc => blks m' = blks m ++ [Some nx_mem_block_alloc]
  | MFree i => blks m' = lset (blks m) i None
  | MRelease i => exists b, blks m' = lset (blks m) i (Some b) /\ bptr b = None
  | MResize i _ | MWrap i _ _ _ _ | MCopy i _ => exists b, blks m' = lset (blks m) i (Some b)
  | MSwap i j => exists b0 b1, nth_error (blks m) i = Some (Some b0) /\ nth_error (blks m) j = Some (Some b1) /\
                   blks m' = lset (lset (blks m) i (Some b1)) j (Some b0)
  | MSetZero _ | MStore _ _ _ | MLoad _ _ | XMalloc _ | XFree _ | XStore _ _ _ | XLoad _ _ => blks m' = blks m
  | _ => True
  end.
Lemma step_blks junk m o m' y : m_step false junk m o = Ok (m', y) -> step_blks_post m m' o.
Proof.
  destruct o; cbn; intros H; auto; inv_ok; try (injection H as <- <-); cbn; auto; try (eexists; reflexivity).
  - unfold nx_mem_block_release in E0. inv_ok. injection E0 as <- <-. eexists; split; reflexivity.
  - apply get_blk_ok in E, E0. exists r, r0. destruct r, r0. cbn. auto.
  - inv_ok. injection E0 as <- <-. apply get_blk_ok in E. apply lset_same; auto.
  - inv_ok. injection E0 as <- <-. apply get_blk_ok in E. apply lset_same; auto.
Qed.

Lemma block_nth s i b : block s i = Some b <-> nth_error (sblks s) i = Some (Some b).
Proof. unfold block. destruct (nth_error (sblks s) i) as [[x|]|]; split; intros H; congruence. Qed.

Lemma s_store_blks s i b off bs s' : s_store s i b off bs = Some s' ->
  exists b', sblks s' = lset (sblks s) i (Some b') /\ s_size b' = s_size b /\ s_cap b' = s_cap b.
Proof.
  destruct b as [n buf|k n c]; cbn.
  - destruct (overwrite buf off bs) as [l|] eqn:E; [|discriminate]. intros [= <-]. eexists; split; [reflexivity|]. split; [reflexivity|]. cbn.
    unfold overwrite in E. destruct (Nat.leb_spec (off + length bs) (length buf)); [|discriminate]. injection E as <-.
    rewrite !app_length, firstn_length, skipn_length. lia.
  - destruct bs; [intros [= <-]; eexists; split; [reflexivity|split; reflexivity]|].
    destruct (buffer s k); [|discriminate]. destruct (_ <=? c); [|discriminate]. destruct (overwrite _ _ _); [|discriminate].
    intros [= <-]. eexists; split; [reflexivity|split; reflexivity].
Qed.
Lemma s_resize_size s b n b' : s_resize s b n = Some b' -> s_size b' = n.
Proof. unfold s_resize. destruct (s_reserve s b n); [|discriminate]. intros [= <-]. apply s_set_size_size. Qed.

Definition spec_blks_post (s s' : sstate) (o : mop) : Prop :=
  match o with
  | MAlloc => sblks s' = sblks s ++ [Some (SOwned 0 [])]
  | MFree i => sblks s' = lset (sblks s) i None
  | MResize i n => exists b, sblks s' = lset (sblks s) i (Some b) /\ s_size b = n
  | MRelease i => sblks s' = lset (sblks s) i (Some (SOwned 0 []))
  | MWrap i _ n _ _ => exists b, sblks s' = lset (sblks s) i (Some b) /\ s_size b = n
  | MCopy i j => exists b sb, block s j = Some sb /\ sblks s' = lset (sblks s) i (Some b) /\ s_size b = s_size sb
  | MSetZero i | MStore i _ _ => exists b b', block s i = Some b /\ sblks s' = lset (sblks s) i (Some b') /\ s_size b' = s_size b
  | MSwap i j => exists b0 b1, block s i = Some b0 /\ block s j = Some b1 /\
                   sblks s' = lset (lset (sblks s) i (Some b1)) j (Some b0)
  | MLoad _ _ | XMalloc _ | XFree _ | XStore _ _ _ | XLoad _ _ => sblks s' = sblks s
  | _ => True
  end.
Ltac inv_some H := repeat match type of H with
  | match ?x with Some _ => _ | None => None end = Some _ => let E := fresh "E" in destruct x eqn:E; [|discriminate H]
  | (if ?x then _ else None) = Some _ => let E := fresh "E" in destruct x eqn:E; [|discriminate H]
  | (if ?x then None else _) = Some _ => let E := fresh "E" in destruct x eqn:E; [discriminate H|]
  end.
Lemma spec_blks s o s' x : m_spec s o = Some (s', x) -> spec_blks_post s s' o.
Proof.
  destruct o; cbn -[s_store s_resize s_bytes]; intros H; auto; inv_some H; try (injection H as <- <-); cbn; auto; try (eexists; split; reflexivity).
  - eexists; split; [reflexivity|]. eapply s_resize_size; eauto.
  - destruct own; injection H as <- <-; cbn; eexists; split; reflexivity.
  - eauto 6.
  - apply s_store_blks in E5 as (b' & -> & Hs & _). exists b', s1. repeat split; auto. rewrite Hs. eapply s_resize_size; eauto.
  - apply s_store_blks in E0 as (b' & -> & Hs & _). eauto 6.
  - apply s_store_blks in E0 as (b' & -> & Hs & _). eauto 6.
Qed.

(** The relation between the concrete and the specified images. *)
Definition hrel (m : mstate) (s : sstate) (i : nat) (g : ihdr) (sh : shape) : Prop :=
  g = mkH (sh_w sh) (sh_h sh) (sh_type sh) (sh_dt sh) (n_ch (sh_type sh)) (sh_stride sh) (h_data g) /\
  shape_ok sh = true /\
  exists b sb, nth_error (blks m) i = Some (Some b) /\ nth_error (sblks s) i = Some (Some sb) /\
    h_data g = bptr b /\ s_size sb = size_of sh.
Definition ohrel m s i (g : option ihdr) (sh : option shape) : Prop :=
  match g, sh with Some g, Some sh => hrel m s i g sh | None, None => True | _, _ => False end.
Record irel (st : ist) (s : simg) : Prop := {
  IR_mem : rel (i_mem st) (s_mem s);
  IR_len : length (i_hdrs st) = length (blks (i_mem st));
  IR_len' : length (s_shs s) = length (blks (i_mem st));
  IR_img : forall i g sh, nth_error (i_hdrs st) i = Some g -> nth_error (s_shs s) i = Some sh -> ohrel (i_mem st) (s_mem s) i g sh }.

Lemma irel_init : irel i_init si_init.
Proof. split; cbn; auto using rel_init. intros [|i]; discriminate. Qed.

Lemma irel_get st s i sh : irel st s -> shape_of s i = Some sh ->
  exists g, get_hdr st i = Ok g /\ nth_error (i_hdrs st) i = Some (Some g) /\ nth_error (s_shs s) i = Some (Some sh) /\ hrel (i_mem st) (s_mem s) i g sh /\ i < length (blks (i_mem st)).
Proof.
  intros R H. unfold shape_of in H. destruct (nth_error (s_shs s) i) as [[x|]|] eqn:E; try discriminate. injection H as ->.
  assert (i < length (blks (i_mem st))) as Hl. { rewrite <- (IR_len' _ _ R). apply nth_error_Some. congruence. }
  destruct (nth_error (i_hdrs st) i) as [g|] eqn:Eg; [|apply nth_error_None in Eg; rewrite (IR_len _ _ R) in Eg; lia].
  pose proof (IR_img _ _ R _ _ _ Eg E) as Hr. destruct g as [g|]; [|contradiction Hr]. exists g. unfold get_hdr. rewrite Eg. auto.
Qed.

(** Replacing one image. *)
Lemma irel_upd st s i m' s' g sh ob osb : irel st s -> rel m' s' -> i < length (blks (i_mem st)) ->
  blks m' = lset (blks (i_mem st)) i ob -> sblks s' = lset (sblks (s_mem s)) i osb ->
  ohrel m' s' i g sh ->
  irel (set_hdr st m' i g) (mkSI s' (lset (s_shs s) i sh)).
Proof.
  intros R R' Hi Hb Hs Hr. pose proof (IR_len _ _ R) as L. pose proof (IR_len' _ _ R) as L'.
  split; cbn; rewrite ?lset_length; auto.
  - rewrite Hb, lset_length. auto.
  - rewrite Hb, lset_length. auto.
  - intros j g' sh'. rewrite !nth_lset_eqb by lia. destruct (Nat.eqb_spec j i) as [->|N].
    + intros E1 E2. assert (g' = g) as -> by congruence. assert (sh' = sh) as -> by congruence. exact Hr.
    + intros Eg Es. pose proof (IR_img _ _ R _ _ _ Eg Es) as H. unfold ohrel, hrel in *.
      destruct g' as [g'|], sh' as [sh'|]; auto. destruct H as (H1 & H2 & b & sb & H3 & H4 & H5 & H6).
      split; [auto|split; [auto|]]. exists b, sb. rewrite Hb, Hs, !nth_lset_eqb; [|pose proof (R_len _ _ (IR_mem _ _ R)); lia|lia].
      destruct (Nat.eqb_spec j i); [contradiction|]. auto.
Qed.
(** Changing only memory contents. *)
Lemma irel_same st s m' s' : irel st s -> rel m' s' -> blks m' = blks (i_mem st) ->
  (forall i b, nth_error (sblks (s_mem s)) i = Some (Some b) -> exists b', nth_error (sblks s') i = Some (Some b') /\ s_size b' = s_size b) ->
  irel (mkI m' (i_hdrs st)) (mkSI s' (s_shs s)).
Proof.
  intros R R' Hb Hs. split; cbn; rewrite ?Hb; try apply R; auto. intros j g sh Eg Es. pose proof (IR_img _ _ R _ _ _ Eg Es) as H.
  unfold ohrel, hrel in *. destruct g as [g|], sh as [sh|]; auto. destruct H as (H1 & H2 & b & sb & H3 & H4 & H5 & H6).
  split; [auto|split; [auto|]]. destruct (Hs _ _ H4) as (b' & Hb' & Hz). exists b, b'. rewrite Hb. repeat split; auto. congruence.
Qed.
Lemma sblks_same s s' : sblks s' = sblks s -> forall i b, nth_error (sblks s) i = Some (Some b) -> exists b', nth_error (sblks s') i = Some (Some b') /\ s_size b' = s_size b.
Proof. intros -> i b H. eauto. Qed.
Lemma sblks_one s s' i b0 b1 : block s i = Some b0 -> sblks s' = lset (sblks s) i (Some b1) -> s_size b1 = s_size b0 ->
  forall j b, nth_error (sblks s) j = Some (Some b) -> exists b', nth_error (sblks s') j = Some (Some b') /\ s_size b' = s_size b.
Proof.
  intros H0 H1 Hz j b Hb. apply block_nth in H0. rewrite H1, nth_lset_eqb by (apply nth_error_Some; congruence).
  destruct (Nat.eqb_spec j i) as [->|]; eauto. assert (b = b0) by congruence. subst. eauto.
Qed.

Lemma s_with_some s o f s' x : s_with s o f = Some (s', x) -> exists m, m_spec (s_mem s) o = Some (m, x) /\ s' = mkSI m (f (s_shs s)).
Proof. unfold s_with. destruct (m_spec (s_mem s) o) as [[m y]|]; [|discriminate]. intros [= <- <-]. eauto. Qed.

Lemma shape_ok_facts g : shape_ok g = true ->
  (0 <= sh_w g /\ 0 <= sh_h g /\ n_ch (sh_type g) * sh_w g <= sh_stride g /\ n_ch (sh_type g) * sh_w g <= INT_MAX /\ sh_stride g * sh_h g <= INT_MAX /\ 0 <= sh_stride g)%Z.
Proof.
  unfold shape_ok. rewrite !andb_true_iff, !Z.leb_le. intros ((((H1 & H2) & H3) & H4) & H5). repeat split; auto.
  destruct (sh_type g); cbn [n_ch] in *; lia.
Qed.
Lemma chk_nonneg z : (0 <= z <= INT_MAX)%Z -> chk_int z = Ok z.
Proof.
  intros H. unfold chk_int, in_int. assert (INT_MIN <= z)%Z by (cbv delta [INT_MIN]; lia).
  destruct (Z.leb_spec INT_MIN z); [|lia]. destruct (Z.leb_spec z INT_MAX); [reflexivity|lia].
Qed.

Lemma alloc_spec junk st s s' x : irel st s -> s_alloc_img s = Some (s', x) ->
  exists st', i_alloc junk st = Ok st' /\ irel st' s' /\ x = None /\ length (i_hdrs st) = length (s_shs s).
Proof.
  intros R H. apply s_with_some in H as (m & Hm & ->). destruct (step_spec junk _ _ _ _ _ (IR_mem _ _ R) Hm) as (m' & y & Hst & R' & A).
  pose proof (step_blks _ _ _ _ _ Hst) as Hb. pose proof (spec_blks _ _ _ _ Hm) as Hs. cbn in Hb, Hs.
  assert (x = None) as -> by (cbn in Hm; congruence).
  pose proof (IR_len _ _ R) as L. pose proof (IR_len' _ _ R) as L'. pose proof (R_len _ _ (IR_mem _ _ R)) as L2.
  unfold i_alloc. rewrite Hst. cbn [bind fst]. eexists; split; [reflexivity|]. split; [|split; [reflexivity|lia]].
  split; cbn [i_mem i_hdrs s_mem s_shs]; auto.
  - rewrite Hb, !app_length. cbn. lia.
  - rewrite Hb, !app_length. cbn. lia.
  - intros j g sh Eg Es. destruct (Nat.lt_ge_cases j (length (i_hdrs st))) as [Hj|Hj].
    + rewrite nth_error_app1 in Eg, Es by lia. pose proof (IR_img _ _ R _ _ _ Eg Es) as Hr. unfold ohrel, hrel in *.
      destruct g as [g|], sh as [sh|]; auto. destruct Hr as (H1 & H2 & b & sb & H3 & H4 & H5 & H6).
      split; [auto|split; [auto|]]. exists b, sb. rewrite Hb, Hs, !nth_error_app1 by lia. auto.
    + assert (j = length (i_hdrs st)) as ->.
      { assert (j < length (i_hdrs st ++ [Some (mkH 0 0 GRAY UCHAR 1 0 None)])) by (apply nth_error_Some; congruence). rewrite app_length in *. cbn in *. lia. }
      rewrite nth_error_app2, Nat.sub_diag in Eg by lia. rewrite nth_error_app2 in Es by lia.
      replace (length (i_hdrs st) - length (s_shs s)) with 0 in Es by lia. cbn in Eg, Es. injection Eg as <-. injection Es as <-.
      split; [reflexivity|]. split; [reflexivity|]. exists nx_mem_block_alloc, (SOwned 0 []).
      rewrite Hb, Hs, !nth_error_app2 by lia. replace (length (i_hdrs st) - _) with 0 by lia. replace (length (i_hdrs st) - _) with 0 by lia. auto.
Qed.

Lemma ptr_of_lset m bl i b : blks m = lset bl i (Some b) -> i < length bl -> ptr_of m i = Ok (bptr b).
Proof. intros H Hi. unfold ptr_of, get_blk. rewrite H, nth_lset_eqb, Nat.eqb_refl by lia. reflexivity. Qed.

Lemma itype_eqb_eq a b : itype_eqb a b = true -> a = b. Proof. destruct a, b; cbn; congruence. Qed.
Lemma idtype_eqb_eq a b : idtype_eqb a b = true -> a = b. Proof. destruct a, b; cbn; congruence. Qed.

Lemma resize_img_spec junk st s i w h rs t d s' x : irel st s -> s_resize_img s i w h rs t d = Some (s', x) ->
  exists st', i_resize junk st i w h rs t d = Ok st' /\ irel st' s' /\ x = None.
Proof.
  intros R H. unfold s_resize_img in H. destruct (shape_of s i) as [sh|] eqn:Esh; [|discriminate].
  destruct (irel_get _ _ _ _ R Esh) as (g & Hg & Eg & Es & Hr & Hi).
  set (g' := mkSh w h t d (Z.max rs (n_ch t * w))) in *. destruct (shape_ok g') eqn:Hok; [|discriminate].
  apply s_with_some in H as (m & Hm & ->). pose proof (shape_ok_facts _ Hok) as F. unfold g' in F; cbn [sh_w sh_h sh_type sh_stride] in F.
  destruct F as (F1 & F2 & F3 & F4 & F5 & F6).
  assert (x = None) as ->. { cbn -[s_resize] in Hm. inv_some Hm. congruence. }
  unfold i_resize. destruct (Z.ltb_spec w 0); [lia|]. destruct (Z.ltb_spec h 0); [lia|]. cbn [orb]. rewrite Hg. cbn [bind].
  destruct Hr as (Hgeq & Hshok & b & sb & Hb & Hsb & Hp & Hz).
  destruct ((_ =? w)%Z && _ && _ && _ && _) eqn:Esame.
  - rewrite !andb_true_iff, !Z.eqb_eq in Esame. destruct Esame as ((((Q1 & Q2) & Q3) & Q4) & Q5).
    apply itype_eqb_eq in Q4. apply idtype_eqb_eq in Q5. exists st. split; [reflexivity|]. split; [|reflexivity].
    assert (sh = g') as Hsh.
    { rewrite Hgeq in Q1, Q2, Q3, Q4, Q5. cbn in Q1, Q2, Q3, Q4, Q5. unfold g'. pose proof (shape_ok_facts _ Hshok) as F. rewrite Q1, Q4, Q3 in F.
      destruct sh as [aw ah at_ ad ast]; cbn in *. subst. f_equal. lia. }
    assert (m = s_mem s) as ->.
    { cbn -[s_resize] in Hm. apply block_nth in Hsb. rewrite Hsb in Hm. unfold s_resize in Hm.
      destruct (rel_get _ _ _ _ (IR_mem _ _ R) Hsb) as (b' & _ & _ & Hsb' & Hbr). apply brel_sizes in Hbr as (_ & _ & Hle).
      rewrite <- Hsh, <- Hz in Hm. unfold s_reserve in Hm. destruct (Nat.leb_spec (s_size sb) (s_cap sb)); [|lia].
      injection Hm as <-. replace (s_set_size sb (s_size sb)) with sb by (destruct sb; reflexivity). rewrite lset_same by auto.
      destruct (s_mem s); reflexivity. }
    rewrite Hsh in Es. rewrite lset_same by auto. destruct s; exact R.
  - rewrite chk_nonneg by (destruct t; cbn [n_ch] in *; lia). cbn [bind].
    replace (if (rs <? n_ch t * w)%Z then (n_ch t * w)%Z else rs) with (Z.max rs (n_ch t * w)) by (destruct (Z.ltb_spec rs (n_ch t * w)); lia).
    rewrite chk_nonneg by nia. cbn [bind].
    destruct (step_spec junk _ _ _ _ _ (IR_mem _ _ R) Hm) as (m' & y & Hst & R' & A). unfold size_of, g' in Hst. cbn [sh_w sh_h sh_type sh_stride sh_dt] in Hst.
    rewrite Hst. cbn [bind fst]. pose proof (step_blks _ _ _ _ _ Hst) as (b1 & Hb1). pose proof (spec_blks _ _ _ _ Hm) as (sb1 & Hsb1 & Hz1).
    rewrite (ptr_of_lset _ _ _ _ Hb1 Hi). cbn [bind]. eexists; split; [reflexivity|]. split; [|reflexivity].
    eapply irel_upd; eauto. split; [reflexivity|]. split; [exact Hok|]. exists b1, sb1. rewrite Hb1, Hsb1.
    rewrite !nth_lset_eqb, Nat.eqb_refl; [auto|rewrite <- (R_len _ _ (IR_mem _ _ R)); lia|lia].
Qed.

Lemma copy_img_spec junk st s i j s' x : irel st s -> s_copy_img s i j = Some (s', x) ->
  exists st', i_copy junk st i j = Ok st' /\ irel st' s' /\ x = None.
Proof.
  intros R H. unfold s_copy_img in H. destruct (shape_of s j) as [sh|] eqn:Ej; [|discriminate]. destruct (shape_of s i) as [sh0|] eqn:Ei; [|discriminate].
  destruct (irel_get _ _ _ _ R Ej) as (g & Hg & _ & _ & Hr & Hj). destruct (irel_get _ _ _ _ R Ei) as (g0 & Hg0 & _ & _ & _ & Hi).
  apply s_with_some in H as (m & Hm & ->). destruct (step_spec junk _ _ _ _ _ (IR_mem _ _ R) Hm) as (m' & y & Hst & R' & A).
  assert (x = None) as ->. { cbn -[s_resize s_store s_bytes] in Hm. inv_some Hm. congruence. }
  pose proof (step_blks _ _ _ _ _ Hst) as (b1 & Hb1). pose proof (spec_blks _ _ _ _ Hm) as (sb1 & sb & Hsj & Hsb1 & Hz1).
  unfold i_copy. rewrite Hg, Hg0. cbn [bind]. rewrite Hst. cbn [bind fst]. rewrite (ptr_of_lset _ _ _ _ Hb1 Hi). cbn [bind].
  eexists; split; [reflexivity|]. split; [|reflexivity]. destruct Hr as (-> & Hok & b & sb' & _ & Hsb' & _ & Hz). apply block_nth in Hsj.
  assert (sb' = sb) by congruence. subst sb'.
  eapply irel_upd; eauto. split; [reflexivity|]. split; [exact Hok|]. exists b1, sb1. rewrite Hb1, Hsb1.
  rewrite !nth_lset_eqb, Nat.eqb_refl; [|rewrite <- (R_len _ _ (IR_mem _ _ R)); lia|lia]. repeat split; auto. congruence.
Qed.

Lemma in_shape_facts g x y c b : in_shape g x y c b = true ->
  (0 <= x < sh_w g /\ 0 <= y < sh_h g /\ 0 <= c < n_ch (sh_type g) /\ 0 <= b < n_bytes (sh_dt g))%Z.
Proof. unfold in_shape. rewrite !andb_true_iff, !Z.leb_le, !Z.ltb_lt. tauto. Qed.

Lemma index_bounds g x y c b : shape_ok g = true -> in_shape g x y c b = true ->
  (0 <= y * sh_stride g <= INT_MAX /\
   0 <= (y * sh_stride g + (n_ch (sh_type g) * x + c)) * n_bytes (sh_dt g) + b < sh_stride g * sh_h g * n_bytes (sh_dt g))%Z.
Proof.
  intros Hok Hin. apply shape_ok_facts in Hok as (F1 & F2 & F3 & F4 & F5 & F6). apply in_shape_facts in Hin as (X & Y & C & B).
  set (k := n_ch (sh_type g)) in *. assert (1 <= k)%Z by (unfold k; destruct (sh_type g); cbn; lia).
  assert (0 <= k * x + c < k * sh_w g)%Z as Q by nia. assert (y * sh_stride g + sh_stride g <= sh_stride g * sh_h g)%Z as Q2 by nia.
  split; [nia|]. set (n := n_bytes (sh_dt g)) in *. assert (1 <= n)%Z by (unfold n; destruct (sh_dt g); cbn; lia).
  assert (0 <= y * sh_stride g)%Z by nia. assert (0 <= y * sh_stride g + (k * x + c) <= sh_stride g * sh_h g - 1)%Z as Q3 by lia.
  set (e := (y * sh_stride g + (k * x + c))%Z) in *. set (t := (sh_stride g * sh_h g)%Z) in *. nia.
Qed.
Lemma place_lt g x y c b : shape_ok g = true -> in_shape g x y c b = true -> place g x y c b < size_of g.
Proof. intros H1 H2. pose proof (index_bounds _ _ _ _ _ H1 H2). unfold place, size_of. lia. Qed.
Lemma place_inj g x y c b x' y' c' b' : shape_ok g = true -> in_shape g x y c b = true -> in_shape g x' y' c' b' = true ->
  place g x y c b = place g x' y' c' b' -> (x, y, c, b) = (x', y', c', b').
Proof.
  intros Hok H1 H2 E. pose proof (index_bounds _ _ _ _ _ Hok H1) as [_ I1]. pose proof (index_bounds _ _ _ _ _ Hok H2) as [_ I2].
  unfold place in E. apply Z2Nat.inj in E; try lia. clear I1 I2.
  apply shape_ok_facts in Hok as (F1 & F2 & F3 & F4 & F5 & F6). apply in_shape_facts in H1 as (X & Y & C & B), H2 as (X' & Y' & C' & B').
  set (n := n_bytes (sh_dt g)) in *. set (k := n_ch (sh_type g)) in *.
  assert (y * sh_stride g + (k * x + c) = y' * sh_stride g + (k * x' + c') /\ b = b')%Z as [E1 ->].
  { set (e := (y * sh_stride g + (k * x + c))%Z) in *. set (e' := (y' * sh_stride g + (k * x' + c'))%Z) in *. assert (e = e')%Z by nia. nia. }
  assert (0 <= k * x + c < sh_stride g)%Z by nia. assert (0 <= k * x' + c' < sh_stride g)%Z by nia.
  assert (y = y')%Z as -> by nia. assert (x = x')%Z as -> by nia. assert (c = c') as -> by lia. reflexivity.
Qed.

Lemma offset_ok g sh x y c b : g = mkH (sh_w sh) (sh_h sh) (sh_type sh) (sh_dt sh) (n_ch (sh_type sh)) (sh_stride sh) (h_data g) ->
  shape_ok sh = true -> in_shape sh x y c b = true -> i_offset g x y c b = Ok (place sh x y c b).
Proof.
  intros Hg Hok Hin. pose proof (index_bounds _ _ _ _ _ Hok Hin) as [I1 I2]. unfold i_offset. rewrite Hg. cbn [h_stride h_nch h_dt].
  rewrite chk_nonneg by lia. cbn [bind]. destruct (Z.ltb_spec ((y * sh_stride sh + (n_ch (sh_type sh) * x + c)) * n_bytes (sh_dt sh) + b) 0); [lia|]. reflexivity.
Qed.

Lemma with_mem_spec junk st s o m x : irel st s -> m_spec (s_mem s) o = Some (m, x) ->
  (forall m', step_blks_post (i_mem st) m' o -> blks m' = blks (i_mem st)) ->
  (spec_blks_post (s_mem s) m o -> forall i b, nth_error (sblks (s_mem s)) i = Some (Some b) -> exists b', nth_error (sblks m) i = Some (Some b') /\ s_size b' = s_size b) ->
  exists st' y, with_mem junk st o = Ok (st', y) /\ irel st' (mkSI m (s_shs s)) /\ agrees x y.
Proof.
  intros R Hm H1 H2. destruct (step_spec junk _ _ _ _ _ (IR_mem _ _ R) Hm) as (m' & y & Hst & R' & A).
  unfold with_mem. rewrite Hst. cbn [bind fst snd]. eexists _, _; split; [reflexivity|]. split; [|exact A].
  apply irel_same; auto. - apply H1. eapply step_blks; eauto. - apply H2. eapply spec_blks; eauto.
Qed.

Lemma i_step_spec junk st s o s' x : irel st s -> i_spec s o = Some (s', x) ->
  exists st' y, i_step junk st o = Ok (st', y) /\ irel st' s' /\ agrees x y.
Proof.
  intros R H. destruct o; cbn [i_spec i_step] in *.
  - destruct (alloc_spec junk _ _ _ _ R H) as (st' & -> & R' & -> & _). cbn. eexists _, _; split; [reflexivity|split; [auto|reflexivity]].
  - destruct (s_alloc_img s) as [[s1 x1]|] eqn:E; [|discriminate]. destruct (alloc_spec junk _ _ _ _ R E) as (st1 & E1 & R1 & -> & L).
    destruct (resize_img_spec junk _ _ _ _ _ _ _ _ _ _ R1 H) as (st2 & E2 & R2 & ->).
    assert ((w <? 0)%Z || (h <? 0)%Z = false) as ->.
    { unfold i_resize in E2. destruct ((w <? 0)%Z || (h <? 0)%Z); [discriminate|reflexivity]. }
    rewrite E1. cbn [bind]. rewrite L, E2. cbn. eexists _, _; split; [reflexivity|split; [auto|reflexivity]].
  - destruct (shape_of s i) as [sh|] eqn:Esh; [|discriminate]. destruct (irel_get _ _ _ _ R Esh) as (g & Hg & _ & _ & _ & Hi).
    apply s_with_some in H as (m & Hm & ->). destruct (step_spec junk _ _ _ _ _ (IR_mem _ _ R) Hm) as (m' & y & Hst & R' & A).
    rewrite Hg. cbn [bind]. rewrite Hst. cbn [bind fst]. assert (x = None) as -> by (cbn in Hm; inv_some Hm; congruence).
    eexists _, _; split; [reflexivity|split; [|reflexivity]]. pose proof (step_blks _ _ _ _ _ Hst) as Hb. pose proof (spec_blks _ _ _ _ Hm) as Hs. cbn in Hb, Hs.
    eapply irel_upd; eauto. exact I.
  - destruct (resize_img_spec junk _ _ _ _ _ _ _ _ _ _ R H) as (st2 & E2 & R2 & ->). rewrite E2. cbn. eexists _, _; split; [reflexivity|split; [auto|reflexivity]].
  - destruct (shape_of s j) as [sh|] eqn:Esh; [|discriminate]. destruct (irel_get _ _ _ _ R Esh) as (g & Hg & _ & _ & (Hgeq & _) & Hi).
    destruct (resize_img_spec junk _ _ _ _ _ _ _ _ _ _ R H) as (st2 & E2 & R2 & ->). rewrite Hg. cbn [bind]. rewrite Hgeq. cbn [h_w h_h h_type h_dt]. rewrite E2.
    cbn. eexists _, _; split; [reflexivity|split; [auto|reflexivity]].
  - destruct (shape_of s i) as [sh|] eqn:Esh; [|discriminate]. destruct (irel_get _ _ _ _ R Esh) as (g & Hg & _ & _ & _ & Hi).
    apply s_with_some in H as (m & Hm & ->). destruct (step_spec junk _ _ _ _ _ (IR_mem _ _ R) Hm) as (m' & y & Hst & R' & A).
    rewrite Hg. cbn [bind]. rewrite Hst. cbn [bind fst]. assert (x = None) as -> by (cbn in Hm; inv_some Hm; congruence).
    eexists _, _; split; [reflexivity|split; [|reflexivity]]. pose proof (step_blks _ _ _ _ _ Hst) as (b & Hb & Hn). pose proof (spec_blks _ _ _ _ Hm) as Hs. cbn in Hs.
    eapply irel_upd; eauto. split; [reflexivity|]. split; [reflexivity|]. exists b, (SOwned 0 []). rewrite Hb, Hs.
    rewrite !nth_lset_eqb, Nat.eqb_refl; [auto|rewrite <- (R_len _ _ (IR_mem _ _ R)); lia|lia].
  - destruct (s_alloc_img s) as [[s1 x1]|] eqn:E; [|discriminate]. destruct (alloc_spec junk _ _ _ _ R E) as (st1 & E1 & R1 & -> & L).
    destruct (copy_img_spec junk _ _ _ _ _ _ R1 H) as (st2 & E2 & R2 & ->). rewrite E1. cbn [bind]. rewrite L, E2. cbn.
    eexists _, _; split; [reflexivity|split; [auto|reflexivity]].
  - destruct (copy_img_spec junk _ _ _ _ _ _ R H) as (st2 & E2 & R2 & ->). rewrite E2. cbn. eexists _, _; split; [reflexivity|split; [auto|reflexivity]].
  - destruct (shape_of s i) as [sh|] eqn:Esh; [|discriminate]. destruct (irel_get _ _ _ _ R Esh) as (g & Hg & _ & _ & _ & Hi).
    apply s_with_some in H as (m & Hm & ->). rewrite Hg. cbn [bind]. eapply with_mem_spec; eauto. intros (b & b' & H1 & H2 & H3). eapply sblks_one; eauto.
  - destruct (shape_of s i) as [sh|] eqn:Esh; [|discriminate]. destruct (irel_get _ _ _ _ R Esh) as (g & Hg & _ & _ & _ & Hi).
    destruct (shape_ok _) eqn:Hok in H; [|discriminate]. pose proof (shape_ok_facts _ Hok) as (F1 & F2 & F3 & F4 & F5 & F6). cbn [sh_w sh_h sh_type sh_stride] in *.
    apply s_with_some in H as (m & Hm & ->). destruct (step_spec junk _ _ _ _ _ (IR_mem _ _ R) Hm) as (m' & y & Hst & R' & A).
    assert (x = None) as ->. { cbn in Hm. inv_some Hm. destruct own; congruence. }
    destruct (Z.ltb_spec stride w); [destruct t; cbn [n_ch] in *; lia|]. rewrite Hg. cbn [bind]. rewrite chk_nonneg by nia. cbn [bind].
    destruct (Z.ltb_spec (stride * h) 0); [nia|]. unfold size_of in Hst. cbn [sh_stride sh_h sh_dt] in Hst. rewrite Hst. cbn [bind fst].
    pose proof (step_blks _ _ _ _ _ Hst) as (b1 & Hb1). pose proof (spec_blks _ _ _ _ Hm) as (sb1 & Hsb1 & Hz1).
    rewrite (ptr_of_lset _ _ _ _ Hb1 Hi). cbn [bind]. eexists _, _; split; [reflexivity|]. split; [|reflexivity].
    eapply irel_upd; eauto. split; [reflexivity|]. split; [exact Hok|]. exists b1, sb1. rewrite Hb1, Hsb1.
    rewrite !nth_lset_eqb, Nat.eqb_refl; [auto|rewrite <- (R_len _ _ (IR_mem _ _ R)); lia|lia].
  - destruct (shape_of s i) as [sh0|] eqn:E0; [|discriminate]. destruct (shape_of s j) as [sh1|] eqn:E1; [|discriminate].
    destruct (irel_get _ _ _ _ R E0) as (g0 & Hg0 & Eg0 & Es0 & Hr0 & Hi). destruct (irel_get _ _ _ _ R E1) as (g1 & Hg1 & Eg1 & Es1 & Hr1 & Hj).
    apply s_with_some in H as (m & Hm & ->). destruct (step_spec junk _ _ _ _ _ (IR_mem _ _ R) Hm) as (m' & y & Hst & R' & A).
    assert (x = None) as -> by (cbn in Hm; inv_some Hm; congruence).
    pose proof (step_blks _ _ _ _ _ Hst) as (b0 & b1 & Hb0 & Hb1 & Hb). pose proof (spec_blks _ _ _ _ Hm) as (sb0 & sb1 & Hsb0 & Hsb1 & Hs).
    apply block_nth in Hsb0, Hsb1. rewrite Hg0, Hg1. cbn [bind]. rewrite Hst. cbn [bind fst].
    assert (nth_error (blks m') i = Some (Some b1)) as Pi.
    { rewrite Hb, nth_lset_eqb by (rewrite lset_length; lia). destruct (Nat.eqb_spec i j) as [->|]; [congruence|]. rewrite nth_lset_eqb, Nat.eqb_refl by lia. reflexivity. }
    assert (nth_error (blks m') j = Some (Some b0)) as Pj by (rewrite Hb, nth_lset_eqb, Nat.eqb_refl by (rewrite lset_length; lia); reflexivity).
    pose proof (R_len _ _ (IR_mem _ _ R)) as L2. pose proof (IR_len _ _ R) as L. pose proof (IR_len' _ _ R) as L'.
    assert (nth_error (sblks m) i = Some (Some sb1)) as Qi.
    { rewrite Hs, nth_lset_eqb by (rewrite lset_length; lia). destruct (Nat.eqb_spec i j) as [->|]; [congruence|]. rewrite nth_lset_eqb, Nat.eqb_refl by lia. reflexivity. }
    assert (nth_error (sblks m) j = Some (Some sb0)) as Qj by (rewrite Hs, nth_lset_eqb, Nat.eqb_refl by (rewrite lset_length; lia); reflexivity).
    assert (ptr_of m' i = Ok (bptr b1)) as -> by (unfold ptr_of, get_blk; rewrite Pi; reflexivity).
    assert (ptr_of m' j = Ok (bptr b0)) as -> by (unfold ptr_of, get_blk; rewrite Pj; reflexivity). cbn [bind].
    eexists _, _; split; [reflexivity|]. split; [|reflexivity].
    destruct Hr0 as (G0 & Ok0 & c0 & d0 & C0 & D0 & P0 & Z0). destruct Hr1 as (G1 & Ok1 & c1 & d1 & C1 & D1 & P1 & Z1).
    assert (c0 = b0) by congruence. assert (c1 = b1) by congruence. assert (d0 = sb0) by congruence. assert (d1 = sb1) by congruence. subst c0 c1 d0 d1.
    split; cbn [i_mem i_hdrs s_mem s_shs]; rewrite ?lset_length, ?Hb, ?lset_length; auto. intros k g sh.
    rewrite !nth_lset_eqb by (rewrite ?lset_length; lia). destruct (Nat.eqb_spec k j) as [->|Nj].
    { intros E2 E3. injection E2 as <-. injection E3 as <-. split; [rewrite G0; reflexivity|]. split; [auto|]. exists b0, sb0. cbn. auto. }
    destruct (Nat.eqb_spec k i) as [->|Ni].
    { intros E2 E3. injection E2 as <-. injection E3 as <-. split; [rewrite G1; reflexivity|]. split; [auto|]. exists b1, sb1. cbn. auto. }
    intros Eg Es. pose proof (IR_img _ _ R _ _ _ Eg Es) as Hr. unfold ohrel, hrel in *.
    destruct g as [g|], sh as [sh|]; auto. destruct Hr as (H1 & H2 & b & sb & H3 & H4 & H5 & H6). split; [auto|split; [auto|]]. exists b, sb.
    rewrite Hb, Hs, !nth_lset_eqb by (rewrite ?lset_length; lia). destruct (Nat.eqb_spec k j); [contradiction|]. destruct (Nat.eqb_spec k i); [contradiction|]. auto.
  - destruct (shape_of s i) as [sh|] eqn:Esh; [|discriminate]. destruct (irel_get _ _ _ _ R Esh) as (g & Hg & _ & _ & Hr & Hi).
    destruct (in_shape sh x0 y c b) eqn:Hin; [|discriminate]. destruct Hr as (Hgeq & Hok & bb & sb & Hb & Hsb & Hp & Hz).
    apply s_with_some in H as (m & Hm & ->). destruct (step_spec junk _ _ _ _ _ (IR_mem _ _ R) Hm) as (m' & y' & Hst & R' & A).
    rewrite Hg. cbn [bind]. rewrite (offset_ok _ _ _ _ _ _ Hgeq Hok Hin). cbn [bind]. rewrite Hp. pose proof (step_blks _ _ _ _ _ Hst) as Hbl. cbn in Hbl.
    cbn in Hst. unfold get_blk in Hst. rewrite Hb in Hst. cbn [bind] in Hst. inv_ok. inv_ok. injection E as <- <-. rewrite E0. cbn [bind].
    injection Hst as <- <-. unfold set_blk in R'. cbn in Hbl. rewrite Hbl in R'. eexists _, _; split; [reflexivity|]. split; [|exact A].
    eapply irel_same; eauto. pose proof (spec_blks _ _ _ _ Hm) as (b2 & b' & H1 & H2 & H3). eapply sblks_one; eauto.
  - destruct (shape_of s i) as [sh|] eqn:Esh; [|discriminate]. destruct (irel_get _ _ _ _ R Esh) as (g & Hg & _ & _ & Hr & Hi).
    destruct (in_shape sh x0 y c b) eqn:Hin; [|discriminate]. destruct Hr as (Hgeq & Hok & bb & sb & Hb & Hsb & Hp & Hz).
    apply s_with_some in H as (m & Hm & ->). destruct (step_spec junk _ _ _ _ _ (IR_mem _ _ R) Hm) as (m' & y' & Hst & R' & A).
    rewrite Hg. cbn [bind]. rewrite (offset_ok _ _ _ _ _ _ Hgeq Hok Hin). cbn [bind]. rewrite Hp.
    cbn in Hst. unfold get_blk in Hst. rewrite Hb in Hst. cbn [bind] in Hst. inv_ok. rewrite E. cbn [bind]. injection Hst as <- <-.
    eexists _, _; split; [reflexivity|]. split; [|exact A]. assert (m = s_mem s) as -> by (cbn -[s_bytes] in Hm; inv_some Hm; congruence).
    destruct s; exact R.
  - apply s_with_some in H as (m & Hm & ->). eapply with_mem_spec; eauto. intros Hs. apply sblks_same; auto.
  - apply s_with_some in H as (m & Hm & ->). eapply with_mem_spec; eauto. intros Hs. apply sblks_same; auto.
  - apply s_with_some in H as (m & Hm & ->). eapply with_mem_spec; eauto. intros Hs. apply sblks_same; auto.
  - apply s_with_some in H as (m & Hm & ->). eapply with_mem_spec; eauto. intros Hs. apply sblks_same; auto.
Qed.

Lemma i_run_spec junk : forall os st s s' xs, irel st s -> i_spec_run s os = Some (s', xs) ->
  exists st' ys, i_run junk st os = Ok (st', ys) /\ irel st' s' /\ Forall2 agrees xs ys.
Proof.
  induction os as [|o os IH]; cbn [i_spec_run i_run]; intros st s s' xs R H.
  - injection H as <- <-. eexists _, _; split; [reflexivity|]. auto.
  - destruct (i_spec s o) as [[s1 x]|] eqn:E; [|discriminate]. destruct (i_spec_run s1 os) as [[s2 xs']|] eqn:E2; [|discriminate]. injection H as <- <-.
    destruct (i_step_spec junk _ _ _ _ _ R E) as (st1 & y & -> & R1 & A). destruct (IH _ _ _ _ R1 E2) as (st2 & ys & Hr & R2 & As).
    cbn [bind]. rewrite Hr. cbn. eexists _, _; split; [reflexivity|]. auto.
Qed.

(** Reaching a pixel. *)
Lemma pixel_at st s i sh x y c b : irel st s -> shape_of s i = Some sh -> live s i -> in_shape sh x y c b = true ->
  exists g p d v, get_hdr st i = Ok g /\ i_offset g x y c b = Ok (place sh x y c b) /\ h_data g = Some p /\
    cell (hp (i_mem st)) p = Some d /\ nth_error d (place sh x y c b) = Some v.
Proof.
  intros R Hsh Hl Hin. destruct (irel_get _ _ _ _ R Hsh) as (g & Hg & _ & _ & (Hgeq & Hok & bb & sb & Hb & Hsb & Hp & Hz) & Hi).
  pose proof (place_lt _ _ _ _ _ Hok Hin) as Hlt. pose proof (proj2 (block_nth _ _ _) Hsb) as Hsb'.
  destruct (rel_get _ _ _ _ (IR_mem _ _ R) Hsb') as (b' & Hb' & _ & _ & Hbr). assert (b' = bb) by congruence. subst b'.
  destruct (brel_sizes _ _ _ _ _ Hbr) as (S1 & S2 & S3).
  assert (exists cc, s_bytes (s_mem s) sb (s_size sb) = Some cc) as [cc Hcc].
  { unfold live in Hl. rewrite Hsb' in Hl. destruct sb as [n buf|k n cap]; cbn; eauto. destruct (_ =? 0); eauto.
    destruct (buffer (s_mem s) k); [eauto|contradiction]. }
  destruct (bytes_spec _ _ _ _ _ _ (IR_mem _ _ R) Hbr Hcc) as (p & d & Hp' & Hd & Hld & _); [lia|lia|].
  destruct (nth_error d (place sh x y c b)) as [v|] eqn:Ev; [|apply nth_error_None in Ev; lia].
  exists g, p, d, v. rewrite (offset_ok _ _ _ _ _ _ Hgeq Hok Hin). rewrite Hp. auto.
Qed.

Lemma data_apart st s i j shi shj gi gj p : irel st s -> shape_of s i = Some shi -> shape_of s j = Some shj -> i <> j ->
  live s i -> live s j -> apart s i j -> get_hdr st i = Ok gi -> get_hdr st j = Ok gj -> h_data gi = Some p -> h_data gj = Some p -> False.
Proof.
  intros R Hi Hj N Li Lj Ap Gi Gj Pi Pj.
  destruct (irel_get _ _ _ _ R Hi) as (g & Hg & _ & _ & (_ & _ & bi & si & Bi & Si & Di & _) & _). assert (g = gi) by congruence. subst g.
  destruct (irel_get _ _ _ _ R Hj) as (g & Hg' & _ & _ & (_ & _ & bj & sj & Bj & Sj & Dj & _) & _). assert (g = gj) by congruence. subst g.
  pose proof (IR_mem _ _ R) as RM. apply block_nth in Si, Sj. unfold live, apart in *. rewrite Si in *. rewrite Sj in *.
  destruct (rel_get _ _ _ _ RM Si) as (b & Hb & _ & _ & Ri). assert (b = bi) by congruence. subst b.
  destruct (rel_get _ _ _ _ RM Sj) as (b & Hb' & _ & _ & Rj). assert (b = bj) by congruence. subst b.
  assert (forall x b n buf, nth_error (blks (i_mem st)) x = Some (Some b) -> brel (hp (i_mem st)) (exts (i_mem st)) (s_mem s) b (SOwned n buf) -> bptr b = Some p -> owns (blks (i_mem st)) x p) as Own.
  { intros x b n buf Hx (_ & _ & _ & [(Q & _)|(q & c1 & c2 & Q & O & _)]) E; [congruence|]. exists (Some b). split; [auto|]. unfold bowned. rewrite O. auto. }
  assert (forall b k n cap, brel (hp (i_mem st)) (exts (i_mem st)) (s_mem s) b (SView k n cap) -> bptr b = Some p -> nth_error (exts (i_mem st)) k = Some p) as View.
  { intros b k n cap (q & Q & -> & _) E. cbn in E. congruence. }
  rewrite Pi in Di. rewrite Pj in Dj. symmetry in Di, Dj.
  destruct si as [n1 u1|k1 n1 c1], sj as [n2 u2|k2 n2 c2].
  - apply N. eapply (R_owninj _ _ RM); eauto.
  - apply Lj. eapply (R_ownext _ _ RM i); eauto.
  - apply Li. eapply (R_ownext _ _ RM j); eauto.
  - apply Ap. pose proof (View _ _ _ _ Ri Di) as V1. pose proof (View _ _ _ _ Rj Dj) as V2.
    eapply (proj1 (NoDup_nth_error _) (R_inj _ _ RM)); [apply nth_error_Some; congruence|congruence].
Qed.

Lemma store_img junk st s i sh x y c b v : irel st s -> shape_of s i = Some sh -> live s i -> in_shape sh x y c b = true ->
  exists st', i_step junk st (IStore i x y c b v) = Ok (st', None) /\
    i_step junk st' (ILoad i x y c b) = Ok (st', Some v) /\
    (forall x' y' c' b' w, in_shape sh x' y' c' b' = true -> (x', y', c', b') <> (x, y, c, b) ->
       i_step junk st (ILoad i x' y' c' b') = Ok (st, Some w) -> i_step junk st' (ILoad i x' y' c' b') = Ok (st', Some w)) /\
    (forall j sh' x' y' c' b' w, j <> i -> shape_of s j = Some sh' -> live s j -> apart s i j -> in_shape sh' x' y' c' b' = true ->
       i_step junk st (ILoad j x' y' c' b') = Ok (st, Some w) -> i_step junk st' (ILoad j x' y' c' b') = Ok (st', Some w)).
Proof.
  intros R Hsh Hl Hin. destruct (pixel_at _ _ _ _ _ _ _ _ R Hsh Hl Hin) as (g & p & d & w0 & Hg & Ho & Hp & Hd & Hn).
  destruct (irel_get _ _ _ _ R Hsh) as (g1 & _ & _ & _ & (_ & Hok & _) & _).
  assert (place sh x y c b < length d) as Hlt by (apply nth_error_Some; congruence). pose proof (cell_lt _ _ _ Hd) as Hpl.
  set (h' := lset (hp (i_mem st)) p (Some (lset d (place sh x y c b) v))).
  assert (poke (hp (i_mem st)) (Some p) (place sh x y c b) v = Ok h') as Hpoke.
  { unfold poke. rewrite (proj2 (hget_cell _ _ _) Hd). cbn [bind]. unfold aset. destruct (Nat.ltb_spec (place sh x y c b) (length d)); [|lia]. cbn [bind]. apply (hset_ok _ _ _ _ Hd). }
  exists (mkI (mkM h' (blks (i_mem st)) (exts (i_mem st))) (i_hdrs st)). cbn [i_step]. rewrite Hg. cbn [bind]. rewrite Ho. cbn [bind]. rewrite Hp, Hpoke. cbn [bind].
  split; [reflexivity|]. unfold get_hdr in *. cbn [i_hdrs i_mem hp]. rewrite Hg. cbn [bind]. rewrite Ho. cbn [bind]. rewrite Hp.
  assert (cell h' p = Some (lset d (place sh x y c b) v)) as Hc' by (unfold h'; rewrite cell_lset, Nat.eqb_refl by auto; reflexivity).
  split; [|split].
  - rewrite (proj2 (peek_cell h' p (place sh x y c b) v)); [reflexivity|]. exists (lset d (place sh x y c b) v). split; [exact Hc'|].
    rewrite nth_lset_eqb, Nat.eqb_refl by lia. reflexivity.
  - intros x' y' c' b' w Hin' Hne Hload. destruct (pixel_at _ _ _ _ _ _ _ _ R Hsh Hl Hin') as (g' & p' & d' & w1 & Hg' & Ho' & Hp' & Hd' & Hn').
    unfold get_hdr in Hg'. assert (g' = g) by congruence. subst g'. assert (p' = p) by congruence. subst p'. assert (d' = d) by congruence. subst d'.
    cbn [bind] in Hload |- *. rewrite Ho' in *. cbn [bind] in Hload |- *. rewrite Hp in *.
    rewrite (proj2 (peek_cell _ _ _ w1)) in Hload by eauto. cbn [bind] in Hload. assert (w1 = w) by congruence. subst w1.
    rewrite (proj2 (peek_cell h' p _ w)); [reflexivity|]. eexists; split; [exact Hc'|]. rewrite nth_lset_eqb by lia.
    destruct (Nat.eqb_spec (place sh x' y' c' b') (place sh x y c b)) as [E|]; [|auto]. exfalso. apply Hne. eapply place_inj; eauto.
  - intros j sh' x' y' c' b' w Hji Hshj Hlj Hap Hin' Hload. destruct (pixel_at _ _ _ _ _ _ _ _ R Hshj Hlj Hin') as (g' & p' & d' & w1 & Hg' & Ho' & Hp' & Hd' & Hn').
    assert (p' <> p) as Hpp. { intros ->. eapply (data_apart st s i j); eauto. }
    unfold get_hdr in Hg'. rewrite Hg' in *. cbn [bind] in Hload |- *. rewrite Ho' in *. cbn [bind] in Hload |- *. rewrite Hp' in *.
    rewrite (proj2 (peek_cell _ _ _ w1)) in Hload by eauto. cbn [bind] in Hload. assert (w1 = w) by congruence. subst w1.
    rewrite (proj2 (peek_cell h' p' _ w)); [reflexivity|]. exists d'. split; [|auto]. unfold h'. rewrite cell_lset by auto.
    destruct (Nat.eqb_spec p' p); [contradiction|auto].
Qed.

Lemma copy_img junk st s i j s' x : irel st s -> i_spec s (ICopy i j) = Some (s', x) ->
  exists st' g g' sh, i_step junk st (ICopy i j) = Ok (st', None) /\ irel st' s' /\
    get_hdr st' i = Ok g /\ get_hdr st' j = Ok g' /\ shape_of s j = Some sh /\ shape_of s' i = Some sh /\
    g = mkH (h_w g') (h_h g') (h_type g') (h_dt g') (h_nch g') (h_stride g') (h_data g) /\
    forall x y c b, in_shape sh x y c b = true -> exists v,
      i_step junk st' (ILoad i x y c b) = Ok (st', Some v) /\ i_step junk st' (ILoad j x y c b) = Ok (st', Some v).
Proof.
  intros R H. destruct (i_step_spec junk _ _ _ _ _ R H) as (st' & y & Hst & R' & A). cbn [i_spec] in H. unfold s_copy_img in H.
  destruct (shape_of s j) as [sh|] eqn:Ej; [|discriminate]. destruct (shape_of s i) as [sh0|] eqn:Ei; [|discriminate].
  destruct (irel_get _ _ _ _ R Ej) as (gj & Hgj & Egj & Esj & Hrj & Hj). destruct (irel_get _ _ _ _ R Ei) as (gi & Hgi & Egi & _ & _ & Hi).
  apply s_with_some in H as (m & Hm & ->).
  assert (i <> j) as Nij. { cbn -[s_resize s_store s_bytes] in Hm. inv_some Hm. apply Nat.eqb_neq; auto. }
  cbn [i_step] in Hst. unfold i_copy in Hst. rewrite Hgj, Hgi in Hst. cbn [bind] in Hst.
  destruct (m_step false junk (i_mem st) (MCopy i j)) as [[m' z]| | |] eqn:Em; try discriminate. cbn [bind fst] in Hst.
  destruct (ptr_of m' i) as [p| | |] eqn:Ep; try discriminate. cbn [bind] in Hst. injection Hst as <- <-.
  destruct Hrj as (Gj & Ok & bj & sbj & Bj & Sj & Dj & Zj).
  set (gn := mkH (h_w gj) (h_h gj) (h_type gj) (h_dt gj) (h_nch gj) (h_stride gj) p) in *.
  assert (get_hdr (set_hdr st m' i (Some gn)) i = Base.Ok gn) as Gi'.
  { unfold get_hdr, set_hdr. cbn. rewrite nth_lset_eqb, Nat.eqb_refl by (rewrite (IR_len _ _ R); lia). reflexivity. }
  assert (get_hdr (set_hdr st m' i (Some gn)) j = Base.Ok gj) as Gj'.
  { unfold get_hdr, set_hdr. cbn. rewrite nth_lset_eqb by (rewrite (IR_len _ _ R); lia). destruct (Nat.eqb_spec j i); [congruence|]. rewrite Egj. reflexivity. }
  exists (set_hdr st m' i (Some gn)), gn, gj, sh. split.
  { cbn [i_step]. unfold i_copy. rewrite Hgj, Hgi. cbn [bind]. rewrite Em. cbn [bind fst]. rewrite Ep. reflexivity. }
  split; [exact R'|]. split; [auto|]. split; [auto|]. split; [auto|]. split.
  { unfold shape_of. cbn. rewrite nth_lset_eqb, Nat.eqb_refl by (rewrite (IR_len' _ _ R); lia). reflexivity. }
  split; [reflexivity|]. intros x0 y0 c b Hin. cbn [i_step]. rewrite Gi', Gj'. cbn [bind].
  pose proof (place_lt _ _ _ _ _ Ok Hin) as Hlt.
  assert (i_offset gn x0 y0 c b = i_offset gj x0 y0 c b) as -> by reflexivity.
  rewrite (offset_ok _ _ _ _ _ _ Gj Ok Hin). cbn [bind]. cbn [m_step] in Em. rewrite (proj2 (get_blk_ok _ _ _) Bj) in Em. cbn [bind] in Em.
  inv_ok. injection Em as <- <-. destruct (copy_peek _ _ _ _ _ _ _ E0) as [Hsz Hpk].
  destruct (rel_get _ _ _ _ (IR_mem _ _ R) (proj2 (block_nth _ _ _) Sj)) as (b' & Hb' & _ & _ & Hbr). assert (b' = bj) by congruence. subst b'.
  destruct (brel_sizes _ _ _ _ _ Hbr) as (S1 & S2 & S3).
  destruct (Hpk (place sh x0 y0 c b)) as (v & V1 & V2); [lia| |].
  { destruct sbj as [n buf|k n cap]; cbn in Hbr.
    - destruct Hbr as (_ & _ & Hn & [(_ & _ & ->)|(q & _ & _ & -> & _)]); [cbn in *; lia|discriminate].
    - destruct Hbr as (q & _ & -> & _). discriminate. }
  exists v. unfold ptr_of, get_blk, set_blk in Ep. cbn [blks] in Ep. rewrite nth_lset_eqb, Nat.eqb_refl in Ep by lia. cbn [bind] in Ep. injection Ep as <-.
  unfold set_hdr, gn. cbn [i_mem hp set_blk h_data]. rewrite V1, Dj, V2. auto.
Qed.
