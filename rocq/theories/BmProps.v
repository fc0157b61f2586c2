(** C164: descriptors of many keypoints. *)
From Verif Require Import Base BaseLemmas Gray FastModel FastPyr UsacModel UsacProofs BriefModel BriefSpec BriefProofs BriefPyr BriefProps DmapModel DmapSpec DmapProofs BmModel BmSpec.
Local Open Scope Z_scope.

Lemma rne24_twice x : 0 <= x -> 0 <= rne24 x <= 2 * x.
Proof.
  intro H. destruct (rne24_bound x H) as (P & S & B). destruct (Z.lt_ge_cases x (2 ^ 24)) as [L|L]; [rewrite S by auto; lia|].
  destruct (B L) as (s & S1 & R & Q). assert (2 ^ (s - 1) <= 2 ^ (s + 23)) by (apply Z.pow_le_mono_r; lia). lia.
Qed.
Lemma sample_small v s : Z.abs v <= 2 ^ 23 -> 0 < fs_m s -> fs_e s <= 0 -> fs_m s <= 2 ^ (- fs_e s) -> exists r, sample v s = Ok r.
Proof.
  intros V M E L. unfold sample. rewrite chk_int_in by (unfold INT_MIN, INT_MAX; lia). cbn [bind].
  assert (RV : rne24s v = v) by (unfold rne24s; rewrite rne24_small by lia; apply Z.sgn_abs || (rewrite Z.mul_comm; apply Z.abs_sgn)). rewrite RV.
  set (p := rne24s (v * fs_m s)). assert (P : Z.abs p <= 2 * 2 ^ 23 * 2 ^ (- fs_e s)).
  { unfold p, rne24s. pose proof (rne24_twice (Z.abs (v * fs_m s)) ltac:(lia)) as T. set (r := rne24 (Z.abs (v * fs_m s))) in *.
    assert (Q : Z.abs v * fs_m s <= 2 ^ 23 * 2 ^ (- fs_e s)) by (apply Z.mul_le_mono_nonneg; lia).
    assert (A : Z.abs (v * fs_m s) = Z.abs v * fs_m s) by (rewrite Z.abs_mul, (Z.abs_eq (fs_m s)) by lia; reflexivity).
    rewrite Z.abs_mul, (Z.abs_eq r) by lia. assert (Z.abs (Z.sgn (v * fs_m s)) * r <= 1 * r) by (apply Z.mul_le_mono_nonneg_r; lia). lia. }
  assert (PP : 0 < 2 ^ (- fs_e s)) by (apply Z.pow_pos_nonneg; lia).
  destruct (Z.leb_spec 0 (fs_e s)) as [Z0|Z0].
  - assert (E0 : fs_e s = 0) by lia. rewrite E0 in P |- *. change (2 ^ (- 0)) with 1 in P. rewrite Z.pow_0_r. rewrite chk_int_in by (unfold INT_MIN, INT_MAX; lia). eauto.
  - assert (Z.abs (Z.quot p (2 ^ (- fs_e s))) <= 2 * 2 ^ 23).
    { rewrite <- Z.quot_abs by lia. rewrite (Z.abs_eq (2 ^ _)) by lia. apply Z.quot_le_upper_bound; lia. }
    rewrite chk_int_in by (unfold INT_MIN, INT_MAX; lia). eauto.
Qed.
Lemma span_near m f g a b : span m f g a b -> (forall k, (k < m)%nat -> Z.abs (f k) <= 2 ^ 22 /\ Z.abs (g k) <= 2 ^ 22) -> Z.abs a <= 2 ^ 22 /\ Z.abs b <= 2 ^ 22.
Proof. intros (_ & (k1 & K1 & A1) & (k2 & K2 & A2)) H. pose proof (H k1 K1). pose proof (H k2 K2). destruct A1, A2; lia. Qed.
Lemma zget_in {A} (l : list A) i : 0 <= i < Z.of_nat (length l) -> exists a, zget l i = Ok a.
Proof. intro H. destruct l as [|d l']; [cbn in H; lia|]. rewrite (zget_lt _ _ d) by lia. eauto. Qed.
Lemma zget_ok_lt {A} (l : list A) i a : zget l i = Ok a -> 0 <= i < Z.of_nat (length l).
Proof. unfold zget. destruct (Z.ltb_spec i 0); [discriminate|]. unfold aget. destruct (nth_error l (Z.to_nat i)) eqn:E; [|discriminate]. intros _. assert (Z.to_nat i < length l)%nat by (apply nth_error_Some; congruence). lia. Qed.

Section Keys.
Variable ratio : N -> N -> fscale.
Variable grow : Z -> Z -> Z.
Variables (b : brief) (offs : list Z) (pyr : list plevel).
Hypothesis BO : brief_ok b offs.
Hypothesis OF : Forall (fun o => Z.abs o <= 2 ^ 22) offs.
Lemma key_step k : fits ratio b pyr k ->
  (visible ratio b offs pyr k /\ check_point ratio b pyr (k_x k) (k_y k) (k_level k) = Ok true /\
     exists d, compute_pyr ratio b pyr (k_x k) (k_y k) (k_level k) = Ok d /\ describes ratio b offs pyr k d /\ bytes_ok d) \/
  (~ visible ratio b offs pyr k /\ check_point ratio b pyr (k_x k) (k_y k) (k_level k) = Ok false).
Proof.
  intros (X & Y & LV & PL & MX & S). destruct (zget_in pyr (k_level k) LV) as (klv & ZK).
  destruct (Z.lt_ge_cases (k_level k + b_plo b) (Z.of_nat (length pyr))) as [IN|OUT].
  - destruct (zget_in pyr (k_level k + b_plo b) ltac:(lia)) as (slv & ZS). destruct (S klv slv ZK ZS) as (G & M & E & L).
    assert (CK : exists c, check_point ratio b pyr (k_x k) (k_y k) (k_level k) = Ok c).
    { unfold check_point. rewrite chk_int_in by (unfold INT_MIN; lia). cbn [bind]. destruct (Z.leb_spec (Z.of_nat (length pyr)) (k_level k + b_plo b)); [lia|].
      rewrite ZS. cbn [bind]. rewrite ZK. cbn [bind]. pose proof (bo_lim _ _ BO) as LIM. destruct (b_limits b) as [[[xa xb] ya] yb]. destruct LIM as [SX SY].
      assert (NO : forall i, Z.abs (nth i offs 0) <= 2 ^ 22) by (intro i; destruct (Nat.lt_ge_cases i (length offs)); [rewrite Forall_forall in OF; apply OF, nth_In; auto|rewrite nth_overflow by auto; cbn; lia]).
      apply span_near in SX; [|intros; split; apply NO]. apply span_near in SY; [|intros; split; apply NO].
      destruct (sample_small (k_x k + xa) _ ltac:(lia) M E L) as (r1 & ->). destruct (sample_small (k_x k + xb) _ ltac:(lia) M E L) as (r2 & ->).
      destruct (sample_small (k_y k + ya) _ ltac:(lia) M E L) as (r3 & ->). destruct (sample_small (k_y k + yb) _ ltac:(lia) M E L) as (r4 & ->). cbn [bind]. eauto. }
    destruct CK as (c & CK). pose proof (C48_check_is_exact ratio b offs pyr _ _ _ klv slv c BO ZS ZK M CK) as EX. destruct c.
    + left. split; [exists klv, slv; split; [auto|]; split; [auto|]; now apply EX|]. split; [exact CK|].
      destruct (C48_accepted_points_are_safe ratio b offs pyr _ _ _ klv slv BO ZS ZK G M CK) as (d & ED & LD & BD & T). exists d. split; [exact ED|]. split; [|exact BD].
      split; [exact LD|]. exists klv, slv. split; [auto|]. split; [auto|]. intros i I. destruct (T i I) as (x0 & y0 & x1 & y1 & A & _ & _ & B). eauto 8.
    + right. split; [|exact CK]. intros (klv' & slv' & K & S' & T). rewrite ZK in K. rewrite ZS in S'. injection K as <-. injection S' as <-. apply EX in T. discriminate.
  - right. split; [|apply C48_missing_level_refused; [unfold INT_MIN; lia|lia]]. intros (klv' & slv' & _ & S' & _). apply zget_ok_lt in S'. lia.
Qed.
Lemma keys_ok keys : forall m t, laid m (b_octets b) t -> Forall (fits ratio b pyr) keys -> (Z.of_nat (length t) + Z.of_nat (length keys)) * b_octets b <= INT_MAX ->
  exists m' t', compute_all ratio grow b pyr keys m = Ok m' /\ laid m' (b_octets b) (t ++ t') /\ entries ratio b offs pyr keys t'.
Proof.
  unfold compute_all. induction keys as [|k keys IH]; intros m t L F MX; pose proof (la_oct _ _ _ L) as LO; pose proof (la_pos _ _ _ L) as LP.
  - exists m, []. rewrite LO, Z.eqb_refl, app_nil_r. cbn. split; [auto|]. split; [auto|constructor].
  - apply Forall_cons_iff in F as [F1 F2]. rewrite LO, Z.eqb_refl. cbn [negb for_each]. cbn [length] in MX. destruct (key_step k F1) as [(V & -> & d & ED & DS & BD)|(V & ->)]; cbn [bind].
    + rewrite ED. cbn [bind]. destruct DS as [LD DS]. destruct (add_ok grow m (b_octets b) t (k_id k) (Caller d) d L ltac:(nia) LD BD) as (m1 & E1 & L1).
      { unfold octets. cbn [Z.add]. destruct (Z.leb_spec 0 0), (Z.leb_spec 0 (b_octets b)), (Z.leb_spec (b_octets b) (Z.of_nat (length d))); try lia. cbn [andb]. rewrite skipn_O. f_equal. apply firstn_all2. lia. }
      rewrite E1. cbn [bind]. destruct (IH m1 _ L1 F2) as (m' & t' & E & L' & EN); [rewrite app_length; cbn [length]; nia|].
      rewrite (la_oct _ _ _ L1), Z.eqb_refl in E. cbn [negb] in E. exists m', ((k_id k, d) :: t'). split; [exact E|]. rewrite <- app_assoc in L'. split; [exact L'|]. constructor; auto. split; auto.
    + destruct (IH m t L F2 ltac:(nia)) as (m' & t' & E & L' & EN). rewrite LO, Z.eqb_refl in E. cbn [negb] in E. exists m', t'. split; [exact E|]. split; [exact L'|]. now constructor 3.
Qed.
End Keys.

(** A map with any history, of the number of octets of the extractor, gets one more entry
    for every keypoint all of whose comparisons lie inside the image, in the order of the
    keypoints, with the identifier of the keypoint and its descriptor; other keypoints are
    left out, earlier entries stay, and nothing outside images is read. *)
Theorem C164_many_keypoints : forall ratio grow b offs pyr keys n ops m,
  brief_ok b offs -> Forall (fun o => Z.abs o <= 2 ^ 22) offs -> Forall (fits ratio b pyr) keys ->
  1 <= n -> 8 * n <= INT_MAX -> sane_all (n, []) ops -> Forall external ops -> run grow (new_map n) ops = Ok m ->
  let s := fold_left effect ops (n, []) in
  fst s = b_octets b -> (Z.of_nat (length (snd s)) + Z.of_nat (length keys)) * b_octets b <= INT_MAX ->
  exists m' t', compute_all ratio grow b pyr keys m = Ok m' /\ shows m' (b_octets b) (snd s ++ t') /\ entries ratio b offs pyr keys t'.
Proof.
  intros ratio grow b offs pyr keys n ops m BO OF F N NM SA EX E s ES MX.
  assert (L0 : laid (new_map n) n []) by (split; cbn [new_map d_oct d_ids d_data map concat length]; auto; unfold INT_MAX; lia).
  destruct (run_ok grow ops (new_map n) (n, []) L0 SA EX) as (m1 & E1 & L). assert (m1 = m) by congruence. subst m1. fold s in L. rewrite ES in L.
  destruct (keys_ok ratio grow b offs pyr BO OF keys m _ L F MX) as (m' & t' & A & B & C). exists m', t'. split; [exact A|]. split; [now apply laid_shows|exact C].
Qed.
Print Assumptions C164_many_keypoints.
(** The entries are determined by the keypoints: as many as visible keypoints, with
    their identifiers, and two lists of entries agree. *)
Theorem C164_entries_unique : forall ratio b offs pyr keys t1 t2,
  entries ratio b offs pyr keys t1 -> entries ratio b offs pyr keys t2 -> map fst t1 = map fst t2 /\
  forall i e1 e2, nth_error t1 i = Some e1 -> nth_error t2 i = Some e2 -> forall j, (j < Z.to_nat (b_octets b * 8))%nat -> desc_bit (snd e1) j = desc_bit (snd e2) j.
Proof.
  intros ratio b offs pyr keys t1 t2 H. revert t2. induction H as [|k ks d t V D H IH|k ks t V H IH]; intros t2 H2; inversion H2; subst; try contradiction.
  - split; [reflexivity|]. intros [|i] e1 e2 E; discriminate.
  - match goal with X : entries _ _ _ _ ks _, Y : entries _ _ _ _ ks ?u |- map fst (_ :: t) = map fst (_ :: ?u) /\ _ => destruct (IH _ Y) as [A B] end. split; [cbn; now f_equal|]. intros [|i] e1 e2 E1 E2; cbn in E1, E2; [|eauto]. injection E1 as <-. injection E2 as <-. cbn [snd]. intros j J.
    destruct D as (_ & ka & sa & Z1 & Z2 & T). match goal with X : describes _ _ _ _ k ?dd |- context [desc_bit ?dd j] => rename X into D2 end. destruct D2 as (_ & kb & sb & Z3 & Z4 & T'). rewrite Z1 in Z3. rewrite Z2 in Z4. injection Z3 as <-. injection Z4 as <-.
    destruct (T j J) as (x0 & y0 & x1 & y1 & (P0 & P1 & P2 & P3) & ->). destruct (T' j J) as (x0' & y0' & x1' & y1' & (Q0 & Q1 & Q2 & Q3) & ->). congruence.
  - apply IH. assumption.
Qed.
Print Assumptions C164_entries_unique.
(** A map of another number of octets is refused. *)
Theorem C164_octets_checked : forall ratio grow b pyr keys m, d_oct m <> b_octets b -> compute_all ratio grow b pyr keys m = Fatal.
Proof. intros. unfold compute_all. destruct (Z.eqb_spec (d_oct m) (b_octets b)); [contradiction|reflexivity]. Qed.
Print Assumptions C164_octets_checked.

(** The extractor of C48: the second keypoint is left out. *)
Example C164_example : let keys := [mkKey 7 9 0 100; mkKey 18 9 0 200; mkKey 7 9 0 300; mkKey 5 5 1 400] in
  brief_ok ex_brief ex_offs /\ Forall (fun o => Z.abs o <= 2 ^ 22) ex_offs /\ Forall (fits half ex_brief ex_pyr) keys /\ exists m, compute_all half (fun _ n => n) ex_brief ex_pyr keys (new_map 1) = Ok m /\ d_ids m = [100; 300] /\ d_data m = [39; 39]%N.
Proof.
  assert (G : gray_ok (ex_img 10 10)) by (split; [cbn; lia|cbn; lia|reflexivity|cbn; unfold INT_MAX; lia|]; apply Forall_forall; intros q Q; apply in_map_iff in Q as (i & <- & _); apply N.mod_upper_bound; discriminate).
  assert (A : forall x y i, Z.abs x <= 100 -> Z.abs y <= 100 -> fits half ex_brief ex_pyr (mkKey x y 0 i)).
  { intros x y i X Y. unfold fits. cbn [k_x k_y k_level ex_brief b_plo ex_pyr length]. unfold INT_MAX. repeat (split; [lia|]). intros klv slv K S. injection K as <-. injection S as <-.
    cbv zeta. split; [exact G|]. vm_compute. intuition discriminate. }
  assert (O : Forall (fun o => Z.abs o <= 2 ^ 22) ex_offs) by (unfold ex_offs; repeat (apply Forall_cons; [lia|]); constructor).
  assert (I : forall i, Z.abs (nth i ex_offs 0) <= 2 ^ 22) by (intro i; destruct (Nat.lt_ge_cases i (length ex_offs)); [rewrite Forall_forall in O; apply O, nth_In; auto|rewrite nth_overflow by auto; cbn; lia]).
  cbv zeta. split; [|split; [exact O|split]].
  - destruct (update_limits_ok ex_brief ex_offs eq_refl ltac:(cbn; lia) ltac:(cbn; unfold INT_MAX; lia) ltac:(cbn; lia)) as (l & U & LM); [intros i _; pose proof (I i); unfold INT_MAX; lia|].
    rewrite (proj1 C48_example) in U. apply (f_equal (fun r => match r with Ok q => b_limits q | _ => l end)) in U. cbn [b_limits] in U. subst l.
    split; [reflexivity|cbn; lia|cbn; unfold INT_MAX; lia|cbn; lia|exact LM|]. intros i _. pose proof (I i). unfold INT_MAX. lia.
  - do 3 (apply Forall_cons; [apply A; cbn; lia|]). apply Forall_cons; [|constructor]. unfold fits. cbn [k_x k_y k_level ex_brief b_plo ex_pyr length]. unfold INT_MAX. repeat (split; [lia|]). intros klv slv K S. discriminate.
  - eexists. split; [vm_compute; reflexivity|]. split; reflexivity.
Qed.
