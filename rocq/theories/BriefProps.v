(** C47-C49, C67, C68: BRIEF descriptors. *)
From Verif Require Import Base BaseLemmas Gray FastModel FastPyr UsacModel BriefModel BriefSpec BriefProofs BriefPyr.
Local Open Scope Z_scope.

(** ** C47 *)
(** The distance is the number of bits in which the first [n] octets differ. *)
Theorem C47_distance_is_hamming : forall fuel n d0 d1,
  bytes_ok d0 -> bytes_ok d1 -> 0 <= n -> 8 * n <= INT_MAX -> n <= Z.of_nat (length d0) -> n <= Z.of_nat (length d1) -> n < Z.of_nat fuel ->
  distance fuel n d0 d1 = Ok (hamming (firstn (Z.to_nat n) d0) (firstn (Z.to_nat n) d1)).
Proof. exact distance_ok. Qed.
Print Assumptions C47_distance_is_hamming.
(** On descriptors of [n] octets it is a metric. *)
Theorem C47_distance_is_a_metric : forall n fuel a b c,
  bytes_ok a -> bytes_ok b -> bytes_ok c -> Z.of_nat (length a) = n -> Z.of_nat (length b) = n -> Z.of_nat (length c) = n ->
  8 * n <= INT_MAX -> n < Z.of_nat fuel ->
  exists ab bc ac, distance fuel n a b = Ok ab /\ distance fuel n b c = Ok bc /\ distance fuel n a c = Ok ac /\
    distance fuel n b a = Ok ab /\ 0 <= ab <= 8 * n /\ (ab = 0 <-> a = b) /\ ac <= ab + bc.
Proof.
  intros n fuel a b c A B C LA LB LC M F. exists (hamming a b), (hamming b c), (hamming a c).
  rewrite !distance_ok by (auto; lia). rewrite !firstn_all2 by lia. repeat (split; [reflexivity|]).
  split; [unfold hamming; now rewrite diff_sym|]. pose proof (ham_bound a b). split; [lia|]. split.
  - split; [|intros ->; apply diff_refl]. intro H0. apply bits_inj; auto; [lia|]. apply diff_zero; [rewrite !bits_length; lia|exact H0].
  - apply diff_tri; rewrite !bits_length; lia.
Qed.
Print Assumptions C47_distance_is_a_metric.
Example C47_example : distance 20 11 [1; 2; 3; 4; 5; 6; 7; 8; 9; 255; 128]%N [1; 2; 3; 4; 5; 6; 7; 9; 9; 0; 129]%N = Ok 10.
Proof. vm_compute. reflexivity. Qed.

(** ** C48 *)
(** If the check accepts a point, then computing the descriptor succeeds (any
    read outside the image would be undefined), and every bit is the comparison
    of two pixels of the sampled level. *)
Theorem C48_accepted_points_are_safe : forall ratio b offs pyr x y level klv slv,
  brief_ok b offs -> zget pyr (level + b_plo b) = Ok slv -> zget pyr level = Ok klv -> gray_ok (pl_img slv) ->
  let s := ratio (pl_scale klv) (pl_scale slv) in let g := pl_img slv in 0 < fs_m s ->
  check_point ratio b pyr x y level = Ok true ->
  exists desc, compute_pyr ratio b pyr x y level = Ok desc /\ Z.of_nat (length desc) = b_octets b /\ bytes_ok desc /\
    forall k, (k < Z.to_nat (b_octets b * 8))%nat -> exists x0 y0 x1 y1, test_points s offs x y k x0 y0 x1 y1 /\
      in_image g x0 y0 /\ in_image g x1 y1 /\ desc_bit desc k = (px g x1 y1 <? px g x0 y0).
Proof.
  intros ratio b offs pyr x y level klv slv BO ZS ZK G s g M CK.
  assert (NL : level + b_plo b < Z.of_nat (length pyr)).
  { destruct (Z.lt_ge_cases (level + b_plo b) (Z.of_nat (length pyr))) as [L|L]; [exact L|]. exfalso.
    unfold zget in ZS. destruct (Z.ltb_spec (level + b_plo b) 0); [discriminate|]. unfold aget in ZS. rewrite (proj2 (nth_error_None _ _)) in ZS by lia. discriminate. }
  destruct (check_points ratio b offs pyr x y level klv slv true BO ZS ZK M NL CK) as (SI & T & _). fold s g in T.
  destruct (compute_run ratio b pyr x y level (level + b_plo b) klv slv offs
    (fun k => (val (sample (x + tx0 offs k) s), val (sample (y + ty0 offs k) s))) (fun k => (val (sample (x + tx1 offs k) s), val (sample (y + ty1 offs k) s)))
    (bo_offs _ _ BO) (bo_pos _ _ BO) (bo_len _ _ BO) eq_refl ZS ZK SI G) as (desc & E & LD & BD & B).
  { intros k K. destruct (T k K) as (x0 & y0 & x1 & y1 & TP & I). specialize (I eq_refl). cbn [fst snd]. fold s. unfold test_points in *.
    destruct TP as (-> & -> & -> & ->). cbn [val]. split; [repeat split|exact I]. }
  exists desc. split; [exact E|]. split; [exact LD|]. split; [exact BD|]. intros k K. specialize (B k K). cbn [fst snd] in B.
  destruct (T k K) as (x0 & y0 & x1 & y1 & TP & I). exists x0, y0, x1, y1. destruct (I eq_refl) as [I0 I1]. split; [exact TP|]. split; [exact I0|]. split; [exact I1|].
  unfold test_points in TP. destruct TP as (E0 & E1 & E2 & E3). rewrite E0, E1, E2, E3 in B. exact B.
Qed.
Print Assumptions C48_accepted_points_are_safe.
(** It accepts exactly the points whose tests all lie inside. *)
Theorem C48_check_is_exact : forall ratio b offs pyr x y level klv slv c,
  brief_ok b offs -> zget pyr (level + b_plo b) = Ok slv -> zget pyr level = Ok klv ->
  let s := ratio (pl_scale klv) (pl_scale slv) in let g := pl_img slv in 0 < fs_m s ->
  check_point ratio b pyr x y level = Ok c ->
  (c = true <-> forall k x0 y0 x1 y1, (k < Z.to_nat (b_octets b * 8))%nat -> test_points s offs x y k x0 y0 x1 y1 -> in_image g x0 y0 /\ in_image g x1 y1).
Proof.
  intros ratio b offs pyr x y level klv slv c BO ZS ZK s g M CK.
  assert (NL : level + b_plo b < Z.of_nat (length pyr)).
  { destruct (Z.lt_ge_cases (level + b_plo b) (Z.of_nat (length pyr))) as [L|L]; [exact L|]. exfalso.
    unfold zget in ZS. destruct (Z.ltb_spec (level + b_plo b) 0); [discriminate|]. unfold aget in ZS. rewrite (proj2 (nth_error_None _ _)) in ZS by lia. discriminate. }
  destruct (check_points ratio b offs pyr x y level klv slv c BO ZS ZK M NL CK) as (SI & T & N). fold s g in T, N. split.
  - intros C k x0 y0 x1 y1 K (E0 & E1 & E2 & E3). destruct (T k K) as (a0 & b0 & a1 & b1 & (F0 & F1 & F2 & F3) & I).
    rewrite E0 in F0. rewrite E1 in F1. rewrite E2 in F2. rewrite E3 in F3. injection F0 as ->. injection F1 as ->. injection F2 as ->. injection F3 as ->. auto.
  - intro A. destruct c; [reflexivity|]. destruct (N eq_refl) as (k & x0 & y0 & x1 & y1 & K & TP & NI). exfalso. apply NI. eapply A; eauto.
Qed.
Print Assumptions C48_check_is_exact.
(** Points whose sampled level does not exist are refused. *)
Theorem C48_missing_level_refused : forall ratio b pyr x y level,
  INT_MIN <= level + b_plo b <= INT_MAX -> Z.of_nat (length pyr) <= level + b_plo b -> check_point ratio b pyr x y level = Ok false.
Proof. intros ratio b pyr x y level I L. unfold check_point. rewrite chk_int_in by exact I. cbn [bind]. destruct (Z.leb_spec (Z.of_nat (length pyr)) (level + b_plo b)); [reflexivity|lia]. Qed.
Print Assumptions C48_missing_level_refused.

(** An extractor with one octet, at level 1 of a two-level pyramid. *)
Definition ex_offs : list Z := [-1; -1; 2; 1;  0; 0; 1; 0;  2; 2; -1; 0;  0; 1; 1; 1;  2; 0; 0; 2;  -1; 2; 2; -1;  1; 0; 0; 0;  2; 2; 0; 0].
Definition ex_brief : brief := {| b_radius := 2; b_octets := 1; b_offsets := Some ex_offs; b_limits := (-1, 2, -1, 2); b_plo := 1 |}.
Definition ex_img (w h : Z) : gray := {| g_w := w; g_h := h; g_stride := w; g_data := map (fun i => (N.of_nat i * 37) mod 256)%N (seq 0 (Z.to_nat (w * h))) |}.
Definition ex_pyr : list plevel := [{| pl_img := ex_img 20 20; pl_scale := 1; pl_sigma := 1 |}; {| pl_img := ex_img 10 10; pl_scale := 2; pl_sigma := 2 |}].
Definition half (a b : N) : fscale := {| fs_m := Z.of_N a; fs_e := - Z.of_N (N.log2 b) |}.
Example C48_example :
  update_limits ex_brief = Ok ex_brief /\
  check_point half ex_brief ex_pyr 7 9 0 = Ok true /\ compute_pyr half ex_brief ex_pyr 7 9 0 = Ok [39%N] /\
  check_point half ex_brief ex_pyr 18 9 0 = Ok false /\ check_point half ex_brief ex_pyr 5 5 1 = Ok false.
Proof. vm_compute. repeat split. Qed.

(** ** C67 *)
(** The rotated descriptor checks each test itself: it never reads outside,
    whatever the rotation does, and reports failure exactly when a test lies
    outside. *)
Theorem C67_rotated_descriptor_is_safe : forall turn b offs pyr level klv slv,
  b_offsets b = Some offs -> 0 <= b_octets b -> b_octets b * 32 <= Z.of_nat (length offs) ->
  zget pyr (level + b_plo b) = Ok slv -> zget pyr level = Ok klv -> INT_MIN <= level + b_plo b <= INT_MAX -> gray_ok (pl_img slv) ->
  let g := pl_img slv in
  let p0 k := turn (tx0 offs k) (ty0 offs k) in let p1 k := turn (tx1 offs k) (ty1 offs k) in
  let inside k := in_image g (fst (p0 k)) (snd (p0 k)) /\ in_image g (fst (p1 k)) (snd (p1 k)) in
  exists r, compute_at_theta turn b pyr level = Ok r /\
    match r with
    | Some desc => Z.of_nat (length desc) = b_octets b /\ bytes_ok desc /\ forall k, (k < Z.to_nat (b_octets b * 8))%nat ->
        inside k /\ desc_bit desc k = (px g (fst (p1 k)) (snd (p1 k)) <? px g (fst (p0 k)) (snd (p0 k)))
    | None => exists k, (k < Z.to_nat (b_octets b * 8))%nat /\ ~ inside k
    end.
Proof.
  intros turn b offs pyr level klv slv OF OP OL ZS ZK SI G g p0 p1 inside.
  destruct (theta_desc turn g offs G (Z.to_nat (b_octets b)) ltac:(lia)) as (r & E & P). exists r. unfold compute_at_theta.
  rewrite chk_int_in by exact SI. cbn [bind]. rewrite ZS. cbn [bind]. rewrite ZK. cbn [bind]. rewrite OF. split; [exact E|]. destruct r as [desc|].
  - destruct P as (LD & BD & PD). split; [lia|]. split; [exact BD|]. intros k K. destruct (PD k ltac:(lia)) as [I B]. split; [|exact B].
    apply Bool.andb_true_iff in I as [I0 I1]. split; now apply inb_iff.
  - destruct P as (k & K & PK). exists k. split; [lia|]. intros [I0 I1]. apply Bool.not_true_iff_false in PK. apply PK. apply Bool.andb_true_iff. split; now apply inb_iff.
Qed.
Print Assumptions C67_rotated_descriptor_is_safe.
Example C67_example : let turn r x y := (4 + r * y, 4 - x) in
  compute_at_theta (turn 1) ex_brief ex_pyr 0 = Ok (Some [147%N]) /\ compute_at_theta (turn 5) ex_brief ex_pyr 0 = Ok None.
Proof. vm_compute. repeat split. Qed.

(** ** C68 *)
(** Whenever (re)initialising an extractor returns, all test offsets lie within
    the radius, the two points of a test are at least 3 apart, and the recorded
    limits are the tight bounding box of all offsets. *)
Theorem C68_random_tests : forall junk b n radius rs,
  brief_inv b -> 0 < n -> n * 32 <= INT_MAX -> 0 < radius <= 16383 -> Forall (fun r => 0 <= r < 2 ^ 32) rs ->
  brief_resize junk b n radius rs = NoFuel \/
  exists b' offs, brief_resize junk b n radius rs = Ok b' /\ brief_ok b' offs /\ brief_inv b' /\
    b_radius b' = radius /\ b_octets b' = n /\ b_plo b' = b_plo b /\
    forall k, (k < Z.to_nat (n * 8))%nat ->
      Z.abs (tx0 offs k) <= radius /\ Z.abs (ty0 offs k) <= radius /\ Z.abs (tx1 offs k) <= radius /\ Z.abs (ty1 offs k) <= radius /\
      3 * 3 <= (tx1 offs k - tx0 offs k) ^ 2 + (ty1 offs k - ty0 offs k) ^ 2.
Proof.
  intros junk b n radius rs BI N NM R H. destruct (resize_ok junk b n radius rs BI N NM R H) as [E|(b' & o & E & BO & E1 & E2 & E3 & GT)]; [now left|].
  right. exists b', o. split; [exact E|]. split; [exact BO|]. split; [unfold brief_inv; rewrite (bo_offs _ _ BO); apply (bo_len _ _ BO)|].
  repeat (split; [assumption|]). intros k K. destruct (GT k K) as (A & B & C & D & F). unfold far in F. rewrite !Z.pow_2_r. repeat split; lia.
Qed.
Print Assumptions C68_random_tests.
(** A fresh extractor may be initialised. *)
Theorem C68_fresh_extractor : brief_inv brief_alloc.
Proof. reflexivity. Qed.
Print Assumptions C68_fresh_extractor.
(** Finding: with radius 1 the initialisation never returns, whatever the
    generator gives; with radius 2 it does not as long as the generator stays
    away from the two ends of its range. *)
Theorem C68_radius_one_refuted : forall junk b n rs,
  brief_inv b -> 0 < n -> n * 32 <= INT_MAX -> Forall (fun r => 0 <= r < 2 ^ 32) rs -> brief_resize junk b n 1 rs = NoFuel.
Proof.
  intros junk b n rs BI N NM H. unfold brief_resize. destruct (Z.leb_spec n 0); [lia|]. cbn [orb Z.leb Z.compare].
  match goal with |- bind ?o _ = _ => assert (A : exists x, o = Ok x) end.
  { rewrite chk_int_in by (rewrite int_min; lia). cbn [bind]. destruct (b_octets b <? n); [|destruct (b_offsets b)]; eexists; reflexivity. }
  destruct A as (x & ->). cbn [bind]. apply (randomize_stuck _ x); auto.
Qed.
Print Assumptions C68_radius_one_refuted.
Theorem C68_radius_two_refuted : forall junk b n rs,
  brief_inv b -> 0 < n -> n * 32 <= INT_MAX -> Forall (fun r => 128 <= r < 2 ^ 32 - 128) rs -> brief_resize junk b n 2 rs = NoFuel.
Proof.
  intros junk b n rs BI N NM H. unfold brief_resize. destruct (Z.leb_spec n 0); [lia|]. cbn [orb Z.leb Z.compare].
  match goal with |- bind ?o _ = _ => assert (A : exists x, o = Ok x) end.
  { rewrite chk_int_in by (rewrite int_min; lia). cbn [bind]. destruct (b_octets b <? n); [|destruct (b_offsets b)]; eexists; reflexivity. }
  destruct A as (x & ->). cbn [bind]. apply (randomize_stuck _ x); auto.
Qed.
Print Assumptions C68_radius_two_refuted.
Definition ex_rs : list Z := concat (repeat [1; 2 ^ 31; 2 ^ 32 - 1; 2 ^ 30; 3 * 2 ^ 30; 5; 2 ^ 31; 2 ^ 31 + 2 ^ 29; 2 ^ 31 + 2 ^ 30; 2 ^ 32 - 2 ^ 29] 8).
Example C68_example :
  (let* b := brief_resize (fun _ => 0) brief_alloc 1 16 ex_rs in Ok (b_limits b, option_map (firstn 8) (b_offsets b)))
  = Ok (-16, 16, -16, 12, Some [-16; 0; 16; -8; 8; -16; 0; 4]).
Proof. vm_compute. reflexivity. Qed.

(** ** C49 *)
(** The property holds for extractors whose radius equals the number of octets. *)
Theorem C49_write_read_partial : forall junk b offs b0 rs,
  brief_ok b offs -> b_radius b = b_octets b -> b_radius b <= 16383 -> brief_inv b0 -> Forall (fun r => 0 <= r < 2 ^ 32) rs ->
  exists file, brief_write b = Ok file /\
    (brief_read junk b0 file rs = NoFuel \/
     exists b' offs', brief_read junk b0 file rs = Ok (Some b') /\ brief_ok b' offs' /\
       b_radius b' = b_radius b /\ b_octets b' = b_octets b /\ b_plo b' = b_plo b /\ b_limits b' = b_limits b /\
       firstn (Z.to_nat (b_octets b * 32)) offs' = firstn (Z.to_nat (b_octets b * 32)) offs).
Proof.
  intros junk b offs b0 rs [OF OP OM OL LI SM] EQ RM BI H. set (n := b_octets b) in *. set (m := Z.to_nat (n * 32)).
  exists ([n; n] ++ firstn m offs ++ [b_plo b]). split.
  { unfold brief_write. rewrite chk_int_in by (rewrite int_min; fold n; lia). cbn [bind]. rewrite OF. fold n. replace (n * 4 * 8) with (n * 32) by lia.
    destruct (Z.ltb_spec (Z.of_nat (length offs)) (n * 32)); [lia|]. rewrite EQ. reflexivity. }
  cbn [app brief_read]. destruct (resize_ok junk b0 n n rs BI OP OM ltac:(lia) H) as [->|(b1 & o1 & -> & BO & E1 & E2 & E3 & _)]; [now left|]. right. cbn [bind].
  rewrite E2, chk_int_in by (rewrite int_min; lia). cbn [bind]. rewrite (bo_offs _ _ BO). pose proof (bo_len _ _ BO) as L1. rewrite E2 in L1.
  replace (n * 4 * 8) with (n * 32) by lia. destruct (Z.ltb_spec (Z.of_nat (length o1)) (n * 32)); [lia|].
  assert (FL : length (firstn m offs) = m) by (rewrite firstn_length; lia).
  destruct (Z.ltb_spec (Z.of_nat (length (firstn m offs ++ [b_plo b]))) (n * 32)) as [LT|GE]; [rewrite app_length, FL in LT; lia|]. fold m.
  rewrite firstn_app, FL, Nat.sub_diag, firstn_O, app_nil_r, (firstn_all2 (n := m) (firstn m offs)) by lia.
  set (o2 := firstn m offs ++ skipn m o1). assert (L2 : n * 32 <= Z.of_nat (length o2)) by (unfold o2; rewrite app_length, FL; lia).
  assert (N2 : forall i, (i < 4 * Z.to_nat (n * 8))%nat -> nth i o2 0 = nth i offs 0).
  { intros i I. unfold o2. rewrite app_nth1 by lia. rewrite <- (firstn_skipn m offs) at 2. rewrite app_nth1 by lia. reflexivity. }
  destruct (update_limits_ok {| b_radius := b_radius b1; b_octets := n; b_offsets := Some o2; b_limits := b_limits b1; b_plo := b_plo b1 |} o2 eq_refl OP OM L2) as (l & -> & LL).
  { intros i I. rewrite N2 by exact I. apply SM, I. }
  cbn [bind b_radius b_octets b_offsets b_limits b_plo]. cbn [b_octets] in LL.
  rewrite skipn_app, FL, Nat.sub_diag, (skipn_all2 (firstn m offs)) by lia. cbn [app skipn].
  assert (EL : l = b_limits b) by (eapply limits_unique; [exact LL|]; eapply limits_ext; [|exact LI]; intros i I; symmetry; apply N2; exact I).
  do 2 eexists. split; [reflexivity|]. split.
  - split; cbn [b_radius b_octets b_offsets b_limits b_plo]; try reflexivity; auto. intros i I. rewrite N2 by exact I. apply SM, I.
  - cbn [b_radius b_octets b_offsets b_limits b_plo]. rewrite E1. repeat split; auto. unfold o2.
    rewrite firstn_app, FL, Nat.sub_diag, firstn_O, app_nil_r. fold m. rewrite firstn_firstn. now rewrite Nat.min_id.
Qed.
Print Assumptions C49_write_read_partial.
Definition same_list (a b : option (list Z)) : bool :=
  match a, b with Some a, Some b => if list_eq_dec Z.eq_dec a b then true else false | _, _ => false end.
Example C49_example :
  let s1 := concat (repeat ex_rs 5) in let s2 := concat (repeat (rev ex_rs) 5) in
  (let* b := brief_resize (fun _ => 0) brief_alloc 4 4 s1 in
   let* b2 := brief_resize (fun _ => 0) brief_alloc 4 4 s2 in
   let* f := brief_write b in
   let* r := brief_read (fun _ => 0) brief_alloc f s2 in
   Ok (match r with Some b' => (same_list (b_offsets b) (b_offsets b2), same_list (b_offsets b) (b_offsets b'), b_radius b', b_octets b', b_plo b') | None => (true, false, 0, 0, 0) end))
  = Ok (false, true, 4, 4, 2).
Proof. vm_compute. reflexivity. Qed.
(** Finding: for every other extractor the property fails: reading gives an
    error or an extractor with radius and number of octets exchanged. *)
Theorem C49_write_read_refuted : forall junk b offs b0 rs file,
  brief_ok b offs -> b_radius b <> b_octets b -> brief_write b = Ok file ->
  forall b', brief_read junk b0 file rs = Ok (Some b') -> b_radius b' = b_octets b /\ b_octets b' = b_radius b /\ b_radius b' <> b_radius b.
Proof.
  intros junk b offs b0 rs file [OF OP OM OL LI SM] NE W b' RD. unfold brief_write in W. rewrite chk_int_in in W by (rewrite int_min; lia). cbn [bind] in W. rewrite OF in W.
  destruct (Z.ltb_spec (Z.of_nat (length offs)) (b_octets b * 4 * 8)); [lia|]. injection W as <-. cbn [app brief_read] in RD.
  destruct (brief_resize junk b0 (b_radius b) (b_octets b) rs) as [b1| | |] eqn:E; cbn [bind] in RD; try discriminate.
  assert (K : b_radius b1 = b_octets b /\ b_octets b1 = b_radius b).
  { unfold brief_resize in E. destruct (_ || _); [discriminate|]. match type of E with bind ?o _ = _ => destruct o as [o'| | |] end; cbn [bind] in E; try discriminate.
    unfold randomize in E. cbn [b_offsets b_octets b_radius] in E.
    destruct (chk_int (b_radius b * 8)) as [z| | |]; cbn [bind] in E; try discriminate. destruct (chk_int (2 * b_octets b)); cbn [bind] in E; try discriminate.
    destruct (for_each _ _ _) as [[o r]| | |]; cbn [bind] in E; try discriminate. unfold update_limits in E. cbn [b_offsets b_octets b_radius] in E.
    destruct (chk_int _) as [z'| | |]; cbn [bind] in E; try discriminate. destruct (for_each _ _ _); cbn [bind] in E; try discriminate.
    injection E as <-. auto. }
  destruct K as [K1 K2]. destruct (chk_int (b_octets b1 * 4 * 8)) as [n| | |]; cbn [bind] in RD; try discriminate.
  destruct (b_offsets b1) as [o1|]; try discriminate. destruct (_ <? _); [discriminate|]. destruct (_ <? _); [discriminate|].
  unfold update_limits in RD. cbn [b_offsets b_octets b_radius] in RD.
  destruct (chk_int _) as [z'| | |]; cbn [bind] in RD; try discriminate. destruct (for_each _ _ _); cbn [bind] in RD; try discriminate.
  cbn [b_offsets b_octets b_radius b_limits b_plo] in RD. destruct (skipn _ _); [discriminate|]. injection RD as <-. cbn. rewrite K1, K2. auto.
Qed.
Print Assumptions C49_write_read_refuted.
