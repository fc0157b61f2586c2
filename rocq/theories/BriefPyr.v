(** Proofs about BRIEF limits, point checks, descriptors, random tests and files. *)
From Verif Require Import Base BaseLemmas Gray FastModel FastPyr UsacModel UsacProofs BriefModel BriefSpec BriefProofs.
Local Open Scope Z_scope.

(** * Limits *)
Lemma quad_ok offs k : (4 * k + 3 < length offs)%nat -> quad offs k = Ok (tx0 offs k, ty0 offs k, tx1 offs k, ty1 offs k).
Proof. intro L. unfold quad. rewrite !(aget_lt offs _ 0) by lia. reflexivity. Qed.
(** Like [span], but with nothing seen yet the interval is that of an empty fold. *)
Definition span0 (m : nat) (f g : nat -> Z) (a b : Z) : Prop := span m f g a b \/ (m = O /\ a = INT_MAX /\ b = - INT_MAX).
Lemma span0_step m f g a b : span0 m f g a b -> - INT_MAX <= f m <= INT_MAX -> - INT_MAX <= g m <= INT_MAX ->
  span0 (S m) f g (Z.min (Z.min a (f m)) (g m)) (Z.max (Z.max b (f m)) (g m)).
Proof.
  intros [(B & (k1 & K1 & A1) & (k2 & K2 & A2))|(-> & -> & ->)] F G; left; (split; [|split]).
  all: try (intros k K; assert (k < m \/ k = m)%nat as [L| ->] by lia; [specialize (B k L)|]; lia).
  - assert (Z.min (Z.min a (f m)) (g m) = a \/ f m = Z.min (Z.min a (f m)) (g m) \/ g m = Z.min (Z.min a (f m)) (g m)) as [E|E] by lia.
    + exists k1. rewrite E. split; [lia|exact A1].
    + exists m. split; [lia|exact E].
  - assert (Z.max (Z.max b (f m)) (g m) = b \/ f m = Z.max (Z.max b (f m)) (g m) \/ g m = Z.max (Z.max b (f m)) (g m)) as [E|E] by lia.
    + exists k2. rewrite E. split; [lia|exact A2].
    + exists m. split; [lia|exact E].
  - intros k K. assert (k = 0)%nat as -> by lia. lia.
  - exists O. split; [lia|]. lia.
  - exists O. split; [lia|]. lia.
Qed.
Definition small_offs (m : nat) (offs : list Z) : Prop := forall i, (i < 4 * m)%nat -> - INT_MAX <= nth i offs 0 <= INT_MAX.
Lemma limits_loop offs m : (4 * m <= length offs)%nat -> small_offs m offs ->
  exists a b c d, for_each (fun i '(xmin, xmax, ymin, ymax) =>
        let* (x0, y0, x1, y1) := quad offs i in
        Ok (Z.min (Z.min xmin x0) x1, Z.max (Z.max xmax x0) x1, Z.min (Z.min ymin y0) y1, Z.max (Z.max ymax y0) y1))
      (seq 0 m) (INT_MAX, - INT_MAX, INT_MAX, - INT_MAX) = Ok (a, b, c, d) /\ span0 m (tx0 offs) (tx1 offs) a b /\ span0 m (ty0 offs) (ty1 offs) c d.
Proof.
  induction m as [|m IH]; intros L S0.
  - exists INT_MAX, (- INT_MAX), INT_MAX, (- INT_MAX). split; [reflexivity|]. split; right; auto.
  - destruct IH as (a & b & c & d & E & X & Y); [lia|intros i I; apply S0; lia|].
    rewrite seq_S, for_each_app, E. cbn [bind for_each Nat.add]. rewrite quad_ok by lia. cbn [bind].
    do 4 eexists. split; [reflexivity|]. split; apply span0_step; auto; apply S0; lia.
Qed.
Lemma update_limits_ok b offs : b_offsets b = Some offs -> 0 < b_octets b -> b_octets b * 32 <= INT_MAX -> b_octets b * 32 <= Z.of_nat (length offs) ->
  small_offs (Z.to_nat (b_octets b * 8)) offs ->
  exists l, update_limits b = Ok {| b_radius := b_radius b; b_octets := b_octets b; b_offsets := Some offs; b_limits := l; b_plo := b_plo b |} /\
    limits_of (Z.to_nat (b_octets b * 8)) offs l.
Proof.
  intros O P M L S0. unfold update_limits. rewrite chk_int_in by (rewrite int_min; lia). cbn [bind].
  destruct (limits_loop offs (Z.to_nat (b_octets b * 8)) ltac:(lia) S0) as (x & x' & y & y' & E & X & Y).
  rewrite O, E. cbn [bind]. exists (x, x', y, y'). split; [reflexivity|]. destruct X as [X|X]; [|lia]. destruct Y as [Y|Y]; [|lia]. split; auto.
Qed.

(** * Checking and sampling *)
Lemma pixel_ok g x y : gray_ok g -> in_image g x y -> pixel g x y = Ok (nth (Z.to_nat (y * g_stride g + x)) (g_data g) 0%N).
Proof.
  intros G [X Y]. destruct (px_index g x y G X Y) as [I B]. pose proof (go_len g G). pose proof (go_max g G).
  unfold pixel. rewrite Z.mul_comm. rewrite chk_int_in by (rewrite int_min; lia). cbn [bind]. rewrite chk_int_in by (rewrite int_min; lia). cbn [bind].
  now rewrite (zget_lt _ _ 0%N) by lia.
Qed.
Lemma octet_bits (t : nat -> bool) (d0 : N) : (forall k, (8 <= k)%N -> N.testbit d0 k = false) -> forall m, (m <= 8)%nat ->
  exists d, for_each (fun j d => Ok ((N.shiftl d 1) mod 256 + (if t j then 1 else 0))%N) (seq 0 m) 0%N = Ok d /\ (d < 2 ^ N.of_nat m)%N /\
    forall j, (j < m)%nat -> N.testbit d (N.of_nat (m - 1 - j)) = t j.
Proof.
  intros _. induction m as [|m IH]; intro M; [exists 0%N; repeat split; lia|].
  destruct IH as (d & E & D & B); [lia|]. rewrite seq_S, for_each_app, E. cbn [bind for_each Nat.add].
  assert (P : (2 ^ N.of_nat m <= 128)%N) by (change 128%N with (2 ^ 7)%N; apply N.pow_le_mono_r; lia).
  rewrite N.shiftl_mul_pow2. change (2 ^ 1)%N with 2%N. rewrite N.mod_small by lia.
  replace (N.of_nat (S m)) with (N.succ (N.of_nat m)) by lia. rewrite N.pow_succ_r'.
  eexists. split; [reflexivity|]. split; [destruct (t m); lia|].
  assert (T : forall j, (j < S m)%nat -> N.testbit (2 * d + (if t m then 1 else 0)) (N.of_nat (S m - 1 - j)) = t j).
  { intros j J. assert (j = m \/ j < m)%nat as [->|L] by lia.
    - replace (S m - 1 - m)%nat with O by lia. cbn [N.of_nat]. destruct (t m); [apply N.testbit_odd_0|]. rewrite N.add_0_r. apply N.testbit_even_0.
    - replace (N.of_nat (S m - 1 - j)) with (N.succ (N.of_nat (m - 1 - j))) by lia.
      destruct (t m); [rewrite N.testbit_odd_succ by lia|rewrite N.add_0_r, N.testbit_even_succ by lia]; apply B; exact L. }
  intros j J. rewrite N.mul_comm. apply T, J.
Qed.
Lemma octet_run points g offs i (p0 p1 : nat -> Z * Z) : gray_ok g -> (4 * (8 * i + 8) <= length offs)%nat ->
  (forall j, (j < 8)%nat -> let k := (8 * i + j)%nat in
     points (tx0 offs k, ty0 offs k, tx1 offs k, ty1 offs k) = Ok (fst (p0 k), snd (p0 k), fst (p1 k), snd (p1 k)) /\
     in_image g (fst (p0 k)) (snd (p0 k)) /\ in_image g (fst (p1 k)) (snd (p1 k))) ->
  exists d, octet points g offs i = Ok d /\ (d < 256)%N /\
    forall j, (j < 8)%nat -> let k := (8 * i + j)%nat in
      N.testbit d (N.of_nat (7 - j)) = (px g (fst (p1 k)) (snd (p1 k)) <? px g (fst (p0 k)) (snd (p0 k))).
Proof.
  intros G L H. set (t := fun j => let k := (8 * i + j)%nat in px g (fst (p1 k)) (snd (p1 k)) <? px g (fst (p0 k)) (snd (p0 k))).
  destruct (octet_bits t 0 ltac:(intros; apply N.bits_0) 8 (le_n 8)) as (d & E & D & B). exists d. split; [|split; [exact D|intros j J; exact (B j J)]].
  rewrite <- E. unfold octet. apply for_each_eq. intros j s J. apply in_seq in J. destruct (H j ltac:(lia)) as (P & I0 & I1).
  rewrite quad_ok by lia. cbn [bind]. cbv zeta in P. rewrite P. cbn [bind]. rewrite !pixel_ok by assumption. cbn [bind].
  unfold t, px. cbv zeta. repeat f_equal. match goal with |- (if ?a then _ else _) = (if ?b then _ else _) => assert (X : a = b); [|rewrite X; reflexivity] end.
  match goal with |- N.ltb ?a ?b = Z.ltb _ _ => destruct (N.ltb_spec a b), (Z.ltb_spec (Z.of_N a) (Z.of_N b)); try reflexivity; lia end.
Qed.
Lemma div_mod8 k : (k = 8 * (k / 8) + k mod 8 /\ k mod 8 < 8)%nat.
Proof. pose proof (Nat.div_mod k 8 ltac:(lia)). pose proof (Nat.mod_upper_bound k 8 ltac:(lia)). lia. Qed.

Section Pyr.
Variable ratio : N -> N -> fscale.
Lemma compute_run b pyr x y level sl klv slv offs (p0 p1 : nat -> Z * Z) : let g := pl_img slv in let s := ratio (pl_scale klv) (pl_scale slv) in
  b_offsets b = Some offs -> 0 < b_octets b -> b_octets b * 32 <= Z.of_nat (length offs) ->
  sl = level + b_plo b -> zget pyr sl = Ok slv -> zget pyr level = Ok klv -> INT_MIN <= sl <= INT_MAX -> gray_ok g ->
  (forall k, (k < Z.to_nat (b_octets b * 8))%nat -> test_points s offs x y k (fst (p0 k)) (snd (p0 k)) (fst (p1 k)) (snd (p1 k)) /\
     in_image g (fst (p0 k)) (snd (p0 k)) /\ in_image g (fst (p1 k)) (snd (p1 k))) ->
  exists desc, compute_pyr ratio b pyr x y level = Ok desc /\ Z.of_nat (length desc) = b_octets b /\ bytes_ok desc /\
    forall k, (k < Z.to_nat (b_octets b * 8))%nat -> desc_bit desc k = (px g (fst (p1 k)) (snd (p1 k)) <? px g (fst (p0 k)) (snd (p0 k))).
Proof.
  intros g s OF OP OL SL ZS ZK SI G H. unfold compute_pyr. rewrite <- SL, chk_int_in by lia. cbn [bind]. rewrite ZS. cbn [bind]. rewrite ZK. cbn [bind].
  rewrite OF. fold s g.
  set (points := fun '(ox0, oy0, ox1, oy1) => let* x0 := sample (x + ox0) s in let* y0 := sample (y + oy0) s in let* x1 := sample (x + ox1) s in let* y1 := sample (y + oy1) s in Ok (x0, y0, x1, y1)).
  assert (R : forall m, (m <= Z.to_nat (b_octets b))%nat -> exists desc, for_each (fun i desc => let* d := octet points g offs i in Ok (desc ++ [d])) (seq 0 m) [] = Ok desc /\
    length desc = m /\ bytes_ok desc /\ forall k, (k < 8 * m)%nat -> desc_bit desc k = (px g (fst (p1 k)) (snd (p1 k)) <? px g (fst (p0 k)) (snd (p0 k)))).
  { induction m as [|m IH]; intro M.
    - exists []. repeat split; [constructor|intros; lia].
    - destruct IH as (desc & E & LD & BD & B); [lia|]. rewrite seq_S, for_each_app, E. cbn [bind for_each Nat.add].
      destruct (octet_run points g offs m p0 p1 G ltac:(lia)) as (d & -> & D & DB).
      { intros j J. cbv zeta. destruct (H (8 * m + j)%nat ltac:(lia)) as ((T1 & T2 & T3 & T4) & I0 & I1). split; [|split; assumption].
        unfold points. rewrite T1, T2, T3, T4. reflexivity. }
      cbn [bind]. eexists. split; [reflexivity|]. split; [rewrite app_length; cbn; lia|]. split.
      + apply Forall_app. split; [exact BD|]. repeat constructor. exact D.
      + intros k K. destruct (div_mod8 k) as [E1 E2]. unfold desc_bit. destruct (Nat.lt_ge_cases k (8 * m)) as [LT|GE].
        * rewrite app_nth1 by lia. apply B, LT.
        * assert (k / 8 = m)%nat as EM by lia. rewrite EM, app_nth2, LD, Nat.sub_diag by lia. cbn [nth].
          specialize (DB (k mod 8)%nat E2). cbv zeta in DB. replace (8 * m + k mod 8)%nat with k in DB by lia. exact DB. }
  destruct (R _ (le_n _)) as (desc & E & LD & BD & B). exists desc. split; [exact E|]. split; [lia|]. split; [exact BD|].
  intros k K. apply B. lia.
Qed.

(** What [check_point] decides. *)
Definition val (r : res Z) : Z := match r with Ok v => v | _ => 0 end.
Lemma check_points b offs pyr x y level klv slv c : brief_ok b offs -> let s := ratio (pl_scale klv) (pl_scale slv) in
  zget pyr (level + b_plo b) = Ok slv -> zget pyr level = Ok klv -> 0 < fs_m s -> level + b_plo b < Z.of_nat (length pyr) ->
  check_point ratio b pyr x y level = Ok c ->
  INT_MIN <= level + b_plo b <= INT_MAX /\
  (forall k, (k < Z.to_nat (b_octets b * 8))%nat -> exists x0 y0 x1 y1, test_points s offs x y k x0 y0 x1 y1 /\
     (c = true -> in_image (pl_img slv) x0 y0 /\ in_image (pl_img slv) x1 y1)) /\
  (c = false -> exists k x0 y0 x1 y1, (k < Z.to_nat (b_octets b * 8))%nat /\ test_points s offs x y k x0 y0 x1 y1 /\
     ~ (in_image (pl_img slv) x0 y0 /\ in_image (pl_img slv) x1 y1)).
Proof.
  intros [OF OP OM OL LI SM] s ZS ZK M NL. unfold check_point.
  destruct (chk_int (level + b_plo b)) as [sl| | |] eqn:CK; cbn [bind]; try discriminate.
  assert (SI : INT_MIN <= level + b_plo b <= INT_MAX /\ sl = level + b_plo b).
  { unfold chk_int, in_int in CK. destruct (_ && _) eqn:E in CK; [|discriminate]. injection CK as <-. lia. }
  destruct SI as [SI ->]. destruct (Z.leb_spec (Z.of_nat (length pyr)) (level + b_plo b)); [lia|].
  rewrite ZS. cbn [bind]. rewrite ZK. cbn [bind]. fold s. destruct (b_limits b) as [[[lx lx'] ly] ly'] eqn:EL. destruct LI as [(BX & (ka & KA & AA) & (kb & KB & AB)) (BY & (kc & KC & AC) & (kd & KD & AD))].
  destruct (sample (x + lx) s) as [xmin| | |] eqn:S1; cbn [bind]; try discriminate.
  destruct (sample (x + lx') s) as [xmax| | |] eqn:S2; cbn [bind]; try discriminate.
  destruct (sample (y + ly) s) as [ymin| | |] eqn:S3; cbn [bind]; try discriminate.
  destruct (sample (y + ly') s) as [ymax| | |] eqn:S4; cbn [bind]; try discriminate.
  set (g := pl_img slv). intros [= <-]. split; [exact SI|].
  assert (T : forall k, (k < Z.to_nat (b_octets b * 8))%nat -> exists x0 y0 x1 y1, test_points s offs x y k x0 y0 x1 y1 /\
    xmin <= x0 <= xmax /\ xmin <= x1 <= xmax /\ ymin <= y0 <= ymax /\ ymin <= y1 <= ymax).
  { intros k K. specialize (BX k K). specialize (BY k K).
    destruct (sample_between s (x + lx) (x + tx0 offs k) (x + lx') xmin xmax M ltac:(lia) S1 S2) as (x0 & E0 & R0).
    destruct (sample_between s (x + lx) (x + tx1 offs k) (x + lx') xmin xmax M ltac:(lia) S1 S2) as (x1 & E1 & R1).
    destruct (sample_between s (y + ly) (y + ty0 offs k) (y + ly') ymin ymax M ltac:(lia) S3 S4) as (y0 & F0 & Q0).
    destruct (sample_between s (y + ly) (y + ty1 offs k) (y + ly') ymin ymax M ltac:(lia) S3 S4) as (y1 & F1 & Q1).
    exists x0, y0, x1, y1. unfold test_points. auto 10. }
  split.
  - intros k K. destruct (T k K) as (x0 & y0 & x1 & y1 & TP & R). exists x0, y0, x1, y1. split; [exact TP|].
    intro C. unfold in_image. rewrite !Bool.andb_true_iff, !Z.leb_le, !Z.ltb_lt in C. lia.
  - intro C.
    assert (W : xmin < 0 \/ g_w g <= xmax \/ ymin < 0 \/ g_h g <= ymax).
    { destruct (Z.leb_spec 0 xmin), (Z.ltb_spec xmax (g_w g)), (Z.leb_spec 0 ymin), (Z.ltb_spec ymax (g_h g)); cbn in C; try discriminate; lia. }
    destruct W as [W|[W|[W|W]]].
    + destruct (T ka KA) as (x0 & y0 & x1 & y1 & TP & R). exists ka, x0, y0, x1, y1. split; [exact KA|]. split; [exact TP|].
      destruct TP as (P1 & P2 & P3 & P4). destruct AA as [E|E]; [rewrite E in P1|rewrite E in P3]; unfold in_image; intros [[? ?] [? ?]];
        [rewrite S1 in P1; injection P1 as <-|rewrite S1 in P3; injection P3 as <-]; lia.
    + destruct (T kb KB) as (x0 & y0 & x1 & y1 & TP & R). exists kb, x0, y0, x1, y1. split; [exact KB|]. split; [exact TP|].
      destruct TP as (P1 & P2 & P3 & P4). destruct AB as [E|E]; [rewrite E in P1|rewrite E in P3]; unfold in_image; intros [[? ?] [? ?]];
        [rewrite S2 in P1; injection P1 as <-|rewrite S2 in P3; injection P3 as <-]; lia.
    + destruct (T kc KC) as (x0 & y0 & x1 & y1 & TP & R). exists kc, x0, y0, x1, y1. split; [exact KC|]. split; [exact TP|].
      destruct TP as (P1 & P2 & P3 & P4). destruct AC as [E|E]; [rewrite E in P2|rewrite E in P4]; unfold in_image; intros [[? ?] [? ?]];
        [rewrite S3 in P2; injection P2 as <-|rewrite S3 in P4; injection P4 as <-]; lia.
    + destruct (T kd KD) as (x0 & y0 & x1 & y1 & TP & R). exists kd, x0, y0, x1, y1. split; [exact KD|]. split; [exact TP|].
      destruct TP as (P1 & P2 & P3 & P4). destruct AD as [E|E]; [rewrite E in P2|rewrite E in P4]; unfold in_image; intros [[? ?] [? ?]];
        [rewrite S4 in P2; injection P2 as <-|rewrite S4 in P4; injection P4 as <-]; lia.
Qed.
End Pyr.

(** * Rotated tests *)
Definition inb (g : gray) (p : Z * Z) : bool := (0 <=? fst p) && (fst p <? g_w g) && (0 <=? snd p) && (snd p <? g_h g).
Lemma inb_iff g p : inb g p = true <-> in_image g (fst p) (snd p).
Proof. unfold inb, in_image. rewrite !Bool.andb_true_iff, !Z.leb_le, !Z.ltb_lt. lia. Qed.
Section Theta.
Variables (turn : Z -> Z -> Z * Z) (g : gray) (offs : list Z).
Hypothesis G : gray_ok g.
Let p0 (k : nat) := turn (tx0 offs k) (ty0 offs k).
Let p1 (k : nat) := turn (tx1 offs k) (ty1 offs k).
Let inside (k : nat) := inb g (p0 k) && inb g (p1 k).
Let bit (k : nat) := px g (fst (p1 k)) (snd (p1 k)) <? px g (fst (p0 k)) (snd (p0 k)).
Lemma theta_octet i : (4 * (8 * i + 8) <= length offs)%nat ->
  exists r, octet_theta turn g offs i = Ok r /\
    match r with
    | Some d => (d < 256)%N /\ forall j, (j < 8)%nat -> inside (8 * i + j) = true /\ N.testbit d (N.of_nat (7 - j)) = bit (8 * i + j)
    | None => exists j, (j < 8)%nat /\ inside (8 * i + j) = false
    end.
Proof.
  intro L. unfold octet_theta.
  destruct (octet_bits (fun j => bit (8 * i + j)) 0 ltac:(intros; apply N.bits_0) 8 (le_n 8)) as (d & E & D & B).
  assert (R : forall m s, (m <= 8)%nat -> for_each (fun j d => Ok ((N.shiftl d 1) mod 256 + (if bit (8 * i + j) then 1 else 0))%N) (seq 0 m) 0%N = Ok s ->
    exists r, for_each (fun j d =>
      match d with
      | None => Ok None
      | Some d =>
        let* (ox0, oy0, ox1, oy1) := quad offs (8 * i + j) in
        let '(x0, y0) := turn ox0 oy0 in
        let '(x1, y1) := turn ox1 oy1 in
        if (x0 <? 0) || (g_w g <=? x0) || (x1 <? 0) || (g_w g <=? x1) || (y0 <? 0) || (g_h g <=? y0) || (y1 <? 0) || (g_h g <=? y1)
        then Ok None
        else
          let* I0 := pixel g x0 y0 in
          let* I1 := pixel g x1 y1 in
          Ok (Some ((N.shiftl d 1) mod 256 + (if N.ltb I1 I0 then 1 else 0))%N)
      end) (seq 0 m) (Some 0%N) = Ok r /\
    match r with
    | Some d => d = s /\ forall j, (j < m)%nat -> inside (8 * i + j) = true
    | None => exists j, (j < m)%nat /\ inside (8 * i + j) = false
    end).
  { induction m as [|m IH]; intros s M H.
    - cbn in H. injection H as <-. exists (Some 0%N). cbn. repeat split; auto. intros; lia.
    - rewrite seq_S, for_each_app in H. cbn [Nat.add] in H.
      destruct (for_each _ (seq 0 m) 0%N) as [s'| | |] eqn:ES; cbn [bind] in H; try discriminate.
      destruct (IH s' ltac:(lia) eq_refl) as (r & ER & PR). rewrite seq_S, for_each_app, ER. cbn [bind for_each Nat.add] in *.
      destruct r as [d'|].
      + destruct PR as [-> PI]. rewrite quad_ok by lia. cbn [bind]. change (turn (tx0 offs (8 * i + m)) (ty0 offs (8 * i + m))) with (p0 (8 * i + m)). change (turn (tx1 offs (8 * i + m)) (ty1 offs (8 * i + m))) with (p1 (8 * i + m)).
        destruct (p0 (8 * i + m)) as [x0 y0] eqn:E0. destruct (p1 (8 * i + m)) as [x1 y1] eqn:E1.
        destruct (_ || _) eqn:C.
        * eexists. split; [reflexivity|]. cbn beta iota. exists m. split; [lia|]. unfold inside, inb. rewrite E0, E1. cbn [fst snd].
          destruct (Z.ltb_spec x0 0), (Z.leb_spec (g_w g) x0), (Z.ltb_spec x1 0), (Z.leb_spec (g_w g) x1), (Z.ltb_spec y0 0), (Z.leb_spec (g_h g) y0), (Z.ltb_spec y1 0), (Z.leb_spec (g_h g) y1); cbn in C; try discriminate;
          apply Bool.not_true_iff_false; rewrite !Bool.andb_true_iff, !Z.leb_le, !Z.ltb_lt; lia.
        * assert (I0 : in_image g x0 y0) by (unfold in_image; rewrite !Bool.orb_false_iff, !Z.ltb_ge, !Z.leb_gt in C; lia).
          assert (I1 : in_image g x1 y1) by (unfold in_image; rewrite !Bool.orb_false_iff, !Z.ltb_ge, !Z.leb_gt in C; lia).
          rewrite !pixel_ok by assumption. cbn [bind]. eexists. split; [reflexivity|]. cbn beta iota. split.
          { match type of H with Ok ?a = Ok _ => assert (HS : a = s) by congruence end. rewrite <- HS. f_equal. unfold bit, px. rewrite E0, E1. cbn [fst snd].
            match goal with |- (if N.ltb ?a ?b then _ else _) = _ => destruct (N.ltb_spec a b), (Z.ltb_spec (Z.of_N a) (Z.of_N b)); try reflexivity; lia end. }
          intros j J. assert (j = m \/ j < m)%nat as [->|LT] by lia; [|auto]. unfold inside. rewrite E0, E1.
          apply Bool.andb_true_iff. split; apply inb_iff; assumption.
      + destruct PR as (j & J & PJ). eexists. split; [reflexivity|]. cbn beta iota. exists j. split; [lia|exact PJ]. }
  destruct (R 8%nat d (le_n 8) E) as (r & ER & PR). exists r. split; [exact ER|]. destruct r as [d'|]; [|exact PR].
  destruct PR as [-> PI]. split; [exact D|]. intros j J. split; [apply PI, J|exact (B j J)].
Qed.
Lemma theta_desc n : (32 * n <= length offs)%nat ->
  exists r, for_each (fun i desc =>
        match desc with
        | None => Ok None
        | Some desc =>
          let* d := octet_theta turn g offs i in
          Ok (match d with Some d => Some (desc ++ [d]) | None => None end)
        end) (seq 0 n) (Some []) = Ok r /\
    match r with
    | Some desc => length desc = n /\ bytes_ok desc /\ forall k, (k < 8 * n)%nat -> inside k = true /\ desc_bit desc k = bit k
    | None => exists k, (k < 8 * n)%nat /\ inside k = false
    end.
Proof.
  induction n as [|n IH]; intro L.
  - exists (Some []). cbn. repeat split; [constructor| |]; lia.
  - destruct IH as (r & E & P); [lia|]. rewrite seq_S, for_each_app, E. cbn [bind for_each Nat.add]. destruct r as [desc|].
    + destruct P as (LD & BD & PD). destruct (theta_octet n ltac:(lia)) as ([d|] & -> & PO); cbn [bind]; (eexists; split; [reflexivity|]); cbn beta iota.
      * destruct PO as [D PO]. split; [rewrite app_length; cbn; lia|]. split; [apply Forall_app; split; [exact BD|repeat constructor; exact D]|].
        intros k K. destruct (div_mod8 k) as [E1 E2]. unfold desc_bit. destruct (Nat.lt_ge_cases k (8 * n)) as [LT|GE].
        -- rewrite app_nth1 by lia. apply PD, LT.
        -- assert (k / 8 = n)%nat as EM by lia. rewrite EM, app_nth2, LD, Nat.sub_diag by lia. cbn [nth].
           specialize (PO (k mod 8)%nat E2). replace (8 * n + k mod 8)%nat with k in PO by lia. exact PO.
      * destruct PO as (j & J & PJ). exists (8 * n + j)%nat. split; [lia|exact PJ].
    + destruct P as (k & K & PK). eexists. split; [reflexivity|]. cbn beta iota. exists k. split; [lia|exact PK].
Qed.
End Theta.

(** * Random tests *)
Lemma rne24_exact a k : 0 <= a < 2 ^ 24 -> 0 <= k -> rne24 (a * 2 ^ k) = a * 2 ^ k.
Proof.
  intros A K. assert (PK : 0 < 2 ^ k) by (apply Z.pow_pos_nonneg; lia).
  destruct (Z.lt_ge_cases (a * 2 ^ k) (2 ^ 24)) as [L|L]; [apply rne24_small; nia|].
  destruct (rne24_pieces _ L) as (s & q & r & S1 & S2 & E & R & Q & ->).
  assert (A0 : 0 < a) by nia.
  assert (SK : s <= k).
  { rewrite Z.log2_mul_pow2 in S2 by lia. assert (Z.log2 a < 24) by (apply Z.log2_lt_pow2; lia). lia. }
  replace k with (k - s + s) in E |- * by lia. rewrite Z.pow_add_r, Z.mul_assoc in E |- * by lia.
  assert (P : 0 < 2 ^ s) by (apply Z.pow_pos_nonneg; lia). assert (H : 0 < 2 ^ (s - 1)) by (apply Z.pow_pos_nonneg; lia).
  set (p := 2 ^ s) in *. set (h := 2 ^ (s - 1)) in *. set (c := a * 2 ^ (k - s)) in *. clearbody p h c.
  assert (q = c) as -> by nia. assert (r = 0) as -> by lia.
  destruct (Z.ltb_spec h 0); [lia|]. destruct (Z.eqb_spec 0 h); [lia|]. cbn. now rewrite Z.add_0_r.
Qed.
Lemma rne24s_range u m : 0 <= m -> rne24 m = m -> - m <= u <= m -> - m <= rne24s u <= m.
Proof.
  intros M E H. pose proof (rne24s_mono (- m) u ltac:(lia)). pose proof (rne24s_mono u m ltac:(lia)).
  assert (P : rne24s m = m) by (unfold rne24s; rewrite Z.abs_eq, E by lia; destruct (Z.sgn_spec m) as [[? ->]|[[<- ->]|[? ->]]]; lia).
  assert (P' : rne24s (- m) = - m).
  { unfold rne24s. rewrite Z.abs_opp, Z.abs_eq, E, Z.sgn_opp by lia. destruct (Z.sgn_spec m) as [[? ->]|[[<- ->]|[? ->]]]; lia. }
  lia.
Qed.
Lemma coord_range radius r : 0 < radius <= 2 ^ 22 -> 0 <= r < 2 ^ 32 -> - radius <= coord radius r <= radius.
Proof.
  intros R H. unfold coord. rewrite (rne24_small (2 * radius)) by lia.
  assert (A : 0 <= rne24 r <= 2 ^ 32).
  { split; [apply rne24_nonneg; lia|]. pose proof (rne24_mono r (2 ^ 32) ltac:(lia)) as M. change (rne24 (2 ^ 32)) with (2 ^ 32) in M. exact M. }
  pose proof (rne24s_range (rne24 r - 2 ^ 31) (2 ^ 31) ltac:(lia) eq_refl ltac:(lia)) as B.
  set (v := rne24s (rne24 r - 2 ^ 31)) in *. clearbody v.
  pose proof (rne24s_range (2 * radius * v) (radius * 2 ^ 32) ltac:(lia) (rne24_exact radius 32 ltac:(lia) ltac:(lia)) ltac:(change (2 ^ 31) with 2147483648 in B; change (2 ^ 32) with 4294967296; nia)) as C.
  set (w := rne24s (2 * radius * v)) in *. clearbody w.
  split.
  - replace (- radius) with (Z.quot (- radius * 2 ^ 32) (2 ^ 32)) by (apply Z.quot_mul; lia). apply Z.quot_le_mono; lia.
  - replace radius with (Z.quot (radius * 2 ^ 32) (2 ^ 32)) by (apply Z.quot_mul; lia). apply Z.quot_le_mono; lia.
Qed.
Definition good_rs (rs : list Z) : Prop := Forall (fun r => 0 <= r < 2 ^ 32) rs.
Definition far (x0 y0 x1 y1 : Z) : Prop := 9 <= (x1 - x0) * (x1 - x0) + (y1 - y0) * (y1 - y0).
Lemma second_ok radius x0 y0 : 0 < radius <= 16383 -> - radius <= x0 <= radius -> - radius <= y0 <= radius ->
  forall n rs, (length rs <= n)%nat -> good_rs rs ->
  second_point radius x0 y0 rs = NoFuel \/
  exists x1 y1 rs', second_point radius x0 y0 rs = Ok (x1, y1, rs') /\ good_rs rs' /\ - radius <= x1 <= radius /\ - radius <= y1 <= radius /\ far x0 y0 x1 y1.
Proof.
  intros R X0 Y0. induction n as [|n IH]; intros rs L H; destruct rs as [|r1 [|r2 rs]]; cbn [second_point]; auto; cbn [length] in L; [lia|].
  apply Forall_cons_iff in H as [R1 H]. apply Forall_cons_iff in H as [R2 H].
  pose proof (coord_range radius r1 ltac:(lia) R1) as C1. pose proof (coord_range radius r2 ltac:(lia) R2) as C2.
  set (x1 := coord radius r1) in *. set (y1 := coord radius r2) in *. clearbody x1 y1.
  repeat (rewrite chk_int_in by (rewrite int_min, int_max; nia); cbn [bind]).
  destruct (Z.ltb_spec ((x1 - x0) * (x1 - x0) + (y1 - y0) * (y1 - y0)) 9) as [LT|GE].
  - apply IH; [lia|exact H].
  - right. exists x1, y1, rs. unfold far. auto 10.
Qed.
Definition good_test (radius : Z) (offs : list Z) (k : nat) : Prop :=
  - radius <= tx0 offs k <= radius /\ - radius <= ty0 offs k <= radius /\ - radius <= tx1 offs k <= radius /\ - radius <= ty1 offs k <= radius /\
  far (tx0 offs k) (ty0 offs k) (tx1 offs k) (ty1 offs k).
Lemma rand_step_ok radius i offs rs : 0 < radius <= 16383 -> good_rs rs -> (4 * i + 3 < length offs)%nat -> (forall k, (k < i)%nat -> good_test radius offs k) ->
  rand_step radius i (offs, rs) = NoFuel \/
  exists offs' rs', rand_step radius i (offs, rs) = Ok (offs', rs') /\ good_rs rs' /\ length offs' = length offs /\ (forall k, (k < S i)%nat -> good_test radius offs' k).
Proof.
  intros R H L GT. unfold rand_step. destruct rs as [|r1 [|r2 rs]]; auto.
  apply Forall_cons_iff in H as [R1 H]. apply Forall_cons_iff in H as [R2 H].
  pose proof (coord_range radius r1 ltac:(lia) R1) as C1. pose proof (coord_range radius r2 ltac:(lia) R2) as C2.
  set (x0 := coord radius r1) in *. set (y0 := coord radius r2) in *. clearbody x0 y0. cbv zeta.
  destruct (second_ok radius x0 y0 R C1 C2 _ rs (le_n _) H) as [-> | (x1 & y1 & rs' & -> & G' & X1 & Y1 & F)]; cbn [bind]; auto. right.
  rewrite !aset_lt by (rewrite ?lset_length; lia). cbn [bind]. rewrite aset_lt by (rewrite ?lset_length; lia). cbn [bind].
  rewrite aset_lt by (rewrite ?lset_length; lia). cbn [bind]. rewrite aset_lt by (rewrite ?lset_length; lia). cbn [bind].
  do 2 eexists. split; [reflexivity|]. split; [exact G'|]. split; [now rewrite !lset_length|].
  intros k K. unfold good_test, tx0, ty0, tx1, ty1. rewrite !nth_lset, !lset_length. assert (k < i \/ k = i)%nat as [LT| ->] by lia.
  - specialize (GT k LT). unfold good_test, tx0, ty0, tx1, ty1 in GT.
    repeat match goal with |- context [Nat.eqb ?a ?b] => destruct (Nat.eqb_spec a b); [lia|] end. cbn [andb]. exact GT.
  - replace (4 * i + 3 =? 4 * i)%nat with false by (symmetry; apply Nat.eqb_neq; lia).
    replace (4 * i + 2 =? 4 * i)%nat with false by (symmetry; apply Nat.eqb_neq; lia).
    replace (4 * i + 1 =? 4 * i)%nat with false by (symmetry; apply Nat.eqb_neq; lia).
    replace (4 * i + 3 =? 4 * i + 1)%nat with false by (symmetry; apply Nat.eqb_neq; lia).
    replace (4 * i + 2 =? 4 * i + 1)%nat with false by (symmetry; apply Nat.eqb_neq; lia).
    replace (4 * i + 3 =? 4 * i + 2)%nat with false by (symmetry; apply Nat.eqb_neq; lia).
    rewrite !Nat.eqb_refl. repeat match goal with |- context [Nat.ltb ?a ?b] => destruct (Nat.ltb_spec a b); [|lia] end. cbn [andb]. auto 10.
Qed.
Lemma rand_loop_ok radius m offs rs : 0 < radius <= 16383 -> good_rs rs -> (4 * m <= length offs)%nat ->
  for_each (rand_step radius) (seq 0 m) (offs, rs) = NoFuel \/
  exists offs' rs', for_each (rand_step radius) (seq 0 m) (offs, rs) = Ok (offs', rs') /\ good_rs rs' /\ length offs' = length offs /\ (forall k, (k < m)%nat -> good_test radius offs' k).
Proof.
  intros R H. induction m as [|m IH]; intro L.
  - right. exists offs, rs. repeat split; auto; lia.
  - rewrite seq_S, for_each_app. destruct IH as [-> | (o & r & -> & GR & LO & GT)]; [lia|now left|]. cbn [bind for_each Nat.add].
    destruct (rand_step_ok radius m o r R GR ltac:(lia) GT) as [-> | (o' & r' & -> & GR' & LO' & GT')]; [now left|]. cbn [bind].
    right. exists o', r'. repeat split; auto; try lia; apply GT'; assumption.
Qed.
Lemma good_small radius m offs : 0 < radius <= 16383 -> (forall k, (k < m)%nat -> good_test radius offs k) -> small_offs m offs.
Proof.
  intros R GT i I. rewrite int_max.
  assert (E : (i = 4 * (i / 4) + i mod 4)%nat) by (apply Nat.div_mod; lia). assert (B : (i mod 4 < 4)%nat) by (apply Nat.mod_upper_bound; lia).
  destruct (GT (i / 4)%nat ltac:(lia)) as (A0 & A1 & A2 & A3 & _). unfold tx0, ty0, tx1, ty1 in *.
  assert (i mod 4 = 0 \/ i mod 4 = 1 \/ i mod 4 = 2 \/ i mod 4 = 3)%nat as [Q|[Q|[Q|Q]]] by lia; rewrite Q in E; rewrite E; rewrite ?Nat.add_0_r; lia.
Qed.
Lemma randomize_ok b offs rs : b_offsets b = Some offs -> 0 < b_octets b -> b_octets b * 32 <= INT_MAX -> b_octets b * 32 <= Z.of_nat (length offs) ->
  0 < b_radius b <= 16383 -> good_rs rs ->
  randomize b rs = NoFuel \/
  exists b' offs', randomize b rs = Ok b' /\ brief_ok b' offs' /\ b_radius b' = b_radius b /\ b_octets b' = b_octets b /\ b_plo b' = b_plo b /\
    (forall k, (k < Z.to_nat (b_octets b * 8))%nat -> good_test (b_radius b) offs' k).
Proof.
  intros OF OP OM OL R H. unfold randomize. rewrite OF. repeat (rewrite chk_int_in by (rewrite int_min, ?int_max in *; lia); cbn [bind]).
  destruct (rand_loop_ok (b_radius b) (Z.to_nat (b_octets b * 8)) offs rs R H ltac:(lia)) as [-> | (o & r & -> & _ & LO & GT)]; cbn [bind]; [now left|]. right.
  pose proof (good_small _ _ _ R GT) as SM.
  destruct (update_limits_ok {| b_radius := b_radius b; b_octets := b_octets b; b_offsets := Some o; b_limits := b_limits b; b_plo := b_plo b |} o eq_refl OP OM ltac:(cbn; lia) SM) as (l & -> & LI).
  do 2 eexists. split; [reflexivity|]. cbn [b_radius b_octets b_offsets b_limits b_plo]. split; [|auto]. split; cbn [b_radius b_octets b_offsets b_limits b_plo]; auto. lia.
Qed.
(** Radius 1 (and, but for extreme generator outputs, radius 2) cannot work. *)
Lemma second_stuck radius x0 y0 : (forall r, -1 <= coord radius r <= 1 \/ ~ 128 <= r < 2 ^ 32 - 128) -> -1 <= x0 <= 1 -> -1 <= y0 <= 1 ->
  forall n rs, (length rs <= n)%nat -> Forall (fun r => 128 <= r < 2 ^ 32 - 128) rs -> second_point radius x0 y0 rs = NoFuel.
Proof.
  intros C X Y. induction n as [|n IH]; intros rs L H; destruct rs as [|r1 [|r2 rs]]; cbn [second_point]; auto; cbn [length] in L; [lia|].
  apply Forall_cons_iff in H as [R1 H]. apply Forall_cons_iff in H as [R2 H].
  destruct (C r1) as [C1|C1]; [|contradiction]. destruct (C r2) as [C2|C2]; [|contradiction].
  repeat (rewrite chk_int_in by (rewrite int_min, int_max; nia); cbn [bind]).
  destruct (Z.ltb_spec ((coord radius r1 - x0) * (coord radius r1 - x0) + (coord radius r2 - y0) * (coord radius r2 - y0)) 9) as [LT|GE]; [|nia].
  apply IH; [lia|exact H].
Qed.
Lemma coord1 r : 0 <= r < 2 ^ 32 -> -1 <= coord 1 r <= 1.
Proof. intro H. apply (coord_range 1 r); lia. Qed.
Lemma coord2 r : 128 <= r < 2 ^ 32 - 128 -> -1 <= coord 2 r <= 1.
Proof.
  intro H. unfold coord. change (rne24 (2 * 2)) with 4.
  assert (A : 128 <= rne24 r <= 2 ^ 32 - 2 ^ 8).
  { split; [|apply rne24_below; lia]. pose proof (rne24_mono 128 r ltac:(lia)) as M. change (rne24 128) with 128 in M. exact M. }
  assert (B : - (2 ^ 31 - 128) <= rne24s (rne24 r - 2 ^ 31) <= 2 ^ 31 - 128) by (apply rne24s_range; [lia|reflexivity|lia]).
  set (v := rne24s (rne24 r - 2 ^ 31)) in *. clearbody v.
  assert (C : - (2 ^ 33 - 512) <= rne24s (4 * v) <= 2 ^ 33 - 512) by (apply rne24s_range; [lia|reflexivity|lia]).
  set (w := rne24s (4 * v)) in *. clearbody w. split.
  - change (-1) with (Z.quot (- (2 ^ 33 - 512)) (2 ^ 32)). apply Z.quot_le_mono; lia.
  - change 1 with (Z.quot (2 ^ 33 - 512) (2 ^ 32)). apply Z.quot_le_mono; lia.
Qed.
Lemma second_stuck1 x0 y0 : -1 <= x0 <= 1 -> -1 <= y0 <= 1 -> forall n rs, (length rs <= n)%nat -> good_rs rs -> second_point 1 x0 y0 rs = NoFuel.
Proof.
  intros X Y. induction n as [|n IH]; intros rs L H; destruct rs as [|r1 [|r2 rs]]; cbn [second_point]; auto; cbn [length] in L; [lia|].
  apply Forall_cons_iff in H as [R1 H]. apply Forall_cons_iff in H as [R2 H]. pose proof (coord1 r1 R1). pose proof (coord1 r2 R2).
  repeat (rewrite chk_int_in by (rewrite int_min, int_max; nia); cbn [bind]).
  destruct (Z.ltb_spec ((coord 1 r1 - x0) * (coord 1 r1 - x0) + (coord 1 r2 - y0) * (coord 1 r2 - y0)) 9) as [LT|GE]; [|nia].
  apply IH; [lia|exact H].
Qed.
Lemma randomize_stuck b offs rs : b_offsets b = Some offs -> 0 < b_octets b -> b_octets b * 32 <= INT_MAX ->
  (b_radius b = 1 /\ good_rs rs \/ b_radius b = 2 /\ Forall (fun r => 128 <= r < 2 ^ 32 - 128) rs) -> randomize b rs = NoFuel.
Proof.
  intros OF OP OM H. unfold randomize. rewrite OF. repeat (rewrite chk_int_in by (rewrite int_min, ?int_max in *; lia); cbn [bind]).
  replace (Z.to_nat (b_octets b * 8)) with (S (Z.to_nat (b_octets b * 8 - 1))) by lia. cbn [seq for_each].
  assert (E : rand_step (b_radius b) 0 (offs, rs) = NoFuel); [|rewrite E; reflexivity].
  unfold rand_step. destruct rs as [|r1 [|r2 rs]]; auto. destruct H as [[-> H]|[-> H]].
  - apply Forall_cons_iff in H as [R1 H]. apply Forall_cons_iff in H as [R2 H].
    rewrite (second_stuck1 _ _ (coord1 _ R1) (coord1 _ R2) _ rs (le_n _) H). reflexivity.
  - apply Forall_cons_iff in H as [R1 H]. apply Forall_cons_iff in H as [R2 H].
    rewrite (second_stuck 2 _ _ ltac:(intro r; destruct (Z.le_gt_cases 128 r), (Z.lt_ge_cases r (2 ^ 32 - 128)); [left; apply coord2; lia|right; lia|right; lia|right; lia]) (coord2 _ R1) (coord2 _ R2) _ rs (le_n _) H). reflexivity.
Qed.

(** * Resizing and files *)
Lemma resize_ok junk b n radius rs : brief_inv b -> 0 < n -> n * 32 <= INT_MAX -> 0 < radius <= 16383 -> good_rs rs ->
  brief_resize junk b n radius rs = NoFuel \/
  exists b' offs', brief_resize junk b n radius rs = Ok b' /\ brief_ok b' offs' /\ b_radius b' = radius /\ b_octets b' = n /\ b_plo b' = b_plo b /\
    (forall k, (k < Z.to_nat (n * 8))%nat -> good_test radius offs' k).
Proof.
  intros BI N NM R H. unfold brief_resize. destruct (Z.leb_spec n 0); [lia|]. destruct (Z.leb_spec radius 0); [lia|]. cbn [orb].
  assert (A : exists o, match (if b_octets b <? n then None else b_offsets b) with Some o => Ok o | None => let* length := chk_int (n * 8 * 4) in Ok (map junk (seq 0 (Z.to_nat length))) end = Ok o /\
    n * 32 <= Z.of_nat (length o)).
  { rewrite chk_int_in by (rewrite int_min; lia). cbn [bind]. unfold brief_inv in BI.
    destruct (Z.ltb_spec (b_octets b) n); [|destruct (b_offsets b) as [o|]]; (eexists; split; [reflexivity|]); rewrite ?map_length, ?seq_length; lia. }
  destruct A as (o & -> & LO). cbn [bind].
  destruct (randomize_ok {| b_radius := radius; b_octets := n; b_offsets := Some o; b_limits := b_limits b; b_plo := b_plo b |} o rs eq_refl N NM LO R H) as [-> | (b' & o' & E & P)]; [now left|].
  right. exists b', o'. split; [exact E|exact P].
Qed.
Lemma span_unique m f g a b a' b' : span m f g a b -> span m f g a' b' -> a = a' /\ b = b'.
Proof.
  intros (B & (k1 & K1 & A1) & (k2 & K2 & A2)) (B' & (k1' & K1' & A1') & (k2' & K2' & A2')).
  pose proof (B k1' K1'). pose proof (B k2' K2'). pose proof (B' k1 K1). pose proof (B' k2 K2). lia.
Qed.
Lemma limits_unique m offs l l' : limits_of m offs l -> limits_of m offs l' -> l = l'.
Proof.
  destruct l as [[[a b] c] d], l' as [[[a' b'] c'] d']. intros [X Y] [X' Y'].
  destruct (span_unique _ _ _ _ _ _ _ X X') as [-> ->]. destruct (span_unique _ _ _ _ _ _ _ Y Y') as [-> ->]. reflexivity.
Qed.
Lemma limits_ext m offs offs' l : (forall i, (i < 4 * m)%nat -> nth i offs 0 = nth i offs' 0) -> limits_of m offs l -> limits_of m offs' l.
Proof.
  intro E. destruct l as [[[a b] c] d]. unfold limits_of, span.
  assert (E0 : forall k, (k < m)%nat -> tx0 offs' k = tx0 offs k /\ ty0 offs' k = ty0 offs k /\ tx1 offs' k = tx1 offs k /\ ty1 offs' k = ty1 offs k).
  { intros k K. unfold tx0, ty0, tx1, ty1. repeat split; symmetry; apply E; lia. }
  intros [(B & (k1 & K1 & A1) & (k2 & K2 & A2)) (B' & (k1' & K1' & A1') & (k2' & K2' & A2'))].
  split; (split; [|split]).
  - intros k K. destruct (E0 k K) as (Q0 & Q1 & Q2 & Q3). rewrite ?Q0, ?Q1, ?Q2, ?Q3. auto.
  - exists k1. split; [exact K1|]. destruct (E0 k1 K1) as (Q0 & Q1 & Q2 & Q3). rewrite ?Q0, ?Q1, ?Q2, ?Q3. auto.
  - exists k2. split; [exact K2|]. destruct (E0 k2 K2) as (Q0 & Q1 & Q2 & Q3). rewrite ?Q0, ?Q1, ?Q2, ?Q3. auto.
  - intros k K. destruct (E0 k K) as (Q0 & Q1 & Q2 & Q3). rewrite ?Q0, ?Q1, ?Q2, ?Q3. auto.
  - exists k1'. split; [exact K1'|]. destruct (E0 k1' K1') as (Q0 & Q1 & Q2 & Q3). rewrite ?Q0, ?Q1, ?Q2, ?Q3. auto.
  - exists k2'. split; [exact K2'|]. destruct (E0 k2' K2') as (Q0 & Q1 & Q2 & Q3). rewrite ?Q0, ?Q1, ?Q2, ?Q3. auto.
Qed.
