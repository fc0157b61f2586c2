(** Orientations and detection over a pyramid. *)
From Verif Require Import Base BaseLemmas Gray FastModel FastSpec FastProofs FastNonmax.
Local Open Scope Z_scope.

(** * Orientations *)

Lemma int_max : INT_MAX = 2147483647. Proof. reflexivity. Qed.
Lemma int_min : INT_MIN = -2147483648. Proof. reflexivity. Qed.
Definition indisc (r : Z) (p : Z * Z) : bool := let '(dx, dy) := p in dx * dx + dy * dy <? r * r.
Lemma filter_none {A} (f : A -> bool) l : (forall a, In a l -> f a = false) -> filter f l = [].
Proof. induction l as [|a l IH]; intro H; cbn; [reflexivity|]. rewrite H by now left. apply IH. intros; apply H; now right. Qed.
Lemma disc_half r : 0 < r -> disc r = filter (indisc r) (raster (- r) r (- r) r).
Proof.
  intro R. unfold disc. change (fun '(dx, dy) => dx * dx + dy * dy <? r * r) with (indisc r). unfold raster.
  assert (forall ys, filter (indisc r) (flat_map (fun y => map (fun x => (x, y)) (zrange (- r) (r + 1))) ys) =
                     filter (indisc r) (flat_map (fun y => map (fun x => (x, y)) (zrange (- r) r)) ys)) as H.
  { induction ys as [|y l IH]; [reflexivity|]. cbn [flat_map]. rewrite !filter_app, IH. f_equal.
    rewrite zrange_snoc by lia. rewrite map_app, filter_app. cbn [map filter].
    replace (indisc r (r, y)) with false by (symmetry; apply Z.ltb_ge; nia). now rewrite app_nil_r. }
  rewrite H. replace (zrange (- r) (r + 1)) with (zrange (- r) r ++ [r]) by (symmetry; apply zrange_snoc; lia).
  rewrite flat_map_app, filter_app. cbn [flat_map]. rewrite app_nil_r. rewrite (filter_none (indisc r) (map _ _)); [apply app_nil_r|].
  intros [a b] I. apply in_map_iff in I as (x & [= <- <-] & I). unfold indisc. apply Z.ltb_ge. nia.
Qed.
Lemma ic_table_ok r : 0 < r <= 30000 -> ic_table r = Ok (disc r).
Proof.
  intro R. unfold ic_table. rewrite chk_int_in by (rewrite int_max, int_min; nia). cbn [bind].
  rewrite (for_each_raster (fun x y t => let* r2xy := chk_int (x * x + y * y) in if r2xy <? r * r then Ok (t ++ [(x, y)]) else Ok t)).
  rewrite disc_half by lia. unfold raster. fold (raster (- r) r (- r) r).
  assert (forall l acc, (forall x y, In (x, y) l -> - r <= x < r /\ - r <= y < r) ->
    for_each (fun p t => let* r2xy := chk_int (fst p * fst p + snd p * snd p) in if r2xy <? r * r then Ok (t ++ [(fst p, snd p)]) else Ok t) l acc
    = Ok (acc ++ filter (indisc r) l)) as H.
  { induction l as [|[x y] l IH]; intros acc I; cbn [for_each filter]; [now rewrite app_nil_r|]. cbn [fst snd].
    destruct (I x y ltac:(now left)) as [X Y].
    rewrite chk_int_in by (rewrite int_max, int_min; nia). cbn [bind]. unfold indisc at 1.
    destruct (x * x + y * y <? r * r); cbn [bind]; rewrite IH by (intros; apply I; now right); [now rewrite <- app_assoc|reflexivity]. }
  rewrite H; [reflexivity|]. intros x y I. apply raster_in in I. exact I.
Qed.
Lemma disc_in r dx dy : In (dx, dy) (disc r) -> dx * dx + dy * dy < r * r.
Proof. unfold disc. rewrite filter_In. intros [_ H]. apply Z.ltb_lt in H. exact H. Qed.
Lemma disc_bound r dx dy : 0 < r -> In (dx, dy) (disc r) -> - r < dx < r /\ - r < dy < r.
Proof. intros R I. apply disc_in in I. nia. Qed.
Lemma disc_length r : 0 < r -> Z.of_nat (length (disc r)) <= 4 * (r * r).
Proof.
  intro R. rewrite disc_half by exact R.
  assert (forall (f : Z * Z -> bool) l, (length (filter f l) <= length l)%nat) as FL.
  { intros f l. induction l as [|a l IH]; cbn; [lia|]. destruct (f a); cbn; lia. }
  pose proof (FL (indisc r) (raster (- r) r (- r) r)) as F.
  assert (forall ys : list Z, Z.of_nat (length (flat_map (fun y => map (fun x => (x, y)) (zrange (- r) r)) ys)) = 2 * r * Z.of_nat (length ys)) as L.
  { induction ys as [|y ys IH]; cbn [flat_map length]; [lia|]. rewrite app_length, map_length, zrange_length. nia. }
  specialize (L (zrange (- r) r)). fold (raster (- r) r (- r) r) in L. rewrite zrange_length in L. nia.
Qed.
Definition ori_room (r : Z) (g : gray) : Prop := r * (g_stride g + 1) <= INT_MAX.
Definition fit (r : Z) (g : gray) (x y : Z) : Prop := r <= x < g_w g - r /\ r <= y < g_h g - r.
Lemma ori_ic_ok atan2 g x y r : gray_ok g -> 0 < r <= 128 -> fit r g x y ->
  ori_ic atan2 (g_data g) (y * g_stride g + x) (map (fun '(tx, ty) => tx + g_stride g * ty) (disc r)) (disc r)
  = Ok (atan2 (moment_y g x y r) (moment_x g x y r)).
Proof.
  intros G R [X Y]. unfold ori_ic.
  assert (forall l m01 m10, (forall dx dy, In (dx, dy) l -> - r < dx < r /\ - r < dy < r) ->
    Z.abs m01 + Z.of_nat (length l) * (255 * r) <= INT_MAX -> Z.abs m10 + Z.of_nat (length l) * (255 * r) <= INT_MAX ->
    for_each (fun '(o, (tx, ty)) '(m01, m10) =>
      let* p := rd_byte (g_data g) (y * g_stride g + x + o) in
      let* m10 := chk_int (m10 + tx * p) in
      let* m01 := chk_int (m01 + ty * p) in
      Ok (m01, m10)) (combine (map (fun '(tx, ty) => tx + g_stride g * ty) l) l) (m01, m10)
    = Ok (m01 + zsum (map (fun '(dx, dy) => dy * px g (x + dx) (y + dy)) l), m10 + zsum (map (fun '(dx, dy) => dx * px g (x + dx) (y + dy)) l))) as H.
  { induction l as [|[dx dy] l IH]; intros m01 m10 B M1 M2; cbn [map combine for_each zsum fold_right].
    - cbn. now rewrite !Z.add_0_r.
    - destruct (B dx dy ltac:(now left)) as [DX DY].
      destruct (px_index g (x + dx) (y + dy) G) as [I _]; [lia|lia|]. pose proof (px_byte g (x + dx) (y + dy) G ltac:(lia) ltac:(lia)) as V.
      unfold rd_byte. replace (y * g_stride g + x + (dx + g_stride g * dy)) with ((y + dy) * g_stride g + (x + dx)) by ring.
      rewrite (zget_lt _ _ 0%N) by exact I. cbn [bind]. change (Z.of_N (nth _ _ _)) with (px g (x + dx) (y + dy)).
      cbn [length] in M1, M2. rewrite Nat2Z.inj_succ in M1, M2.
      set (v := px g (x + dx) (y + dy)) in *. assert (Z.abs (dx * v) <= 255 * r) as A1 by nia. assert (Z.abs (dy * v) <= 255 * r) as A2 by nia.
      assert (0 <= Z.of_nat (length l) * (255 * r)) as LN by nia.
      rewrite !chk_int_in by (rewrite int_max, int_min in *; nia). cbn [bind].
      rewrite IH; [|intros; apply B; now right|nia|nia]. unfold zsum. f_equal. f_equal; ring. }
  rewrite H; [reflexivity| | |].
  - intros dx dy I. now apply disc_bound.
  - pose proof (disc_length r ltac:(lia)). rewrite int_max. assert (Z.of_nat (length (disc r)) * (255 * r) <= 4 * (r * r) * (255 * r)) by nia.
    assert (r * r * r <= 128 * 128 * 128) by nia. nia.
  - pose proof (disc_length r ltac:(lia)). rewrite int_max. assert (Z.of_nat (length (disc r)) * (255 * r) <= 4 * (r * r) * (255 * r)) by nia.
    assert (r * r * r <= 128 * 128 * 128) by nia. nia.
Qed.
Definition with_orientation (atan2 : Z -> Z -> N) (r : Z) (g : gray) (k : kp) : kp :=
  if (r <=? k_x k) && (k_x k <? g_w g - r) && (r <=? k_y k) && (k_y k <? g_h g - r)
  then k_with_ori k (atan2 (moment_y g (k_x k) (k_y k) r) (moment_x g (k_x k) (k_y k) r)) else k.
Lemma compute_ori_ok atan2 r g keys : gray_ok g -> 0 < r <= 128 -> ori_room r g ->
  compute_ori atan2 r (disc r) g keys = Ok (map (with_orientation atan2 r g) keys).
Proof.
  intros G R O. unfold compute_ori, ori_room in *. pose proof (go_w g G) as W.
  erewrite for_each_eq; [rewrite (for_each_collect (fun '(tx, ty) => chk_int (tx + g_stride g * ty)) (fun '(tx, ty) => tx + g_stride g * ty))|].
  - cbn [bind app]. enough (forall acc, for_each (fun k l =>
      if (r <=? k_x k) && (k_x k <? g_w g - r) && (r <=? k_y k) && (k_y k <? g_h g - r) then
        let* r0 := chk_int (k_y k * g_stride g) in
        let* o := ori_ic atan2 (g_data g) (r0 + k_x k) (map (fun '(tx, ty) => tx + g_stride g * ty) (disc r)) (disc r) in
        Ok (l ++ [k_with_ori k o])
      else Ok (l ++ [k])) keys acc = Ok (acc ++ map (with_orientation atan2 r g) keys)) as H by apply (H []).
    induction keys as [|k keys IH]; intro acc; cbn [for_each map]; [now rewrite app_nil_r|].
    unfold with_orientation at 1. destruct (_ && _ && _ && _) eqn:C; cbn [bind].
    + assert (fit r g (k_x k) (k_y k)) as F by (unfold fit; lia). pose proof F as [FX FY].
      destruct (px_index g (k_x k) (k_y k) G) as [_ J]; [lia|lia|]. rewrite chk_int_in by (rewrite int_min; lia). cbn [bind].
      rewrite ori_ic_ok by assumption. cbn [bind]. rewrite IH, <- app_assoc. reflexivity.
    + rewrite IH, <- app_assoc. reflexivity.
  - intros [tx ty] I. destruct (disc_bound r tx ty ltac:(lia) I) as [A B]. apply chk_int_in. rewrite int_max, int_min in *. nia.
  - intros [tx ty] l _. reflexivity.
Qed.

(** * One image *)

Lemma seq_shift_add a b n : seq (a + b) n = map (fun j => a + j)%nat (seq b n).
Proof. revert b. induction n as [|n IH]; intro b; cbn; [reflexivity|]. f_equal. rewrite <- Nat.add_succ_r. apply IH. Qed.

Definition nid (k : kp) : kp := k_with_id k 0.
Lemma renumber_nid l : map nid (renumber l) = map nid l.
Proof. unfold renumber. apply (map_combine_proj (fun i k => k_with_id k (Z.of_nat i)) nid nid). reflexivity. Qed.
Lemma cons_inj {A} (a b : A) l l' : a :: l = b :: l' -> a = b /\ l = l'.
Proof. intros [= -> ->]. auto. Qed.
Lemma nid_eq a b : nid a = nid b -> a = k_with_id b (k_id a).
Proof. destruct a, b. unfold nid, k_with_id. cbn. congruence. Qed.
Lemma nid_ori (O : Z -> Z -> N) l l' : map nid l = map nid l' ->
  map nid (map (fun k => k_with_ori k (O (k_x k) (k_y k))) l) = map nid (map (fun k => k_with_ori k (O (k_x k) (k_y k))) l').
Proof.
  revert l'. induction l as [|a l IH]; intros [|b l'] H; cbn [map] in *; try discriminate; [reflexivity|]. apply cons_inj in H as [H1 H2]. rewrite (IH l' H2).
  f_equal. apply nid_eq in H1. rewrite H1. reflexivity.
Qed.
Lemma map_firstn {A B} (f : A -> B) n l : map f (firstn n l) = firstn n (map f l).
Proof. symmetry. apply firstn_map. Qed.

(** What the orientation step must do. *)
Definition ori_good (O : gray -> Z -> Z -> N) (ori : gray -> list kp -> res (list kp)) (g : gray) : Prop :=
  forall keys, (forall k, In k keys -> k_ori k = 0%N /\ inside g (k_x k) (k_y k)) ->
    ori g keys = Ok (map (fun k => k_with_ori k (O g (k_x k) (k_y k))) keys).
Definition level_run (ori : gray -> list kp -> res (list kp)) (fuel : nat) (n t room : Z) (g : gray) : res (list kp) :=
  let* keys := detect_keypoints n g t in
  let* keys := score_keypoints fuel keys g t in
  let* lk := suppress_keypoints room keys in
  ori g lk.
Lemma level_run_ok O ori fuel n t g : gray_ok g -> room3 g -> 0 <= t <= 255 -> 0 <= n -> (8 <= fuel)%nat -> ori_good O ori g ->
  exists ks, image_keys O g t n ks /\
    forall room, exists L, level_run ori fuel n t room g = Ok L /\ map nid L = map nid (firstn (Z.to_nat room) ks) /\
      (Z.of_nat (length L) <= Z.max 0 room).
Proof.
  intros G R T N F OG. assert (0 <= t <= INT_MAX - 255) as T' by (rewrite int_max; lia).
  set (ps := firstn (Z.to_nat n) (corner_list g t)).
  assert (forall p, In p ps -> inside g (fst p) (snd p) /\ seg_test g (fst p) (snd p) t) as PS.
  { intros [x y] I. apply (co_iff g t _ (corner_list_ok g t ltac:(lia))). unfold ps in I. rewrite <- (firstn_skipn (Z.to_nat n)). apply in_or_app. now left. }
  assert (StronglySorted before ps) as SP by (apply SSorted_firstn, (co_sorted g t _ (corner_list_ok g t ltac:(lia)))).
  destruct (score_keypoints_ok fuel (keys_at ps) g t G R T F) as (ss & E & Q).
  { intros k K. apply keys_at_in in K as [K _]. apply (PS _ K). }
  set (cs := map (fun '(k, s) => k_with_score k s) (combine (keys_at ps) ss)) in *.
  assert (map pos cs = ps) as PC.
  { rewrite <- (keys_at_pos ps). unfold cs. clear -Q. induction Q as [|k s ks ss H Q IH]; cbn; [reflexivity|]. now rewrite IH. }
  assert (forall k, In k cs -> exists i, k = k_with_score (key_at i (pos k)) (k_score k) /\ In (pos k) ps /\ best_threshold g (k_x k) (k_y k) (k_score k)) as C.
  { intros k K. unfold cs in K. apply in_map_iff in K as ([k0 s] & <- & K).
    assert (In k0 (keys_at ps) /\ is_score g (k_x k0) (k_y k0) t s) as [K0 IS].
    { clear -Q K. induction Q as [|a b ks ss H Q IH]; cbn in K; [destruct K|]. destruct K as [[= -> ->]|K]; [split; [now left|exact H]|].
      destruct (IH K). split; [now right|assumption]. }
    apply keys_at_in in K0 as [K0 [i Ei]]. exists i. cbn [k_with_score k_score pos k_x k_y]. split; [|split].
    - change (k_with_score k0 s = k_with_score (key_at i (pos k0)) s). now rewrite <- Ei.
    - exact K0.
    - apply IS. apply (PS _ K0). }
  assert (StronglySorted before (map pos cs)) as SC by (rewrite PC; exact SP).
  pose proof (kept_ok cs SC) as KO.
  assert (forall k, In k (kept cs) -> In k cs) as KC by (intros k K; unfold kept in K; now apply filter_In in K).
  exists (map (fun k => k_with_ori k (O g (k_x k) (k_y k))) (kept cs)). split.
  - constructor.
    + exists (corner_list g t), cs. split; [apply corner_list_ok; lia|]. split; [exact PC|]. split.
      { intros k K. destruct (C k K) as (i & _ & _ & B). exact B. }
      exists (kept cs). split; [exact KO|]. rewrite !map_map. split; apply map_ext; reflexivity.
    + intros k K. apply in_map_iff in K as (k0 & <- & K). reflexivity.
    + intros k K. apply in_map_iff in K as (k0 & <- & K). destruct (C k0 (KC k0 K)) as (i & -> & _). cbn. auto.
  - intro room. unfold level_run. rewrite detect_keypoints_ok by assumption. cbn [bind]. fold ps. rewrite E. cbn [bind].
    rewrite suppress_ok; [|exact SC|].
    2: { intros k K. destruct (C k K) as (i & _ & K' & _). destruct (PS _ K') as [[_ Y] _]. cbn in Y. lia. }
    cbn [bind]. set (kk := firstn (Z.to_nat room) (kept cs)).
    assert (forall k, In k kk -> In k cs) as KK.
    { intros k K. apply KC. rewrite <- (firstn_skipn (Z.to_nat room)). apply in_or_app. now left. }
    rewrite OG.
    2: { intros k K. unfold renumber in K. apply in_map_iff in K as ([j k0] & <- & K). apply in_combine_r in K. destruct (C k0 (KK k0 K)) as (i & Ek & K' & _).
         split; [rewrite Ek; reflexivity|]. apply (PS _ K'). }
    eexists. split; [reflexivity|]. split.
    + rewrite firstn_map. fold kk. apply nid_ori, renumber_nid.
    + rewrite map_length. unfold renumber. rewrite map_length, combine_length, seq_length. unfold kk. rewrite firstn_length. lia.
Qed.

(** * The pyramid *)

Definition level_good (O : gray -> Z -> Z -> N) (ori : gray -> list kp -> res (list kp)) (g : gray) : Prop :=
  gray_ok g /\ room3 g /\ ori_good O ori g.
Definition lv0 : plevel := {| pl_img := {| g_w := 0; g_h := 0; g_stride := 0; g_data := [] |}; pl_scale := 0; pl_sigma := 0 |}.
Definition listing (levels : list plevel) (kss : list (list kp)) (order : list nat) : list kp :=
  flat_map (fun i => map (at_level i (nth i levels lv0)) (nth i kss [])) order.
Lemma what_nid k k' : nid k = nid k' -> what k = what k'.
Proof. intro H. apply nid_eq in H. rewrite H. reflexivity. Qed.
Lemma map_what l l' : map nid l = map nid l' -> map what l = map what l'.
Proof.
  revert l'. induction l as [|a l IH]; intros [|b l'] H; cbn [map] in H; try discriminate; [reflexivity|].
  apply cons_inj in H as [H1 H2]. cbn [map]. now rewrite (what_nid a b), (IH l').
Qed.
Lemma pyr_levels_ok O ori fuel n t levels : (forall lv, In lv levels -> level_good O ori (pl_img lv)) -> 0 <= t <= 255 -> 0 <= n -> (8 <= fuel)%nat ->
  exists kss, length kss = length levels /\
   (forall i, (i < length levels)%nat -> image_keys O (pl_img (nth i levels lv0)) t n (nth i kss [])) /\
   forall order max, (forall i, In i order -> (i < length levels)%nat) -> 0 <= max ->
    exists out room fin, for_each (pyr_level ori fuel n t levels) order ([], max, false) = Ok (out, room, fin) /\
      map what out = map what (firstn (Z.to_nat max) (listing levels kss order)) /\
      map k_id out = map Z.of_nat (seq 0 (length out)).
Proof.
  intros LG T N F.
  assert (exists kss, length kss = length levels /\ forall i, (i < length levels)%nat ->
    image_keys O (pl_img (nth i levels lv0)) t n (nth i kss []) /\
    forall room, exists L, level_run ori fuel n t room (pl_img (nth i levels lv0)) = Ok L /\ map nid L = map nid (firstn (Z.to_nat room) (nth i kss [])) /\
      (Z.of_nat (length L) <= Z.max 0 room)) as (kss & KL & K).
  { induction levels as [|lv levels IH].
    - exists []. split; [reflexivity|]. intros i I. cbn in I. lia.
    - destruct IH as (kss & KL & K); [intros; apply LG; now right|].
      destruct (LG lv ltac:(now left)) as (G & R & OG). destruct (level_run_ok O ori fuel n t (pl_img lv) G R T N F OG) as (ks & IK & LR).
      exists (ks :: kss). split; [cbn; congruence|]. intros [|i] I; [split; assumption|]. cbn in I |- *. apply K. lia. }
  exists kss. split; [exact KL|]. split; [intros i I; apply K, I|]. intros order max IO M.
  destruct (for_each_inv (pyr_level ori fuel n t levels)
    (fun pre st => let '(out, room, fin) := st in
       map what out = map what (firstn (Z.to_nat max) (listing levels kss pre)) /\ map k_id out = map Z.of_nat (seq 0 (length out)) /\
       room = max - Z.of_nat (length out) /\ 0 <= room /\ (fin = true -> room = 0)) order ([], max, false)) as ([[out room] fin] & E & W & ID & _).
  - cbn. rewrite firstn_nil. repeat split; [lia|lia|discriminate].
  - intros pre i [[out room] fin] (W & ID & RM & RP & FN) [post OE].
    assert (i < length levels)%nat as LI by (apply IO; rewrite OE; apply in_or_app; right; now left).
    assert (length out = min (Z.to_nat max) (length (listing levels kss pre))) as LO.
    { apply (f_equal (@length _)) in W. rewrite !map_length, firstn_length in W. exact W. }
    unfold listing. rewrite flat_map_app. fold (listing levels kss pre). cbn [flat_map]. rewrite app_nil_r.
    destruct fin.
    + exists (out, room, true). split; [reflexivity|]. specialize (FN eq_refl). repeat split; auto.
      rewrite W, firstn_app. replace (Z.to_nat max - _)%nat with 0%nat by lia. cbn [firstn]. now rewrite app_nil_r.
    + unfold pyr_level. rewrite (aget_lt _ _ lv0) by exact LI. cbn [bind]. destruct (K i LI) as [_ KR]. destruct (KR room) as (L & LE & LN & LB).
      unfold level_run in LE. destruct (detect_keypoints n (pl_img (nth i levels lv0)) t) as [dk| | |]; try discriminate LE. cbn [bind] in LE |- *.
      destruct (score_keypoints fuel dk (pl_img (nth i levels lv0)) t) as [sk| | |]; try discriminate LE. cbn [bind] in LE |- *.
      destruct (suppress_keypoints room sk) as [pk| | |]; try discriminate LE. cbn [bind] in LE |- *. rewrite LE. cbn [bind].
      eexists. split; [reflexivity|]. rewrite map_length, combine_length, seq_length, Nat.min_id.
      rewrite !map_app, !app_length, map_length, combine_length, seq_length, Nat.min_id. rewrite W, ID.
      split; [|split; [|split; [|split]]].
      * rewrite firstn_app. rewrite map_app. f_equal.
        rewrite (map_combine_proj (fill_level (Z.of_nat i) (nth i levels lv0) (Z.of_nat (length out))) what (fun k => what (at_level i (nth i levels lv0) k))) by reflexivity.
        rewrite map_firstn, map_map, <- map_firstn.
        replace (firstn (Z.to_nat max - length (listing levels kss pre)) (nth i kss [])) with (firstn (Z.to_nat room) (nth i kss [])).
        -- clear -LN. revert LN. generalize (firstn (Z.to_nat room) (nth i kss [])). intros l' LN. revert l' LN.
           induction L as [|a L IH]; intros [|b l'] LN; cbn [map] in LN; try discriminate; [reflexivity|]. apply cons_inj in LN as [H1 H2].
           cbn [map]. f_equal; [|now apply IH]. apply nid_eq in H1. rewrite H1. reflexivity.
        -- destruct (Nat.le_gt_cases (length (listing levels kss pre)) (Z.to_nat max)); f_equal; lia.
      * rewrite (map_combine_ids (fill_level (Z.of_nat i) (nth i levels lv0) (Z.of_nat (length out))) k_id (Z.of_nat (length out))) by reflexivity.
        rewrite seq_app, map_app. f_equal. cbn [Nat.add]. replace (seq (length out) (length L)) with (map (fun j => length out + j)%nat (seq 0 (length L))) by (rewrite <- seq_shift_add, Nat.add_0_r; reflexivity). rewrite map_map. apply map_ext. intro j. lia.
      * lia.
      * lia.
      * intro. lia.
  - exists out, room, fin. auto.
Qed.
