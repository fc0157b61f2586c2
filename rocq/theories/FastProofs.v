(** Detection and scores. *)
From Verif Require Import Base BaseLemmas Gray FastTree FastModel FastSpec FastTreeProofs.
Local Open Scope Z_scope.

(** * Reading the circle *)

Definition room3 (g : gray) : Prop := 3 * g_stride g + 1 <= INT_MAX.
Definition offsets_of (s : Z) : list Z := map (fun '(dx, dy) => dx + s * dy) circle.
Lemma make_offsets_ok s : 0 <= s -> 3 * s + 1 <= INT_MAX -> make_offsets s = Ok (offsets_of s).
Proof.
  intros S M. unfold make_offsets. assert (INT_MAX = 2147483647) as IM by reflexivity. assert (INT_MIN = -2147483648) as Im by reflexivity.
  rewrite !chk_int_in by lia. cbn [bind].
  erewrite for_each_eq; [rewrite (for_each_collect (fun '(dx, dy) => chk_int (dx + s * dy)) (fun '(dx, dy) => dx + s * dy))|].
  - reflexivity.
  - intros [dx dy] I. apply chk_int_in. cbn in I. repeat (destruct I as [[= <- <-]|I]; [lia|]). destruct I.
  - intros [dx dy] l _. reflexivity.
Qed.
Lemma circle_bound k dx dy : (k < 16)%nat -> nth k circle (0, 0) = (dx, dy) -> -3 <= dx <= 3 /\ -3 <= dy <= 3.
Proof.
  intros K E. assert (In (dx, dy) circle) as I by (rewrite <- E; apply nth_In; exact K).
  cbn in I. repeat (destruct I as [[= <- <-]|I]; [lia|]). destruct I.
Qed.
Lemma read_ring g x y k : gray_ok g -> inside g x y -> (k < 16)%nat ->
  (let* o := aget (offsets_of (g_stride g)) k in rd_byte (g_data g) (y * g_stride g + x + o)) = Ok (ring g x y k).
Proof.
  intros G [X Y] K. rewrite (aget_lt _ _ 0) by exact K. cbn [bind]. unfold offsets_of, ring. rewrite Nat.mod_small by exact K.
  set (f := fun '(dx, dy) => dx + g_stride g * dy). rewrite (nth_indep _ 0 (f (0, 0))) by exact K. rewrite (map_nth f).
  destruct (nth k circle (0, 0)) as [dx dy] eqn:E. destruct (circle_bound k dx dy K E) as [DX DY].
  unfold f, rd_byte. destruct (px_index g (x + dx) (y + dy) G) as [I _]; [lia|lia|].
  replace (y * g_stride g + x + (dx + g_stride g * dy)) with ((y + dy) * g_stride g + (x + dx)) by ring.
  rewrite (zget_lt _ _ 0%N) by exact I. reflexivity.
Qed.
Definition classes (g : gray) (x y t : Z) (k : nat) : cls := classify (px g x y + t) (px g x y - t) (ring g x y k).
Lemma classes_seg g x y t : 0 <= t -> seg_cls (classes g x y t) <-> seg_test g x y t.
Proof.
  intro T.
  assert (forall i, ring g x y (i mod 16) = ring g x y i) as R.
  { intro i. unfold ring. now rewrite Nat.mod_mod. }
  assert (forall i, classes g x y t (i mod 16) = Bt <-> px g x y + t < ring g x y i) as B.
  { intro i. unfold classes, classify. rewrite R. destruct (Z.ltb_spec (px g x y + t) (ring g x y i)); [tauto|].
    destruct (ring g x y i <? px g x y - t); split; (discriminate || lia). }
  assert (forall i, classes g x y t (i mod 16) = Dk <-> ring g x y i < px g x y - t) as D.
  { intro i. unfold classes, classify. rewrite R. destruct (Z.ltb_spec (px g x y + t) (ring g x y i)); [split; (discriminate || lia)|].
    destruct (Z.ltb_spec (ring g x y i) (px g x y - t)); split; (discriminate || lia || reflexivity). }
  unfold seg_cls, seg_test. split; intros (s & S & [H|H]); exists s; (split; [exact S|]).
  - left. intros i I. apply B, H, I.
  - right. intros i I. apply D, H, I.
  - left. intros i I. apply B, H, I.
  - right. intros i I. apply D, H, I.
Qed.
Definition segb (g : gray) (t : Z) (p : Z * Z) : bool := eval_cls detect_tree (classes g (fst p) (snd p) t).
Lemma segb_iff g t x y : 0 <= t -> segb g t (x, y) = true <-> seg_test g x y t.
Proof. intro T. unfold segb. cbn [fst snd]. rewrite detect_tree_ok. now apply classes_seg. Qed.

Lemma test_at_ok tr g x y t : gray_ok g -> inside g x y -> 0 <= t <= INT_MAX - 255 -> small tr = true ->
  test_at tr (g_data g) (offsets_of (g_stride g)) (y * g_stride g + x) t = Ok (eval_cls tr (classes g x y t)).
Proof.
  intros G I T S. unfold test_at. pose proof I as [X Y].
  destruct (px_index g x y G) as [P _]; [lia|lia|]. pose proof (px_byte g x y G ltac:(lia) ltac:(lia)) as B.
  unfold rd_byte at 1. rewrite (zget_lt _ _ 0%N) by exact P. cbn [bind]. change (Z.of_N (nth _ _ _)) with (px g x y).
  assert (INT_MAX = 2147483647) as IM by reflexivity. assert (INT_MIN = -2147483648) as Im by reflexivity.
  rewrite !chk_int_in by lia. cbn [bind].
  apply eval_classes; [lia|exact S|]. intros k K. now apply read_ring.
Qed.

(** * Detection *)

Definition corner_list (g : gray) (t : Z) : list (Z * Z) := filter (segb g t) (raster 3 (g_w g - 3) 3 (g_h g - 3)).
Lemma corner_list_ok g t : 0 <= t -> corners_of g t (corner_list g t).
Proof.
  intro T. constructor.
  - apply SSorted_filter. apply raster_sorted.
  - intros x y. unfold corner_list. rewrite filter_In, raster_in, segb_iff by exact T. reflexivity.
Qed.
Lemma detect_loop g t m l : gray_ok g -> 0 <= t <= INT_MAX - 255 -> 0 <= m ->
  (forall p, In p l -> inside g (fst p) (snd p)) ->
  exists b, for_each (fun p '(l, done) =>
      if done : bool then Ok (l, done)
      else
        let* r := chk_int (snd p * g_stride g) in
        let* c := test_at detect_tree (g_data g) (offsets_of (g_stride g)) (r + fst p) t in
        if negb c then Ok (l, false)
        else if Z.of_nat (length l) =? m then Ok (l, true)
        else Ok (l ++ [(fst p, snd p)], false)) l ([], false) = Ok (firstn (Z.to_nat m) (filter (segb g t) l), b).
Proof.
  intros G T M I.
  destruct (for_each_inv (fun p '(l, done) =>
      if done : bool then Ok (l, done)
      else
        let* r := chk_int (snd p * g_stride g) in
        let* c := test_at detect_tree (g_data g) (offsets_of (g_stride g)) (r + fst p) t in
        if negb c then Ok (l, false)
        else if Z.of_nat (length l) =? m then Ok (l, true)
        else Ok (l ++ [(fst p, snd p)], false))
    (fun pre st => fst st = firstn (Z.to_nat m) (filter (segb g t) pre) /\
                   (snd st = true -> (Z.to_nat m <= length (filter (segb g t) pre))%nat) /\
                   (snd st = false -> (length (filter (segb g t) pre) <= Z.to_nat m)%nat)) l ([], false)) as ([o b] & E & O & _).
  - cbn. rewrite firstn_nil. repeat split; [discriminate|lia].
  - intros pre p [o d] (O & D1 & D2) [post L]. cbn [fst snd] in *.
    assert (In p l) as Ip by (rewrite L; apply in_or_app; right; now left). pose proof (I p Ip) as [X Y].
    rewrite filter_app, app_length. cbn [filter]. destruct d.
    + exists (o, true). split; [reflexivity|]. cbn [fst snd]. specialize (D1 eq_refl). repeat split; [|lia|discriminate].
      rewrite O, firstn_app. replace (Z.to_nat m - _)%nat with 0%nat by lia. cbn. now rewrite app_nil_r.
    + specialize (D2 eq_refl). destruct (px_index g (fst p) (snd p) G) as [_ J]; [lia|lia|].
      rewrite chk_int_in by (assert (INT_MIN = -2147483648) by reflexivity; lia). cbn [bind].
      rewrite test_at_ok by (auto using detect_small; apply (I p Ip)). cbn [bind].
      change (eval_cls detect_tree (classes g (fst p) (snd p) t)) with (segb g t p).
      destruct (segb g t p) eqn:E; cbn [negb length].
      * assert (length o = length (filter (segb g t) pre)) as LO by (rewrite O, firstn_length; lia).
        destruct (Z.eqb_spec (Z.of_nat (length o)) m) as [Em|Em].
        -- exists (o, true). split; [reflexivity|]. cbn [fst snd]. repeat split; [|lia|discriminate].
           rewrite O, firstn_app. replace (Z.to_nat m - _)%nat with 0%nat by lia. cbn. now rewrite app_nil_r.
        -- exists (o ++ [(fst p, snd p)], false). split; [reflexivity|]. cbn [fst snd]. repeat split; [|discriminate|lia].
           rewrite <- surjective_pairing. rewrite O, !firstn_all2; [reflexivity| |lia]. rewrite app_length; cbn [length]; lia.
      * exists (o, false). split; [reflexivity|]. cbn [fst snd length]. rewrite app_nil_r. repeat split; [exact O|discriminate|lia].
  - exists b. rewrite E. cbn [fst] in O. now rewrite O.
Qed.
Lemma fast9_detect_ok g t m : gray_ok g -> room3 g -> 0 <= t <= INT_MAX - 255 -> 0 <= m ->
  fast9_detect g t m = Ok (firstn (Z.to_nat m) (corner_list g t)).
Proof.
  intros G R T M. unfold fast9_detect. rewrite make_offsets_ok; [|destruct G; lia|exact R]. cbn [bind].
  destruct (detect_loop g t m (raster 3 (g_w g - 3) 3 (g_h g - 3)) G T M) as [b E].
  { intros [x y] I. apply raster_in in I. exact I. }
  rewrite (for_each_raster (fun x y '(l, done) =>
      if done : bool then Ok (l, done)
      else
        let* r := chk_int (y * g_stride g) in
        let* c := test_at detect_tree (g_data g) (offsets_of (g_stride g)) (r + x) t in
        if negb c then Ok (l, false)
        else if Z.of_nat (length l) =? m then Ok (l, true)
        else Ok (l ++ [(x, y)], false))).
  unfold raster in E. rewrite E. reflexivity.
Qed.
Definition key_at (i : nat) (p : Z * Z) : kp :=
  {| k_x := fst p; k_y := snd p; k_xs := fst p; k_ys := snd p; k_level := 0; k_scale := F_ONE; k_sigma := 0%N; k_score := 0;
     k_ori := 0%N; k_id := Z.of_nat i |}.
Definition keys_at (l : list (Z * Z)) : list kp := map (fun '(i, p) => key_at i p) (combine (seq 0 (length l)) l).
Lemma detect_keypoints_ok g t m : gray_ok g -> room3 g -> 0 <= t <= INT_MAX - 255 -> 0 <= m ->
  detect_keypoints m g t = Ok (keys_at (firstn (Z.to_nat m) (corner_list g t))).
Proof.
  intros G R T M. unfold detect_keypoints. destruct (Z.ltb_spec m 0); [lia|]. destruct (Z.eqb_spec m 0) as [->|]; [reflexivity|].
  rewrite fast9_detect_ok by assumption. cbn [bind]. f_equal. unfold keys_at. apply map_ext. intros [i [x y]]. reflexivity.
Qed.
Lemma map_combine_seq {A B} (f : nat -> A -> B) l (d : A) s : forall i, (i < length l)%nat ->
  forall d', nth i (map (fun '(i, a) => f i a) (combine (seq s (length l)) l)) d' = f (s + i)%nat (nth i l d).
Proof.
  revert s. induction l as [|a l IH]; intros s i L d'; cbn [length] in L; [lia|]. cbn. destruct i.
  - now rewrite Nat.add_0_r.
  - rewrite IH by lia. f_equal. lia.
Qed.
Lemma map_combine_proj {A B C} (f : nat -> A -> B) (h : B -> C) (h' : A -> C) l : (forall i a, h (f i a) = h' a) ->
  forall s, map h (map (fun '(i, a) => f i a) (combine (seq s (length l)) l)) = map h' l.
Proof. intro H. induction l as [|a l IH]; intro s; cbn; [reflexivity|]. now rewrite H, IH. Qed.
Lemma map_combine_ids {A B} (f : nat -> A -> B) (h : B -> Z) c l : (forall i a, h (f i a) = c + Z.of_nat i) ->
  forall s, map h (map (fun '(i, a) => f i a) (combine (seq s (length l)) l)) = map (fun i => c + Z.of_nat i) (seq s (length l)).
Proof. intro H. induction l as [|a l IH]; intro s; cbn; [reflexivity|]. now rewrite H, IH. Qed.
Lemma keys_at_pos l : map pos (keys_at l) = l.
Proof. unfold keys_at. rewrite (map_combine_proj key_at pos (fun p => p)); [apply map_id|]. intros i [x y]. reflexivity. Qed.
Lemma keys_at_ids l : map k_id (keys_at l) = map Z.of_nat (seq 0 (length l)).
Proof. unfold keys_at. rewrite (map_combine_ids key_at k_id 0) by reflexivity. now apply map_ext. Qed.
Lemma keys_at_in l k : In k (keys_at l) -> In (pos k) l /\ exists i, k = key_at i (pos k).
Proof.
  unfold keys_at. intro I. apply in_map_iff in I as ([i [x y]] & <- & I). apply in_combine_r in I. split; [exact I|]. exists i. reflexivity.
Qed.

(** * Scores *)

Lemma seg_mono g x y t t' : t' <= t -> seg_test g x y t -> seg_test g x y t'.
Proof.
  intros L (s & S & [H|H]); exists s; (split; [exact S|]); [left|right]; intros i I; specialize (H i I); lia.
Qed.
Lemma ring_byte g x y i : gray_ok g -> inside g x y -> 0 <= ring g x y i <= 255.
Proof.
  intros G [X Y]. unfold ring. assert (i mod 16 < 16)%nat as K by apply mod16_lt.
  destruct (nth (i mod 16) circle (0, 0)) as [dx dy] eqn:E. destruct (circle_bound _ _ _ K E). apply px_byte; [exact G|lia|lia].
Qed.
Lemma seg_top g x y t : gray_ok g -> inside g x y -> 255 <= t -> ~ seg_test g x y t.
Proof.
  intros G I T (s & S & [H|H]); specialize (H 0%nat ltac:(lia)); pose proof (ring_byte g x y (s + 0) G I);
    pose proof (px_byte g x y G) as B; destruct I; lia.
Qed.
Lemma score_dec g x y t : gray_ok g -> inside g x y -> 0 <= t <= INT_MAX - 255 ->
  (test_at score_tree (g_data g) (offsets_of (g_stride g)) (y * g_stride g + x) t = Ok true /\ seg_test g x y t) \/
  (test_at score_tree (g_data g) (offsets_of (g_stride g)) (y * g_stride g + x) t = Ok false /\ ~ seg_test g x y t).
Proof.
  intros G I T. rewrite test_at_ok by auto using score_small. rewrite <- classes_seg by lia. rewrite <- score_tree_ok.
  destruct (eval_cls score_tree (classes g x y t)); [left|right]; split; auto; discriminate.
Qed.
(** The score for start threshold [t]. *)
Definition is_score (g : gray) (x y t s : Z) : Prop :=
  (seg_test g x y t -> best_threshold g x y s) /\ (~ seg_test g x y t -> s = t) /\ t <= s <= 255.
Lemma score_loop_ok g x y : gray_ok g -> inside g x y -> forall fuel bmin bmax, (1 <= fuel)%nat -> 0 <= bmin <= bmax -> bmax <= 255 ->
  bmax - bmin <= 2 ^ Z.of_nat fuel -> ~ seg_test g x y bmax ->
  exists s, score_loop fuel (g_data g) (offsets_of (g_stride g)) (y * g_stride g + x) bmin bmax (Z.quot (bmin + bmax) 2) = Ok s /\
    bmin <= s <= bmax /\ (s = bmin \/ seg_test g x y s) /\ (~ seg_test g x y (s + 1) \/ s = bmax).
Proof.
  intros G I. induction fuel as [|f IH]; intros bmin bmax F B M P N; [lia|].
  cbn [score_loop]. assert (INT_MAX = 2147483647) as IM by reflexivity. assert (INT_MIN = -2147483648) as Im by reflexivity.
  rewrite Z.quot_div_nonneg by lia. pose proof (Z.div_mod (bmin + bmax) 2 ltac:(lia)) as D. pose proof (Z.mod_pos_bound (bmin + bmax) 2 ltac:(lia)) as R.
  set (b := (bmin + bmax) / 2) in *. set (r := (bmin + bmax) mod 2) in *. clearbody b r.
  rewrite Nat2Z.inj_succ, Z.pow_succ_r in P by lia.
  destruct (score_dec g x y b G I ltac:(lia)) as [[-> C]|[-> C]]; cbn [bind].
  - destruct (Z.eqb_spec b (bmax - 1)) as [E|E]; cbn [orb].
    + exists b. split; [reflexivity|]. split; [lia|]. split; [now right|]. left. replace (b + 1) with bmax by lia. exact N.
    + destruct (Z.eqb_spec b bmax) as [E'|E']; [exists b; split; [reflexivity|]; split; [lia|]; split; [now right|now right]|].
      assert (1 <= f)%nat as F1. { destruct f; [|lia]. change (2 ^ Z.of_nat 0) with 1 in P. lia. }
      rewrite chk_int_in by lia. cbn [bind].
      destruct (IH b bmax F1 ltac:(lia) M ltac:(lia) N) as (s & E1 & S1 & S2 & S3). exists s. split; [exact E1|].
      split; [lia|]. split; [|exact S3]. destruct S2 as [->|]; auto.
  - destruct (Z.eqb_spec bmin (b - 1)) as [E|E]; cbn [orb].
    + exists bmin. split; [reflexivity|]. split; [lia|]. split; [now left|]. left. replace (bmin + 1) with b by lia. exact C.
    + destruct (Z.eqb_spec bmin b) as [E'|E'].
      { exists bmin. split; [reflexivity|]. split; [lia|]. split; [now left|]. left. intro X. apply C. subst b. eapply seg_mono; [|exact X]. lia. }
      assert (1 <= f)%nat as F1. { destruct f; [|lia]. change (2 ^ Z.of_nat 0) with 1 in P. lia. }
      rewrite chk_int_in by lia. cbn [bind].
      destruct (IH bmin b F1 ltac:(lia) ltac:(lia) ltac:(lia) C) as (s & E1 & S1 & S2 & S3). exists s. split; [exact E1|].
      split; [lia|]. split; [exact S2|]. left. destruct S3 as [S3| ->]; [exact S3|]. intro X. apply C. eapply seg_mono; [|exact X]. lia.
Qed.
Lemma corner_score_ok g x y t fuel : gray_ok g -> inside g x y -> 0 <= t <= 255 -> (8 <= fuel)%nat ->
  exists s, corner_score fuel (g_data g) (offsets_of (g_stride g)) (y * g_stride g + x) t = Ok s /\ is_score g x y t s.
Proof.
  intros G I T F. unfold corner_score. assert (INT_MAX = 2147483647) as IM by reflexivity. assert (INT_MIN = -2147483648) as Im by reflexivity.
  rewrite chk_int_in by lia. cbn [bind]. rewrite (Z.add_comm 255).
  destruct (score_loop_ok g x y G I fuel t 255 ltac:(lia) ltac:(lia) ltac:(lia)) as (s & E & S1 & S2 & S3).
  { assert (2 ^ 8 <= 2 ^ Z.of_nat fuel) by (apply Z.pow_le_mono_r; lia). change (2 ^ 8) with 256 in *. lia. }
  { apply seg_top; auto. lia. }
  exists s. split; [exact E|]. split; [|split; [|lia]].
  - intro C. assert (seg_test g x y s) as Cs by (destruct S2 as [->|]; auto). split; [exact Cs|]. intros t' T' X.
    destruct (Z.le_gt_cases t' s) as [|L]; [assumption|]. exfalso. destruct S3 as [S3| ->].
    + apply S3. eapply seg_mono; [|exact X]. lia.
    + eapply (seg_top g x y 255); auto. lia.
  - intro C. destruct S2 as [->|S2]; [reflexivity|]. exfalso. apply C. eapply seg_mono; [|exact S2]. lia.
Qed.
(** A start threshold above 255: the search never ends. *)
Lemma score_loop_stuck g x y : gray_ok g -> inside g x y -> forall fuel bmin bmax, 255 <= bmax < bmin -> bmin <= 1000000000 ->
  score_loop fuel (g_data g) (offsets_of (g_stride g)) (y * g_stride g + x) bmin bmax (Z.quot (bmin + bmax) 2) = NoFuel.
Proof.
  intros G I. induction fuel as [|f IH]; intros bmin bmax B M; [reflexivity|]. cbn [score_loop].
  assert (INT_MAX = 2147483647) as IM by reflexivity. assert (INT_MIN = -2147483648) as Im by reflexivity.
  rewrite Z.quot_div_nonneg by lia. pose proof (Z.div_mod (bmin + bmax) 2 ltac:(lia)) as D. pose proof (Z.mod_pos_bound (bmin + bmax) 2 ltac:(lia)) as R.
  set (b := (bmin + bmax) / 2) in *. set (r := (bmin + bmax) mod 2) in *. clearbody b r.
  destruct (score_dec g x y b G I ltac:(lia)) as [[-> C]|[-> C]]; cbn [bind].
  { exfalso. eapply (seg_top g x y b); eauto. lia. }
  destruct (Z.eqb_spec bmin (b - 1)); [lia|]. destruct (Z.eqb_spec bmin b); [lia|]. cbn [orb].
  rewrite chk_int_in by lia. cbn [bind]. apply IH; lia.
Qed.
Lemma score_keypoints_ok fuel keys g t : gray_ok g -> room3 g -> 0 <= t <= 255 -> (8 <= fuel)%nat ->
  (forall k, In k keys -> inside g (k_x k) (k_y k)) ->
  exists ss, score_keypoints fuel keys g t = Ok (map (fun '(k, s) => k_with_score k s) (combine keys ss)) /\
    Forall2 (fun k s => is_score g (k_x k) (k_y k) t s) keys ss.
Proof.
  intros G R T F I. unfold score_keypoints. rewrite make_offsets_ok; [|destruct G; lia|exact R]. cbn [bind].
  enough (forall acc, exists ss, for_each (fun k l => let* r := chk_int (k_y k * g_stride g) in
    let* s := corner_score fuel (g_data g) (offsets_of (g_stride g)) (r + k_x k) t in Ok (l ++ [k_with_score k s])) keys acc
    = Ok (acc ++ map (fun '(k, s) => k_with_score k s) (combine keys ss)) /\
    Forall2 (fun k s => is_score g (k_x k) (k_y k) t s) keys ss) as X.
  { destruct (X []) as (ss & E & Q). exists ss. split; [exact E|exact Q]. }
  induction keys as [|k keys IH]; intro acc; cbn [for_each].
  - exists []. cbn. rewrite app_nil_r. split; [reflexivity|constructor].
  - pose proof (I k ltac:(now left)) as [X Y]. destruct (px_index g (k_x k) (k_y k) G) as [_ J]; [lia|lia|].
    assert (INT_MIN = -2147483648) as Im by reflexivity. rewrite chk_int_in by lia. cbn [bind].
    destruct (corner_score_ok g (k_x k) (k_y k) t fuel G ltac:(split; assumption) T F) as (s & -> & Q). cbn [bind].
    destruct (IH ltac:(intros k' K; apply I; now right) (acc ++ [k_with_score k s])) as (ss & E & FA).
    exists (s :: ss). rewrite E. cbn. rewrite <- app_assoc. split; [reflexivity|]. constructor; assumption.
Qed.
