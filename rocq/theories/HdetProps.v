(** Properties C125-C127: the Harris detector class. *)
From Verif Require Import Base BaseLemmas Gray Img Flt ImgModel ImgSpec HarrisModel HarrisSpec HarrisProofs HdetModel HdetSpec HdetProofs HdetAdapt.
Local Open Scope Z_scope.

(** ** C125 *)
(** The score image is the Harris response of the image, whatever the detector's
    images and buffers held before. *)
Theorem C125_response : forall junk bufj win k img, usable win img ->
  exists s, update_score junk bufj win k img = Ok s /\ harris_response win k img s.
Proof. exact update_score_ok. Qed.
Print Assumptions C125_response.
Definition ex_img : image Z := mkImg 3 2 3 [0; 51; 255; 204; 9; 8].
Definition ex_win : option (list flt) := Some [lit 1 2; lit 1 4].
Example C125_example : usable None ex_img /\ usable ex_win ex_img /\ grad_x ex_img 0 0 = lit 102 255 /\ grad_y ex_img 1 0 = lit (-84) 255.
Proof.
  assert (G : image_ok ex_img) by (constructor; vm_compute; intuition discriminate).
  assert (I : INT_MAX = 2147483647) by reflexivity.
  repeat split; auto; cbn; try lia; vm_compute; reflexivity.
Qed.

(** ** C126 *)
(** One image: the first [max] corners in raster order, numbered from 0. *)
Theorem C126_detect : forall junk bufj win k t img max ad, usable win img -> 0 < max -> 2 * max <= INT_MAX ->
  exists s all keys t',
    harris_response win k img s /\
    StronglySorted earlier all /\ (forall l y x, In (l, y, x) all <-> l = 0 /\ harris_corner s t x y) /\
    hdetect (update_score junk bufj win k) t img max ad = Ok (keys, t') /\
    map place_of keys = firstn (Z.to_nat max) all /\
    (forall i h, nth_error keys i = Some h -> h_id h = Z.of_nat i /\ key_fields s h) /\
    t' = if ad then adapt t (Z.min (Z.of_nat (length all)) (2 * max)) max else t.
Proof.
  intros junk bufj win k t img max ad Us M M2. destruct (update_score_ok junk bufj win k img Us) as (s & E & R). pose proof R as (O & _).
  exists s, (places t [s] 1). eexists _, _. split; [exact R|]. split; [apply places_sorted|]. split.
  { intros l y x. rewrite places_in. split; [intros [L H]|intros [-> H]]; [assert (l = 0) as -> by lia; now split|split; [lia|exact H]]. }
  unfold hdetect. destruct (Z.ltb_spec 0 max); [|lia]. cbn [negb]. rewrite E. cbn [bind]. rewrite chk_int_in by (pose proof int_rng; lia). cbn [bind].
  rewrite harris_detect_ok by exact O. cbn [bind]. split; [reflexivity|]. rewrite hkeys_length, firstn_length.
  cbn [places score_at nth]. rewrite app_nil_r, map_length. change (score_at [s] 0) with s. set (C := corners s t).
  assert (FE : firstn (Z.to_nat (if max <? Z.of_nat (Nat.min (Z.to_nat (2 * max)) (length C)) then max else Z.of_nat (Nat.min (Z.to_nat (2 * max)) (length C)))) (hkeys s (firstn (Z.to_nat (2 * max)) C)) = hkeys s (firstn (Z.to_nat max) C)).
  { rewrite hkeys_firstn, firstn_firstn. f_equal. destruct (Z.ltb_spec max (Z.of_nat (Nat.min (Z.to_nat (2 * max)) (length C)))); [f_equal; lia|]. rewrite !firstn_all2 by lia. reflexivity. }
  rewrite FE. split; [|split].
  - rewrite firstn_map. apply hkeys_places.
  - intros i h HN. apply hkeys_nth in HN as (p & ->). split; [reflexivity|]. repeat split.
  - destruct ad; [|reflexivity]. f_equal. lia.
Qed.
Print Assumptions C126_detect.
(** A pyramid: the first [max] corners of the first [n] levels, coarse levels first. *)
Theorem C126_detect_pyr : forall junk bufj win k t pyr n max ad,
  0 < n <= Z.of_nat (length pyr) -> (forall img scale sigma, In (img, scale, sigma) pyr -> usable win img) -> 0 < max -> 2 * max <= INT_MAX ->
  exists ss all keys t',
    Forall2 (fun '(img, _, _) s => harris_response win k img s) pyr ss /\
    StronglySorted earlier all /\ (forall l y x, In (l, y, x) all <-> 0 <= l < n /\ exists s, nth_error ss (Z.to_nat l) = Some s /\ harris_corner s t x y) /\
    hdetect_pyr (update_score junk bufj win k) t pyr n max ad = Ok (keys, t') /\
    map place_of keys = firstn (Z.to_nat max) all /\
    (forall i h, nth_error keys i = Some h -> h_id h = Z.of_nat i /\ h_xs h = of_int (h_x h) /\ h_ys h = of_int (h_y h) /\ h_ori h = F0 /\
       (exists img s, nth_error pyr (Z.to_nat (h_level h)) = Some (img, h_scale h, h_sigma h) /\ nth_error ss (Z.to_nat (h_level h)) = Some s /\ h_score h = pix F0 s (h_x h) (h_y h))) /\
    t' = if ad then adapt t (Z.min (Z.of_nat (length all)) (2 * max)) max else t.
Proof.
  intros junk bufj win k t pyr n max ad N Us M M2.
  assert (SS : exists ss, Forall2 (fun '(img, _, _) s => update_score junk bufj win k img = Ok s /\ harris_response win k img s) pyr ss).
  { clear N. induction pyr as [|[[img sc] sg] pyr IH]; [exists []; constructor|]. destruct IH as (ss & F); [intros; eapply Us; right; eauto|].
    destruct (update_score_ok junk bufj win k img) as (s & E & R); [eapply Us; left; reflexivity|]. exists (s :: ss). constructor; auto. }
  destruct SS as (ss & F). assert (LL : length pyr = length ss) by (clear - F; induction F; cbn; auto).
  assert (LV : forall l, (l < length pyr)%nat -> update_score junk bufj win k (fst (fst (lev pyr l))) = Ok (score_at ss l) /\ harris_response win k (fst (fst (lev pyr l))) (score_at ss l) /\
    nth_error pyr l = Some (lev pyr l) /\ nth_error ss l = Some (score_at ss l)).
  { intros l L. unfold lev, score_at. rewrite (nth_error_nth' pyr (mkImg 0 0 0 [], F0, F0) L), (nth_error_nth' ss d0) by lia. pose proof (Forall2_both _ _ _ F l (mkImg 0 0 0 [], F0, F0) d0 L) as H. destruct (nth l pyr _) as [[img sc] sg]. cbn [fst]. destruct H. auto. }
  exists ss, (places t ss (Z.to_nat n)). eexists _, _. split; [eapply Forall2_imp; [|exact F]; intros [[img sc] sg] s [_ H]; exact H|].
  split; [apply places_sorted|]. split.
  { intros l y x. rewrite places_in, Z2Nat.id by lia. split; intros [L H]; (split; [exact L|]); destruct (LV (Z.to_nat l)) as (_ & _ & _ & E); try lia.
    - exists (score_at ss (Z.to_nat l)). auto.
    - destruct H as (s & E' & H). rewrite E in E'. injection E' as <-. exact H. }
  unfold hdetect_pyr. destruct (Z.ltb_spec 0 n), (Z.leb_spec n (Z.of_nat (length pyr))), (Z.ltb_spec 0 max); try lia. cbn [negb]. rewrite chk_int_in by (pose proof int_rng; lia). cbn [bind].
  rewrite (pyr_loop_ok t pyr ss) by first [lia|intros l L; destruct (LV l ltac:(lia)) as (E & (O & _) & _); auto]. cbn [bind app length]. split; [reflexivity|].
  rewrite built_length, built_firstn. set (A := places t ss (Z.to_nat n)). rewrite firstn_length.
  assert (FE : firstn (Z.to_nat (if max <? Z.of_nat (Nat.min (Z.to_nat (2 * max)) (length A)) then max else Z.of_nat (Nat.min (Z.to_nat (2 * max)) (length A)))) (firstn (Z.to_nat (2 * max)) A) = firstn (Z.to_nat max) A).
  { rewrite firstn_firstn. destruct (Z.ltb_spec max (Z.of_nat (Nat.min (Z.to_nat (2 * max)) (length A)))); [f_equal; lia|]. rewrite !firstn_all2 by lia. reflexivity. }
  rewrite FE. split; [apply built_places|]. split.
  - intros i h HN. apply built_nth in HN as ([[l y] x] & E & ->). cbn [Nat.add build h_id h_xs h_x h_ys h_y h_ori h_level h_scale h_sigma h_score]. repeat (split; [reflexivity|]).
    assert (I : In (l, y, x) A) by (apply nth_error_In in E; rewrite <- (firstn_skipn (Z.to_nat max) A); apply in_or_app; now left). apply places_in in I as [L _].
    destruct (LV (Z.to_nat l)) as (_ & _ & E1 & E2); [lia|]. destruct (lev pyr (Z.to_nat l)) as [[img sc] sg]. exists img, (score_at ss (Z.to_nat l)). auto.
  - destruct ad; [|reflexivity]. f_equal. lia.
Qed.
Print Assumptions C126_detect_pyr.
(** Larger budgets overflow int before anything is detected. *)
Theorem C126_budget : forall score t pyr n max ad, 0 < n <= Z.of_nat (length pyr) -> INT_MAX < 2 * max -> hdetect_pyr score t pyr n max ad = UB.
Proof.
  intros score t pyr n max ad N M. pose proof int_rng as [_ I]. unfold hdetect_pyr. destruct (Z.ltb_spec 0 n), (Z.leb_spec n (Z.of_nat (length pyr))), (Z.ltb_spec 0 max); try lia. cbn [negb]. unfold chk_int, in_int. destruct (Z.leb_spec (2 * max) INT_MAX); [lia|]. now rewrite Bool.andb_false_r.
Qed.
Print Assumptions C126_budget.
(** A bright pixel on a dark 7 x 7 image is a corner of its own score image. *)
Definition ex_s : image flt := mkImg 7 7 7 (map (fun z => of_int z) (repeat 0 24 ++ [9] ++ repeat 0 24)).
Example C126_example : harris_corner ex_s (lit 1 2) 3 3 /\ harris_detect 10 ex_s (lit 1 2) <> Ok [].
Proof.
  split; [|vm_compute; discriminate]. apply cornerb_iff; [cbn; lia|cbn; lia|]. vm_compute. reflexivity.
Qed.

(** ** C127 *)
(** The threshold is scaled by a table of the exact ratio of found to wanted keys. *)
Theorem C127_table : forall t n max, threshold_ok t -> 0 <= n <= 2 ^ 16 -> 0 < max <= 2 ^ 15 -> adapt t n max = fmul t (percent_float (percent n max)).
Proof. exact adapt_table. Qed.
Print Assumptions C127_table.
(** For all counts: more keys never give a lower threshold; it does not fall with too
    many keys, does not rise with too few and stays with the wanted number. *)
Theorem C127_direction : forall t max, threshold_ok t -> 0 < max <= INT_MAX ->
  adapt t max max = t /\
  (forall n m, 0 <= n <= m -> m <= INT_MAX -> f_le (adapt t n max) (adapt t m max)) /\
  (forall n, max <= n <= INT_MAX -> f_le t (adapt t n max)) /\ (forall n, 0 <= n <= max -> f_le (adapt t n max) t).
Proof.
  intros t max T M. assert (S : adapt t max max = t) by (apply adapt_same; [exact T|lia]). split; [exact S|]. split; [intros; now apply adapt_mono|].
  split; intros n N; [rewrite <- S at 1|rewrite <- S at 2]; apply adapt_mono; auto; lia.
Qed.
Print Assumptions C127_direction.
(** Finding: enough images without any key drive every threshold to zero, from where
    it never rises again, however many keys are found later. *)
Theorem C127_starved : forall t max, threshold_ok t -> 0 < max <= INT_MAX ->
  exists k, forall later, fold_left (fun t n => adapt t n max) (repeat 0 k ++ later) t = F0.
Proof.
  intros t max (a & e & A & E & ->) M. destruct (starve_nat (Z.to_nat (a * 2 ^ e)) a e eq_refl A E max M) as (k & K). exists k. intro later. rewrite fold_left_app, K.
  induction later as [|n l IH]; cbn [fold_left]; [reflexivity|]. now rewrite zero_stays.
Qed.
Print Assumptions C127_starved.
Example C127_example : threshold_ok initial_threshold /\ percent 120 100 = 120 /\ percent 99 100 = 100 /\ percent 40 100 = 25 /\ adapt (lit 1 2) 180 100 = lit 2 1 /\ adapt (lit 1 2) 0 100 = lit 1 8.
Proof. split; [exists 10995116, 108; vm_compute; intuition (discriminate || reflexivity)|]. repeat split; vm_compute; reflexivity. Qed.
