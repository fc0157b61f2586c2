(** Proofs about the composition of panoramas. *)
From Verif Require Import Base BaseLemmas Gray ProjModel GeoSpec ProjSpec GeoProofs HomoProofs CmpModel CmpSpec.
From Coq Require Import Lra Lia.
Local Open Scope R_scope.

Lemma trunc_whole x : whole x (trunc x).
Proof.
  unfold whole, trunc. destruct (Rle_dec 0 x) as [H|H].
  - destruct (archimed x) as [A B]. exists (x - IZR (up x - 1)). rewrite minus_IZR. repeat split; try lra.
    apply Rmult_le_pos; [|lra]. assert (0 < up x)%Z by (apply lt_IZR; lra). rewrite <- minus_IZR. apply IZR_le. lia.
  - destruct (archimed (- x)) as [A B]. exists (x - IZR (- (up (- x) - 1))). rewrite opp_IZR, minus_IZR. repeat split; try lra.
    assert (0 < up (- x))%Z by (apply lt_IZR; lra). assert (1 <= IZR (up (- x))) by (apply IZR_le; lia). nra.
Qed.
Lemma whole_uniq x a b : whole x a -> whole x b -> a = b.
Proof.
  intros (f & -> & F & S) (g & E & G & T).
  assert (D : IZR (a - b) = g - f) by (rewrite minus_IZR; lra).
  assert (L : (-2 < a - b < 2)%Z) by (split; apply lt_IZR; lra).
  destruct (Z.eq_dec (a - b) 0) as [|N]; [lia|exfalso].
  assert (C : (a - b = 1 \/ a - b = -1)%Z) by lia.
  destruct C as [C|C]; rewrite C in D.
  - assert (a = b + 1)%Z by lia. subst a. rewrite plus_IZR in S. destruct (Z_le_gt_dec 0 b).
    + assert (0 <= IZR b) by (apply IZR_le; lia). assert (f < 0 \/ 0 <= f) as [?|?] by lra; nra.
    + assert (IZR b <= -1) by (apply IZR_le; lia). assert (0 < g \/ g <= 0) as [?|?] by lra; nra.
  - assert (b = a + 1)%Z by lia. subst b. rewrite plus_IZR in T. destruct (Z_le_gt_dec 0 a).
    + assert (0 <= IZR a) by (apply IZR_le; lia). assert (g < 0 \/ 0 <= g) as [?|?] by lra; nra.
    + assert (IZR a <= -1) by (apply IZR_le; lia). assert (0 < f \/ f <= 0) as [?|?] by lra; nra.
Qed.
Lemma whole_trunc x z : whole x z -> trunc x = z.
Proof. intro H. eapply whole_uniq; [apply trunc_whole|auto]. Qed.
Lemma whole_near x z : whole x z -> IZR z - 1 < x < IZR z + 1.
Proof. intros (f & -> & F & _). lra. Qed.
Lemma fits_int x : fits x -> to_int x = Ok (trunc x).
Proof.
  intros [A B]. unfold to_int. apply chk_int_in. destruct (trunc_whole x) as (f & E & F & S). set (t := trunc x) in *.
  assert (L : (INT_MIN - 2 < t < INT_MAX + 2)%Z) by (split; apply lt_IZR; [rewrite minus_IZR|rewrite plus_IZR]; lra).
  destruct (Z.eq_dec t (INT_MIN - 1)) as [K|K].
  { exfalso. rewrite K, minus_IZR in E, S. unfold INT_MIN in *. assert (f <= 0 \/ 0 < f) as [?|?] by lra; lra. }
  destruct (Z.eq_dec t (INT_MAX + 1)) as [K'|K']; [|lia].
  exfalso. rewrite K', plus_IZR in E, S. unfold INT_MAX in *. assert (f < 0 \/ 0 <= f) as [?|?] by lra; lra.
Qed.
Lemma place_inv h x a b : place h x = Ok (a, b) -> exists p, maps_to h x p /\ whole (px p) a /\ whole (py p) b.
Proof.
  unfold place, to_int, chk_int. destruct (transfer_fwd h x) as [p|] eqn:T; [|discriminate].
  destruct (Base.in_int (trunc (px p))); [|discriminate]. cbn. destruct (Base.in_int (trunc (py p))); [|discriminate]. cbn.
  intros [= <- <-]. exists p. split; [now apply transfer_maps|]. split; apply trunc_whole.
Qed.
Lemma place_fits h x p : maps_to h x p -> fits (px p) -> fits (py p) -> place h x = Ok (trunc (px p), trunc (py p)).
Proof. intros M A B. unfold place. apply transfer_maps in M. rewrite M, !fits_int by auto. reflexivity. Qed.

(** * The box *)
Definition placed (d : dims) (hc : mat3 * vec2) : Prop :=
  exists p a b, maps_to (fst hc) (snd hc) p /\ whole (px p) a /\ whole (py p) b /\
    (min_x d <= a <= max_x d)%Z /\ (min_y d <= b <= max_y d)%Z.
Definition hit (l : list (mat3 * vec2)) (f : vec2 -> R) (z : Z) : Prop :=
  exists h c p, In (h, c) l /\ maps_to h c p /\ whole (f p) z.
Lemma hit_app l m f z : hit l f z -> hit (l ++ m) f z.
Proof. intros (h & c & p & I & R). exists h, c, p. split; [apply in_or_app; now left|auto]. Qed.
Lemma box_inv l d : for_each box_step l no_dims = Ok d ->
  Forall (placed d) l /\
  (min_x d = INT_MAX \/ hit l px (min_x d)) /\ (min_y d = INT_MAX \/ hit l py (min_y d)) /\
  (max_x d = INT_MIN \/ hit l px (max_x d)) /\ (max_y d = INT_MIN \/ hit l py (max_y d)).
Proof.
  revert d. induction l as [|[h c] l IH] using rev_ind; intros d E.
  - cbn in E. injection E as <-. cbn. auto 10.
  - rewrite for_each_app in E. destruct (for_each box_step l no_dims) as [d'| | |] eqn:E'; try discriminate.
    cbn [bind for_each] in E. unfold box_step in E at 1. cbn [fst snd] in E. destruct (place h c) as [[a b]| | |] eqn:P; try discriminate. cbn in E. injection E as <-.
    destruct (place_inv _ _ _ _ P) as (p & M & A & B). destruct (IH _ eq_refl) as (F & X1 & Y1 & X2 & Y2).
    assert (HX : hit (l ++ [(h, c)]) px a) by (exists h, c, p; split; [apply in_or_app; right; now left|auto]).
    assert (HY : hit (l ++ [(h, c)]) py b) by (exists h, c, p; split; [apply in_or_app; right; now left|auto]).
    cbn [min_x min_y max_x max_y]. split.
    + apply Forall_app. split.
      * eapply Forall_impl; [|apply F]. intros hc (p' & a' & b' & M' & A' & B' & I & J). exists p', a', b'. cbn. repeat (split; auto); lia.
      * constructor; [|constructor]. exists p, a, b. cbn. repeat (split; auto); lia.
    + repeat split.
      * destruct (Z.min_spec (min_x d') a) as [[_ ->]|[_ ->]]; [destruct X1; auto using hit_app|auto].
      * destruct (Z.min_spec (min_y d') b) as [[_ ->]|[_ ->]]; [destruct Y1; auto using hit_app|auto].
      * destruct (Z.max_spec (max_x d') a) as [[_ ->]|[_ ->]]; [auto|destruct X2; auto using hit_app].
      * destruct (Z.max_spec (max_y d') b) as [[_ ->]|[_ ->]]; [auto|destruct Y2; auto using hit_app].
Qed.
Lemma corners_in g c : In c (corners (IZR (g_w g)) (IZR (g_h g))) <-> corner g c.
Proof.
  unfold corners, corner. destruct c as [x y]. cbn. split.
  - intros [E|[E|[E|[E|[]]]]]; injection E as <- <-; auto.
  - intros [[-> | ->] [-> | ->]]; auto.
Qed.
Lemma pairs_in l h c : In (h, c) (pairs l) <-> exists g, In (h, g) l /\ corner g c.
Proof.
  unfold pairs. rewrite in_flat_map. split.
  - intros ([h' g] & I & J). apply in_map_iff in J. destruct J as (c' & [= <- <-] & J). exists g. split; auto. now apply corners_in.
  - intros (g & I & C). exists (h, g). split; auto. apply in_map_iff. exists c. split; auto. now apply corners_in.
Qed.
Lemma hit_reached l f z : hit (pairs l) f z -> reached l f z.
Proof. intros (h & c & p & I & M & W). apply pairs_in in I. destruct I as (g & I & C). exists h, g, c, p. auto. Qed.
Lemma box_reached l d : l <> [] -> box l = Ok d ->
  reached l px (min_x d) /\ reached l py (min_y d) /\ reached l px (max_x d) /\ reached l py (max_y d).
Proof.
  intros N E. unfold box in E. assert (E0 := E). apply box_inv in E. destruct E as (F & X1 & Y1 & X2 & Y2).
  destruct l as [|[h g] l']; [easy|]. 
  assert (P : In (h, V2 0 0) (pairs ((h, g) :: l'))) by (apply pairs_in; exists g; split; [now left|split; cbn; auto]).
  destruct (proj1 (Forall_forall _ _) F _ P) as (p & a & b & M & A & B & I & J). cbn [fst snd] in M.
  assert (HX : hit (pairs ((h, g) :: l')) px a) by (exists h, (V2 0 0), p; auto).
  assert (HY : hit (pairs ((h, g) :: l')) py b) by (exists h, (V2 0 0), p; auto).
  assert (R : (min_x d <= INT_MAX /\ min_y d <= INT_MAX /\ INT_MIN <= max_x d /\ INT_MIN <= max_y d)%Z).
  { clear - E0. revert E0. generalize (pairs ((h, g) :: l')). intro m. revert d. induction m as [|[h' c] m IH] using rev_ind; intros d E.
    - injection E as <-. cbn. unfold INT_MIN, INT_MAX. lia.
    - rewrite for_each_app in E. destruct (for_each box_step m no_dims) as [d'| | |]; try discriminate. specialize (IH _ eq_refl).
      cbn [bind for_each] in E. unfold box_step in E at 1. cbn [fst snd] in E. destruct (place h' c) as [[a b]| | |]; try discriminate. cbn in E. injection E as <-. cbn. lia. }
  assert (Q : (INT_MIN <= a <= INT_MAX /\ INT_MIN <= b <= INT_MAX)%Z).
  { clear - E0 P M A B. apply in_split in P. destruct P as (u & v & Q). rewrite Q, for_each_app in E0.
    destruct (for_each box_step u no_dims) as [d'| | |]; try discriminate. cbn [bind for_each] in E0. unfold box_step at 1 in E0. cbn [fst snd] in E0.
    unfold place in E0. apply transfer_maps in M. rewrite M in E0. unfold to_int in E0. rewrite (whole_trunc _ _ A), (whole_trunc _ _ B) in E0.
    unfold chk_int in E0. destruct (Base.in_int a) eqn:IA; [|discriminate]. cbn [bind] in E0. destruct (Base.in_int b) eqn:IB; [|discriminate].
    unfold Base.in_int in *. lia. }
  repeat split; apply hit_reached.
  - destruct X1 as [X|]; auto. replace (min_x d) with a by lia. auto.
  - destruct Y1 as [X|]; auto. replace (min_y d) with b by lia. auto.
  - destruct X2 as [X|]; auto. replace (max_x d) with a by lia. auto.
  - destruct Y2 as [X|]; auto. replace (max_y d) with b by lia. auto.
Qed.

(** * The shift *)
Lemma lin_h3 h p : lin h (h3 p) = V3 (m0 h * px p + m3 h * py p + m6 h) (m1 h * px p + m4 h * py p + m7 h) (m2 h * px p + m5 h * py p + m8 h).
Proof. destruct h as [a0 a1 a2 a3 a4 a5 a6 a7 a8], p as [x y]. unfold lin, vadd, vscale, col0, col1, col2, h3. cbn [m0 m1 m2 m3 m4 m5 m6 m7 m8 px py v0 v1 v2]. apply V3_eq; ring. Qed.
Lemma shift_maps d h p q : maps_to h p q <-> maps_to (shift d h) p (V2 (px q - IZR (min_x d)) (py q - IZR (min_y d))).
Proof.
  unfold maps_to. setoid_rewrite lin_h3. destruct h as [a0 a1 a2 a3 a4 a5 a6 a7 a8], p as [x y], q as [u v]. unfold shift, h3, vscale.
  cbn [m0 m1 m2 m3 m4 m5 m6 m7 m8 px py v0 v1 v2]. split; intros (w & W & E); exists w; (split; [auto|]); injection E as E0 E1 E2;
    pose proof (f_equal (Rmult (IZR (min_x d))) E2); pose proof (f_equal (Rmult (IZR (min_y d))) E2); apply V3_eq; lra.
Qed.
Lemma shift_det d h : det3 (shift d h) = det3 h.
Proof. destruct h as [a0 a1 a2 a3 a4 a5 a6 a7 a8]. unfold det3, shift, dot, cross, col0, col1, col2. cbn [v0 v1 v2 m0 m1 m2 m3 m4 m5 m6 m7 m8]. ring. Qed.
Lemma affine_rect a b c w h x y : 0 <= x <= w -> 0 <= y <= h ->
  c <= 0 -> a * w + c <= 0 -> a * w + b * h + c <= 0 -> b * h + c <= 0 -> a * x + b * y + c <= 0.
Proof.
  intros X Y C1 C2 C3 C4.
  assert (A : a * x <= 0 \/ a * x <= a * w) by (destruct (Rle_dec a 0); [left; nra|right; nra]).
  assert (B : b * y <= 0 \/ b * y <= b * h) by (destruct (Rle_dec b 0); [left; nra|right; nra]).
  lra.
Qed.
Lemma rect_inside d h g : in_front h g -> (forall c, corner g c -> placed d (h, c)) ->
  forall p, in_rect g p -> exists q, maps_to h p q /\
    IZR (min_x d) - 1 < px q < IZR (max_x d) + 1 /\ IZR (min_y d) - 1 < py q < IZR (max_y d) + 1.
Proof.
  intros Fr Pl [x y] [X Y]. cbn [px py] in X, Y. set (W := IZR (g_w g)) in *. set (H := IZR (g_h g)) in *.
  assert (K : forall c, corner g c -> let s := v2 (lin h (h3 c)) in 0 < s /\
    (IZR (min_x d) - 1) * s < v0 (lin h (h3 c)) < (IZR (max_x d) + 1) * s /\ (IZR (min_y d) - 1) * s < v1 (lin h (h3 c)) < (IZR (max_y d) + 1) * s).
  { intros c C s. split; [now apply Fr|]. destruct (Pl c C) as (p & a & b & (w & Wn & E) & A & B & [I1 I2] & [J1 J2]). cbn [fst snd] in E.
    assert (S : 0 < s) by now apply Fr. unfold s in *. rewrite E in *. unfold vscale, h3 in *. cbn [v0 v1 v2] in *.
    apply whole_near in A, B. apply IZR_le in I1, I2, J1, J2. assert (0 < w) by lra. repeat split; nra. }
  assert (C1 := K (V2 0 0)). assert (C2 := K (V2 W 0)). assert (C3 := K (V2 W H)). assert (C4 := K (V2 0 H)).
  unfold corner in C1, C2, C3, C4. cbn [px py] in C1, C2, C3, C4. fold W H in C1, C2, C3, C4.
  specialize (C1 (conj (or_introl eq_refl) (or_introl eq_refl))). specialize (C2 (conj (or_intror eq_refl) (or_introl eq_refl))).
  specialize (C3 (conj (or_intror eq_refl) (or_intror eq_refl))). specialize (C4 (conj (or_introl eq_refl) (or_intror eq_refl))).
  clear K Fr Pl. cbv zeta in C1, C2, C3, C4. rewrite lin_h3 in C1, C2, C3, C4. destruct h as [a0 a1 a2 a3 a4 a5 a6 a7 a8]. cbn [m0 m1 m2 m3 m4 m5 m6 m7 m8 px py v0 v1 v2] in *.
  generalize dependent (IZR (min_x d) - 1). intros nx. generalize dependent (IZR (max_x d) + 1). intros xx.
  generalize dependent (IZR (min_y d) - 1). intros ny. generalize dependent (IZR (max_y d) + 1). intros xy. intros.
  assert (G : forall A B C, C < 0 -> A * W + C < 0 -> A * W + B * H + C < 0 -> B * H + C < 0 -> A * x + B * y + C < 0).
  { intros A B C U1 U2 U3 U4.
    assert (exists e, 0 < e /\ C <= - e /\ A * W + C <= - e /\ A * W + B * H + C <= - e /\ B * H + C <= - e) as (e & P & V1 & V2' & V3' & V4).
    { exists (Rmin (Rmin (- C) (- (A * W + C))) (Rmin (- (A * W + B * H + C)) (- (B * H + C)))).
      unfold Rmin. repeat destruct Rle_dec; repeat split; lra. }
    assert (Z := affine_rect A B (C + e) W H x y X Y). lra. }
  assert (S : 0 < a2 * x + a5 * y + a8) by (assert (Z := G (- a2) (- a5) (- a8)); lra).
  set (s := a2 * x + a5 * y + a8) in *.
  exists (V2 ((a0 * x + a3 * y + a6) / s) ((a1 * x + a4 * y + a7) / s)). cbn [px py]. split.
  - exists s. split; [lra|]. rewrite lin_h3. unfold h3, vscale. cbn [m0 m1 m2 m3 m4 m5 m6 m7 m8 px py v0 v1 v2]. apply V3_eq; unfold s in *; try (field; lra); lra.
  - assert (L : forall t u, t * s < u -> t < u / s) by (intros t u T; apply Rmult_lt_reg_r with s; auto; unfold Rdiv; rewrite Rmult_assoc, Rinv_l by lra; lra).
    assert (L' : forall t u, u < t * s -> u / s < t) by (intros t u T; apply Rmult_lt_reg_r with s; auto; unfold Rdiv; rewrite Rmult_assoc, Rinv_l by lra; lra).
    unfold s in *. repeat split; [apply L|apply L'|apply L|apply L'].
    + assert (Z := G (nx * a2 - a0) (nx * a5 - a3) (nx * a8 - a6)). lra.
    + assert (Z := G (a0 - xx * a2) (a3 - xx * a5) (a6 - xx * a8)). lra.
    + assert (Z := G (ny * a2 - a1) (ny * a5 - a4) (ny * a8 - a7)). lra.
    + assert (Z := G (a1 - xy * a2) (a4 - xy * a5) (a7 - xy * a8)). lra.
Qed.

(** * Values *)
Lemma covers_trunc h g x y p a b : maps_to h (V2 (IZR x) (IZR y)) p -> covers h g x y a b ->
  a = trunc (px p) /\ b = trunc (py p) /\ (0 <= a < g_w g)%Z /\ (0 <= b < g_h g)%Z.
Proof.
  intros M (q & M' & A & B & I). apply transfer_maps in M, M'. rewrite M in M'. injection M' as <-.
  rewrite (whole_trunc _ _ A), (whole_trunc _ _ B). tauto.
Qed.
(** Loops that store a value for every index. *)
Lemma stores {I} (F : I -> res N) (ix : I -> Z) L (m : list N) :
  (forall i, In i L -> (0 <= ix i < Z.of_nat (length m))%Z) -> (forall i, In i L -> exists v, F i = Ok v) ->
  (forall i j, In i L -> In j L -> ix i = ix j -> i = j) ->
  exists d, for_each (fun i d => let* v := F i in zset d (ix i) v) L m = Ok d /\ length d = length m /\
    (forall i, In i L -> F i = Ok (nth (Z.to_nat (ix i)) d 0%N)) /\
    (forall k, (forall i, In i L -> (Z.to_nat (ix i) <> k)%nat) -> nth k d 0%N = nth k m 0%N).
Proof.
  induction L as [|i L IH] using rev_ind; intros B V J.
  - exists m. repeat split; auto. intros i [].
  - destruct IH as (d & E & Ld & S & K); [intros; apply B, in_or_app; auto|intros; apply V, in_or_app; auto|intros; apply J; auto; apply in_or_app; auto|].
    assert (Ii : In i (L ++ [i])) by (apply in_or_app; right; now left).
    destruct (V i Ii) as [v Ev]. specialize (B i Ii) as Bi. exists (lset d (Z.to_nat (ix i)) v).
    rewrite for_each_app, E. cbn [bind for_each]. rewrite Ev. cbn [bind]. rewrite zset_lt' by lia. cbn [bind].
    split; [reflexivity|]. split; [now rewrite lset_length|]. split.
    + intros j Ij. rewrite nth_lset. replace (Nat.ltb (Z.to_nat (ix i)) (length d)) with true by (symmetry; apply Nat.ltb_lt; lia). rewrite Bool.andb_true_r.
      destruct (Nat.eqb_spec (Z.to_nat (ix i)) (Z.to_nat (ix j))) as [Q|Q].
      * assert (j = i) by (apply J; auto; specialize (B j Ij); lia). now subst.
      * apply in_app_or in Ij. destruct Ij as [Ij|[->|[]]]; [auto|easy].
    + intros k N. rewrite nth_lset. destruct (Nat.eqb_spec (Z.to_nat (ix i)) k) as [Q|Q]; [exfalso; eapply N; eauto|]. cbn [andb].
      apply K. intros j Ij. apply N, in_or_app. auto.
Qed.
Lemma fill_ok l pan : gray_ok pan ->
  (forall x y, (0 <= x < g_w pan)%Z -> (0 <= y < g_h pan)%Z -> exists v, composite_value l x y = Ok v) ->
  exists d, fill l pan = Ok {| g_w := g_w pan; g_h := g_h pan; g_stride := g_stride pan; g_data := d |} /\
    length d = length (g_data pan) /\
    (forall x y, (0 <= x < g_w pan)%Z -> (0 <= y < g_h pan)%Z -> composite_value l x y = Ok (nth (Z.to_nat (y * g_stride pan + x)) d 0%N)).
Proof.
  intros G V. set (L := flat_map (fun y => map (fun x => (x, y)) (zrange 0 (g_w pan))) (zrange 0 (g_h pan))).
  assert (IL : forall x y, In (x, y) L <-> (0 <= x < g_w pan)%Z /\ (0 <= y < g_h pan)%Z).
  { intros x y. unfold L. rewrite in_flat_map. split.
    - intros (y' & Y & I). apply in_map_iff in I. destruct I as (x' & [= <- <-] & X). apply zrange_in in X, Y. auto.
    - intros [X Y]. exists y. split; [now apply zrange_in|]. apply in_map_iff. exists x. split; auto. now apply zrange_in. }
  destruct (stores (fun i => composite_value l (fst i) (snd i)) (fun i => (snd i * g_stride pan + fst i)%Z) L (repeat 0%N (length (g_data pan)))) as (d & E & Ld & S & _).
  - intros [x y] I. apply IL in I. rewrite repeat_length. cbn. now apply px_index.
  - intros [x y] I. apply IL in I. now apply V.
  - intros [x y] [x' y'] I I'. apply IL in I, I'. cbn. destruct G as [W _ _ _ _]. intro Q. assert (y = y') by nia. subst. f_equal. lia.
  - exists d. split; [|split; [now rewrite repeat_length in Ld|intros x y X Y; apply (S (x, y)), IL; auto]].
    unfold fill. rewrite (for_each_eq _ (fun y => for_each (fun i d => let* v := composite_value l (fst i) (snd i) in zset d (snd i * g_stride pan + fst i)%Z v) (map (fun x => (x, y)) (zrange 0 (g_w pan))))).
    + rewrite for_each_flat. fold L. rewrite E. reflexivity.
    + intros y s I. apply zrange_in in I. destruct (Z_le_gt_dec (g_w pan) 0) as [W0|W0].
      * rewrite zrange_empty by lia. cbn. rewrite chk_int_in; [reflexivity|]. destruct G as [W H Le M _]. unfold INT_MIN. nia.
      * destruct (px_index pan 0 y G) as [_ R]; [lia|lia|]. rewrite chk_int_in by (unfold INT_MIN; lia). cbn [bind]. now rewrite for_each_map.
Qed.
