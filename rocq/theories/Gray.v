(** A grayscale image of bytes as the detectors and filters see it: struct
    NXImage with n_channels = 1 and uchar data, include/virg/nexus/nx_image.h. *)
From Coq Require Export Sorting.Sorted.
From Verif Require Import Base BaseLemmas.
Local Open Scope Z_scope.

Record gray := { g_w : Z; g_h : Z; g_stride : Z; g_data : list N }.
(** The image owns [g_h] rows of [g_stride] bytes. *)
Record gray_ok (g : gray) : Prop := {
  go_w : 0 <= g_w g <= g_stride g;
  go_h : 0 <= g_h g;
  go_len : Z.of_nat (length (g_data g)) = g_h g * g_stride g;
  go_max : g_h g * g_stride g <= INT_MAX;
  go_bytes : bytes_ok (g_data g) }.
(** The pixel in column [x] of row [y]. *)
Definition px (g : gray) (x y : Z) : Z := Z.of_N (nth (Z.to_nat (y * g_stride g + x)) (g_data g) 0%N).

(** The integers from [a] to [b - 1]. *)
Definition zrange (a b : Z) : list Z := map (fun i => a + Z.of_nat i) (seq 0 (Z.to_nat (b - a))).

Lemma zrange_in a b x : In x (zrange a b) <-> a <= x < b.
Proof.
  unfold zrange. rewrite in_map_iff. split.
  - intros (i & <- & H). apply in_seq in H. lia.
  - intro H. exists (Z.to_nat (x - a)). split; [lia|]. apply in_seq. lia.
Qed.
Lemma zrange_length a b : length (zrange a b) = Z.to_nat (b - a).
Proof. unfold zrange. now rewrite map_length, seq_length. Qed.
Lemma zrange_empty a b : b <= a -> zrange a b = [].
Proof. intro H. unfold zrange. replace (Z.to_nat (b - a)) with O by lia. reflexivity. Qed.
Lemma zrange_snoc a b : a <= b -> zrange a (b + 1) = zrange a b ++ [b].
Proof.
  intro H. unfold zrange. replace (Z.to_nat (b + 1 - a)) with (Z.to_nat (b - a) + 1)%nat by lia.
  rewrite seq_app, map_app. cbn. f_equal. f_equal. lia.
Qed.
Lemma zrange_cons a b : a < b -> zrange a b = a :: zrange (a + 1) b.
Proof.
  intro H. unfold zrange. replace (Z.to_nat (b - a)) with (S (Z.to_nat (b - (a + 1)))) by lia.
  cbn [seq map]. f_equal; [lia|]. rewrite <- seq_shift, map_map. apply map_ext. intro i. lia.
Qed.
Lemma zget_lt {A} (l : list A) i d : 0 <= i < Z.of_nat (length l) -> zget l i = Ok (nth (Z.to_nat i) l d).
Proof. intro H. unfold zget. destruct (Z.ltb_spec i 0); [lia|]. apply aget_lt. lia. Qed.
Lemma zset_lt' {A} (l : list A) i v : 0 <= i < Z.of_nat (length l) -> zset l i v = Ok (lset l (Z.to_nat i) v).
Proof. intro H. unfold zset. destruct (Z.ltb_spec i 0); [lia|]. apply aset_lt. lia. Qed.

Lemma px_index g x y : gray_ok g -> 0 <= x < g_w g -> 0 <= y < g_h g ->
  0 <= y * g_stride g + x < Z.of_nat (length (g_data g)) /\ 0 <= y * g_stride g <= INT_MAX.
Proof. intros [W H L M _] X Y. rewrite L. nia. Qed.
Lemma px_byte g x y : gray_ok g -> 0 <= x < g_w g -> 0 <= y < g_h g -> 0 <= px g x y <= 255.
Proof.
  intros G X Y. destruct (px_index g x y G X Y) as [I _]. unfold px.
  assert (byte_ok (nth (Z.to_nat (y * g_stride g + x)) (g_data g) 0%N)).
  { pose proof (go_bytes g G) as B. unfold bytes_ok in B. rewrite Forall_forall in B. apply B. apply nth_In. lia. }
  unfold byte_ok in H. lia.
Qed.

(** Loops. *)
Lemma for_each_map {A B S} (h : A -> B) (f : B -> S -> res S) l s : for_each f (map h l) s = for_each (fun a => f (h a)) l s.
Proof. revert s. induction l as [|a l IH]; intro s; cbn; [reflexivity|]. destruct (f (h a) s); cbn; auto. Qed.
Lemma for_each_flat {A B S} (h : A -> list B) (f : B -> S -> res S) l s :
  for_each (fun a => for_each f (h a)) l s = for_each f (flat_map h l) s.
Proof.
  revert s. induction l as [|a l IH]; intro s; cbn [for_each flat_map]; [reflexivity|]. rewrite for_each_app.
  destruct (for_each f (h a) s); cbn; auto.
Qed.
Lemma for_each_collect {A B} (f : A -> res B) (h : A -> B) l : forall acc, (forall a, In a l -> f a = Ok (h a)) ->
  for_each (fun a acc => let* o := f a in Ok (acc ++ [o])) l acc = Ok (acc ++ map h l).
Proof.
  induction l as [|a l IH]; intros acc H; cbn; [now rewrite app_nil_r|].
  rewrite H by now left. cbn. rewrite IH by (intros; apply H; now right). now rewrite <- app_assoc.
Qed.
Lemma for_each_eq {A S} (f g : A -> S -> res S) l : (forall x s, In x l -> f x s = g x s) -> forall s, for_each f l s = for_each g l s.
Proof.
  induction l as [|a l IH]; intros H s; cbn; [reflexivity|]. rewrite H by now left. destruct (g a s); cbn; auto.
  apply IH. intros; apply H; now right.
Qed.
Lemma chk_int_in z : INT_MIN <= z <= INT_MAX -> chk_int z = Ok z.
Proof. unfold chk_int, in_int. intros H. replace (_ && _) with true by lia. reflexivity. Qed.

(** The points of a rectangle, row by row. *)
Definition raster (x0 x1 y0 y1 : Z) : list (Z * Z) := flat_map (fun y => map (fun x => (x, y)) (zrange x0 x1)) (zrange y0 y1).
Lemma raster_in x0 x1 y0 y1 x y : In (x, y) (raster x0 x1 y0 y1) <-> x0 <= x < x1 /\ y0 <= y < y1.
Proof.
  unfold raster. rewrite in_flat_map. split.
  - intros (y' & Y & X). apply in_map_iff in X as (x' & [= -> ->] & X). apply zrange_in in X, Y. auto.
  - intros [X Y]. exists y. split; [now apply zrange_in|]. apply in_map_iff. exists x. split; [reflexivity|now apply zrange_in].
Qed.
Lemma SSorted_app {A} (R : A -> A -> Prop) l1 l2 : StronglySorted R l1 -> StronglySorted R l2 ->
  (forall a b, In a l1 -> In b l2 -> R a b) -> StronglySorted R (l1 ++ l2).
Proof.
  induction l1 as [|a l1 IH]; cbn; intros S1 S2 H; [exact S2|]. apply StronglySorted_inv in S1 as [S1 F]. constructor.
  - apply IH; auto.
  - apply Forall_app. split; [exact F|]. apply Forall_forall. intros b B. apply H; auto.
Qed.
Lemma SSorted_map {A B} (R : B -> B -> Prop) (f : A -> B) l : StronglySorted (fun a b => R (f a) (f b)) l -> StronglySorted R (map f l).
Proof.
  induction 1; cbn; constructor; auto. apply Forall_forall. intros b I. apply in_map_iff in I as (a' & <- & I).
  rewrite Forall_forall in H0. auto.
Qed.
Lemma SSorted_map_inv {A B} (R : B -> B -> Prop) (f : A -> B) l : StronglySorted R (map f l) -> StronglySorted (fun a b => R (f a) (f b)) l.
Proof.
  induction l as [|a l IH]; cbn; intro S; constructor; apply StronglySorted_inv in S as [S F]; auto.
  apply Forall_forall. intros b I. rewrite Forall_forall in F. apply F, in_map, I.
Qed.
Lemma SSorted_impl {A} (R R' : A -> A -> Prop) l : (forall a b, R a b -> R' a b) -> StronglySorted R l -> StronglySorted R' l.
Proof. intros H. induction 1; constructor; auto. eapply Forall_impl; [|eassumption]. auto. Qed.
Lemma SSorted_filter {A} (R : A -> A -> Prop) f l : StronglySorted R l -> StronglySorted R (filter f l).
Proof.
  induction 1; cbn; [constructor|]. destruct (f a); [|assumption]. constructor; [assumption|].
  apply Forall_forall. intros b I. apply filter_In in I as [I _]. rewrite Forall_forall in H0. auto.
Qed.
Lemma SSorted_firstn {A} (R : A -> A -> Prop) l n : StronglySorted R l -> StronglySorted R (firstn n l).
Proof.
  intro S. revert n. induction S; intros [|n]; cbn; constructor; auto.
  apply Forall_forall. intros b I. rewrite Forall_forall in H. apply H. rewrite <- (firstn_skipn n l). apply in_or_app. auto.
Qed.
Lemma SSorted_nth {A} (R : A -> A -> Prop) l d i j : StronglySorted R l -> (i < j < length l)%nat -> R (nth i l d) (nth j l d).
Proof.
  intro S. revert i j. induction S; cbn; intros i j L; [lia|]. destruct j; [lia|]. destruct i.
  - rewrite Forall_forall in H. apply H, nth_In. lia.
  - apply IHS. lia.
Qed.
Lemma zrange_sorted a b : StronglySorted Z.lt (zrange a b).
Proof.
  unfold zrange. apply SSorted_map. generalize 0%nat. induction (Z.to_nat (b - a)) as [|n IH]; intro s; cbn; constructor; auto.
  apply Forall_forall. intros j I. apply in_seq in I. lia.
Qed.
Lemma raster_sorted x0 x1 y0 y1 : StronglySorted (fun p q => snd p < snd q \/ (snd p = snd q /\ fst p < fst q)) (raster x0 x1 y0 y1).
Proof.
  unfold raster. pose proof (zrange_sorted y0 y1) as S. induction S as [|y l S IH F]; cbn; [constructor|]. apply SSorted_app.
  - apply SSorted_map. cbn. eapply SSorted_impl; [|apply zrange_sorted]. intros a b H. right. auto.
  - exact IH.
  - intros [a a'] [b b'] I J. apply in_map_iff in I as (x & [= <- <-] & I). apply in_flat_map in J as (y' & Y & J).
    apply in_map_iff in J as (x' & [= <- <-] & J). rewrite Forall_forall in F. cbn. left. auto.
Qed.
Lemma for_each_raster {S} (f : Z -> Z -> S -> res S) xs ys s :
  for_each (fun y => for_each (fun x => f x y) xs) ys s = for_each (fun p => f (fst p) (snd p)) (flat_map (fun y => map (fun x => (x, y)) xs) ys) s.
Proof.
  rewrite <- for_each_flat. apply for_each_eq. intros y s' _. now rewrite for_each_map.
Qed.
