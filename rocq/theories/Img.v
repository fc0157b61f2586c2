(** A one-channel image with elements of any type, as the filters see it: struct
    NXImage, include/virg/nexus/nx_image.h:48-66, with n_channels = 1. *)
From Verif Require Import Base BaseLemmas Gray.
Local Open Scope Z_scope.

Record image (A : Type) := mkImg { i_w : Z; i_h : Z; i_stride : Z; i_data : list A }.
Arguments mkImg {A}. Arguments i_w {A}. Arguments i_h {A}. Arguments i_stride {A}. Arguments i_data {A}.
(** The image has [i_h] rows of [i_stride] elements. *)
Record image_ok {A} (g : image A) : Prop := {
  io_w : 0 <= i_w g <= i_stride g;
  io_h : 0 <= i_h g;
  io_len : Z.of_nat (length (i_data g)) = i_h g * i_stride g;
  io_max : i_h g * i_stride g <= INT_MAX }.
(** Column [x] of row [y]. *)
Definition pix {A} (d : A) (g : image A) (x y : Z) : A := nth (Z.to_nat (y * i_stride g + x)) (i_data g) d.
Definition in_img {A} (g : image A) (x y : Z) : Prop := 0 <= x < i_w g /\ 0 <= y < i_h g.

(** (data + y * row_stride)[x]. *)
Definition iget {A} (g : image A) (x y : Z) : res A := let* r := chk_int (y * i_stride g) in zget (i_data g) (r + x).
Definition iput {A} (g : image A) (x y : Z) (v : A) : res (image A) :=
  let* r := chk_int (y * i_stride g) in
  let* l := zset (i_data g) (r + x) v in Ok (mkImg (i_w g) (i_h g) (i_stride g) l).
(** nx_image_resize with the default stride, one channel, nx_image.c:119-153.
    The memory keeps whatever it contained: [junk]. *)
Definition img_new {A} (junk : nat -> A) (w h : Z) : res (image A) :=
  if (w <? 0) || (h <? 0) then Fatal
  else let* n := chk_int (w * h) in Ok (mkImg w h w (map junk (seq 0 (Z.to_nat n)))).
(** A loop over the rows and columns of a rectangle. *)
Definition scan {S} (x0 x1 y0 y1 : Z) (f : Z -> Z -> S -> res S) (s : S) : res S :=
  for_each (fun y => for_each (fun x => f x y) (zrange x0 x1)) (zrange y0 y1) s.

Definition same_shape {A B} (g : image A) (g' : image B) : Prop := i_w g = i_w g' /\ i_h g = i_h g' /\ i_stride g = i_stride g'.

Lemma int_rng : INT_MIN = -2147483648 /\ INT_MAX = 2147483647.
Proof. split; reflexivity. Qed.
Lemma pix_index {A} (g : image A) x y : image_ok g -> in_img g x y ->
  0 <= y * i_stride g + x < Z.of_nat (length (i_data g)) /\ INT_MIN <= y * i_stride g <= INT_MAX.
Proof. intros [W H L M] [X Y]. rewrite L. pose proof int_rng as [-> _]. nia. Qed.
Lemma iget_ok {A} (d : A) g x y : image_ok g -> in_img g x y -> iget g x y = Ok (pix d g x y).
Proof. intros G I. destruct (pix_index g x y G I) as [J K]. unfold iget. rewrite chk_int_in by exact K. cbn [bind]. apply zget_lt, J. Qed.
Lemma iput_ok {A} (d : A) g x y v : image_ok g -> in_img g x y ->
  exists g', iput g x y v = Ok g' /\ same_shape g' g /\ image_ok g' /\
    i_data g' = lset (i_data g) (Z.to_nat (y * i_stride g + x)) v /\
    forall x' y', in_img g x' y' -> pix d g' x' y' = if (x' =? x) && (y' =? y) then v else pix d g x' y'.
Proof.
  intros G I. destruct (pix_index g x y G I) as [J K]. unfold iput. rewrite chk_int_in by exact K. cbn [bind]. rewrite zset_lt' by exact J. cbn [bind].
  eexists. split; [reflexivity|]. split; [repeat split|]. split.
  { destruct G as [W H L M]. split; cbn; auto. now rewrite lset_length. }
  split; [reflexivity|]. intros x' y' I'. unfold pix at 1. cbn [i_stride i_data]. rewrite nth_lset.
  destruct (pix_index g x' y' G I') as [J' K']. destruct G as [W H L M]. destruct I as [IX IY], I' as [IX' IY'].
  destruct (Z.eqb_spec x' x) as [EX|NX], (Z.eqb_spec y' y) as [EY|NY]; cbn [andb].
  - subst. rewrite Nat.eqb_refl. replace (_ <? _)%nat with true; [reflexivity|]. symmetry. apply Nat.ltb_lt. lia.
  - replace (_ =? _)%nat with false; [reflexivity|]. symmetry. apply Nat.eqb_neq. intro E. apply Z2Nat.inj in E; nia.
  - replace (_ =? _)%nat with false; [reflexivity|]. symmetry. apply Nat.eqb_neq. intro E. apply Z2Nat.inj in E; nia.
  - replace (_ =? _)%nat with false; [reflexivity|]. symmetry. apply Nat.eqb_neq. intro E. apply Z2Nat.inj in E; [|lia|lia].
    assert (y' < y \/ y < y') as [?|?] by lia; nia.
Qed.
Lemma img_new_ok {A} (junk : nat -> A) w h : 0 <= w -> 0 <= h -> w * h <= INT_MAX ->
  exists g, img_new junk w h = Ok g /\ i_w g = w /\ i_h g = h /\ i_stride g = w /\ image_ok g.
Proof.
  intros W H M. unfold img_new. destruct (Z.ltb_spec w 0), (Z.ltb_spec h 0); try lia. cbn [orb].
  rewrite chk_int_in by (pose proof int_rng as [-> _]; nia). cbn [bind]. eexists. split; [reflexivity|]. repeat (split; [reflexivity|]).
  split; cbn [i_w i_h i_stride i_data]; [lia|lia| |lia]. rewrite map_length, seq_length. nia.
Qed.
Lemma same_shape_refl {A} (g : image A) : same_shape g g.
Proof. repeat split. Qed.
Lemma same_shape_trans {A B C} (a : image A) (b : image B) (c : image C) : same_shape a b -> same_shape b c -> same_shape a c.
Proof. unfold same_shape. intuition congruence. Qed.
Lemma same_shape_in {A B} (a : image A) (b : image B) x y : same_shape a b -> in_img a x y <-> in_img b x y.
Proof. intros (H1 & H2 & H3). unfold in_img. rewrite H1, H2. reflexivity. Qed.

Definition peqb (p q : Z * Z) : bool := (fst p =? fst q) && (snd p =? snd q).
Definition pmem (p : Z * Z) (l : list (Z * Z)) : bool := existsb (peqb p) l.
Lemma peqb_spec p q : peqb p q = true <-> p = q.
Proof. destruct p, q. unfold peqb. cbn. rewrite Bool.andb_true_iff, !Z.eqb_eq. split; [intros [-> ->]; auto|intros [= -> ->]; auto]. Qed.
Lemma pmem_spec p l : pmem p l = true <-> In p l.
Proof. unfold pmem. rewrite existsb_exists. split; [intros (q & I & E); apply peqb_spec in E; now subst|intro I; exists p; split; auto; now apply peqb_spec]. Qed.
Lemma pmem_app p l q : pmem p (l ++ [q]) = pmem p l || peqb p q.
Proof. unfold pmem. rewrite existsb_app. cbn. now rewrite Bool.orb_false_r. Qed.

(** Writing a computed value at each of a list of distinct pixels.  The value
    may be computed from pixels not yet written. *)
Lemma fill_list {A} (d : A) (f : Z * Z -> image A -> res A) (h : Z * Z -> A) (l : list (Z * Z)) g0 :
  image_ok g0 -> (forall p, In p l -> in_img g0 (fst p) (snd p)) ->
  (forall pre p post g, l = pre ++ p :: post -> same_shape g g0 -> image_ok g ->
     (forall x y, in_img g0 x y -> pix d g x y = if pmem (x, y) pre then h (x, y) else pix d g0 x y) -> f p g = Ok (h p)) ->
  exists g', for_each (fun p g => let* v := f p g in iput g (fst p) (snd p) v) l g0 = Ok g' /\ same_shape g' g0 /\ image_ok g' /\
    (forall x y, in_img g0 x y -> pix d g' x y = if pmem (x, y) l then h (x, y) else pix d g0 x y) /\
    (forall P : A -> Prop, Forall P (i_data g0) -> (forall p, In p l -> P (h p)) -> Forall P (i_data g')).
Proof.
  intros G I F.
  destruct (for_each_inv (fun p g => let* v := f p g in iput g (fst p) (snd p) v)
    (fun pre g => same_shape g g0 /\ image_ok g /\
      (forall x y, in_img g0 x y -> pix d g x y = if pmem (x, y) pre then h (x, y) else pix d g0 x y) /\
      (forall P : A -> Prop, Forall P (i_data g0) -> (forall p, In p pre -> P (h p)) -> Forall P (i_data g))) l g0) as (g' & E & S & O & V & Q).
  - split; [apply same_shape_refl|]. split; [exact G|]. split; [reflexivity|]. auto.
  - intros pre p g (S & O & V & Q) [post L]. rewrite (F pre p post g L S O V). cbn [bind].
    assert (Ip : in_img g (fst p) (snd p)) by (rewrite same_shape_in by exact S; apply I; rewrite L; apply in_or_app; right; now left).
    destruct (iput_ok d g (fst p) (snd p) (h p) O Ip) as (g' & E & S' & O' & D & V'). exists g'. split; [exact E|].
    split; [eapply same_shape_trans; eauto|]. split; [exact O'|]. split.
    + intros x y J. rewrite V' by (rewrite same_shape_in by exact S; exact J). rewrite pmem_app. unfold peqb. cbn [fst snd].
      destruct (Z.eqb_spec x (fst p)), (Z.eqb_spec y (snd p)); cbn [andb]; rewrite ?Bool.orb_true_r, ?Bool.orb_false_r; auto.
      subst. now rewrite <- surjective_pairing.
    + intros P P0 PP. rewrite D. assert (PG : Forall P (i_data g)) by (apply Q; auto; intros; apply PP, in_or_app; now left).
      apply Forall_forall. intros a Ia. apply In_nth with (d := d) in Ia as (k & K & <-). rewrite lset_length in K. rewrite nth_lset.
      destruct (_ && _); [apply PP, in_or_app; right; now left|]. rewrite Forall_forall in PG. apply PG, nth_In, K.
  - exists g'. auto.
Qed.
Lemma raster_nodup x0 x1 y0 y1 : NoDup (raster x0 x1 y0 y1).
Proof.
  pose proof (raster_sorted x0 x1 y0 y1) as S. induction S as [|p l S IH F]; constructor; auto.
  intro I. rewrite Forall_forall in F. specialize (F p I). lia.
Qed.
Lemma scan_raster {S} x0 x1 y0 y1 (f : Z -> Z -> S -> res S) s : scan x0 x1 y0 y1 f s = for_each (fun p => f (fst p) (snd p)) (raster x0 x1 y0 y1) s.
Proof. unfold scan, raster. now rewrite for_each_raster. Qed.
Lemma pmem_raster x0 x1 y0 y1 x y : pmem (x, y) (raster x0 x1 y0 y1) = (x0 <=? x) && (x <? x1) && (y0 <=? y) && (y <? y1).
Proof.
  apply Bool.eq_true_iff_eq. rewrite pmem_spec, raster_in, !Bool.andb_true_iff, !Z.leb_le, !Z.ltb_lt. tauto.
Qed.
Definition in_rect (x0 x1 y0 y1 x y : Z) : bool := (x0 <=? x) && (x <? x1) && (y0 <=? y) && (y <? y1).
(** A rectangle is overwritten; each value is computed from the old value there
    and things that do not change. *)
Lemma scan_fill {A} (d : A) (f : Z -> Z -> image A -> res A) (h : Z -> Z -> A) x0 x1 y0 y1 g0 :
  image_ok g0 -> 0 <= x0 -> x1 <= i_w g0 -> 0 <= y0 -> y1 <= i_h g0 ->
  (forall x y g, x0 <= x < x1 -> y0 <= y < y1 -> same_shape g g0 -> image_ok g -> pix d g x y = pix d g0 x y -> f x y g = Ok (h x y)) ->
  exists g', scan x0 x1 y0 y1 (fun x y g => let* v := f x y g in iput g x y v) g0 = Ok g' /\ same_shape g' g0 /\ image_ok g' /\
    (forall x y, in_img g0 x y -> pix d g' x y = if in_rect x0 x1 y0 y1 x y then h x y else pix d g0 x y) /\
    (forall P : A -> Prop, Forall P (i_data g0) -> (forall x y, x0 <= x < x1 -> y0 <= y < y1 -> P (h x y)) -> Forall P (i_data g')).
Proof.
  intros G X0 X1 Y0 Y1 F. rewrite scan_raster.
  destruct (fill_list d (fun p g => f (fst p) (snd p) g) (fun p => h (fst p) (snd p)) (raster x0 x1 y0 y1) g0 G) as (g' & E & S & O & V & Q).
  - intros [x y] I. apply raster_in in I. unfold in_img. cbn. lia.
  - intros pre [x y] post g L S O V. cbn [fst snd]. assert (I : In (x, y) (raster x0 x1 y0 y1)) by (rewrite L; apply in_or_app; right; now left).
    apply raster_in in I as [IX IY]. apply F; auto. rewrite V by (unfold in_img; lia).
    replace (pmem (x, y) pre) with false; [reflexivity|]. symmetry. apply Bool.not_true_iff_false. rewrite pmem_spec. intro J.
    pose proof (raster_nodup x0 x1 y0 y1) as N. rewrite L in N. apply NoDup_remove_2 in N. apply N. apply in_or_app. now left.
  - exists g'. split; [exact E|]. split; [exact S|]. split; [exact O|]. split.
    + intros x y I. rewrite V by exact I. now rewrite pmem_raster.
    + intros P P0 PP. apply Q; auto. intros [x y] I. apply raster_in in I as [IX IY]. auto.
Qed.
(** The common case: all of an image is written. *)
Lemma scan_fill_all {A} (d : A) (f : Z -> Z -> image A -> res A) (h : Z -> Z -> A) g0 :
  image_ok g0 ->
  (forall x y g, in_img g0 x y -> same_shape g g0 -> image_ok g -> pix d g x y = pix d g0 x y -> f x y g = Ok (h x y)) ->
  exists g', scan 0 (i_w g0) 0 (i_h g0) (fun x y g => let* v := f x y g in iput g x y v) g0 = Ok g' /\ same_shape g' g0 /\ image_ok g' /\
    (forall x y, in_img g0 x y -> pix d g' x y = h x y) /\
    (forall P : A -> Prop, Forall P (i_data g0) -> (forall x y, in_img g0 x y -> P (h x y)) -> Forall P (i_data g')).
Proof.
  intros G F. destruct (scan_fill d f h 0 (i_w g0) 0 (i_h g0) g0 G) as (g' & E & S & O & V & Q); try lia.
  - intros x y g X Y. apply F. split; auto.
  - exists g'. split; [exact E|]. split; [exact S|]. split; [exact O|]. split.
    + intros x y I. rewrite V by exact I. destruct I as [IX IY]. unfold in_rect. destruct (Z.leb_spec 0 x), (Z.ltb_spec x (i_w g0)), (Z.leb_spec 0 y), (Z.ltb_spec y (i_h g0)); try lia. reflexivity.
    + intros P P0 PP. apply Q; auto. intros x y X Y. apply PP. split; auto.
Qed.
