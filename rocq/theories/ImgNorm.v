(** Normalization: the scan for the extreme values, and the exact-arithmetic
    meaning of the mapping. *)
From Coq Require Import QArith Qabs Lqa.
From Verif Require Import Base BaseLemmas Gray Img Flt FilterModel ImgModel ImgSpec ImgProofs.
Local Open Scope Z_scope.

Section MinMax.
Context {A : Type}.
Variables (lt : A -> A -> bool) (opp : A -> A) (vmax0 d : A).
Notation le a b := (lt b a = false).
Hypothesis lt_irr : forall a, lt a a = false.
Hypothesis lt_tr : forall a b c, le a b -> le b c -> le a c.
Hypothesis lt_as : forall a b, lt a b = true -> lt b a = false.
Definition mm_step (v : A) (m : A * A) : A * A := let (vmin, vmax) := m in if lt v vmin then (v, vmax) else if lt vmax v then (vmin, v) else (vmin, vmax).
Lemma min_max_fold img : image_ok img ->
  min_max lt opp vmax0 img = Ok (fold_left (fun m v => mm_step v m) (map (fun p => pix d img (fst p) (snd p)) (raster 0 (i_w img) 0 (i_h img))) (vmax0, opp vmax0)).
Proof.
  intro G. unfold min_max. rewrite scan_raster. set (l := raster 0 (i_w img) 0 (i_h img)).
  assert (I : forall p, In p l -> in_img img (fst p) (snd p)) by (intros [x y] I; now apply raster_in in I).
  clearbody l. generalize (vmax0, opp vmax0) as m. induction l as [|p l IH]; intro m; [reflexivity|]. cbn [for_each map fold_left]. destruct m as [vmin vmax].
  rewrite (iget_ok d) by (auto; apply I; now left). cbn [bind]. apply IH. intros; apply I; now right.
Qed.
Lemma fold_min_max v0 l : le v0 vmax0 ->
  let (vmin, vmax) := fold_left (fun m v => mm_step v m) (v0 :: l) (vmax0, opp vmax0) in
  (forall v, In v (v0 :: l) -> le vmin v) /\ (vmin = vmax0 /\ le vmax0 v0 \/ In vmin (v0 :: l)) /\
  (forall v, In v l -> le v vmax \/ lt v v0 = true) /\ (vmax = opp vmax0 \/ In vmax (v0 :: l)).
Proof.
  intros B.
  assert (G : forall l pre m, (forall v, In v (v0 :: pre) -> le (fst m) v) -> (fst m = vmax0 /\ le vmax0 v0 \/ In (fst m) (v0 :: pre)) ->
     (forall v, In v pre -> le v (snd m) \/ lt v v0 = true) -> (snd m = opp vmax0 \/ In (snd m) (v0 :: pre)) ->
     let (vmin, vmax) := fold_left (fun m v => mm_step v m) l m in
     (forall v, In v (v0 :: pre ++ l) -> le vmin v) /\ (vmin = vmax0 /\ le vmax0 v0 \/ In vmin (v0 :: pre ++ l)) /\
     (forall v, In v (pre ++ l) -> le v vmax \/ lt v v0 = true) /\ (vmax = opp vmax0 \/ In vmax (v0 :: pre ++ l))).
  { clear l. induction l as [|v l IH]; intros pre [mn mx] H1 H2 H3 H4; cbn [fold_left fst snd] in *.
    - rewrite app_nil_r. auto.
    - assert (forall u, In u (v0 :: pre) -> In u (v0 :: pre ++ [v])) as MO by (intros u [<-|U]; [now left|right; apply in_or_app; now left]).
      assert (IV : In v (v0 :: pre ++ [v])) by (right; apply in_or_app; right; now left).
      specialize (IH (pre ++ [v]) (mm_step v (mn, mx))). rewrite <- app_assoc in IH. cbn [app] in IH. apply IH; clear IH; unfold mm_step.
      + assert (LV : lt v mn = true -> forall u, In u (v0 :: pre) -> le v u) by (intros L1 u U; eapply lt_tr; [apply lt_as, L1|]; now apply H1).
        intros u U. assert (UU : In u (v0 :: pre) \/ u = v) by (destruct U as [<-|U]; [left; now left|apply in_app_or in U as [U|[<-|[]]]; [left; now right|now right]]).
        destruct (lt v mn) eqn:L1; [|destruct (lt mx v) eqn:L2]; cbn [fst]; destruct UU as [UU| ->]; auto.
      + destruct (lt v mn) eqn:L1; [|destruct (lt mx v) eqn:L2]; cbn [fst]; auto; destruct H2 as [H2|H2]; auto.
      + intros u U. apply in_app_or in U. destruct (lt v mn) eqn:L1; [|destruct (lt mx v) eqn:L2]; cbn [snd].
        * destruct U as [U|[<-|[]]]; [now apply H3|]. right. destruct (lt v v0) eqn:L3; [reflexivity|]. assert (le mn v) by (eapply lt_tr; [apply H1; now left|exact L3]). congruence.
        * destruct U as [U|[<-|[]]]; [|left; apply lt_irr]. destruct (H3 u U) as [Q|Q]; auto. left. eapply lt_tr; [exact Q|]. now apply lt_as.
        * destruct U as [U|[<-|[]]]; [now apply H3|now left].
      + destruct (lt v mn) eqn:L1; [|destruct (lt mx v) eqn:L2]; cbn [snd]; auto; destruct H4 as [H4|H4]; auto. }
  cbn [fold_left]. specialize (G l [] (mm_step v0 (vmax0, opp vmax0))). cbn [app] in G. apply G; clear G; unfold mm_step.
  - intros v [<-|[]]. destruct (lt v0 vmax0) eqn:L1; [|destruct (lt (opp vmax0) v0)]; cbn [fst]; auto.
  - destruct (lt v0 vmax0) eqn:L1; [|destruct (lt (opp vmax0) v0)]; cbn [fst]; auto; right; now left.
  - intros v [].
  - destruct (lt v0 vmax0) eqn:L1; [|destruct (lt (opp vmax0) v0)]; cbn [snd]; auto. right. now left.
Qed.
(** The first pixel is the strict maximum: it is not noticed. *)
Lemma fold_first_max v0 l : lt v0 vmax0 = true -> lt (opp vmax0) v0 = true -> (forall v, In v l -> lt v v0 = true) ->
  lt (snd (fold_left (fun m v => mm_step v m) (v0 :: l) (vmax0, opp vmax0))) v0 = true.
Proof.
  intros B B' BL. cbn [fold_left]. unfold mm_step at 2. rewrite B.
  assert (G : forall l m, (forall v, In v l -> lt v v0 = true) -> lt (snd m) v0 = true -> lt (snd (fold_left (fun m v => mm_step v m) l m)) v0 = true).
  { clear l BL. induction l as [|v l IH]; intros [mn mx] BL H; cbn [fold_left snd] in *; auto. apply IH; [intros; apply BL; now right|]. unfold mm_step.
    destruct (lt v mn); [exact H|]. destruct (lt mx v); [|exact H]. apply BL. now left. }
  apply G; auto.
Qed.
Lemma raster_head w h : 0 < w -> 0 < h -> raster 0 w 0 h = (0, 0) :: tl (raster 0 w 0 h).
Proof. intros W H. unfold raster. rewrite (zrange_cons 0 h) by lia. rewrite (zrange_cons 0 w) by lia. reflexivity. Qed.
Lemma min_max_ok img mx my : image_ok img -> in_img img mx my -> (mx, my) <> (0, 0) ->
  (forall x y, in_img img x y -> le (pix d img x y) (pix d img mx my)) ->
  (forall x y, in_img img x y -> le (pix d img x y) vmax0 /\ le (opp vmax0) (pix d img x y)) ->
  exists vmin vmax, min_max lt opp vmax0 img = Ok (vmin, vmax) /\
    (forall x y, in_img img x y -> le vmin (pix d img x y)) /\ (exists x y, in_img img x y /\ le (pix d img x y) vmin) /\
    le vmax (pix d img mx my) /\ le (pix d img mx my) vmax.
Proof.
  intros G I N M R. rewrite min_max_fold by exact G. set (f := fun p : Z * Z => pix d img (fst p) (snd p)).
  assert (0 < i_w img /\ 0 < i_h img) as [W H] by (destruct I; lia). set (rs := raster 0 (i_w img) 0 (i_h img)).
  assert (RI : forall x y, In (x, y) rs <-> in_img img x y) by (intros; unfold rs; apply raster_in).
  assert (RH : rs = (0, 0) :: tl rs) by (apply raster_head; auto). assert (I0 : in_img img 0 0) by (split; lia).
  rewrite RH. cbn [map]. set (v0 := f (0, 0)). set (l := map f (tl rs)).
  pose proof (fold_min_max v0 l (proj1 (R 0 0 I0))) as F. destruct (fold_left _ _ _) as [vmin vmax]. destruct F as (F1 & F2 & F3 & F4). exists vmin, vmax. split; [reflexivity|].
  assert (IL : forall v, In v (v0 :: l) -> exists x y, in_img img x y /\ v = pix d img x y).
  { intros v V. change (v0 :: l) with (map f ((0, 0) :: tl rs)) in V. rewrite <- RH in V. apply in_map_iff in V as ([x y] & <- & V). exists x, y. split; [now apply RI|reflexivity]. }
  assert (LI : forall x y, in_img img x y -> In (pix d img x y) (v0 :: l)).
  { intros x y J. change (v0 :: l) with (map f ((0, 0) :: tl rs)). rewrite <- RH. change (pix d img x y) with (f (x, y)). apply in_map. now apply RI. }
  assert (ML : In (pix d img mx my) l).
  { change (pix d img mx my) with (f (mx, my)). apply in_map. assert (J : In (mx, my) rs) by now apply RI. rewrite RH in J. destruct J as [J|J]; [congruence|exact J]. }
  split; [intros; now apply F1, LI|]. split; [|split].
  - destruct F2 as [[-> F2]|F2]; [exists 0, 0; split; [exact I0|]; apply (R 0 0 I0)|]. destruct (IL _ F2) as (x & y & J & ->). exists x, y. split; [exact J|apply lt_irr].
  - destruct F4 as [->|F4]; [apply (R mx my I)|]. destruct (IL _ F4) as (x & y & J & ->). now apply M.
  - destruct (F3 _ ML) as [Q|Q]; [exact Q|]. pose proof (M 0 0 I0) as M0. change (pix d img 0 0) with v0 in M0. congruence.
Qed.
Lemma min_max_first img : image_ok img -> in_img img 0 0 -> lt (pix d img 0 0) vmax0 = true -> lt (opp vmax0) (pix d img 0 0) = true ->
  (forall x y, in_img img x y -> (x, y) <> (0, 0) -> lt (pix d img x y) (pix d img 0 0) = true) ->
  exists vmin vmax, min_max lt opp vmax0 img = Ok (vmin, vmax) /\ lt vmax (pix d img 0 0) = true.
Proof.
  intros G I B B' M. rewrite min_max_fold by exact G. set (f := fun p : Z * Z => pix d img (fst p) (snd p)).
  assert (0 < i_w img /\ 0 < i_h img) as [W H] by (destruct I; lia). set (rs := raster 0 (i_w img) 0 (i_h img)).
  assert (RI : forall x y, In (x, y) rs <-> in_img img x y) by (intros; unfold rs; apply raster_in).
  assert (RH : rs = (0, 0) :: tl rs) by (apply raster_head; auto). pose proof (raster_nodup 0 (i_w img) 0 (i_h img)) as ND. fold rs in ND. rewrite RH in ND. apply NoDup_cons_iff in ND as [ND _].
  rewrite RH. cbn [map]. assert (F : lt (snd (fold_left (fun m v => mm_step v m) (f (0, 0) :: map f (tl rs)) (vmax0, opp vmax0))) (f (0, 0)) = true).
  { apply fold_first_max; auto. intros v V. apply in_map_iff in V as ([x y] & <- & V). apply M; [apply RI; rewrite RH; now right|]. intro Q. cbn [fst snd] in Q. rewrite Q in V. auto. }
  destruct (fold_left _ _ _) as [vmin vmax]. exists vmin, vmax. split; [reflexivity|exact F].
Qed.
End MinMax.

(** * Exact arithmetic *)
Definition qlt (a b : Q) : bool := negb (Qle_bool b a).
Definition normalize_exact (bound : Q) := normalize qlt Qeq_bool Qplus Qminus Qmult Qdiv Qopp Qabs 0%Q 1%Q 2%Q (1 # 2)%Q bound.
Lemma qlt_t a b : qlt a b = true <-> (a < b)%Q.
Proof. unfold qlt. rewrite Bool.negb_true_iff, <- Bool.not_true_iff_false, Qle_bool_iff. split; [apply Qnot_le_lt|apply Qlt_not_le]. Qed.
Lemma qlt_f a b : qlt a b = false <-> (b <= a)%Q.
Proof. unfold qlt. rewrite Bool.negb_false_iff. apply Qle_bool_iff. Qed.
Lemma clamp01_id v : (0 <= v <= 1)%Q -> clamp01 qlt 0%Q 1%Q v = v.
Proof.
  intros [H0 H1]. unfold clamp01. rewrite (proj2 (qlt_f v 0) H0), (proj2 (qlt_f 1 v) H1). reflexivity.
Qed.
(** A pass of axpy followed by the clamping pass. *)
Lemma axpy_clamp_ok {A} (d : A) (img : image A) (f g : A -> A) : image_ok img ->
  exists img', (let* i1 := scan 0 (i_w img) 0 (i_h img) (fun x y img => let* v := (let* u := iget img x y in Ok (f u)) in iput img x y v) img in
    scan 0 (i_w i1) 0 (i_h i1) (fun x y img => let* v := (let* u := iget img x y in Ok (g u)) in iput img x y v) i1) = Ok img' /\
    same_shape img' img /\ image_ok img' /\ forall x y, in_img img x y -> pix d img' x y = g (f (pix d img x y)).
Proof.
  intro G.
  destruct (scan_fill_all d (fun x y img => let* u := iget img x y in Ok (f u)) (fun x y => f (pix d img x y)) img) as (i1 & E1 & S1 & O1 & V1 & _); [exact G| |].
  { intros x y g1 I S O P. rewrite (iget_ok d); [|exact O|now rewrite same_shape_in by exact S]. cbn [bind]. now rewrite P. }
  rewrite E1. cbn [bind].
  destruct (scan_fill_all d (fun x y img => let* u := iget img x y in Ok (g u)) (fun x y => g (pix d i1 x y)) i1) as (i2 & E2 & S2 & O2 & V2 & _); [exact O1| |].
  { intros x y g1 I S O P. rewrite (iget_ok d); [|exact O|now rewrite same_shape_in by exact S]. cbn [bind]. now rewrite P. }
  exists i2. split; [exact E2|]. split; [eapply same_shape_trans; eauto|]. split; [exact O2|]. intros x y I. rewrite V2 by (rewrite same_shape_in by exact S1; exact I). now rewrite V1.
Qed.
Section Exact.
Variables (bound : Q) (img : image Q) (mx my : Z).
Hypothesis G : image_ok img.
Hypothesis I : in_img img mx my.
Hypothesis N : (mx, my) <> (0, 0).
Notation p := (pix 0%Q img).
Hypothesis M : forall x y, in_img img x y -> (p x y <= p mx my)%Q.
Hypothesis R : forall x y, in_img img x y -> (- bound <= p x y <= bound)%Q.
Lemma extremes : exists vmin vmax, min_max qlt Qopp bound img = Ok (vmin, vmax) /\ (vmax == p mx my)%Q /\
  (forall x y, in_img img x y -> (vmin <= p x y)%Q) /\ (exists x y, in_img img x y /\ (p x y == vmin)%Q).
Proof.
  destruct (min_max_ok qlt Qopp bound 0%Q) with (img := img) (mx := mx) (my := my) as (vmin & vmax & E & V1 & (x & y & J & V2) & V3 & V4); auto.
  - intro a. apply qlt_f. lra.
  - intros a b c H1 H2. apply qlt_f in H1, H2. apply qlt_f. lra.
  - intros a b H. apply qlt_t in H. apply qlt_f. lra.
  - intros x y J. apply qlt_f. now apply M.
  - intros x y J. specialize (R x y J). split; apply qlt_f; lra.
  - exists vmin, vmax. split; [exact E|]. apply qlt_f in V3, V4. split; [lra|]. split; [intros; apply qlt_f; auto|]. exists x, y. split; [exact J|]. apply qlt_f in V2. specialize (V1 x y J). apply qlt_f in V1. lra.
Qed.
Lemma normalize_ok : (exists x y, in_img img x y /\ (p x y < p mx my)%Q) ->
  exists img' vmin, normalize_exact bound img false = Ok img' /\ same_shape img' img /\ image_ok img' /\
    (forall x y, in_img img x y -> (vmin <= p x y)%Q) /\ (exists x y, in_img img x y /\ (p x y == vmin)%Q) /\ (vmin < p mx my)%Q /\
    (forall x y, in_img img x y -> (pix 0%Q img' x y == (p x y - vmin) / (p mx my - vmin))%Q).
Proof.
  intros (xl & yl & JL & NL). destruct extremes as (vmin & vmax & E & VM & V1 & V2). unfold normalize_exact, normalize. rewrite E. cbn [bind].
  pose proof (V1 xl yl JL) as LL. destruct (Qeq_bool vmax vmin) eqn:Q; [apply Qeq_bool_iff in Q; lra|].
  destruct (axpy_clamp_ok 0%Q img (fun u => (1 / (vmax - vmin) * u + - vmin / (vmax - vmin))%Q) (clamp01 qlt 0%Q 1%Q) G) as (img' & E' & S & O & V).
  exists img', vmin. split; [exact E'|]. split; [exact S|]. split; [exact O|]. split; [exact V1|]. split; [exact V2|]. split; [lra|].
  intros x y J. rewrite V by exact J. assert (D : (0 < vmax - vmin)%Q) by lra.
  assert (X : (1 / (vmax - vmin) * p x y + - vmin / (vmax - vmin) == (p x y - vmin) / (vmax - vmin))%Q) by (field; lra).
  pose proof (V1 x y J) as L0. pose proof (M x y J) as L1. rewrite clamp01_id.
  - rewrite X. apply Qdiv_comp; lra.
  - rewrite X. split; [apply Qle_shift_div_l; [exact D|]; lra|apply Qle_shift_div_r; [exact D|]; lra].
Qed.
Lemma normalize_symmetric_ok : (exists x y, in_img img x y /\ (p x y < p mx my)%Q) ->
  exists img' t, normalize_exact bound img true = Ok img' /\ same_shape img' img /\ image_ok img' /\
    (forall x y, in_img img x y -> (Qabs (p x y) <= t)%Q) /\ (exists x y, in_img img x y /\ (Qabs (p x y) == t)%Q) /\ (0 < t)%Q /\
    (forall x y, in_img img x y -> (pix 0%Q img' x y == p x y / (2 * t) + (1 # 2))%Q).
Proof.
  intros (xl & yl & JL & NL). destruct extremes as (vmin & vmax & E & VM & V1 & (xm & ym & JM & V2)). unfold normalize_exact, normalize. rewrite E. cbn [bind].
  pose proof (V1 xl yl JL) as LL. destruct (Qeq_bool vmax vmin) eqn:Q; [apply Qeq_bool_iff in Q; lra|].
  cbv zeta. set (t := if qlt (Qabs vmax) (Qabs vmin) then Qabs vmin else Qabs vmax).
  assert (T : (Qabs vmin <= t /\ Qabs vmax <= t)%Q /\ (exists x y, in_img img x y /\ (Qabs (p x y) == t)%Q)).
  { unfold t. destruct (qlt (Qabs vmax) (Qabs vmin)) eqn:L; [apply qlt_t in L|apply qlt_f in L]; (split; [split; lra|]).
    - exists xm, ym. split; [exact JM|]. now rewrite V2.
    - exists mx, my. split; [exact I|]. now rewrite VM. }
  destruct T as [[T1 T2] T3]. clearbody t.
  assert (B : forall a, (vmin <= a <= vmax)%Q -> (Qabs a <= t)%Q).
  { intros a [A1 A2]. apply Qabs_Qle_condition. pose proof (Qle_Qabs vmax). pose proof (Qle_Qabs (- vmin)) as Z. rewrite Qabs_opp in Z. split; lra. }
  assert (T0 : (0 < t)%Q).
  { destruct (Qlt_le_dec 0 t) as [|L]; auto. exfalso. assert (Qabs vmin <= 0)%Q as A1 by lra. assert (Qabs vmax <= 0)%Q as A2 by lra. apply Qabs_Qle_condition in A1, A2. lra. }
  destruct (axpy_clamp_ok 0%Q img (fun u => (1 / (2 * t) * u + (1 # 2))%Q) (clamp01 qlt 0%Q 1%Q) G) as (img' & E' & S & O & V).
  exists img', t. split; [exact E'|]. split; [exact S|]. split; [exact O|].
  assert (BB : forall x y, in_img img x y -> (Qabs (p x y) <= t)%Q) by (intros x y J; apply B; pose proof (V1 x y J); pose proof (M x y J); split; lra).
  split; [exact BB|]. split; [exact T3|]. split; [exact T0|].
  intros x y J. rewrite V by exact J. pose proof (BB x y J) as A. apply Qabs_Qle_condition in A.
  assert (X : (1 / (2 * t) * p x y + (1 # 2) == p x y / (2 * t) + (1 # 2))%Q) by (field; lra). rewrite clamp01_id; [exact X|]. rewrite X.
  assert (- (1 # 2) <= p x y / (2 * t))%Q by (apply Qle_shift_div_l; lra). assert (p x y / (2 * t) <= 1 # 2)%Q by (apply Qle_shift_div_r; lra). split; lra.
Qed.
End Exact.
