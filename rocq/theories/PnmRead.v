From Verif Require Import Base BaseLemmas Gray Img Flt CsvModel CsvSpec CsvProofs CsvProofs2 DfModel DfCsvProofs FilterModel FilterSpec FilterProofs ImgModel ImgSpec ImgProofs PnmModel PnmSpec PnmProofs.
Local Open Scope Z_scope.

Lemma u_new_ok junk w h t : 0 <= w <= INT_MAX -> 0 <= h <= INT_MAX -> n_ch t * w <= INT_MAX -> n_ch t * w * h <= INT_MAX ->
  exists g, u_new junk w h t = Ok (mkU t w g) /\ fresh g (n_ch t * w) h.
Proof.
  intros W H M1 M2. unfold u_new. destruct (Z.ltb_spec w 0), (Z.ltb_spec h 0); try lia. cbn [orb]. assert (0 <= n_ch t * w) by (destruct t; cbn [n_ch]; lia).
  rewrite chk_int_in by (pose proof int_rng as [-> _]; lia). cbn [bind]. destruct (img_new_fresh junk (n_ch t * w) h) as (g & E & F); [lia|lia|lia|]. rewrite E. cbn [bind]. exists g. auto.
Qed.
Lemma sized_of g t w h : 0 <= w <= INT_MAX -> 0 <= h <= INT_MAX -> n_ch t * w <= INT_MAX -> fresh g (n_ch t * w) h -> sized (mkU t w g) t w h.
Proof. intros W H M (F1 & F2 & F3 & F4). split; [|auto]. split; cbn [u_w u_px u_type]; try lia; auto. Qed.
Definition cells_of (t : itype) (x y : Z) : list (Z * Z) := match t with GRAY => [(x, y)] | RGBA => [(4 * x, y); (4 * x + 1, y); (4 * x + 2, y); (4 * x + 3, y)] end.
Lemma cells_in t w x y p : 0 <= x < w -> In p (cells_of t x y) -> 0 <= fst p < n_ch t * w /\ snd p = y.
Proof. intros X I. destruct t; cbn [cells_of n_ch] in *; [destruct I as [<-|[]]|destruct I as [<-|[<-|[<-|[<-|[]]]]]]; cbn [fst snd]; lia. Qed.
Lemma cells_cover t w X y : 0 <= X < n_ch t * w -> exists x, 0 <= x < w /\ In (X, y) (cells_of t x y).
Proof.
  intro H. destruct t; cbn [cells_of n_ch] in *; [exists X; split; [lia|now left]|]. exists (X / 4). split; [Z.div_mod_to_equations; lia|].
  assert (X = 4 * (X / 4) \/ X = 4 * (X / 4) + 1 \/ X = 4 * (X / 4) + 2 \/ X = 4 * (X / 4) + 3) as [E|[E|[E|E]]] by (Z.div_mod_to_equations; lia); rewrite E at 1; cbn; auto.
Qed.
Lemma puts4 (hv : Z * Z -> N) x y g a b c d : hv (4 * x, y) = a -> hv (4 * x + 1, y) = b -> hv (4 * x + 2, y) = c -> hv (4 * x + 3, y) = d ->
  puts hv (cells_of RGBA x y) g = (let* g := iput g (4 * x) y a in let* g := iput g (4 * x + 1) y b in let* g := iput g (4 * x + 2) y c in iput g (4 * x + 3) y d).
Proof.
  intros <- <- <- <-. unfold puts, cells_of. cbn [for_each fst snd]. destruct (iput g _ _ _); try reflexivity. cbn [bind]. destruct (iput _ _ _ _); try reflexivity. cbn [bind].
  destruct (iput _ _ _ _); try reflexivity. cbn [bind]. destruct (iput _ _ _ _); reflexivity.
Qed.
(** The value of column [X] of row [y] of the loaded image. *)
Definition loaded (pt t : itype) (s : list N) (w : Z) (p : Z * Z) : N :=
  let '(X, y) := p in
  match pt, t with
  | GRAY, GRAY => byte_at s (y * w + X)
  | GRAY, RGBA => if X mod 4 =? 3 then 255%N else byte_at s (y * w + X / 4)
  | RGBA, RGBA => if X mod 4 =? 3 then 255%N else byte_at s (3 * (y * w + X / 4) + X mod 4)
  | RGBA, GRAY => match rgb_to_gray (byte_at s (3 * (y * w + X))) (byte_at s (3 * (y * w + X) + 1)) (byte_at s (3 * (y * w + X) + 2)) with Ok v => v | _ => 0%N end
  end.
Lemma quad x : (4 * x) mod 4 = 0 /\ (4 * x + 1) mod 4 = 1 /\ (4 * x + 2) mod 4 = 2 /\ (4 * x + 3) mod 4 = 3 /\ 4 * x / 4 = x /\ (4 * x + 1) / 4 = x /\ (4 * x + 2) / 4 = x /\ (4 * x + 3) / 4 = x.
Proof. repeat split; Z.div_mod_to_equations; lia. Qed.
Lemma byte_lt s k : bytes_ok s -> (byte_at s k < 256)%N.
Proof.
  intro B. unfold byte_at. destruct (nth_in_or_default (Z.to_nat k) s 0%N) as [I| ->]; [|reflexivity]. unfold bytes_ok in B. rewrite Forall_forall in B. apply B in I. exact I.
Qed.
Lemma short0 {A} (s : list A) : (1 <=? length s)%nat = match s with [] => false | _ => true end.
Proof. destruct s; reflexivity. Qed.
Lemma skip1 (s0 : list N) k s : 0 <= k -> s = skipn (1 * Z.to_nat k) s0 -> forall v s', s = v :: s' -> v = byte_at s0 k.
Proof.
  intros K -> v s' E. rewrite Nat.mul_1_l in E. unfold byte_at. assert (L : (Z.to_nat k < length s0)%nat) by (pose proof (f_equal (@length N) E) as L; rewrite skipn_length in L; cbn in L; lia).
  rewrite (nth_error_skipn s0 _ 0%N L) in E. congruence.
Qed.
Lemma skip3 (s0 : list N) k s : 0 <= k -> s = skipn (3 * Z.to_nat k) s0 -> forall a b c s', s = a :: b :: c :: s' -> a = byte_at s0 (3 * k) /\ b = byte_at s0 (3 * k + 1) /\ c = byte_at s0 (3 * k + 2).
Proof.
  intros K -> a b c s' E. unfold byte_at. assert (L : (3 * Z.to_nat k + 2 < length s0)%nat) by (pose proof (f_equal (@length N) E) as L; rewrite skipn_length in L; cbn in L; lia).
  rewrite (nth_error_skipn s0 (3 * Z.to_nat k) 0%N) in E by lia. rewrite (nth_error_skipn s0 (S (3 * Z.to_nat k)) 0%N) in E by lia. rewrite (nth_error_skipn s0 (S (S (3 * Z.to_nat k))) 0%N) in E by lia.
  replace (Z.to_nat (3 * k)) with (3 * Z.to_nat k)%nat by lia. replace (Z.to_nat (3 * k + 1)) with (S (3 * Z.to_nat k)) by lia. replace (Z.to_nat (3 * k + 2)) with (S (S (3 * Z.to_nat k))) by lia.
  assert (a = nth (3 * Z.to_nat k) s0 0%N) by congruence. assert (b = nth (S (3 * Z.to_nat k)) s0 0%N) by congruence. assert (c = nth (S (S (3 * Z.to_nat k))) s0 0%N) by congruence. auto.
Qed.
Lemma read_ok junk t s w h pt : 0 <= w <= INT_MAX -> 0 <= h <= INT_MAX -> n_ch t * w <= INT_MAX -> n_ch t * w * h <= INT_MAX -> bytes_ok s ->
  exists r, read_pnm_data junk t s w h pt = Ok r /\
    if bpp pt * (w * h) <=? Z.of_nat (length s) then exists u, r = Some u /\ sized u t w h /\ forall x y, 0 <= x < w -> 0 <= y < h -> pixel_ok pt t s w u x y else r = None.
Proof.
  intros W H M1 M2 B. unfold read_pnm_data. destruct (u_new_ok junk w h t W H M1 M2) as (g0 & E & F). rewrite E. cbn [bind u_px].
  assert (KEY : forall f, (forall x y g s', 0 <= x < w -> 0 <= y < h -> s' = skipn (Z.to_nat (bpp pt) * Z.to_nat (y * w + x)) s ->
      f x y g s' = if (Z.to_nat (bpp pt) <=? length s')%nat then (let* g := puts (loaded pt t s w) (cells_of t x y) g in Ok (Some (g, skipn (Z.to_nat (bpp pt)) s'))) else Ok None) ->
    exists r, (let* r := loop_read w h f g0 s in Ok (match r with Some (g, _) => Some (mkU t w g) | None => None end)) = Ok r /\
      if bpp pt * (w * h) <=? Z.of_nat (length s) then exists u, r = Some u /\ sized u t w h /\ forall x y, 0 <= x < w -> 0 <= y < h -> pixel_ok pt t s w u x y else r = None).
  { intros f Ff. destruct (loop_read_ok w h (Z.to_nat (bpp pt)) s (loaded pt t s w) (cells_of t) f ltac:(lia) ltac:(lia) Ff g0) as (r & ER & Q).
    - apply F.
    - intros x y p X Y I. rewrite (fresh_in _ _ _ _ _ F). destruct (cells_in t w x y p X I) as [I1 ->]. auto.
    - intros X Y I. rewrite (fresh_in _ _ _ _ _ F) in I. destruct (cells_cover t w X Y (proj1 I)) as (x & HX & IC). exists x, Y. tauto.
    - destruct pt; cbn; lia.
    - rewrite ER. cbn [bind]. replace (Z.of_nat (Z.to_nat (bpp pt))) with (bpp pt) in Q by (destruct pt; reflexivity). eexists. split; [reflexivity|].
      destruct (bpp pt * (w * h) <=? Z.of_nat (length s)); [|now subst r]. destruct Q as (g & -> & S & O & V). exists (mkU t w g). split; [reflexivity|].
      split; [apply sized_of; auto; eapply fresh_shape; eauto|]. intros x y X Y.
      assert (P : forall c, 0 <= c < n_ch t -> sample (mkU t w g) x y c = loaded pt t s w (n_ch t * x + c, y)).
      { intros c C. unfold sample. cbn [u_px u_type]. apply V. rewrite (fresh_in _ _ _ _ _ F). split; [|exact Y]. destruct t; cbn [n_ch] in *; lia. }
      pose proof (quad x) as (Q0 & Q1 & Q2 & Q3 & D0 & D1 & D2 & D3). unfold pixel_ok. cbv zeta. destruct pt, t; cbn [n_ch] in P.
      + rewrite P by lia. unfold loaded. f_equal. lia.
      + split; [|rewrite P by lia; unfold loaded; rewrite Q3; reflexivity]. intros c C. rewrite P by lia. unfold loaded.
        assert ((4 * x + c) mod 4 = c /\ (4 * x + c) / 4 = x) as [-> ->] by (split; Z.div_mod_to_equations; lia). destruct (Z.eqb_spec c 3); [lia|reflexivity].
      + rewrite P by lia. unfold loaded. replace (1 * x + 0) with x by lia.
        destruct (rgb_to_gray_ok (byte_at s (3 * (y * w + x))) (byte_at s (3 * (y * w + x) + 1)) (byte_at s (3 * (y * w + x) + 2))) as (v & -> & _); try (now apply byte_lt). reflexivity.
      + split; [|rewrite P by lia; unfold loaded; rewrite Q3; reflexivity]. intros c C. rewrite P by lia. unfold loaded.
        assert ((4 * x + c) mod 4 = c /\ (4 * x + c) / 4 = x) as [-> ->] by (split; Z.div_mod_to_equations; lia). destruct (Z.eqb_spec c 3); [lia|reflexivity]. }
  destruct pt, t; apply KEY; clear KEY; intros x y g s' X Y ES; cbn [bpp Z.to_nat Pos.to_nat Pos.iter_op Nat.add] in *; assert (K : 0 <= y * w + x) by nia; pose proof (quad x) as (Q0 & Q1 & Q2 & Q3 & D0 & D1 & D2 & D3).
  - destruct s' as [|v s']; [reflexivity|]. pose proof (skip1 s _ _ K ES v s' eq_refl) as V. cbn [length Nat.leb skipn]. cbn [cells_of]. rewrite puts_one. unfold loaded. rewrite <- V. reflexivity.
  - destruct s' as [|v s']; [reflexivity|]. pose proof (skip1 s _ _ K ES v s' eq_refl) as V. cbn [length Nat.leb skipn].
    rewrite (puts4 _ x y g v v v 255%N); [|unfold loaded; rewrite ?Q0, ?Q1, ?Q2, ?Q3, ?D0, ?D1, ?D2, ?D3; auto..]. rewrite !bind_assoc. repeat (destruct (iput _ _ _ _); try reflexivity; cbn [bind]).
  - destruct s' as [|a [|b [|c s']]]; try reflexivity. pose proof (skip3 s _ _ K ES a b c s' eq_refl) as (V1 & V2 & V3). cbn [length Nat.leb skipn]. cbn [cells_of]. rewrite puts_one. unfold loaded. rewrite <- V1, <- V2, <- V3.
    assert (BA : (a < 256 /\ b < 256 /\ c < 256)%N) by (rewrite V1, V2, V3; repeat split; now apply byte_lt).
    destruct (rgb_to_gray_ok a b c) as (v & -> & _); try tauto.
  - destruct s' as [|a [|b [|c s']]]; try reflexivity. pose proof (skip3 s _ _ K ES a b c s' eq_refl) as (V1 & V2 & V3). cbn [length Nat.leb skipn].
    rewrite (puts4 _ x y g a b c 255%N); [|unfold loaded; rewrite ?Q0, ?Q1, ?Q2, ?Q3, ?D0, ?D1, ?D2, ?D3, ?Z.add_0_r; auto..]. repeat (destruct (iput _ _ _ _); try reflexivity; cbn [bind]).
Qed.
