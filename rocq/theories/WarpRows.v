From Coq Require Import Lia.
From Verif Require Import Base BaseLemmas Flt FltErr Gray Img WarpModel WarpSpec WarpProofs WarpPixel.
Local Open Scope Z_scope.

(** The position after [n] steps. *)
Fixpoint steps (n : nat) (s d : flt) : flt := match n with O => s | S n => fadd (steps n s d) d end.
Section Rows.
Context {A : Type}.
Variable dflt : A.
Variable px : flt -> flt -> nat -> res (A * nat).
Variables dx dy : flt.
Variable R : Z -> Z -> A -> Prop.
Definition frame (g g' : image A) (P : Z -> Z -> Prop) : Prop :=
  forall i, (forall x y, in_img g x y -> P x y -> i <> Z.to_nat (y * i_stride g + x)) -> nth_error (i_data g') i = nth_error (i_data g) i.
Lemma row_ok y sx sy w : forall k x dest n, image_ok dest -> i_w dest = w -> 0 <= x -> x + Z.of_nat k = w -> 0 <= y < i_h dest ->
  (forall x' n, x <= x' < w -> exists b n', px (steps (Z.to_nat x') sx dx) (steps (Z.to_nat x') sy dy) n = Ok (b, n') /\ R x' y b) ->
  exists g n', row_loop px dx dy k x y (steps (Z.to_nat x) sx dx) (steps (Z.to_nat x) sy dy) dest n = Ok (g, n') /\ same_shape g dest /\ image_ok g /\
    (forall x', x <= x' < w -> R x' y (pix dflt g x' y)) /\
    (forall x' y', in_img dest x' y' -> y' <> y \/ x' < x -> pix dflt g x' y' = pix dflt dest x' y') /\
    frame dest g (fun _ y' => y' = y).
Proof.
  induction k as [|k IH]; intros x dest n G WE X XK YR HP; cbn [row_loop].
  - exists dest, n. split; [reflexivity|]. split; [apply same_shape_refl|]. split; [exact G|]. split; [intros; lia|]. split; [reflexivity|]. intros i _. reflexivity.
  - destruct (HP x n ltac:(lia)) as (b & n1 & -> & RB). cbn [bind].
    destruct (iput_ok dflt dest x y b G ltac:(split; lia)) as (g1 & -> & S1 & G1 & D1 & V1). cbn [bind].
    replace (fadd (steps (Z.to_nat x) sx dx) dx) with (steps (Z.to_nat (x + 1)) sx dx) by (replace (Z.to_nat (x + 1)) with (S (Z.to_nat x)) by lia; reflexivity).
    replace (fadd (steps (Z.to_nat x) sy dy) dy) with (steps (Z.to_nat (x + 1)) sy dy) by (replace (Z.to_nat (x + 1)) with (S (Z.to_nat x)) by lia; reflexivity).
    destruct S1 as (SW & SH & SS).
    destruct (IH (x + 1) g1 n1 G1 ltac:(lia) ltac:(lia) ltac:(lia) ltac:(lia)) as (g & n' & E & SG & GG & VG & FG & FR).
    { intros x' m X'. apply HP. lia. }
    exists g, n'. split; [exact E|]. split; [unfold same_shape in *; lia|]. split; [exact GG|]. split; [|split].
    + intros x' X'. destruct (Z.eq_dec x' x) as [->|NE]; [|apply VG; lia]. rewrite FG by (try (right; lia); split; lia). rewrite V1 by (split; lia). rewrite !Z.eqb_refl. exact RB.
    + intros x' y' I Q. rewrite FG; [|destruct I; split; lia|lia]. rewrite V1 by exact I. destruct (Z.eqb_spec x' x), (Z.eqb_spec y' y); cbn [andb]; try reflexivity. lia.
    + intros i F. rewrite FR.
      * rewrite D1. apply nth_error_lset_neq. intro EQ. exact (F x y ltac:(split; lia) eq_refl (eq_sym EQ)).
      * intros x' y' I Q. rewrite SS. apply F; [destruct I; split; lia|exact Q].
Qed.
Variables x0 y0 : Z -> flt.
Lemma rows_ok dest : image_ok dest ->
  (forall x y n, in_img dest x y -> exists b n', px (steps (Z.to_nat x) (x0 y) dx) (steps (Z.to_nat x) (y0 y) dy) n = Ok (b, n') /\ R x y b) ->
  exists g n', rows px dx dy x0 y0 dest = Ok (g, n') /\ only_pixels dest g /\ image_ok g /\ forall x y, in_img dest x y -> R x y (pix dflt g x y).
Proof.
  intros G HP. unfold rows.
  assert (K : forall h, 0 <= h <= i_h dest -> exists g n', for_each (fun y s => row_loop px dx dy (Z.to_nat (i_w dest)) 0 y (x0 y) (y0 y) (fst s) (snd s)) (zrange 0 h) (dest, O) = Ok (g, n') /\
    same_shape g dest /\ image_ok g /\ (forall x y, in_img dest x y -> y < h -> R x y (pix dflt g x y)) /\ frame dest g (fun _ y => y < h)).
  { intros h HR. rewrite <- (Z2Nat.id h) by lia. assert (HN : Z.of_nat (Z.to_nat h) <= i_h dest) by lia. revert HN. generalize (Z.to_nat h) as m. induction m as [|m IH]; intro HN.
    - exists dest, O. split; [reflexivity|]. split; [apply same_shape_refl|]. split; [exact G|]. split; [intros x y [_ IY] L; lia|]. intros i _. reflexivity.
    - destruct IH as (g & n' & E & SG & GG & VG & FG); [lia|]. rewrite Nat2Z.inj_succ, <- Z.add_1_r, zrange_snoc by lia. rewrite for_each_app, E. cbn [bind for_each fst snd].
      destruct SG as (SW & SH & SS). destruct GG as [GW GH GL GM].
      destruct (row_ok (Z.of_nat m) (x0 (Z.of_nat m)) (y0 (Z.of_nat m)) (i_w dest) (Z.to_nat (i_w dest)) 0 g n') as (g2 & n2 & E2 & S2 & G2 & V2 & F2 & FR2).
      + constructor; assumption.
      + exact SW.
      + lia.
      + destruct G as [GW' _ _ _]. lia.
      + lia.
      + intros x' q X'. apply HP. split; lia.
      + cbn [Z.to_nat steps] in E2. rewrite E2. cbn [bind]. exists g2, n2. split; [reflexivity|]. split; [unfold same_shape in *; lia|]. split; [exact G2|]. split.
        * intros x y I L. destruct (Z.eq_dec y (Z.of_nat m)) as [->|NE]; [apply V2; destruct I; lia|]. rewrite F2; [apply VG; [exact I|lia]|destruct I; split; lia|left; exact NE].
        * intros i F. rewrite FR2; [apply FG; intros x y I L; apply F; [exact I|lia]|]. intros x y I Q. rewrite SS. apply F; [destruct I; split; lia|lia]. }
  destruct (K (i_h dest)) as (g & n' & E & SG & GG & VG & FG); [destruct G; lia|]. exists g, n'. split; [exact E|]. split; [split; [exact SG|]|split; [exact GG|]].
  - intros i F. apply FG. intros x y I _. apply F, I.
  - intros x y I. apply VG; [exact I|destruct I; lia].
Qed.
End Rows.

(** How far the accumulated position is from the exact one. *)
Lemma steps_err s d c m : 1 <= c <= 2 ^ 40 -> forall n e, (n <= m)%nat -> 0 <= e -> e + Z.of_nat m * (65 * (c + 1)) <= 2 ^ 30 ->
  (forall j, (j <= m)%nat -> Z.abs (s + Z.of_nat j * d) <= c * U) ->
  forall s', Z.abs (s' - s) <= e * W -> exists p, steps n (FF s') (FF d) = FF p /\ Z.abs (p - (s + Z.of_nat n * d)) <= (e + Z.of_nat n * (65 * (c + 1))) * W.
Proof.
  intros C n e NM E0 EB HC s' HS. pose proof W_pos as WP. pose proof U_W as UW.
  induction n as [|n IH]; [exists s'; split; [reflexivity|]; lia|].
  destruct IH as (p & EP & HP); [lia|]. cbn [steps]. rewrite EP.
  pose proof (HC (S n) NM) as HB. rewrite Nat2Z.inj_succ in *. unfold Z.succ in *. 
  assert (B : (e + Z.of_nat n * (65 * (c + 1))) * W <= U). { rewrite UW. apply Z.mul_le_mono_nonneg_r; [lia|]. change (2 ^ 30) with 1073741824 in EB. assert (Z.of_nat n * (65 * (c + 1)) <= Z.of_nat m * (65 * (c + 1))) by (apply Z.mul_le_mono_nonneg_r; lia). lia. }
  assert (PD : Z.abs (p + d) <= (c + 1) * U).
  { replace (p + d) with ((p - (s + Z.of_nat n * d)) + (s + (Z.of_nat n + 1) * d)) by ring. set (k := (e + Z.of_nat n * (65 * (c + 1))) * W) in *. set (z := s + (Z.of_nat n + 1) * d) in *. set (y := p - (s + Z.of_nat n * d)) in *. clearbody k z y. lia. }
  destruct (fadd_err p d (c + 1) ltac:(lia) PD) as (q & -> & EQ). exists q. split; [reflexivity|].
  replace (q - (s + (Z.of_nat n + 1) * d)) with ((q - (p + d)) + (p - (s + Z.of_nat n * d))) by ring.
  replace ((e + (Z.of_nat n + 1) * (65 * (c + 1))) * W) with ((e + Z.of_nat n * (65 * (c + 1))) * W + 65 * (c + 1) * W) by ring.
  set (k := (e + Z.of_nat n * (65 * (c + 1))) * W) in *. set (z := 65 * (c + 1) * W) in *. set (y := p - (s + Z.of_nat n * d)) in *. clearbody k z y. lia.
Qed.
Lemma start_err y a b c : 0 <= y <= 2 ^ 24 -> 1 <= c <= 2 ^ 20 -> Z.abs (y * a) <= c * U -> Z.abs (y * a + b) <= c * U ->
  exists s, fadd (fmul (of_int y) (FF a)) (FF b) = FF s /\ Z.abs (s - (y * a + b)) <= 130 * (c + 1) * W.
Proof.
  intros Y C B1 B2. pose proof W_pos as WP. pose proof U_W as UW. pose proof U_pos as UP. rewrite of_int_exact by (unfold small24; lia).
  destruct (fmul_err (y * U) a c ltac:(lia)) as (m & -> & EM).
  { replace (y * U * a) with (y * a * U) by ring. rewrite Z.abs_mul, (Z.abs_eq U) by lia. apply Z.mul_le_mono_nonneg_r; lia. }
  assert (EM' : Z.abs (m - y * a) <= 65 * c * W).
  { replace (m * U - y * U * a) with ((m - y * a) * U) in EM by ring. rewrite Z.abs_mul, (Z.abs_eq U) in EM by lia. apply Z.mul_le_mono_pos_r in EM; lia. }
  assert (PB : Z.abs (m + b) <= (c + 1) * U).
  { assert (65 * c * W <= U). { rewrite UW. apply Z.mul_le_mono_nonneg_r; [lia|]. change (2 ^ 20) with 1048576 in C. lia. } set (ya := y * a) in *. set (k := 65 * c * W) in *. clearbody ya k. lia. }
  destruct (fadd_err m b (c + 1) ltac:(lia) PB) as (s & -> & ES). exists s. split; [reflexivity|]. set (ya := y * a) in *. clearbody ya. nia.
Qed.
