(** C143, C144: float vectors and the last stage of SIFT descriptors. *)
From Coq Require Import Lia Reals.
From Verif Require Import Base BaseLemmas Flt FvModel FvSpec FvProofs FvUnit FvAcc.
Local Open Scope Z_scope.

Lemma nonneg_list v : Forall nonneg_float v -> exists ns, v = map FF ns /\ Forall (fun n => 0 <= n) ns.
Proof.
  induction 1 as [|x v (n & -> & N) _ (ns & -> & NS)]; [exists []; auto|]. exists (n :: ns). split; [reflexivity|constructor; [lia|exact NS]].
Qed.

(** C143: for every histogram of finite values that are not negative the
    descriptor is well defined and made of as many bytes; empty cells stay zero
    and a cell with a larger value never gets a smaller byte. *)
Theorem C143_bytes : forall fdesc, Forall nonneg_float fdesc -> exists desc, nx_sift_finish fdesc = Ok desc /\
  length desc = length fdesc /\ Forall (fun b => 0 <= b <= 255) desc /\
  (forall i, nth_error fdesc i = Some F0 -> nth_error desc i = Some 0) /\
  (forall i j x y a b, nth_error fdesc i = Some x -> nth_error fdesc j = Some y -> at_most x y ->
     nth_error desc i = Some a -> nth_error desc j = Some b -> a <= b).
Proof.
  intros v V. destruct (nonneg_list v V) as (ns & -> & N). destruct (finish_shape ns N) as (g & E & G0 & GR & GM). exists (map g ns). split; [exact E|].
  split; [rewrite !map_length; reflexivity|]. split; [rewrite Forall_map; eapply Forall_impl; [|exact N]; exact GR|]. rewrite Forall_forall in N. split.
  - intros i H. rewrite nth_error_map in *. destruct (nth_error ns i) as [n|]; [|discriminate]. cbn in *. injection H as ->. rewrite G0. reflexivity.
  - intros i j x y a b Hi Hj L Ha Hb. rewrite nth_error_map in *. destruct (nth_error ns i) as [n|] eqn:Ni; [|discriminate]. destruct (nth_error ns j) as [m|] eqn:Nj; [|discriminate].
    cbn in *. injection Hi as <-. injection Hj as <-. injection Ha as <-. injection Hb as <-. cbn in L. apply GM. split; [apply N; eapply nth_error_In; exact Ni|exact L].
Qed.
Print Assumptions C143_bytes.

(** Changing the contrast by a power of two does not change the descriptor, as
    long as the magnitudes stay between 2^-62 and 2^60. *)
Theorem C143_contrast : forall ns k, 0 <= k -> length ns = 128%nat ->
  Forall (zero_or_between (-62) 60) ns -> Forall (fun n => zero_or_between (-62) 60 (2 ^ k * n)) ns ->
  nx_sift_finish (map FF (map (Z.mul (2 ^ k)) ns)) = nx_sift_finish (map FF ns).
Proof. exact (fun ns k K L => finish_scale ns k K L). Qed.
Print Assumptions C143_contrast.

(** Normalizing a vector of at most 128 entries of magnitudes between 2^-40 and
    2^40, not all zero: the sum of the squares of the result is one up to one in
    ten thousand, and so is the square of the returned norm. *)
Theorem C143_unit : forall ns, (length ns <= 128)%nat -> Forall (zero_or_between (-40) 40) ns -> Exists (fun n => n <> 0) ns ->
  exists r ms, nx_svec_to_unit (map FF ns) = (FF r, map FF ms) /\ length ms = length ns /\
    10000 * Z.abs (sum_sq ms - 2 ^ 149 * 2 ^ 149) <= 2 ^ 149 * 2 ^ 149 /\ 10000 * Z.abs (r * r - sum_sq ns) <= sum_sq ns.
Proof. exact to_unit_near. Qed.
Print Assumptions C143_unit.
(** Every byte is the whole part of its exact value (capped share of the norm,
    normalized again, times 512), up to one in a thousand, and 255 when that is
    larger; for magnitudes between 2^-15 and 2^15. *)
Theorem C143_ideal : forall ns, (length ns <= 128)%nat -> Forall (zero_or_between (-15) 15) ns -> Exists (fun n => n <> 0) ns ->
  exists desc, nx_sift_finish (map FF ns) = Ok desc /\ length desc = length ns /\
  forall i n b, nth_error ns i = Some n -> nth_error desc i = Some b ->
    b <= 255 /\ (IZR b <= ideal_cell ns n * (1 + / 1000))%R /\ (b = 255 \/ (ideal_cell ns n * (1 - / 1000) < IZR b + 1)%R).
Proof.
  intros ns L A X. destruct (finish_ideal ns L A X) as (g & E & F). exists (map g ns). split; [exact E|]. split; [apply map_length|].
  intros i n b Hn Hb. rewrite nth_error_map, Hn in Hb. injection Hb as <-. rewrite Forall_forall in F. apply F. eapply nth_error_In. exact Hn.
Qed.
Print Assumptions C143_ideal.
(** A zero vector is left alone. *)
Theorem C143_zero : forall n, nx_svec_to_unit (repeat F0 n) = (F0, repeat F0 n) /\ nx_sift_finish (repeat F0 n) = Ok (repeat 0 n).
Proof.
  assert (S : forall n, fold_left (fun s x => fadd s (fmul x x)) (repeat F0 n) F0 = F0) by (induction n as [|n IH]; [reflexivity|exact IH]).
  assert (U0 : forall n, nx_svec_to_unit (repeat F0 n) = (F0, repeat F0 n)) by (intro n; unfold nx_svec_to_unit, nx_svec_norm, nx_svec_norm_sq; rewrite S; reflexivity).
  intro n. split; [apply U0|]. unfold nx_sift_finish. rewrite U0. cbn [snd].
  assert (C : cap (repeat F0 n) = repeat F0 n) by (induction n as [|n IH]; [reflexivity|cbn [repeat]; unfold cap in *; cbn [map]; rewrite IH; reflexivity]).
  rewrite C, U0. cbn [snd]. clear C. induction n as [|n IH]; [reflexivity|]. cbn [repeat quantize_all]. rewrite IH. reflexivity.
Qed.
Print Assumptions C143_zero.
(** Cells 1, 2, 4, 0 and twelve times 1: the largest is capped at 0.2 of the
    norm before the second normalization. *)
Example C143_example : nx_sift_finish (map FF (map (Z.mul U) [1; 2; 4; 0; 1; 1; 1; 1; 1; 1; 1; 1; 1; 1; 1; 1])) =
  Ok [129; 148; 148; 0; 129; 129; 129; 129; 129; 129; 129; 129; 129; 129; 129; 129] /\
  Forall nonneg_float (map FF (map (Z.mul U) [1; 2; 4; 0])) /\ Forall (zero_or_between (-40) 40) [U; 2 * U; 4 * U; 0] /\ Exists (fun n => n <> 0) [U; 2 * U] /\
  Forall (zero_or_between (-15) 15) [U; 2 * U; 4 * U; 0] /\
  Forall (fun n => zero_or_between (-62) 60 n /\ zero_or_between (-62) 60 (2 ^ 3 * n)) (repeat U 128).
Proof.
  split; [vm_compute; reflexivity|]. split; [|split; [|split; [|split]]].
  - cbn [map]. repeat (apply Forall_cons; [eexists; split; [reflexivity|split; vm_compute; [discriminate|reflexivity]]|]). apply Forall_nil.
  - repeat (apply Forall_cons; [first [left; reflexivity|right; split; vm_compute; discriminate]|]). apply Forall_nil.
  - left. discriminate.
  - repeat (apply Forall_cons; [first [left; reflexivity|right; split; vm_compute; discriminate]|]). apply Forall_nil.
  - apply Forall_forall. intros n I. rewrite (repeat_spec _ _ _ I). split; right; split; vm_compute; discriminate.
Qed.

(** C144: the index of the largest entry is the first of the largest ones; it is
    -1 only when no entry is above the lowest value. *)
Theorem C144_svec_idx : forall v, Forall (fun x => x <> FNaN) v ->
  (nx_svec_max_idx v = -1 /\ (forall y, In y v -> y = FInf true \/ exists n, y = FF n /\ n <= - ((2 ^ 24 - 1) * 2 ^ 253))) \/
  first_largest (fun x y => f_lt x y = true) v (nx_svec_max_idx v).
Proof.
  intros v F. destruct (svec_max v F) as [[E N]|(k & x & E & X & GX & N & L)].
  - left. split; [exact E|]. intros y I. apply In_nth_error in I as (j & H). specialize (N j y H). unfold f_gt, fneg, FMAX, f_lt in N. rewrite Forall_forall in F. specialize (F y (nth_error_In _ _ H)).
    destruct y as [n|[]|]; [right; exists n; split; [reflexivity|]; apply Z.ltb_ge in N; exact N|left; reflexivity|discriminate|congruence].
  - right. unfold first_largest. rewrite E, Nat2Z.id. pose proof (proj1 (nth_error_Some v k) ltac:(congruence)) as B. split; [lia|]. exists x. split; [exact X|]. split.
    + intros j y H C. specialize (N j y H). unfold f_gt in N. congruence.
    + intros j y H J. exact (L j y H J).
Qed.
Print Assumptions C144_svec_idx.
Theorem C144_ivec_idx : forall v, Forall (fun x => in_int x = true) v ->
  (nx_ivec_max_idx v = -1 /\ (forall y, In y v -> y = - 2 ^ 31)) \/ first_largest Z.lt v (nx_ivec_max_idx v).
Proof.
  intros v F. destruct (ivec_max v) as [[E N]|(k & x & E & X & GX & N & L)].
  - left. split; [exact E|]. intros y I. pose proof I as I'. apply In_nth_error in I as (j & H). specialize (N j y H). rewrite Z.gtb_ltb in N. apply Z.ltb_ge in N. rewrite Forall_forall in F. specialize (F y I'). unfold in_int, INT_MIN, INT_MAX in *. apply andb_true_iff in F as [F _]. apply Z.leb_le in F. change (- 2 ^ 31) with (-2147483648). lia.
  - right. unfold first_largest. rewrite E, Nat2Z.id. pose proof (proj1 (nth_error_Some v k) ltac:(congruence)) as B. split; [lia|]. exists x. split; [exact X|]. split.
    + intros j y H. specialize (N j y H). rewrite Z.gtb_ltb in N. apply Z.ltb_ge in N. lia.
    + intros j y H J. specialize (L j y H J). rewrite Z.gtb_lt in L. exact L.
Qed.
Print Assumptions C144_ivec_idx.
(** The largest value: one of the entries (or -FLT_MAX) that none exceeds. *)
Theorem C144_svec_val : forall v, Forall (fun x => x <> FNaN) v -> let m := nx_svec_max_val v in
  (m = FF (- ((2 ^ 24 - 1) * 2 ^ 253)) \/ In m v) /\ forall y, In y v -> f_lt m y = false.
Proof.
  intros v F m. destruct (svec_max_val_spec v F (fneg FMAX) ltac:(discriminate)) as (A & _ & B). split; [exact A|exact B].
Qed.
Print Assumptions C144_svec_val.
Example C144_example : nx_svec_max_idx [FF 3; FInf true; FF 7; FF 7; FF (-1)] = 2 /\ nx_svec_max_val [FF 3; FInf true; FF 7; FF 7] = FF 7 /\
  nx_svec_max_idx [FInf true] = -1 /\ nx_ivec_max_idx [-5; 4; 4; 1] = 1 /\ nx_ivec_max_idx [] = -1.
Proof. repeat split. Qed.
