(** C54-C56: filter buffers, symmetric convolution and box filter. *)
From Verif Require Import Base BaseLemmas Gray Flt FilterModel FilterSpec FilterProofs.
Local Open Scope Z_scope.

(** ** C56 *)
(** Copying [n] samples into a buffer with a border of [nb] on both sides gives
    the extended signal: zeros, the edge sample repeated, or the mirrored
    samples.  For mirroring the border must be shorter than the data. *)
Theorem C56_border : forall A B (zero : A) (dB : B) (conv : B -> A) n buf data off stride nb mode,
  1 < n -> 0 <= nb -> n + 2 * nb <= Z.of_nat (length buf) -> (mode = BMirror -> nb < n) ->
  (forall i, 0 <= i < n -> 0 <= off + i * stride < Z.of_nat (length data)) ->
  exists buf', copy_to_buffer zero conv n buf data off stride nb mode = Ok buf' /\ length buf' = length buf /\
    (forall j, - nb <= j < n + nb ->
       at_ zero buf' (nb + j) = extended zero mode n (fun i => conv (nth (Z.to_nat (off + i * stride)) data dB)) j) /\
    (forall j, n + 2 * nb <= j -> at_ zero buf' j = at_ zero buf j).
Proof. intros. now apply copy_to_buffer_ok. Qed.
Print Assumptions C56_border.
(** The buffer the library allocates is long enough. *)
Theorem C56_buffer_length : forall n nb l, buffer_len n nb = Ok l -> n + 2 * nb <= l.
Proof.
  intros n nb l H. unfold buffer_len in H. apply bind_ok in H as (b & E & H). unfold chk_int in *. destruct (in_int (2 * nb)); [|discriminate]. assert (b = 2 * nb) by congruence. subst b.
  destruct (in_int (n + 2 * nb)); [|discriminate]. assert (l = n + 2 * nb) by congruence. lia.
Qed.
Print Assumptions C56_buffer_length.
(** Finding: mirroring with a border at least as long as the data puts old buffer
    contents (uninitialised memory in a fresh buffer) into the border. *)
Theorem C56_mirror_refuted : forall A B (zero : A) (dB : B) (conv : B -> A) n buf data off stride nb,
  1 < n <= nb -> n + 2 * nb <= Z.of_nat (length buf) -> (forall i, 0 <= i < n -> 0 <= off + i * stride < Z.of_nat (length data)) ->
  exists buf', copy_to_buffer zero conv n buf data off stride nb BMirror = Ok buf' /\ at_ zero buf' 0 = at_ zero buf (2 * nb).
Proof. intros. now apply (mirror_short zero dB). Qed.
Print Assumptions C56_mirror_refuted.
Example C56_example : let b := repeat 99 8 in let d := [0; 1; 7; 2; 7; 3; 7; 4] in
  copy_to_buffer 0 (fun z => z) 4 b d 1 2 2 BZero = Ok [0; 0; 1; 2; 3; 4; 0; 0] /\
  copy_to_buffer 0 (fun z => z) 4 b d 1 2 2 BRepeat = Ok [1; 1; 1; 2; 3; 4; 4; 4] /\
  copy_to_buffer 0 (fun z => z) 4 b d 1 2 2 BMirror = Ok [3; 2; 1; 2; 3; 4; 3; 2] /\
  copy_to_buffer 0 (fun z => z) 2 b d 0 1 3 BMirror = Ok [99; 99; 1; 0; 1; 0; 1; 99].
Proof. vm_compute. repeat split. Qed.

(** ** C54 *)
(** Each output is the convolution sum over the original data, although the
    filter works in place; samples from [n] on are untouched. *)
Theorem C54_convolution : forall A (zero : A) add mul n data n_k kernel,
  1 < n -> 1 < n_k <= Z.of_nat (length kernel) -> n + 2 * (n_k - 1) <= Z.of_nat (length data) ->
  exists data', convolve_sym add mul n data n_k kernel = Ok data' /\ length data' = length data /\
    (forall i, 0 <= i < n ->
       at_ zero data' i = conv_sum add mul (at_ zero kernel) (at_ zero data) (i + (n_k - 1)) (Z.to_nat (n_k - 1))) /\
    (forall i, n <= i -> at_ zero data' i = at_ zero data i).
Proof. intros. now apply convolve_sym_ok. Qed.
Print Assumptions C54_convolution.
Lemma conv_sum_Z kernel s c m : conv_sum Z.add Z.mul kernel s c m = zsum (fun j => kernel (Z.abs (j - c)) * s j) (c - Z.of_nat m) (2 * m + 1).
Proof.
  induction m as [|m IH]; [cbn; rewrite !Z.add_0_r, Z.sub_0_r, Z.sub_diag; reflexivity|]. cbn [conv_sum]. rewrite IH. replace (2 * S m + 1)%nat with (S (S (2 * m + 1))) by lia.
  rewrite zsum_front. replace (c - Z.of_nat (S m) + 1) with (c - Z.of_nat m) by lia. cbn [zsum]. replace (c - Z.of_nat m + Z.of_nat (2 * m + 1)) with (c + Z.of_nat (S m)) by lia.
  replace (Z.abs (c - Z.of_nat (S m) - c)) with (Z.of_nat (S m)) by lia. replace (Z.abs (c + Z.of_nat (S m) - c)) with (Z.of_nat (S m)) by lia. ring.
Qed.
(** In exact arithmetic: the sum over j of kernel[|j - c|] * original[j], the
    centre c of output i being i + n_k - 1. *)
Theorem C54_exact : forall n data n_k kernel,
  1 < n -> 1 < n_k <= Z.of_nat (length kernel) -> n + 2 * (n_k - 1) <= Z.of_nat (length data) ->
  exists data', convolve_sym Z.add Z.mul n data n_k kernel = Ok data' /\
    forall i, 0 <= i < n ->
      at_ 0 data' i = zsum (fun j => at_ 0 kernel (Z.abs (j - (i + (n_k - 1)))) * at_ 0 data j) i (Z.to_nat (2 * n_k - 1)).
Proof.
  intros n data n_k kernel N K D. destruct (convolve_sym_ok 0 Z.add Z.mul n data n_k kernel N K D) as (l & E & _ & V & _). exists l. split; [exact E|].
  intros i I. unfold at_ at 1. rewrite V by exact I. rewrite conv_sum_Z. f_equal; [unfold at_|]; lia.
Qed.
Print Assumptions C54_exact.
Lemma conv_sum_float kz dz c m D : 0 <= D -> 2 * D <= 2 ^ 24 ->
  (forall j, c - Z.of_nat m <= j <= c + Z.of_nat m -> Z.abs (dz j) <= D) -> (Z.abs (kz 0) + 2 * zsum (fun k => Z.abs (kz k)) 1 m) * D <= 2 ^ 24 ->
  conv_sum fadd fmul (fun k => of_int (kz k)) (fun j => of_int (dz j)) c m = of_int (conv_sum Z.add Z.mul kz dz c m) /\
  Z.abs (conv_sum Z.add Z.mul kz dz c m) <= (Z.abs (kz 0) + 2 * zsum (fun k => Z.abs (kz k)) 1 m) * D \/ D = 0.
Proof.
  intros D0 D2 DZ. destruct (Z.eq_dec D 0) as [->|DN]; [auto|]. intro KD. left. assert (DP : 0 < D) by lia. change (2 ^ 24) with 16777216 in *. unfold small24 in *.
  induction m as [|m IH].
  - cbn [conv_sum zsum] in *. specialize (DZ c ltac:(lia)). assert (Z.abs (kz 0 * dz c) <= Z.abs (kz 0) * D) by (rewrite Z.abs_mul; nia).
    assert (Z.abs (kz 0) <= 16777216) by nia. split; [|lia]. apply fmul_int; unfold small24; change (2 ^ 24) with 16777216; lia.
  - cbn [zsum] in KD |- *. assert (KN : 0 <= zsum (fun k => Z.abs (kz k)) 1 m) by (clear; induction m; cbn [zsum]; lia).
    replace (1 + Z.of_nat m) with (Z.of_nat (S m)) in * by lia. set (K := zsum (fun k => Z.abs (kz k)) 1 m) in *. set (k := Z.of_nat (S m)) in *.
    destruct IH as [E AB]; [intros; apply DZ; lia|nia|]. cbn [conv_sum]. fold k. rewrite E. clear E. set (S0 := conv_sum Z.add Z.mul kz dz c m) in *. clearbody S0.
    pose proof (DZ (c - k) ltac:(lia)) as Da. pose proof (DZ (c + k) ltac:(lia)) as Db. set (a := dz (c - k)) in *. set (b := dz (c + k)) in *. set (q := kz k) in *. clearbody a b q K. clear DZ. clearbody k.
    assert (Z.abs q <= 16777216) by nia. assert (AQ : Z.abs (q * (a + b)) <= 2 * (Z.abs q * D)) by (rewrite Z.abs_mul; nia).
    assert (Z.abs q * D <= 16777216) by nia. assert (2 * (Z.abs q * D) <= 16777216) by nia.
    rewrite fadd_int by (unfold small24; change (2 ^ 24) with 16777216; lia). rewrite fmul_int by (unfold small24; change (2 ^ 24) with 16777216; lia).
    assert (Z.abs (S0 + q * (a + b)) <= (Z.abs (kz 0) + 2 * (K + Z.abs q)) * D) by nia.
    rewrite fadd_int by (unfold small24; change (2 ^ 24) with 16777216; lia). auto.
Qed.
(** In single precision the result is exact when kernel and samples are
    integers and the sums stay within 2^24. *)
Theorem C54_single_precision_integers : forall n data n_k kernel kz dz D,
  1 < n -> 1 < n_k <= Z.of_nat (length kernel) -> n + 2 * (n_k - 1) <= Z.of_nat (length data) ->
  (forall k, 0 <= k < n_k -> at_ F0 kernel k = of_int (kz k)) ->
  (forall j, 0 <= j < n + 2 * (n_k - 1) -> at_ F0 data j = of_int (dz j) /\ Z.abs (dz j) <= D) ->
  0 < D -> 2 * D <= 2 ^ 24 -> (Z.abs (kz 0) + 2 * zsum (fun k => Z.abs (kz k)) 1 (Z.to_nat (n_k - 1))) * D <= 2 ^ 24 ->
  exists data', convolve_sym fadd fmul n data n_k kernel = Ok data' /\
    forall i, 0 <= i < n -> at_ F0 data' i = of_int (zsum (fun j => kz (Z.abs (j - (i + (n_k - 1)))) * dz j) i (Z.to_nat (2 * n_k - 1))).
Proof.
  intros n data n_k kernel kz dz D N K L KZ DZ D0 D2 KD. destruct (convolve_sym_ok F0 fadd fmul n data n_k kernel N K L) as (l & E & _ & V & _). exists l. split; [exact E|].
  intros i I. unfold at_ at 1. rewrite V by exact I.
  rewrite (conv_sum_ext F0 fadd fmul _ (fun k => of_int (kz k)) _ (fun j => of_int (dz j))); [|intros k Kk; apply KZ; lia|intros j J; apply DZ; lia].
  edestruct (conv_sum_float kz dz (i + (n_k - 1)) (Z.to_nat (n_k - 1)) D) as [[H _]|H]; [lia|exact D2|intros; apply DZ; lia|exact KD| |lia].
  rewrite H, conv_sum_Z. f_equal. f_equal; lia.
Qed.
Print Assumptions C54_single_precision_integers.
Example C54_example :
  convolve_sym Z.add Z.mul 4 [1; 2; 3; 5; 8; 13; 21; 34; 77] 3 [6; 4; 1] = Ok [55; 89; 144; 233; 8; 13; 21; 34; 77] /\
  convolve_sym fadd fmul 4 (map of_int [1; 2; 3; 5; 8; 13; 21; 34; 77]) 3 (map of_int [6; 4; 1]) = Ok (map of_int [55; 89; 144; 233; 8; 13; 21; 34; 77]).
Proof. vm_compute. repeat split. Qed.

(** ** C55 *)
(** In exact arithmetic each output is the sum of the 2r+1 original samples
    from i on, divided by 2r+1 (by whatever division). *)
Theorem C55_box_exact : forall divz n data n_r,
  1 < n -> 1 <= n_r -> n + 2 * n_r <= Z.of_nat (length data) ->
  exists data', convolve_box Z.add Z.sub divz n data n_r = Ok data' /\ length data' = length data /\
    (forall i, 0 <= i < n -> at_ 0 data' i = divz (zsum (at_ 0 data) i (Z.to_nat (2 * n_r + 1))) (2 * n_r + 1)) /\
    (forall i, n <= i -> at_ 0 data' i = at_ 0 data i).
Proof.
  intros divz n data n_r N R L.
  assert (exists D, 0 <= D /\ forall j, - D <= at_ 0 data j <= D) as (D & D0 & DB).
  { exists (fold_right (fun x m => Z.max (Z.abs x) m) 0 data). clear. unfold at_. induction data as [|x l [D0 IH]]; cbn [fold_right]; split; try lia.
    - intro j. destruct (Z.to_nat j); cbn; lia.
    - intro j. destruct (Z.to_nat j) as [|k] eqn:E; cbn [nth]; [lia|]. specialize (IH (Z.of_nat k)). rewrite Nat2Z.id in IH. lia. }
  apply (convolve_box_ok 0 Z.add Z.sub divz (fun z => z) ((2 * n_r + 1) * D)) with (D := D) (s := at_ 0 data); auto; lia.
Qed.
Print Assumptions C55_box_exact.
(** In single precision the same holds for integer samples, such as bytes,
    whose window sums stay within 2^24; the division is rounded once. *)
Theorem C55_box_single_precision : forall n data n_r s D,
  1 < n -> 1 <= n_r -> n + 2 * n_r <= Z.of_nat (length data) -> 0 <= D -> (2 * n_r + 1) * D <= 2 ^ 24 ->
  (forall j, 0 <= j < n + 2 * n_r -> at_ F0 data j = of_int (s j) /\ - D <= s j <= D) ->
  exists data', convolve_box fadd fsub (fun a z => fdiv a (of_int z)) n data n_r = Ok data' /\ length data' = length data /\
    (forall i, 0 <= i < n -> at_ F0 data' i = fdiv (of_int (zsum s i (Z.to_nat (2 * n_r + 1)))) (of_int (2 * n_r + 1))) /\
    (forall i, n <= i -> at_ F0 data' i = at_ F0 data i).
Proof.
  intros n data n_r s D N R L D0 DB S. apply (convolve_box_ok F0 fadd fsub (fun a z => fdiv a (of_int z)) of_int (2 ^ 24)) with (D := D) (s := s); auto.
  - intros. now apply fadd_int.
  - intros. now apply fsub_int.
Qed.
Print Assumptions C55_box_single_precision.
(** Finding: with other floats the running sum keeps rounding errors of samples
    that have left the window. *)
Theorem C55_large_floats_refuted :
  exists data', convolve_box fadd fsub (fun a z => fdiv a (of_int z)) 3 (of_int (2 ^ 25) :: map of_int [1; 1; 1; 1]) 1 = Ok data' /\
    at_ F0 data' 2 <> fdiv (of_int (1 + 1 + 1)) (of_int 3).
Proof. eexists. split; [vm_compute; reflexivity|]. vm_compute. discriminate. Qed.
Print Assumptions C55_large_floats_refuted.
Example C55_example :
  convolve_box Z.add Z.sub Z.div 4 [3; 6; 9; 12; 15; 18; 7] 1 = Ok [6; 9; 12; 15; 15; 18; 7] /\
  (let* d := convolve_box fadd fsub (fun a z => fdiv a (of_int z)) 4 (map of_int [3; 6; 9; 12; 15; 18; 7]) 1 in Ok d) = Ok (map of_int [6; 9; 12; 15; 15; 18; 7]).
Proof. vm_compute. repeat split. Qed.
