(** Properties C119 and C120 (statements; proofs in KernProofs and KernSmooth). *)
From Verif Require Import Base BaseLemmas Gray Flt FltErr FilterModel FilterSpec FilterProofs Img ImgModel ImgSpec ImgProofs ImgBox KernModel KernSpec KernProofs KernSmooth.
Local Open Scope Z_scope.

(** ** C119 *)
(** The kernel made from sampled Gaussian values, with up to 4096 entries, has
    nonnegative weights that do not increase away from the centre and that sum to 1
    up to one thousandth, in spite of single precision. *)
Theorem C119_normalised : forall kv n kernel, bell kv n -> 2 <= n <= 4096 -> Z.of_nat (length kernel) = n ->
  exists k' k, kernel_sym_gaussian kv n kernel = Ok k' /\ length k' = length kernel /\ weights k' k /\
    1000 * Z.abs (total k (length k') - U) <= U /\ forall i j, 0 <= i <= j -> j < n -> k j <= k i.
Proof. exact kernel_normalised. Qed.
Print Assumptions C119_normalised.
(** exp(-i^2 / 2) for i = 0 .. 4 as floats. *)
Definition ex_kv (i : Z) : flt := nth (Z.to_nat i) [F1; FF (10175896 * 2 ^ 125); FF (9082197 * 2 ^ 123); FF (11928194 * 2 ^ 119); FF (11526408 * 2 ^ 114)] F0.
Definition ex_m (i : Z) : Z := nth (Z.to_nat i) [U; 10175896 * 2 ^ 125; 9082197 * 2 ^ 123; 11928194 * 2 ^ 119; 11526408 * 2 ^ 114] 0.
Definition ex_kernel : list flt := match kernel_sym_gaussian ex_kv 5 (repeat FNaN 5) with Ok k => k | _ => [] end.
Example C119_example : bell ex_kv 5 /\ kernel_sym_gaussian ex_kv 5 (repeat FNaN 5) = Ok ex_kernel /\ length ex_kernel = 5%nat /\ kernel_sym_gaussian ex_kv 1 [F0] = Fatal.
Proof.
  assert (C : forall i, 0 <= i < 5 -> i = 0 \/ i = 1 \/ i = 2 \/ i = 3 \/ i = 4) by lia.
  split; [|split; [|split]; vm_compute; reflexivity].
  exists ex_m. split; [|split; [reflexivity|split]].
  - intros i I. destruct (C i I) as [->|[->|[->|[->| ->]]]]; reflexivity.
  - intros i I. destruct (C i I) as [->|[->|[->|[->| ->]]]]; vm_compute; split; discriminate.
  - intros i j I J. destruct (C i ltac:(lia)) as [->|[->|[->|[->| ->]]]], (C j ltac:(lia)) as [->|[->|[->|[->| ->]]]]; try lia; vm_compute; discriminate.
Qed.

(** ** C120 *)
(** Smoothing bytes with weights that sum to 1 up to one thousandth never leaves the
    range of a byte: with all pixels in lo .. hi the result is in lo - 2 .. hi, and
    each pass gives the mean with exact weights rounded down (up to 1/4 of a level). *)
Theorem C120_smooth_bytes : forall junk bufj src kx ky wx wy lo hi, weights kx wx -> weights ky wy ->
  1000 * Z.abs (total wx (length kx) - U) <= U -> 1000 * Z.abs (total wy (length ky) - U) <= U ->
  2 <= Z.of_nat (length kx) <= 4096 -> 2 <= Z.of_nat (length ky) <= 4096 ->
  image_ok src -> 1 < i_w src <= 2 ^ 30 -> 1 < i_h src <= 2 ^ 30 -> 0 <= lo -> hi <= 255 -> (forall x y, in_img src x y -> lo <= pix 0 src x y <= hi) ->
  exists g mid, smooth_uc junk bufj src kx ky = Ok g /\ fresh g (i_w src) (i_h src) /\
    forall x y, in_img src x y -> Z.max 0 (lo - 2) <= pix 0 g x y <= hi /\
      near_floor (mid x y) (mean_at wx (length kx - 1) (i_w src) (fun i => pix 0 src i y) x) /\
      near_floor (pix 0 g x y) (mean_at wy (length ky - 1) (i_h src) (fun j => mid x j) y).
Proof.
  intros junk bufj src kx ky wx wy lo hi WX WY TX TY LX LY G SW SH LO HI B.
  assert (LX' : (2 <= length kx)%nat /\ Z.of_nat (length kx) <= 4096) by lia. assert (LY' : (2 <= length ky)%nat /\ Z.of_nat (length ky) <= 4096) by lia.
  assert (SW' : 1 < i_w src) by lia. assert (SH' : 1 < i_h src) by lia.
  destruct (smooth_ok 0 of_int to_uc (fun p => mid kx src (fst p) (snd p)) (fun p => fin kx ky src (fst p) (snd p)) junk bufj src kx ky G) as (g & E & F & V); try lia.
  - pose proof int_rng as [_ I]. change INT_MAX with 2147483647. change (2 ^ 30) with 1073741824 in *. lia.
  - intros x y I. exact (proj1 (mid_ok kx ky wx wy src lo hi WX TX LX' LY' SW' LO HI B x y I)).
  - intros x y I. exact (proj1 (fin_ok kx ky wx wy src lo hi WX WY TX TY LX' LY' SW' SH' LO HI B x y I)).
  - exists g, (mid kx src). split; [exact E|]. split; [exact F|]. intros x y I. assert (IG : in_img g x y) by (apply (fresh_in _ _ _ _ _ F); destruct I; auto).
    rewrite V by exact IG. cbn [fst snd].
    destruct (mid_ok kx ky wx wy src lo hi WX TX LX' LY' SW' LO HI B x y I) as (_ & _ & M). destruct (fin_ok kx ky wx wy src lo hi WX WY TX TY LX' LY' SW' SH' LO HI B x y I) as (_ & R & N). auto.
Qed.
Print Assumptions C120_smooth_bytes.
(** The same when an image is smoothed in place, which keeps its stride; it gives
    the same pixels. *)
Theorem C120_in_place : forall junk bufj bufj' src kx ky wx wy, weights kx wx -> weights ky wy ->
  1000 * Z.abs (total wx (length kx) - U) <= U -> 1000 * Z.abs (total wy (length ky) - U) <= U ->
  2 <= Z.of_nat (length kx) <= 4096 -> 2 <= Z.of_nat (length ky) <= 4096 ->
  image_ok src -> byte_img src -> 1 < i_w src <= 2 ^ 30 -> 1 < i_h src <= 2 ^ 30 ->
  exists g g', smooth_uc junk bufj src kx ky = Ok g /\ smooth_self_uc bufj' src kx ky = Ok g' /\ same_shape g' src /\ image_ok g' /\
    forall x y, in_img src x y -> pix 0 g' x y = pix 0 g x y.
Proof.
  intros junk bufj bufj' src kx ky wx wy WX WY TX TY LX LY G BI SW SH.
  assert (LX' : (2 <= length kx)%nat /\ Z.of_nat (length kx) <= 4096) by lia. assert (LY' : (2 <= length ky)%nat /\ Z.of_nat (length ky) <= 4096) by lia.
  assert (SW' : 1 < i_w src) by lia. assert (SH' : 1 < i_h src) by lia. assert (B : forall x y, in_img src x y -> 0 <= pix 0 src x y <= 255) by (intros; now apply pix_byte).
  assert (IM : Z.max (i_w src) (i_h src) + 2 * Z.max (Z.of_nat (length kx) - 1) (Z.of_nat (length ky) - 1) <= INT_MAX) by (change INT_MAX with 2147483647; change (2 ^ 30) with 1073741824 in *; lia).
  assert (H1 : forall x y, in_img src x y -> to_uc (smoothed kx (i_w src) (fun i => of_int (pix 0 src i y)) x) = Ok (mid kx src (fst (x, y)) (snd (x, y)))).
  { intros x y I. exact (proj1 (mid_ok kx ky wx wy src 0 255 WX TX LX' LY' SW' ltac:(lia) ltac:(lia) B x y I)). }
  assert (H2 : forall x y, in_img src x y -> to_uc (smoothed ky (i_h src) (fun j => of_int (mid kx src (fst (x, j)) (snd (x, j)))) y) = Ok (fin kx ky src (fst (x, y)) (snd (x, y)))).
  { intros x y I. exact (proj1 (fin_ok kx ky wx wy src 0 255 WX WY TX TY LX' LY' SW' SH' ltac:(lia) ltac:(lia) B x y I)). }
  destruct (smooth_ok 0 of_int to_uc (fun p => mid kx src (fst p) (snd p)) (fun p => fin kx ky src (fst p) (snd p)) junk bufj src kx ky G SW' SH' (proj1 LX') (proj1 LY') IM H1 H2) as (g & E & F & V).
  destruct (smooth_self_ok 0 of_int to_uc (fun p => mid kx src (fst p) (snd p)) (fun p => fin kx ky src (fst p) (snd p)) bufj' src kx ky G SW' SH' (proj1 LX') (proj1 LY') IM H1 H2) as (g' & E' & SS & O & V').
  exists g, g'. split; [exact E|]. split; [exact E'|]. split; [exact SS|]. split; [exact O|]. intros x y I. rewrite V, V'; [reflexivity| |].
  - now apply (same_shape_in _ _ _ _ SS).
  - apply (fresh_in _ _ _ _ _ F). destruct I; auto.
Qed.
Print Assumptions C120_in_place.
(** So smoothing a byte image with sampled Gaussians always succeeds, does not exceed
    the brightest pixel and gets at most two levels darker than the darkest one. *)
Theorem C120_gaussian : forall junk bufj src kvx kvy bx by' nx ny lo hi, bell kvx nx -> bell kvy ny -> 2 <= nx <= 4096 -> 2 <= ny <= 4096 ->
  Z.of_nat (length bx) = nx -> Z.of_nat (length by') = ny ->
  image_ok src -> 1 < i_w src <= 2 ^ 30 -> 1 < i_h src <= 2 ^ 30 -> 0 <= lo -> hi <= 255 -> (forall x y, in_img src x y -> lo <= pix 0 src x y <= hi) ->
  exists g, (let* kx := kernel_sym_gaussian kvx nx bx in let* ky := kernel_sym_gaussian kvy ny by' in smooth_uc junk bufj src kx ky) = Ok g /\ fresh g (i_w src) (i_h src) /\
    forall x y, in_img src x y -> Z.max 0 (lo - 2) <= pix 0 g x y <= hi.
Proof.
  intros junk bufj src kvx kvy bx by' nx ny lo hi BX BY NX NY LX LY G SW SH LO HI B.
  destruct (kernel_normalised kvx nx bx BX NX LX) as (kx & wx & EX & LEX & WX & TX & _). destruct (kernel_normalised kvy ny by' BY NY LY) as (ky & wy & EY & LEY & WY & TY & _).
  rewrite EX. cbn [bind]. rewrite EY. cbn [bind].
  destruct (C120_smooth_bytes junk bufj src kx ky wx wy lo hi) as (g & md & E & F & V); auto; try (rewrite ?LEX, ?LEY; lia).
  exists g. split; [exact E|]. split; [exact F|]. intros x y I. apply V, I.
Qed.
Print Assumptions C120_gaussian.
(** Finding: an image of one gray level does not keep it, because the means, which
    may be slightly below it, are truncated: with sigma = 1, level 3 becomes 2. *)
Theorem C120_flat_refuted : exists kv n src k g, bell kv n /\ image_ok src /\ (forall x y, in_img src x y -> pix 0 src x y = 3) /\
  kernel_sym_gaussian kv n (repeat FNaN (Z.to_nat n)) = Ok k /\ smooth_uc (fun _ => 9) (fun _ => FNaN) src k k = Ok g /\ in_img src 0 0 /\ pix 0 g 0 0 <> 3.
Proof.
  exists ex_kv, 5, (mkImg 2 2 2 [3; 3; 3; 3]), ex_kernel. eexists. split; [apply C119_example|]. split; [constructor; vm_compute; intuition discriminate|].
  split; [intros x y [X Y]; cbn in X, Y; assert (x = 0 \/ x = 1) as [->| ->] by lia; assert (y = 0 \/ y = 1) as [->| ->] by lia; reflexivity|].
  split; [vm_compute; reflexivity|]. split; [vm_compute; reflexivity|]. split; [split; cbn; lia|vm_compute; discriminate].
Qed.
Print Assumptions C120_flat_refuted.
Example C120_example : image_ok (mkImg 3 2 4 [0; 40; 200; 99; 8; 20; 88; 99]) /\
  smooth_uc (fun _ => 9) (fun _ => FNaN) (mkImg 3 2 4 [0; 40; 200; 99; 8; 20; 88; 99]) ex_kernel ex_kernel = Ok (mkImg 3 2 3 [19; 63; 124; 16; 48; 90]) /\
  smooth_self_uc (fun _ => FNaN) (mkImg 3 2 4 [0; 40; 200; 99; 8; 20; 88; 99]) ex_kernel ex_kernel = Ok (mkImg 3 2 4 [19; 63; 124; 99; 16; 48; 90; 99]).
Proof. split; [constructor; vm_compute; intuition discriminate|]. split; vm_compute; reflexivity. Qed.
