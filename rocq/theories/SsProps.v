(** C158: the scale space of the SIFT detector. *)
From Coq Require Import Reals Lra.
From Verif Require Import Base BaseLemmas Gray Img SsModel SsSpec SsProofs.
Local Open Scope R_scope.

(** The detector ends.  It searches all scales 1..n of octaves o, o+1, ..., as long as
    the halved image is larger than the borders; o is 0, or -1 for doubled images.
    The three differences compared are made of images of consecutive scales, multiples
    of the base scale by powers of the n-th root of 2, with pixels of size 2^octave;
    the key gets the scale of the finer image of the middle one.  Gradients are taken one step
    below that scale. *)
Theorem C158_scales : forall double n sigma0 border w h, (1 <= n)%nat -> (-1 <= border)%Z ->
  (0 <= first_size double w <= INT_MAX)%Z -> (0 <= first_size double h <= INT_MAX)%Z ->
  exists cs, sift_calls 32 double n sigma0 border w h = Ok cs /\
  (exists K, map (fun c => (c_octave c, c_i c)) cs = flat_map (fun k => map (fun i => ((if double then -1 else 0) + Z.of_nat k, i)%Z) (seq 1 n)) (seq 0 K) /\
     forall k, (k <= K)%nat -> (k < K)%nat <-> (first_size double w / 2 ^ Z.of_nat k > 2 * border + 2 /\ first_size double h / 2 ^ Z.of_nat k > 2 * border + 2)%Z) /\
  forall c, In c cs ->
    let scale j := base_scale double sigma0 * Rpower 2 (INR j / INR n) in let o := c_octave c in let i := c_i c in
    key_sigma n c = scale i /\ at_scale o (scale (i - 1)%nat) (c_grad c) /\
    at_scale o (scale (i - 1)%nat) (fst (c_dogm c)) /\ at_scale o (scale i) (snd (c_dogm c)) /\
    at_scale o (scale i) (fst (c_dog c)) /\ at_scale o (scale (i + 1)%nat) (snd (c_dog c)) /\
    at_scale o (scale (i + 1)%nat) (fst (c_dogp c)) /\ at_scale o (scale (i + 2)%nat) (snd (c_dogp c)).
Proof.
  intros double n sigma0 border w h Hn Bo W H. unfold sift_calls.
  set (s0 := (if double then / 2 * 2 else / 2)). set (o := (if double then -1 else 0)%Z).
  assert (E0 : exists g, (if double then upsampled (mkL w h Input) else Ok (mkL w h Input)) = Ok g /\ at_scale o s0 g /\ l_w g = first_size double w /\ l_h g = first_size double h).
  { unfold s0, o. destruct double; cbn [first_size] in *.
    - unfold upsampled. cbn [l_w l_h]. rewrite !chk_int_in by (pose proof int_rng as [-> _]; lia). cbn [bind]. eexists. split; [reflexivity|]. split; [split; cbn [l_im pixel_size blur]; [first [reflexivity|change (powerRZ 2 (-1)) with (/ (2 * 1)); field]|lra]|split; reflexivity].
    - eexists. split; [reflexivity|]. split; [split; cbn [l_im pixel_size blur]; [first [reflexivity|change (powerRZ 2 (-1)) with (/ (2 * 1)); field]|lra]|split; reflexivity]. }
  destruct E0 as (g & -> & A & GW & GH). cbn [bind]. cbv zeta.
  assert (S0 : 0 < s0) by (unfold s0; destruct double; lra).
  set (st := if Rlt_dec s0 sigma0 then (smoothed (kernel_sigma s0 sigma0) g, sigma0) else (g, s0)).
  assert (ST : exists g', st = (g', base_scale double sigma0) /\ at_scale o (base_scale double sigma0) g' /\ l_w g' = l_w g /\ l_h g' = l_h g).
  { assert (S1 : s0 = if double then 1 else 1 / 2) by (unfold s0; destruct double; field). unfold base_scale. rewrite <- S1. unfold st. destruct (Rlt_dec s0 sigma0) as [L|L].
    - rewrite Rmax_left by lra. eexists. split; [reflexivity|]. split; [apply smoothed_at; [lra|exact A]|split; reflexivity].
    - rewrite Rmax_right by lra. eexists. split; [reflexivity|]. auto. }
  destruct ST as (g' & -> & A' & GW' & GH').
  assert (BP : 0 < base_scale double sigma0) by (unfold base_scale; eapply Rlt_le_trans; [|apply Rmax_r]; destruct double; lra).
  destruct (octaves_ok n (2 * border + 2)%Z (base_scale double sigma0) ltac:(lia) BP ltac:(lia) 32 o g' A') as (cs & E & G & K & Mp & Sz & NS).
  { rewrite GW', GW. change (2 ^ (Z.of_nat 32 - 1))%Z with (INT_MAX + 1)%Z. lia. }
  { rewrite GH', GH. lia. }
  { lia. }
  exists cs. split; [exact E|]. split.
  - exists K. split; [exact Mp|]. unfold sizes in Sz, NS. rewrite GW', GW, GH', GH in Sz, NS. intros k Hk. split; [apply Sz|]. intro Q. destruct (Nat.eq_dec k K) as [->|]; [contradiction|lia].
  - intros c I. rewrite Forall_forall in G. cbv zeta. apply (G c I).
Qed.
Print Assumptions C158_scales.
(** An image of 100 x 80 pixels, not doubled, with borders of 5: octaves 0, 1 and 2. *)
Example C158_example : forall sigma0, exists cs, sift_calls 32 false 2 sigma0 5 100 80 = Ok cs /\
  map (fun c => (c_octave c, c_i c)) cs = [(0%Z, 1%nat); (0%Z, 2%nat); (1%Z, 1%nat); (1%Z, 2%nat); (2%Z, 1%nat); (2%Z, 2%nat)].
Proof.
  intro sigma0. destruct (C158_scales false 2 sigma0 5 100 80) as (cs & E & (K & M & Sz) & _); try (cbn [first_size]; cbv delta [INT_MAX]; lia). exists cs. split; [exact E|].
  rewrite M. clear M. cbn [first_size] in Sz. destruct K as [|[|[|[|K]]]]; [exfalso|exfalso|exfalso|reflexivity|exfalso].
  - pose proof (proj2 (Sz 0%nat (le_n 0))) as Q. assert (0 < 0)%nat by (apply Q; split; reflexivity). lia.
  - pose proof (proj2 (Sz 1%nat (le_n 1))) as Q. assert (1 < 1)%nat by (apply Q; split; reflexivity). lia.
  - pose proof (proj2 (Sz 2%nat (le_n 2))) as Q. assert (2 < 2)%nat by (apply Q; split; reflexivity). lia.
  - destruct (proj1 (Sz 3%nat ltac:(lia)) ltac:(lia)) as [_ Q]. discriminate Q.
Qed.
