(** The uniform and normal samplers: C109 - C112. *)
From Verif Require Import Base BaseLemmas Flt SfmtModel SfmtSpec SfmtProofs SfmtArray SfmtServe SfmtCalls SfmtFloat SfmtMore.
From Verif Require Import GaussModel GaussSpec GaussProofs.
Local Open Scope N_scope.

(** C109. Every seed determines one sequence of words (the SFMT-19937 sequence)... *)
Theorem C109_sequence : forall seed, seed < 2 ^ 32 ->
  exists x, seeded seed x /\ forall y, seeded seed y -> forall n, y n = x n.
Proof.
  intros seed S0. exists (the_seq seed). split; [apply the_seq_seeded; exact S0|]. intros y SY n. apply (seeded_unique seed); [exact SY|apply the_seq_seeded; exact S0].
Qed.
Print Assumptions C109_sequence.
(** ... and every history of calls is answered from it, word after word, whatever
    the mixture of calls; a call the documentation forbids stops the program. *)
Theorem C109_calls : forall (X : N -> nat -> N), (forall seed, seed < 2 ^ 32 -> seeded seed (X seed)) ->
  forall seed os, seed < 2 ^ 32 -> Forall proper os ->
  match serve X os seed 0 0 with
  | Some answers => exists s, calls os (nx_uniform_sampler_new_with_seed seed) = Ok (answers, s)
  | None => calls os (nx_uniform_sampler_new_with_seed seed) = Fatal
  end.
Proof. intros X XS seed os S0 P. apply calls_ok; [exact XS|exact P|apply related_init; exact S0]. Qed.
Print Assumptions C109_calls.
(** Seed 1234: the first words published with the reference implementation. *)
Example C109_example :
  (exists s, calls [OSample32; OSample32; OSample32] (nx_uniform_sampler_new_with_seed 1234) = Ok ([AInt 3440181298; AInt 1564997079; AInt 1510669302], s)) /\
  calls [OSample32; OSample64] (nx_uniform_sampler_new_with_seed 1234) = Fatal /\
  Forall proper [OSample32; OSample64; OSeed 7; OFill32 624 (repeat 0 624)].
Proof.
  split; [|split].
  - eexists. vm_compute. reflexivity.
  - vm_compute. reflexivity.
  - repeat constructor; reflexivity.
Qed.

(** C110. The range of the answers.  Partial: the documented half-open range
    [0, 1) of the float fails, below. *)
Theorem C110_range_partial : forall seed os answers s, seed < 2 ^ 32 -> Forall proper os ->
  calls os (nx_uniform_sampler_new_with_seed seed) = Ok (answers, s) ->
  Forall (fun a =>
    match a with
    | AInt n => n < 2 ^ 64
    | AFloat f => exists m, f = FF m /\ (0 <= m <= U)%Z
    | ADouble n => n < 2 ^ 53
    | AWords l => Forall (fun v => v < 2 ^ 32) l
    | ANone => True
    end) answers.
Proof.
  intros seed os answers s S0 P E. pose proof (calls_ok the_seq the_seq_seeded os P seed _ 0%nat 0%nat (related_init seed S0)) as C.
  destruct (serve the_seq os seed 0 0) as [l|] eqn:SV.
  - destruct C as (s' & C). unfold nx_uniform_sampler_new_with_seed in E. rewrite C in E. injection E as <- _. exact (serve_range _ _ _ _ _ _ SV).
  - unfold nx_uniform_sampler_new_with_seed in E. rewrite C in E. discriminate.
Qed.
Print Assumptions C110_range_partial.
(** The float made from the word v is within 2^-25 of v / 2^32, does not decrease
    with v, is exact for the first 2^24 words, and is below one except for the
    last 128 words. *)
Theorem C110_value : forall v, v < 2 ^ 32 -> exists m, real2_s v = FF m /\
  (Z.abs (m - Z.of_N v * 2 ^ 117) <= 2 ^ 124)%Z /\
  (v <= 2 ^ 24 -> m = (Z.of_N v * 2 ^ 117)%Z) /\
  ((m < U)%Z <-> v < 2 ^ 32 - 128) /\
  (forall v' m', v <= v' -> v' < 2 ^ 32 -> real2_s v' = FF m' -> (m <= m')%Z).
Proof.
  intros v V. destruct (real2_s_rnd v V) as [E R]. eexists. split; [exact E|]. split; [apply real2_s_near; exact V|]. split; [apply real2_s_exact|]. split; [apply real2_s_one; exact V|].
  intros v' m' LE V' E'. destruct (real2_s_rnd v' V') as [E2 _]. rewrite E2 in E'. injection E' as <-. apply real2_s_mono. exact LE.
Qed.
Print Assumptions C110_value.
(** One comes out, first of all for the seed 41552030. *)
Theorem C110_below_one_refuted : exists seed s, seed < 2 ^ 32 /\ calls [OSampleS] (nx_uniform_sampler_new_with_seed seed) = Ok ([AFloat F1], s).
Proof. exists 41552030. eexists. split; [reflexivity|]. vm_compute. reflexivity. Qed.
Print Assumptions C110_below_one_refuted.
Example C110_example :
  Forall proper [OSampleS; OSampleD] /\
  (exists s, calls [OSampleS; OSampleD] (nx_uniform_sampler_new_with_seed 1234) = Ok ([AFloat (FF (13438208 * 2 ^ 125)); ADouble 3168103148792062], s)) /\
  real2_s (2 ^ 32 - 129) = FF ((2 ^ 24 - 1) * 2 ^ 125).
Proof. split; [repeat constructor|]. split; [eexists; vm_compute; reflexivity|vm_compute; reflexivity]. Qed.

(** C111. The sequence never dies out: of any 624 consecutive words starting at a
    multiple of four one is not zero. *)
Theorem C111_never_zero : forall seed x, seed < 2 ^ 32 -> seeded seed x ->
  forall n, ~ forall j, (j < 624)%nat -> word x (4 * n + j) = 0.
Proof. exact never_zero. Qed.
Print Assumptions C111_never_zero.
(** The state a seed gives is always one of the certified ones. *)
Theorem C111_certified : forall seed, seed < 2 ^ 32 ->
  exists a b c d t, s_state (nx_uniform_sampler_new_with_seed seed) = W a b c d :: t /\ length t = 155%nat /\
    certified (a + 2 ^ 32 * b + 2 ^ 64 * c + 2 ^ 96 * d).
Proof.
  intros seed S0. destruct (init_state_ok seed S0) as (L & _ & w & N0 & _ & CW & _). assert (ES : s_state (nx_uniform_sampler_new_with_seed seed) = init_state seed) by (unfold nx_uniform_sampler_new_with_seed, init_state; reflexivity).
  rewrite ES. clear ES. revert L N0. generalize (init_state seed). intros st L N0.
  destruct st as [|w' t]; [discriminate|]. cbn [nth_error] in N0. injection N0 as ->. destruct w as [a b c d]. exists a, b, c, d, t. split; [reflexivity|]. split; [cbn [length] in L; lia|exact CW].
Qed.
Print Assumptions C111_certified.
(** Seed 2 has to be repaired: its words alone are not certified. *)
Example C111_example : exists seed, seed < 2 ^ 32 /\ seeded seed (the_seq seed) /\ the_seq seed 0 <> init_block seed 0.
Proof. exists 2. split; [reflexivity|]. split; [apply the_seq_seeded; reflexivity|]. apply N.eqb_neq. vm_compute. reflexivity. Qed.

(** C112. Samples of the normal distribution: for any requests on a seeded
    sampler, the arrays are filled from the pairs of the uniform stream that lie
    inside the circle, in order and each used once. *)
Theorem C112_samples : forall D (A : arith D) turns fuel seed x rs, seed < 2 ^ 32 -> seeded seed x -> Forall sound rs ->
  requests A turns fuel rs (nx_gaussian_sampler_new_with_seed seed) = NoFuel \/
  exists os s, requests A turns fuel rs (nx_gaussian_sampler_new_with_seed seed) = Ok (os, s) /\ all_answered A (word x) rs 0 os.
Proof.
  intros D A turns fuel seed x rs S0 SX SD. destruct (init_state_ok seed S0) as (L & _). destruct (related_init seed S0) as [_ P].
  destruct (requests_ok A (seq_of (init_state seed)) x turns fuel rs (seq_follows _ L) (seq_wf _ L (init_state_wf seed S0))
    (fun n => seeded_unique seed x (the_seq seed) SX (the_seq_seeded seed S0) n) SD 0%nat _ 0%nat (ex_intro _ 0%nat P) eq_refl) as [[E _]|R]; [left; exact E|right; exact R].
Qed.
Print Assumptions C112_samples.
(** It returns as soon as the stream has enough such pairs. *)
Theorem C112_returns : forall D (A : arith D) seed x rs T, seed < 2 ^ 32 -> seeded seed x -> Forall sound rs ->
  (total_pairs rs <= length (filter (inside A (word x)) (seq 0 T)))%nat ->
  exists turns fuel os s, requests A turns fuel rs (nx_gaussian_sampler_new_with_seed seed) = Ok (os, s) /\ all_answered A (word x) rs 0 os.
Proof.
  intros D A seed x rs T S0 SX SD EN. destruct (init_state_ok seed S0) as (L & _). destruct (related_init seed S0) as [_ P].
  exists (S (list_max (map (fun r => Z.to_nat (r_n r)) rs))), T.
  destruct (requests_ok A (seq_of (init_state seed)) x (S (list_max (map (fun r => Z.to_nat (r_n r)) rs))) T rs (seq_follows _ L) (seq_wf _ L (init_state_wf seed S0))
    (fun n => seeded_unique seed x (the_seq seed) SX (the_seq_seeded seed S0) n) SD 0%nat _ 0%nat (ex_intro _ 0%nat P) eq_refl) as [[_ H]|R]; [|exact R].
  specialize (H T EN (le_n T)). apply Exists_exists in H as (r & I & LE). exfalso.
  assert (M : Forall (fun k => (k <= list_max (map (fun r => Z.to_nat (r_n r)) rs))%nat) (map (fun r => Z.to_nat (r_n r)) rs)) by (apply list_max_le; lia).
  rewrite Forall_forall in M. specialize (M _ (in_map (fun r => Z.to_nat (r_n r)) rs r I)). cbv beta in M. lia.
Qed.
Print Assumptions C112_returns.
(** The single precision functions; the logarithm and the root are any function
    here (this one stands for both). *)
Definition single (lg : flt -> flt) : arith flt :=
  Arith flt (fun f => f) fmul fadd fsub fdiv (fun a b => negb (f_lt a b)) lg lg F1 (of_int 2) (of_int (-2)).
Example C112_example : exists o s,
  requests (single (fun a => a)) 5 5 [Request flt 3 [F0; F0; F0] F0 F1] (nx_gaussian_sampler_new_with_seed 1234) = Ok ([o], s) /\ length o = 3%nat.
Proof. do 2 eexists. split; [vm_compute; reflexivity|reflexivity]. Qed.
