(** The scale space of the SIFT detector: src/nx_sift_detector.c.

    Simplifications.  Images are symbolic: their size and the operations they came
    from.  Scales are reals, pow and sqrt the mathematical functions.  Instead of keys
    the list of the calls of nx_sift_process_dog is given. *)
From Coq Require Import Reals.
From Verif Require Import Base.
Local Open Scope Z_scope.

(** How an image was made from the input; conversion of the data type is left out. *)
Inductive sym := Input | Up (s : sym) | Smooth (sigma : R) (s : sym) | Down (s : sym).
Record limg := mkL { l_w : Z; l_h : Z; l_im : sym }.
(** nx_image_upsample, src/nx_image.c:716-726, nx_image_smooth, nx_image_downsample, 677-714. *)
Definition upsampled (g : limg) : res limg := let* w := chk_int (2 * l_w g) in let* h := chk_int (2 * l_h g) in Ok (mkL w h (Up (l_im g))).
Definition smoothed (sigma : R) (g : limg) : limg := mkL (l_w g) (l_h g) (Smooth sigma (l_im g)).
Definition downsampled (g : limg) : limg := mkL (Z.quot (l_w g) 2) (Z.quot (l_h g) 2) (Down (l_im g)).

(** kernel_sigma, src/nx_sift_detector.c:137-142. *)
Definition kernel_sigma (current desired : R) : R := sqrt (desired * desired - current * current).
(** nx_sift_detector_prepare_octave, 577-586: the levels after [prev], [k] of them. *)
Fixpoint next_levels (k : nat) (multiplier sigma_c : R) (prev : limg) : list limg :=
  match k with
  | O => []
  | S k => let cur := smoothed (kernel_sigma sigma_c (multiplier * sigma_c)) prev in
           cur :: next_levels k multiplier (sigma_c * multiplier) cur
  end.
Definition octave_levels (n : nat) (sigma_c : R) (level0 : limg) : list limg :=
  level0 :: next_levels (n + 2) (Rpower 2 (1 / INR n)) sigma_c level0.
(** 588-591: a difference is given by its two images. *)
Definition octave_dogs (n : nat) (levels : list limg) : list (limg * limg) :=
  map (fun i => (nth i levels (mkL 0 0 Input), nth (i + 1) levels (mkL 0 0 Input))) (seq 0 (n + 2)).
(** A call of nx_sift_process_dog: octave, sigma_c, i, the image of the gradients and
    dogs i-1, i, i+1. *)
Record call := mkCall { c_octave : Z; c_sigma : R; c_i : nat; c_grad : limg; c_dogm : limg * limg; c_dog : limg * limg; c_dogp : limg * limg }.
(** nx_sift_detector_process_octave, 561-572. *)
Definition process_octave (n : nat) (octave : Z) (sigma_c : R) (levels : list limg) (dogs : list (limg * limg)) : list call :=
  let d := (mkL 0 0 Input, mkL 0 0 Input) in
  map (fun i => mkCall octave sigma_c i (nth (i - 1) levels (mkL 0 0 Input)) (nth (i - 1) dogs d) (nth i dogs d) (nth (i + 1) dogs d)) (seq 1 n).
(** The scale a key found by a call gets if it needs no refinement,
    nx_sift_compute_keys, 373, with i as is. *)
Definition key_sigma (n : nat) (c : call) : R := c_sigma c * Rpower 2 (INR (c_i c) / INR n).
(** nx_sift_detector_compute, 643-650. *)
Fixpoint octaves (fuel n : nat) (min_dim : Z) (octave : Z) (sigma_c : R) (level0 : limg) : res (list call) :=
  match fuel with
  | O => NoFuel
  | S fuel =>
    if (l_w level0 >? min_dim) && (l_h level0 >? min_dim) then
      let levels := octave_levels n sigma_c level0 in
      let calls := process_octave n octave sigma_c levels (octave_dogs n levels) in
      let* rest := octaves fuel n min_dim (octave + 1) sigma_c (downsampled (nth n levels (mkL 0 0 Input))) in
      Ok (calls ++ rest)
    else Ok []
  end.
(** nx_sift_detector_compute, 606-650. *)
Definition sift_calls (fuel : nat) (double : bool) (n : nat) (sigma0 : R) (border : Z) (w h : Z) : res (list call) :=
  let min_dim := 2 * border + 2 in
  let* level0 := if double then upsampled (mkL w h Input) else Ok (mkL w h Input) in
  let sigma_c := (if double then / 2 * 2 else / 2)%R in
  let octave := if double then -1 else 0 in
  let '(level0, sigma_c) := if Rlt_dec sigma_c sigma0 then (smoothed (kernel_sigma sigma_c sigma0) level0, sigma0) else (level0, sigma_c) in
  octaves fuel n min_dim octave sigma_c level0.
