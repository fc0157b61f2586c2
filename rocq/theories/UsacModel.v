(** Model of the sampling consensus search, src/nx_usac.c, and of its
    homography instance, src/nx_usac_homography.c. *)
From Verif Require Import Base BaseLemmas Dbl.
Local Open Scope Z_scope.

(** A model is an array of m doubles. *)
Notation model := (list N).

(** What the search asks of its callbacks and what they answer. *)
Inductive event :=
| ETerm (best : model) (score : dbl) (stop : bool)
| ESample (ids : list Z)
| ESampleCheck (ok : bool)
| EFit (n : Z)
| ECheck (mo : model) (ok : bool)
| EScore (mo : model) (score : dbl)
| EDegen (mo : model) (ok : bool)
| ELocal (mo refined : model) (ok : bool)
| EGlobal (mo refined : model).

Section Usac.
(** struct NXUSACConfig, include/virg/nexus/nx_usac.h:56-66.  [D] is whatever
    the callbacks keep behind their data pointer.  A callback that takes a
    pointer to non-const gets the old contents and answers the new ones.
    Callbacks are assumed not to reach the search's own buffers by other
    ways. *)
Variable D : Type.
Variable sampling_fn : list Z -> D -> list Z * D.
Variable sample_check_fn : list Z -> D -> bool * D.
Variable model_fit_fn : Z -> list model -> list Z -> D -> Z * Z * list model * D.
Variable model_check_fn : model -> list Z -> D -> bool * model * D.
Variable model_score_fn : model -> list Z -> D -> dbl * model * D.
Variable degeneracy_check_fn : model -> list Z -> D -> bool * model * D.
Variable local_refinement_fn : model -> model -> list Z -> D -> bool * model * D.
Variable global_refinement_fn : model -> model -> D -> model * D.
Variable termination_fn : model -> dbl -> D -> bool * D.

(** The variables of nx_usac; [u_log] is the record of the calls made. *)
Record ust := { u_best : model; u_score : dbl; u_max : Z; u_models : list model; u_refined : model;
                u_ids : list Z; u_data : D; u_log : list event }.
Definition say (s : ust) (e : event) : ust :=
  {| u_best := u_best s; u_score := u_score s; u_max := u_max s; u_models := u_models s; u_refined := u_refined s;
     u_ids := u_ids s; u_data := u_data s; u_log := u_log s ++ [e] |}.
Definition with_data (s : ust) (d : D) : ust :=
  {| u_best := u_best s; u_score := u_score s; u_max := u_max s; u_models := u_models s; u_refined := u_refined s;
     u_ids := u_ids s; u_data := d; u_log := u_log s |}.
Definition with_models (s : ust) (ms : list model) : ust :=
  {| u_best := u_best s; u_score := u_score s; u_max := u_max s; u_models := ms; u_refined := u_refined s;
     u_ids := u_ids s; u_data := u_data s; u_log := u_log s |}.
Definition with_refined (s : ust) (r : model) : ust :=
  {| u_best := u_best s; u_score := u_score s; u_max := u_max s; u_models := u_models s; u_refined := r;
     u_ids := u_ids s; u_data := u_data s; u_log := u_log s |}.
(** nx_dvec_copy(m, best_model, .); best_score = . *)
Definition take (s : ust) (mo : model) (x : dbl) : ust :=
  {| u_best := mo; u_score := x; u_max := u_max s; u_models := u_models s; u_refined := u_refined s;
     u_ids := u_ids s; u_data := u_data s; u_log := u_log s |}.

(** 68-106: one estimated model. *)
Definition try_model (i : nat) (s : ust) : res ust :=
  let* mo := aget (u_models s) i in
  let '(ok, mo, d) := model_check_fn mo (u_ids s) (u_data s) in
  let* ms := aset (u_models s) i mo in
  let s := say (with_models (with_data s d) ms) (ECheck mo ok) in
  if negb ok then Ok s
  else
    let '(score, mo, d) := model_score_fn mo (u_ids s) (u_data s) in
    let* ms := aset (u_models s) i mo in
    let s := say (with_models (with_data s d) ms) (EScore mo score) in
    if d_gt score (u_score s) then
      let '(ok, mo, d) := degeneracy_check_fn mo (u_ids s) (u_data s) in
      let* ms := aset (u_models s) i mo in
      let s := say (with_models (with_data s d) ms) (EDegen mo ok) in
      if negb ok then Ok s
      else
        let '(ok, r, d) := local_refinement_fn (u_refined s) mo (u_ids s) (u_data s) in
        let s := say (with_refined (with_data s d) r) (ELocal mo r ok) in
        if ok then
          let '(local_score, r, d) := model_score_fn r (u_ids s) (u_data s) in
          let s := say (with_refined (with_data s d) r) (EScore r local_score) in
          if d_gt local_score score then Ok (take s r local_score) else Ok (take s mo score)
        else Ok (take s mo score)
    else Ok s.

(** 57-107: the main loop. *)
Fixpoint main_loop (fuel : nat) (s : ust) : res ust :=
  match fuel with
  | O => NoFuel
  | S f =>
    let (stop, d) := termination_fn (u_best s) (u_score s) (u_data s) in
    let s := say (with_data s d) (ETerm (u_best s) (u_score s) stop) in
    if stop then Ok s
    else
      let (ids, d) := sampling_fn (u_ids s) (u_data s) in
      let s := say {| u_best := u_best s; u_score := u_score s; u_max := u_max s; u_models := u_models s;
                      u_refined := u_refined s; u_ids := ids; u_data := d; u_log := u_log s |} (ESample ids) in
      let (ok, d) := sample_check_fn (u_ids s) (u_data s) in
      let s := say (with_data s d) (ESampleCheck ok) in
      if negb ok then main_loop f s
      else
        let '(n, mx, ms, d) := model_fit_fn (u_max s) (u_models s) (u_ids s) (u_data s) in
        let s := say {| u_best := u_best s; u_score := u_score s; u_max := mx; u_models := ms;
                        u_refined := u_refined s; u_ids := u_ids s; u_data := d; u_log := u_log s |} (EFit n) in
        let* s := for_each try_model (seq 0 (Z.to_nat n)) s in
        main_loop f s
  end.

(** nx_usac, 34-124.  [junk] is the contents of the fresh buffers. *)
Definition usac (fuel : nat) (m : nat) (n_samples : nat) (junk : model) (junk_ids : list Z) (d : D) : res (dbl * model * D * list event) :=
  if (m =? 0)%nat then Fatal else if (n_samples =? 0)%nat then Fatal
  else
    let s := {| u_best := repeat D_ZERO m; u_score := D_MINUS_MAX; u_max := 1; u_models := [junk]; u_refined := junk;
                u_ids := junk_ids; u_data := d; u_log := [] |} in
    let* s := main_loop fuel s in
    let (r, d) := global_refinement_fn (u_refined s) (u_best s) (u_data s) in
    let s := say (with_refined (with_data s d) r) (EGlobal (u_best s) r) in
    let '(global_score, r, d) := model_score_fn r (u_ids s) (u_data s) in
    let s := say (with_refined (with_data s d) r) (EScore r global_score) in
    let s := if d_gt global_score (u_score s) then take s r global_score else s in
    Ok (u_score s, u_best s, u_data s, u_log s).
End Usac.

(** * Homography instance *)

(** Rounding of a positive integer to the 24 significant bits of a float, ties
    to even. *)
Definition rne24 (x : Z) : Z :=
  if x <? 2 ^ 24 then x
  else
    let s := Z.log2 x - 23 in
    let q := x / 2 ^ s in
    let r := x mod 2 ^ s in
    let h := 2 ^ (s - 1) in
    (if (h <? r) || ((r =? h) && Z.odd q) then q + 1 else q) * 2 ^ s.
(** (int)(NX_UNIFORM_SAMPLE_S * n), nx_usac_homography.c:52: [r] is the 32-bit
    output of the generator.  sfmt_genrand_real2 (src/SFMT/SFMT.h:237-251) is
    r / 2^32, exact as a double; nx_uniform_sampler_sample_s
    (src/nx_uniform_sampler.c:114-117) rounds it to float; the product with
    (float)n is rounded to float and truncated.  All in units of 2^-32. *)
Definition draw (n r : Z) : Z := rne24 (rne24 r * rne24 n) / 2 ^ 32.

(** A loop that draws until a condition holds.  The generator is its future
    outputs. *)
Fixpoint draw_until (n : Z) (again : Z -> bool) (rs : list Z) : res (Z * list Z) :=
  match rs with
  | [] => NoFuel
  | r :: rs => let x := draw n r in if again x then draw_until n again rs else Ok (x, rs)
  end.
(** nx_usac_homography_sampling, 48-65. *)
Definition homography_sampling (n_top : Z) (rs : list Z) : res (list Z * list Z) :=
  let* (s0, rs) := draw_until n_top (fun _ => false) rs in
  let* (s1, rs) := draw_until n_top (fun x => x =? s0) rs in
  let* (s2, rs) := draw_until n_top (fun x => (x =? s1) || (x =? s0)) rs in
  let* (s3, rs) := draw_until n_top (fun x => (x =? s1) || (x =? s1) || (x =? s0)) rs in
  Ok ([s0; s1; s2; s3], rs).

(** struct NXUSACHomographyData, 38-46: the fields that change, and the two
    bounds. *)
Record hdata := { h_ncorr : Z; h_max_iter : Z; h_top : Z; h_iter : Z }.
(** nx_usac_estimate_homography, 194-208. *)
Definition homography_data (n_corr max_n_iter : Z) : hdata :=
  {| h_ncorr := n_corr; h_max_iter := max_n_iter; h_top := if n_corr <? 10 then n_corr else 10; h_iter := 0 |}.
(** nx_usac_homography_terminate, 168-186.  [cvt] is what the compiled program
    computes for (int)best_score out of range. *)
Definition homography_terminate (cvt : dbl -> Z) (best_score : dbl) (h : hdata) : res (bool * hdata) :=
  let* it := chk_int (h_iter h + 1) in
  let* top := chk_int (h_top h + 1) in
  let top := if h_ncorr h <=? top then h_ncorr h else top in
  let n_inliers := match d_to_int best_score with Ok z => z | _ => cvt best_score end in
  Ok ((h_max_iter h <=? it) || (200 <=? n_inliers),
      {| h_ncorr := h_ncorr h; h_max_iter := h_max_iter h; h_top := top; h_iter := it |}).
(** The same with the conversion undefined out of range. *)
Definition homography_terminate_strict (best_score : dbl) (h : hdata) : res (bool * hdata) :=
  let* _ := d_to_int best_score in homography_terminate (fun _ => 0) best_score h.
