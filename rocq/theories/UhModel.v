(** Model of nx_usac_estimate_homography and its callbacks,
    src/nx_usac_homography.c.  As in RansacModel, what is specific to the matrices
    is a parameter: [P] is a match without its inlier flag, [good h p] the test of
    nx_homography_mark_inliers for the tolerance in use, the estimators are
    functions of the matches they are given. *)
From Verif Require Import Base BaseLemmas Dbl UsacModel RansacModel.
Local Open Scope Z_scope.

(** An int that is not negative as a double. *)
Definition d_of_int (n : Z) : dbl :=
  if n <=? 0 then D_ZERO else let e := Z.log2 n in Z.to_N ((1023 + e) * 2 ^ 52 + (n - 2 ^ e) * 2 ^ (52 - e)).

Section Uh.
Context {P : Type}.
Notation corr := (P * bool)%type.
Variable good : model -> P -> bool.
Variable fit : model -> list P -> model.
(** nx_homography_estimate_4pt: the new contents of the matrix and whether the
    determinant returned is zero. *)
Variable estimate_4pt : model -> list P -> model * bool.
Variable check : model -> bool.   (* nx_homography_check(model, MAX_ABS_COS) *)
Variable qsort : list corr -> list corr.
(** What the program computes for (int)best_score out of range. *)
Variable cvt : dbl -> Z.

(** struct NXUSACHomographyData, 38-46, and the random numbers still to come;
    after an undefined access there is no state any more. *)
Notation hstate := (list corr * hdata * list Z)%type.
Notation data := (res hstate).
Definition bad {A} (e : res A) : data := match e with Ok _ => UB | Fatal => Fatal | UB => UB | NoFuel => NoFuel end.

(** 48-65. *)
Definition cb_sampling (ids : list Z) (d : data) : list Z * data :=
  match d with
  | Ok (l, hd, rnd) => match homography_sampling (h_top hd) rnd with Ok (ids', rnd') => (ids', Ok (l, hd, rnd')) | e => (ids, bad e) end
  | e => (ids, bad e)
  end.
(** 67-75. *)
Definition cb_sample_check (ids : list Z) (d : data) : bool * data := (true, d).
(** 77-92. *)
Definition cb_fit (mx : Z) (ms : list model) (ids : list Z) (d : data) : Z * Z * list model * data :=
  match d with
  | Ok (l, hd, rnd) =>
    match sample_matches l ids, ms with
    | Ok ps, m0 :: rest => let (m0, det_zero) := estimate_4pt m0 ps in (if det_zero then 0 else 1, mx, m0 :: rest, d)
    | Ok _, [] => (0, mx, ms, UB)
    | e, _ => (0, mx, ms, bad e)
    end
  | e => (0, mx, ms, bad e)
  end.
(** 94-106. *)
Definition cb_check (mo : model) (ids : list Z) (d : data) : bool * model * data := (check mo, mo, d).
(** 108-122: the number of inliers, as a double. *)
Definition cb_score (mo : model) (ids : list Z) (d : data) : dbl * model * data :=
  match d with
  | Ok (l, hd, rnd) => let (l, n) := mark_inliers good mo l in (d_of_int n, mo, Ok (l, hd, rnd))
  | e => (D_ZERO, mo, bad e)
  end.
(** 124-133. *)
Definition cb_degeneracy (mo : model) (ids : list Z) (d : data) : bool * model * data := (true, mo, d).
(** 135-144. *)
Definition cb_local (new_model mo : model) (ids : list Z) (d : data) : bool * model * data := (false, new_model, d).
(** 146-166; the loop is that of the other estimator. *)
Definition cb_global (new_model mo : model) (d : data) : model * data :=
  match d with
  | Ok (l, hd, rnd) =>
    let (l, n_best) := mark_inliers good mo l in
    match refine good 4 fit (S (length l)) mo l n_best 1 with
    | Ok (h, l, _) => (h, Ok (l, hd, rnd))
    | e => (mo, bad e)
    end
  | e => (mo, bad e)
  end.
(** 168-186. *)
Definition cb_terminate (best : model) (score : dbl) (d : data) : bool * data :=
  match d with
  | Ok (l, hd, rnd) => match homography_terminate cvt score hd with Ok (stop, hd) => (stop, Ok (l, hd, rnd)) | e => (true, bad e) end
  | e => (true, bad e)
  end.
(** 188-231.  [junk] and [junk_ids] are the contents of the buffers of nx_usac
    before they are written. *)
Definition estimate (h junk : model) (junk_ids : list Z) (l : list corr) (max_n_iter : Z) (rnd : list Z) : res (model * list corr * Z * list event * list Z) :=
  let n_corr := Z.of_nat (length l) in
  if n_corr <? 4 then Ok (h, l, 0, [], rnd) else
  let* (_, best, d, log) := usac data cb_sampling cb_sample_check cb_fit cb_check cb_score cb_degeneracy cb_local cb_global cb_terminate
                                 (S (Z.to_nat max_n_iter)) 9 4 junk junk_ids (Ok (qsort l, homography_data n_corr max_n_iter, rnd)) in
  let* (l, _, rnd) := d in
  let (l, n) := mark_inliers good best l in
  Ok (best, l, (if check best then n else 0), log, rnd).
End Uh.
