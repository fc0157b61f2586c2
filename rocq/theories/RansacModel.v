(** Model of the random sampling estimators nx_homography_estimate_ransac,
    src/nx_homography.c:259-343, and nx_fundamental_estimate_ransac,
    src/nx_epipolar.c:208-278.  What is specific to the matrices is a parameter:
    [M] is a matrix of nine doubles (whatever their values), [P] a match without
    its inlier flag, [good h p] the test of the marking loops for the tolerance in
    use, and the estimators are functions of the matches they are given. *)
From Verif Require Import Base BaseLemmas UsacModel.
Local Open Scope Z_scope.

Section Ransac.
Context {M P : Type}.
Notation corr := (P * bool)%type.
Variable good : M -> P -> bool.
(** nx_homography_mark_inliers, nx_homography.c:100-123, and
    nx_fundamental_mark_inliers, nx_epipolar.c:40-61. *)
Fixpoint mark_loop (h : M) (l : list corr) (n : Z) : list corr * Z :=
  match l with
  | [] => ([], n)
  | (p, _) :: l' => let '(r, k) := mark_loop h l' (if good h p then n + 1 else n) in ((p, good h p) :: r, k)
  end.
Definition mark_inliers (h : M) (l : list corr) : list corr * Z := mark_loop h l 0.
(** nx_point_match_2d_count_inliers and the loop that collects the constraints of
    the inliers, nx_homography.c:238-256 and nx_epipolar.c:164-189.  [fit h ps]
    is the matrix solved for; with fewer than [least] inliers it is left alone. *)
Variable least : Z.
Variable fit : M -> list P -> M.
Definition estimate_inliers (h : M) (l : list corr) : M :=
  let ps := map fst (filter snd l) in
  if Z.of_nat (length ps) <? least then h else fit h ps.

(** The variables of the two functions.  [v_log] is the record of the sampled
    matrices with their numbers of inliers. *)
Record vars := Vars { v_h : M; v_best : M; v_n_best : Z; v_n : Z; v_top : Z; v_list : list corr; v_rnd : list Z; v_log : list (M * Z) }.
(** [propose top h l rnd]: a sampled matrix. *)
Variable propose : Z -> M -> list corr -> list Z -> res (M * list Z).
Variable enough : Z.   (* 200 and 100 *)
(** nx_homography.c:288-318, nx_epipolar.c:237-259: [k] iterations are left. *)
Fixpoint main_loop (k : nat) (v : vars) : res vars :=
  match k with
  | O => Ok v
  | S k =>
    if v_n v <? enough then
      let* (h, rnd) := propose (v_top v) (v_h v) (v_list v) (v_rnd v) in
      let (l, n) := mark_inliers h (v_list v) in
      let n_corr := Z.of_nat (length (v_list v)) in
      let (best, n_best) := if v_n_best v <? n then (h, n) else (v_best v, v_n_best v) in
      let* top := chk_int (v_top v + 1) in
      let top := if n_corr <=? top then n_corr else top in
      main_loop k (Vars h best n_best n top l rnd (v_log v ++ [(h, n)]))
    else Ok v
  end.
(** 320-328, 261-274: estimation from all inliers while that helps. *)
Fixpoint refine (fuel : nat) (h : M) (l : list corr) (n_best n : Z) : res (M * list corr * Z) :=
  match fuel with
  | O => NoFuel
  | S fuel =>
    let* n5 := chk_int (n + 5) in
    if n5 <? n_best then
      let h := estimate_inliers h l in
      let n := n_best in
      let (l, n_best) := mark_inliers h l in
      refine fuel h l n_best n
    else Ok (h, l, n_best)
  end.
Variable qsort : list corr -> list corr.   (* by match cost *)
(** The whole: the matrix, the matches, the number of inliers, what was sampled
    and what is left of the random numbers.  [junk] is the content of the local
    array h_best before it is written. *)
Definition ransac (h junk : M) (l : list corr) (max_n_iter : Z) (rnd : list Z) : res (M * list corr * Z * list (M * Z) * list Z) :=
  let n_corr := Z.of_nat (length l) in
  if n_corr <? least then Ok (h, l, 0, [], rnd) else
  let top := if n_corr <? 10 then n_corr else 10 in
  let* v := main_loop (Z.to_nat max_n_iter) (Vars h junk 0 0 top (qsort l) rnd []) in
  let h := v_best v in
  let (l, n_best) := mark_inliers (v_best v) (v_list v) in
  let* (h, l, n_best) := refine (S (length l)) h l n_best 1 in
  Ok (h, l, n_best, v_log v, v_rnd v).

(** corr_list[corr_ids[i]] for the sample. *)
Fixpoint sample_matches (l : list corr) (ids : list Z) : res (list P) :=
  match ids with
  | [] => Ok []
  | i :: ids => let* c := zget l i in let* ps := sample_matches l ids in Ok (fst c :: ps)
  end.
End Ransac.
Arguments Vars {M P}.

(** ** Homographies *)
Section Homography.
Context {M P : Type}.
Variable good : M -> P -> bool.
Variable fit : M -> list P -> M.
(** nx_homography_estimate_4pt, 150-183: the new contents of h (unchanged when the
    determinant is zero) and whether the determinant returned is zero. *)
Variable estimate_4pt : M -> list P -> M * bool.
Variable check : M -> bool.   (* nx_homography_check(h, max_abs_cos) *)
Variable qsort : list (P * bool) -> list (P * bool).
(** 291-297: do { ... } while ((det == 0.0) && --tries && !nx_homography_check(h, max_abs_cos));
    nx_select_prosac_candidates, 242-257, is the same code as
    nx_usac_homography_sampling. *)
Fixpoint tries_loop (tries : nat) (top : Z) (h : M) (l : list (P * bool)) (rnd : list Z) : res (M * list Z) :=
  match tries with
  | O => NoFuel
  | S tries =>
    let* (ids, rnd) := homography_sampling top rnd in
    let* ps := sample_matches l ids in
    let (h, det_zero) := estimate_4pt h ps in
    if det_zero then
      match tries with
      | O => Ok (h, rnd)
      | S _ => if negb (check h) then tries_loop tries top h l rnd else Ok (h, rnd)
      end
    else Ok (h, rnd)
  end.
Definition homography_ransac (h junk : M) (l : list (P * bool)) (max_n_iter : Z) (rnd : list Z) : res (M * list (P * bool) * Z * list (M * Z) * list Z) :=
  if Z.of_nat (length l) <? 4 then Ok (h, l, 0, [], rnd) else
  let* (h, l, n, log, rnd) := ransac good 4 fit (tries_loop 10) 200 qsort h junk l max_n_iter rnd in
  Ok (h, l, (if check h then n else 0), log, rnd).
End Homography.

(** ** Fundamental matrices *)
(** nx_select_prosac_candidates, nx_epipolar.c:194-206: for (i = 1; i < 8; ++i);
    [ids] are the indices drawn so far, last first; the inner loop compares with
    all of them except the first, corr_ids[0]; on equality the index is drawn
    again. *)
Fixpoint select_more (top : Z) (ids : list Z) (rnd : list Z) : res (list Z * list Z) :=
  if (8 <=? length ids)%nat then Ok (rev ids, rnd)
  else
    match rnd with
    | [] => NoFuel
    | r :: rnd =>
      let x := UsacModel.draw top r in
      if existsb (Z.eqb x) (removelast ids) then select_more top ids rnd else select_more top (x :: ids) rnd
    end.
Definition select_8 (top : Z) (rnd : list Z) : res (list Z * list Z) :=
  match rnd with [] => NoFuel | r :: rnd => select_more top [UsacModel.draw top r] rnd end.
Section Fundamental.
Context {M P : Type}.
Variable good : M -> P -> bool.
Variable fit : M -> list P -> M.
Variable estimate_8pt : list P -> M.
Variable qsort : list (P * bool) -> list (P * bool).
Definition propose_8 (top : Z) (h : M) (l : list (P * bool)) (rnd : list Z) : res (M * list Z) :=
  let* (ids, rnd) := select_8 top rnd in
  let* ps := sample_matches l ids in
  Ok (estimate_8pt ps, rnd).
Definition fundamental_ransac (h junk : M) (l : list (P * bool)) (max_n_iter : Z) (rnd : list Z) : res (M * list (P * bool) * Z * list (M * Z) * list Z) :=
  ransac good 8 fit propose_8 100 qsort h junk l max_n_iter rnd.
End Fundamental.
