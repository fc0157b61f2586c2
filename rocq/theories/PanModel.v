(** Paths to the reference image of panoramas: tools/nx_panorama_builder.c:238-284 and
    394-416.

    Simplifications.  Doubles are reals, and DBL_MAX is a real [big].  The arrays next_node,
    node_val, visited, weights and H are functions on indices, as loops keep all indices
    from 0 to n - 1 except [current], which may be -1: writing visited[-1] is undefined. *)
From Verif Require Import Base ProjModel.
Local Open Scope R_scope.

Definition put {A} (f : nat -> A) (i : nat) (v : A) : nat -> A := fun j => if Nat.eqb j i then v else f j.
(** node_val, next_node (None is -1) and visited. *)
Record st := mkSt { val : nat -> R; next : nat -> option nat; vis : nat -> bool }.

Section Paths.
Variables (big : R) (n : nat).
(** weights[i * n + j]. *)
Variable w : nat -> nat -> R.
(** 240-253. *)
Definition init (source : nat) : st :=
  mkSt (put (fun _ => big) source 0) (put (fun _ => None) source (Some source)) (fun _ => false).
(** The unvisited node of least value below DBL_MAX, 256-263; None is -1. *)
Definition pick (s : st) : option nat * R :=
  fold_left (fun '(cur, cv) i => if negb (vis s i) && r_lt (val s i) cv then (Some i, val s i) else (cur, cv)) (seq 0 n) (None, big).
(** The loop body of 268-279 for node [i]. *)
Definition relax (c : nat) (s : st) (i : nat) : st :=
  if vis s i then s
  else
    let d := if r_lt (w c i) 0 then big else w c i in
    let v := val s c + d in
    if r_lt v (val s i) then mkSt (put (val s) i v) (put (next s) i (Some c)) (vis s) else s.
(** One round of the while loop, 255-280. *)
Definition round (s : st) : res st :=
  match fst (pick s) with
  | None => UB
  | Some c => Ok (fold_left (relax c) (seq 0 n) (mkSt (val s) (next s) (put (vis s) c true)))
  end.
(** nx_panorama_builder_find_shortest_paths, 238-285: n rounds. *)
Definition find_shortest_paths (source : nat) : res (nat -> option nat) :=
  let* s := for_each (fun _ s => round s) (seq 0 n) (init source) in
  Ok (next s).
End Paths.
(** The loop from a node to the reference image, 400-413, with the homography from image i
    to image j in H j i; NX_ASSERT_PTR refuses a missing one. *)
Fixpoint walk (fuel : nat) (H : nat -> nat -> option mat3) (nx : nat -> option nat) (node : nat) (acc : mat3) : res mat3 :=
  match fuel with
  | O => NoFuel
  | S fuel =>
    match nx node with
    | None => UB
    | Some next =>
      if Nat.eqb node next then Ok acc
      else match H next node with
           | None => Fatal
           | Some h => walk fuel H nx next (dmat3_mul h acc)
           end
    end
  end.
(** H_to_ref of image [i], 397-415. *)
Definition to_ref (fuel : nat) (H : nat -> nat -> option mat3) (nx : nat -> option nat) (i : nat) : res mat3 := walk fuel H nx i dmat3_eye.
