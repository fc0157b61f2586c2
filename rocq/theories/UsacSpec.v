(** What the record of a search says about the hypotheses it met. *)
From Verif Require Import Base Dbl UsacModel.
Local Open Scope Z_scope.

(** The models scored during the search with their scores, except those the
    degeneracy check rejected straight after. *)
Fixpoint standing (log : list event) : list (model * dbl) :=
  match log with
  | [] => []
  | EScore mo x :: rest =>
    match rest with
    | EDegen _ false :: _ => standing rest
    | _ => (mo, x) :: standing rest
    end
  | _ :: rest => standing rest
  end.
Definition standing_scores (log : list event) : list dbl := map snd (standing log).
(** The best scores shown to the termination check, in order. *)
Fixpoint shown_scores (log : list event) : list dbl :=
  match log with
  | [] => []
  | ETerm _ x _ :: rest => x :: shown_scores rest
  | _ :: rest => shown_scores rest
  end.
