(** What a random sampling estimator must answer. *)
From Verif Require Import Base BaseLemmas.
Local Open Scope Z_scope.

Section Spec.
Context {M P : Type}.
Variable good : M -> P -> bool.
(** The number of matches that agree with a matrix. *)
Definition support (h : M) (ps : list P) : Z := Z.of_nat (length (filter (good h) ps)).
(** The flags are those of the matrix. *)
Definition flags_of (h : M) (l : list (P * bool)) : Prop := forall p b, In (p, b) l -> b = good h p.
(** Repeated estimation from all agreeing matches, as long as more than five
    matches are gained over the [n] of the round before (the first round counts
    from 1); fewer than [least] matches give no new estimate. *)
Variable fit : M -> list P -> M.
Variable least : Z.
Inductive refined (ps : list P) : Z -> M -> M -> Prop :=
| refined_stop n h : support h ps <= n + 5 -> refined ps n h h
| refined_more n h g : n + 5 < support h ps ->
    refined ps (support h ps) (if support h ps <? least then h else fit h (filter (good h) ps)) g -> refined ps n h g.
(** The first of the sampled matrices with the largest support, if that is not zero. *)
Definition first_best (ps : list P) (hs : list M) (h : M) : Prop :=
  exists before after, hs = before ++ h :: after /\ 0 < support h ps /\
    Forall (fun g => support g ps < support h ps) before /\ Forall (fun g => support g ps <= support h ps) after.
(** The sampled matrices, each with its support. *)
Definition log_of (ps : list P) (log : list (M * Z)) : Prop := Forall (fun e => snd e = support (fst e) ps) log.
End Spec.
