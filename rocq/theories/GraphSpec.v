(** What a user expects of an undirected weighted graph built by insertions. *)
From Verif Require Import Base.
Local Open Scope Z_scope.

(** Insertion [i] is about the edge between [v] and [w]. *)
Definition about (v w : Z) (i : Z * Z * N) : Prop :=
  let '(a, b, _) := i in a <> b /\ ((a = v /\ b = w) \/ (a = w /\ b = v)).
(** The weight given last to the edge between [v] and [w]. *)
Inductive has_edge (ins : list (Z * Z * N)) (v w : Z) (x : N) : Prop :=
| has_edge_intro : forall before i after, ins = before ++ i :: after ->
    about v w i -> snd i = x -> (forall j, In j after -> ~ about v w j) -> has_edge ins v w x.
Definition in_range (n : Z) (i : Z * Z * N) : Prop :=
  let '(a, b, _) := i in 0 <= a < n /\ 0 <= b < n.
(** [L] lists every undirected edge once, smaller end first. *)
Definition lists_edges (ins : list (Z * Z * N)) (L : list (Z * Z)) : Prop :=
  NoDup L /\ forall a b, In (a, b) L <-> a < b /\ exists x, has_edge ins a b x.
