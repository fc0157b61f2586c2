(** Model of the graphs, src/nx_graph.c and include/virg/nexus/nx_graph.h.

    A double is its 64-bit pattern.  The only comparison is with DBL_MAX, which
    has one pattern and equals no other double, so comparing patterns is exact.
    The name of a graph and the log messages are left out. *)
From Verif Require Import Base BaseLemmas Heap.
Local Open Scope Z_scope.

(** NX_ABSENT_EDGE_WEIGHT, nx_graph.h:37: DBL_MAX, 0x7FEFFFFFFFFFFFFF. *)
Definition ABSENT : N := 9218868437227405311%N.

(** struct NXGraphAdjMat, nx_graph.h:39-44. *)
Record adj_mat := { m_nv : Z; m_ne : Z; m_w : list N }.

(** nx_graph_new_adj_mat, 34-46; nx_dmat_set, include/virg/nexus/nx_mat.h:61-69,
    fills n_v columns of n_v entries. *)
Definition new_adj_mat (n_v : Z) : res adj_mat :=
  if n_v <? 0 then Fatal
  else let* sz := chk_int (n_v * n_v) in
       Ok {| m_nv := n_v; m_ne := 0; m_w := repeat ABSENT (Z.to_nat sz) |}.

(** NX_ASSERT_INDEX, include/virg/nexus/nx_assert.h. *)
Definition assert_index (i n : Z) : res unit := if (0 <=? i) && (i <? n) then Ok tt else Fatal.

(** w * g->n_v + v, 69-72. *)
Definition mat_index (g : adj_mat) (v w : Z) : res Z :=
  let* p := chk_int (w * m_nv g) in chk_int (p + v).
(** nx_graph_insert_adj_mat, 57-73. *)
Definition insert_adj_mat (g : adj_mat) (v w : Z) (weight : N) : res adj_mat :=
  let* _ := assert_index v (m_nv g) in
  let* _ := assert_index w (m_nv g) in
  if v =? w then Ok g
  else
    let* i := mat_index g v w in
    let* old := zget (m_w g) i in
    let* n_e := (if (old =? ABSENT)%N then chk_int (m_ne g + 1) else Ok (m_ne g)) in
    let* ws := zset (m_w g) i weight in
    let* j := mat_index g w v in
    let* ws := zset ws j weight in
    Ok {| m_nv := m_nv g; m_ne := n_e; m_w := ws |}.

(** The entry a user reads: g->weights[w * g->n_v + v]. *)
Definition mat_weight (g : adj_mat) (v w : Z) : res N := let* i := mat_index g v w in zget (m_w g) i.

(** struct NXGraphEdge, nx_graph.h:52-56. *)
Record edge := { e_v : Z; e_w : N; e_next : option nat }.
(** struct NXGraphAdjLst, nx_graph.h:64-69. *)
Record adj_lst := { l_nv : Z; l_ne : Z; l_edges : list (option nat) }.

(** nx_graph_new_adj_lst, 113-127. *)
Definition new_adj_lst (n_v : Z) : res adj_lst :=
  if n_v <? 0 then Fatal
  else Ok {| l_nv := n_v; l_ne := 0; l_edges := repeat None (Z.to_nat n_v) |}.

(** nx_graph_edge_new, 75-86. *)
Definition edge_new (h : heap edge) (v : Z) (weight : N) (next : option nat) : res (heap edge * nat) :=
  if v <? 0 then Fatal else Ok (halloc h {| e_v := v; e_w := weight; e_next := next |}).

(** nx_graph_edge_list_seach, 102-111. *)
Fixpoint edge_list_search (fuel : nat) (h : heap edge) (head : option nat) (v : Z) : res (option nat) :=
  match fuel with
  | O => NoFuel
  | S f =>
    match head with
    | None => Ok None
    | Some p => let* e := hget h p in
                if e_v e =? v then Ok (Some p) else edge_list_search f h (e_next e) v
    end
  end.

(** 152-156 and 158-162: one direction of an insertion. *)
Definition insert_half (h : heap edge) (g : adj_lst) (v w : Z) (weight : N) : res (heap edge * adj_lst) :=
  let* head := zget (l_edges g) v in
  let* e := edge_list_search (S (length h)) h head w in
  match e with
  | Some p => let* old := hget h p in
              let* h := hset h p {| e_v := e_v old; e_w := weight; e_next := e_next old |} in
              Ok (h, g)
  | None => let* head := zget (l_edges g) v in
            let* (h, p) := edge_new h w weight head in
            let* es := zset (l_edges g) v (Some p) in
            Ok (h, {| l_nv := l_nv g; l_ne := l_ne g; l_edges := es |})
  end.
(** nx_graph_insert_adj_lst, 140-163. *)
Definition insert_adj_lst (h : heap edge) (g : adj_lst) (v w : Z) (weight : N) : res (heap edge * adj_lst) :=
  let* _ := assert_index v (l_nv g) in
  let* _ := assert_index w (l_nv g) in
  if v =? w then Ok (h, g)
  else
    let* (h, g) := insert_half h g v w weight in
    insert_half h g w v weight.

(** nx_graph_edge_list_free, 93-100. *)
Fixpoint edge_list_free (fuel : nat) (h : heap edge) (e : option nat) : res (heap edge) :=
  match fuel with
  | O => NoFuel
  | S f =>
    match e with
    | None => Ok h
    | Some p => let* n := hget h p in
                let* h := hfree h p in
                edge_list_free f h (e_next n)
    end
  end.
(** nx_graph_free_adj_lst, 129-138: the edge lists. *)
Definition free_adj_lst (h : heap edge) (g : adj_lst) : res (heap edge) :=
  for_each (fun i h => let* e := zget (l_edges g) (Z.of_nat i) in edge_list_free (S (length h)) h e)
           (seq 0 (Z.to_nat (l_nv g))) h.

(** Driver: insertions in order, and the neighbours of a vertex as a user
    walks them. *)
Definition run_mat (n : Z) (ins : list (Z * Z * N)) : res adj_mat :=
  let* g := new_adj_mat n in
  for_each (fun '(v, w, x) g => insert_adj_mat g v w x) ins g.
Definition run_lst (n : Z) (ins : list (Z * Z * N)) : res (heap edge * adj_lst) :=
  let* g := new_adj_lst n in
  for_each (fun '(v, w, x) '(h, g) => insert_adj_lst h g v w x) ins ([], g).
Fixpoint walk (fuel : nat) (h : heap edge) (p : option nat) : res (list (Z * N)) :=
  match fuel with
  | O => NoFuel
  | S f =>
    match p with
    | None => Ok []
    | Some q => let* e := hget h q in
                let* l := walk f h (e_next e) in
                Ok ((e_v e, e_w e) :: l)
    end
  end.
Definition neighbours (h : heap edge) (g : adj_lst) (v : Z) : res (list (Z * N)) :=
  let* p := zget (l_edges g) v in walk (S (length h)) h p.
