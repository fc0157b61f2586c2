(** A small heap: cells are never reused, a freed cell stays [None].  Reading,
    writing or freeing a cell that is not live is undefined behaviour. *)
From Verif Require Import Base BaseLemmas.

Notation heap A := (list (option A)).

(** malloc: a fresh cell (allocation is assumed to succeed; in the library a
    failing allocation ends in NX_FATAL, src/nx_alloc.c:84-112). *)
Definition halloc {A} (h : heap A) (a : A) : heap A * nat := (h ++ [Some a], length h).
Definition hget {A} (h : heap A) (p : nat) : res A :=
  match nth_error h p with Some (Some a) => Ok a | _ => UB end.
Definition hset {A} (h : heap A) (p : nat) (a : A) : res (heap A) :=
  match nth_error h p with Some (Some _) => Ok (lset h p (Some a)) | _ => UB end.
(** free of a non-NULL pointer. *)
Definition hfree {A} (h : heap A) (p : nat) : res (heap A) :=
  match nth_error h p with Some (Some _) => Ok (lset h p None) | _ => UB end.
(** nx_free, src/nx_alloc.c:114-117: free(NULL) does nothing. *)
Definition nx_free {A} (h : heap A) (p : option nat) : res (heap A) :=
  match p with None => Ok h | Some q => hfree h q end.

(** The live cell at [p], if any. *)
Definition cell {A} (h : heap A) (p : nat) : option A :=
  match nth_error h p with Some (Some a) => Some a | _ => None end.

Lemma hget_cell {A} (h : heap A) p a : hget h p = Ok a <-> cell h p = Some a.
Proof. unfold hget, cell. destruct (nth_error h p) as [[x|]|]; split; congruence. Qed.

Lemma cell_lt {A} (h : heap A) p a : cell h p = Some a -> p < length h.
Proof.
  unfold cell. intros H. apply nth_error_Some. destruct (nth_error h p); congruence.
Qed.

Lemma cell_alloc_new {A} (h : heap A) a : cell (h ++ [Some a]) (length h) = Some a.
Proof. unfold cell. rewrite nth_error_app2, Nat.sub_diag by lia. reflexivity. Qed.

Lemma cell_app_old {A} (h h' : heap A) p : p < length h -> cell (h ++ h') p = cell h p.
Proof. intros H. unfold cell. rewrite nth_error_app1 by auto. reflexivity. Qed.

Lemma cell_alloc {A} (h : heap A) a p :
  cell (h ++ [Some a]) p = if p =? length h then Some a else cell h p.
Proof.
  destruct (Nat.eqb_spec p (length h)) as [->|H]; [apply cell_alloc_new|].
  destruct (Nat.lt_ge_cases p (length h)) as [Hl|Hl]; [apply cell_app_old; auto|].
  unfold cell. rewrite (proj2 (nth_error_None h p)) by lia.
  rewrite (proj2 (nth_error_None _ p)); [reflexivity|]. rewrite app_length; simpl; lia.
Qed.

Lemma hfree_ok {A} (h : heap A) p a : cell h p = Some a -> hfree h p = Ok (lset h p None).
Proof. unfold hfree, cell. destruct (nth_error h p) as [[x|]|]; congruence. Qed.

Lemma hset_ok {A} (h : heap A) p a b : cell h p = Some a -> hset h p b = Ok (lset h p (Some b)).
Proof. unfold hset, cell. destruct (nth_error h p) as [[x|]|]; congruence. Qed.

Lemma cell_lset {A} (h : heap A) p q v :
  p < length h -> cell (lset h p v) q = if q =? p then v else cell h q.
Proof.
  intros H. unfold cell. destruct (Nat.eqb_spec q p) as [->|Hn].
  - rewrite nth_error_lset_eq by auto. destruct v; reflexivity.
  - rewrite nth_error_lset_neq by auto. reflexivity.
Qed.

(** Number of live cells. *)
Fixpoint live {A} (h : heap A) : nat :=
  match h with [] => 0 | Some _ :: t => S (live t) | None :: t => live t end.
