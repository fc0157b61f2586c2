(** Specification vocabulary for JSON: values, their representation by linked
    nodes, the token grammar, and the abstract state of an API history. *)
From Verif Require Import Base Heap LexModel LexSpec JsonModel.
Local Open Scope N_scope.

(** JSON values; numbers are kept as text, objects as ordered member lists. *)
Inductive json :=
| JObj (ms : list (list N * json))
| JArr (vs : list json)
| JStr (s : list N)
| JInt (s : list N)
| JFp (s : list N)
| JTrue | JFalse | JNull.

(** Strings the printer and the parser can carry: no NUL and no byte 255 (the
    lexer takes it for the end of the input).  Numbers follow the grammar. *)
Definition str_ok (s : list N) : Prop := Forall (fun b => 0 < b < 255) s.
Inductive json_ok : json -> Prop :=
| ok_obj ms : Forall (fun m => str_ok (fst m) /\ json_ok (snd m)) ms -> json_ok (JObj ms)
| ok_arr vs : Forall json_ok vs -> json_ok (JArr vs)
| ok_str s : str_ok s -> json_ok (JStr s)
| ok_int s : json_number s LNT_INTEGER -> json_ok (JInt s)
| ok_fp s : json_number s LNT_FLOAT -> json_ok (JFp s)
| ok_true : json_ok JTrue
| ok_false : json_ok JFalse
| ok_null : json_ok JNull.

Definition composite (j : json) : Prop := (exists ms, j = JObj ms) \/ (exists vs, j = JArr vs).

(** What the constructors make of a value: false and null become true. *)
Fixpoint built (j : json) : json :=
  match j with
  | JObj ms => JObj (map (fun m => (fst m, built (snd m))) ms)
  | JArr vs => JArr (map built vs)
  | JFalse | JNull => JTrue
  | _ => j
  end.

(** No false and no null inside. *)
Inductive plain : json -> Prop :=
| pl_obj ms : Forall (fun m => plain (snd m)) ms -> plain (JObj ms)
| pl_arr vs : Forall plain vs -> plain (JArr vs)
| pl_str s : plain (JStr s)
| pl_int s : plain (JInt s)
| pl_fp s : plain (JFp s)
| pl_true : plain JTrue.

Fixpoint depth (j : json) : nat :=
  match j with
  | JObj ms => S (fold_right (fun m d => Nat.max (depth (snd m)) d) 0%nat ms)
  | JArr vs => S (fold_right (fun v d => Nat.max (depth v) d) 0%nat vs)
  | _ => 0%nat
  end.

(** ** Trees of nodes.  [IT p ty text kids]: the node at address [p] with its
    type, text and children in order. *)
Inductive itree := IT (p : nat) (ty : N) (text : option (list N)) (kids : list itree).
Definition iid (t : itree) : nat := let 'IT p _ _ _ := t in p.
Definition first_id (ts : list itree) : option nat := match ts with [] => None | t :: _ => Some (iid t) end.
Definition last_id (ts : list itree) : option nat := first_id (rev ts).
Fixpoint ids (t : itree) : list nat := let 'IT p _ _ ks := t in p :: flat_map ids ks.

(** The heap holds the tree; [right] is the next sibling of its root. *)
Fixpoint tree_at (h : heap node) (right : option nat) (t : itree) : Prop :=
  match t with
  | IT p ty tx ks =>
    cell h p = Some (mkNode ty tx right (first_id ks) (last_id ks)) /\
    (fix siblings (ts : list itree) : Prop :=
       match ts with [] => True | t :: ts' => tree_at h (first_id ts') t /\ siblings ts' end) ks
  end.

(** The tree without addresses, and the tree of a JSON value: the children of
    an object alternate between names and values. *)
Inductive gtree := GT (ty : N) (text : option (list N)) (kids : list gtree).
Fixpoint strip (t : itree) : gtree := let 'IT _ ty tx ks := t in GT ty tx (map strip ks).
Fixpoint gen (j : json) : gtree :=
  match j with
  | JObj ms => GT JNT_OBJECT None (flat_map (fun m => [GT JNT_STRING (Some (fst m)) []; gen (snd m)]) ms)
  | JArr vs => GT JNT_ARRAY None (map gen vs)
  | JStr s => GT JNT_STRING (Some s) []
  | JInt s => GT JNT_INTEGER (Some s) []
  | JFp s => GT JNT_FPNUMBER (Some s) []
  | JTrue => GT JNT_TRUE None []
  | JFalse => GT JNT_FALSE None []
  | JNull => GT JNT_NULL None []
  end.

(** The node at [p] is the root of a tree for [j], at [p :: tl L] = [L]. *)
Definition tree_for (h : heap node) (right : option nat) (p : nat) (j : json) (L : list nat) : Prop :=
  exists t, tree_at h right t /\ iid t = p /\ strip t = gen j /\ ids t = L /\ NoDup L.
Definition shows (h : heap node) (p : nat) (j : json) : Prop := exists right L, tree_for h right p j L.

(** ** The JSON grammar on tokens. *)
Fixpoint sep {A} (x : A) (ls : list (list A)) : list A :=
  match ls with [] => [] | [l] => l | l :: ls' => l ++ x :: sep x ls' end.
Inductive spelled : json -> list token -> Prop :=
| sp_obj ms ls : Forall2 (fun m l => exists l', l = Tstr (fst m) :: Tcolon :: l' /\ spelled (snd m) l') ms ls ->
    spelled (JObj ms) (Tlcb :: sep Tcomma ls ++ [Trcb])
| sp_arr vs ls : Forall2 spelled vs ls -> spelled (JArr vs) (Tlsb :: sep Tcomma ls ++ [Trsb])
| sp_str s : spelled (JStr s) [Tstr s]
| sp_int s : spelled (JInt s) [Tint s]
| sp_fp s : spelled (JFp s) [Tfp s]
| sp_true : spelled JTrue [Ttrue]
| sp_false : spelled JFalse [Tfalse]
| sp_null : spelled JNull [Tnull].

(** The tokens of a text, in the order the lexer delivers them. *)
Inductive tokens_from (t : list N) : lexer -> list token -> Prop :=
| tk_end l l' : next_token t l = Ok (l', Teof) -> tokens_from t l []
| tk_next l l' k L : next_token t l = Ok (l', k) -> k <> Teof -> tokens_from t l' L -> tokens_from t l (k :: L).
Definition tokens (t : list N) (L : list token) : Prop := exists l, lexer_new t = Ok l /\ tokens_from t l L.

(** ** Quoted strings.  The characters between the quotes of an accepted
    string: no bare quote, and backslashes only before an escape letter. *)
Definition escape (b : N) : Prop := In b [34; 92; 47; 98; 102; 110; 114; 116].
Inductive quoted_body : list N -> Prop :=
| qb_nil : quoted_body []
| qb_char b c : b <> 34 -> b <> 92 -> quoted_body c -> quoted_body (b :: c)
| qb_esc e c : escape e -> quoted_body c -> quoted_body (92 :: e :: c).
(** Some escape in it is an escaped slash. *)
Inductive slash_escaped : list N -> Prop :=
| se_here c : slash_escaped (92 :: 47 :: c)
| se_char b c : b <> 92 -> slash_escaped c -> slash_escaped (b :: c)
| se_esc e c : slash_escaped c -> slash_escaped (92 :: e :: c).

(** ** A value built bottom up with the constructors and the add calls. *)
Fixpoint build (h : heap node) (j : json) : res (heap node * nat) :=
  match j with
  | JObj ms =>
    let (h, o) := new_object h in
    let* h := (fix go (ms : list (list N * json)) (h : heap node) : res (heap node) :=
                 match ms with
                 | [] => Ok h
                 | m :: ms' => let* (h, n) := build h (snd m) in let* h := object_add h o (fst m) n in go ms' h
                 end) ms h in
    Ok (h, o)
  | JArr vs =>
    let (h, a) := new_array h in
    let* h := (fix go (vs : list json) (h : heap node) : res (heap node) :=
                 match vs with
                 | [] => Ok h
                 | v :: vs' => let* (h, n) := build h v in let* h := array_add h a n in go vs' h
                 end) vs h in
    Ok (h, a)
  | JStr s => Ok (new_string h s)
  | JInt s => Ok (new_integer h s)
  | JFp s => Ok (new_fpnumber h s)
  | JTrue => Ok (new_true h)
  | JFalse => Ok (new_false h)
  | JNull => Ok (new_null h)
  end.

(** The type bit of a value, and the test against a mask of types. *)
Definition json_type (j : json) : N :=
  match j with
  | JObj _ => 1 | JArr _ => 2 | JStr _ => 4 | JInt _ => 8 | JFp _ => 16 | JTrue => 32 | JFalse => 64 | JNull => 128
  end.
Definition has_type (ty : N) (j : json) : bool := negb (N.land (json_type j) ty =? 0).
(** The first member called [name]. *)
Definition first_member (name : list N) (ms : list (list N * json)) : option (list N * json) :=
  find (fun m => if list_eq_dec N.eq_dec (fst m) name then true else false) ms.

(** Two sets of addresses without a common element. *)
Definition apart (a b : list nat) : Prop := forall q, In q a -> ~ In q b.
