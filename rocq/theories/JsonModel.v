(** Model of src/nx_json_lexer.c, src/nx_json_parser.c, src/nx_json_tree.c and
    of part of src/nx_json_bundle.c.

    Nodes live in a heap (Heap.v).  A node owns its text (a private copy made
    by nx_strdup), so the text is stored in the node itself.  Memory of the
    lexer and parser objects, released at the end of parsing, is not modelled.
    The int counter of nx_json_node_n_children is unbounded here. *)
From Verif Require Import Base Heap StrModel LexModel CsvModel DfModel.
Local Open Scope N_scope.

(** ** Node types, include/virg/nexus/nx_json_tree.h:36-50. *)
Definition JNT_OBJECT : N := 1.
Definition JNT_ARRAY : N := 2.
Definition JNT_STRING : N := 4.
Definition JNT_INTEGER : N := 8.
Definition JNT_FPNUMBER : N := 16.
Definition JNT_TRUE : N := 32.
Definition JNT_FALSE : N := 64.
Definition JNT_NULL : N := 128.
Definition JNT_NUMBER : N := N.lor JNT_INTEGER JNT_FPNUMBER.
Definition JNT_BOOL : N := N.lor JNT_TRUE JNT_FALSE.

(** struct NXJSONNode, src/nx_json_tree.c:39-46. *)
Record node := mkNode { jtype : N; jtext : option (list N); jright : option nat; jdown : option nat; jlast : option nat }.

Definition set_right (n : node) (r : option nat) : node := mkNode (jtype n) (jtext n) r (jdown n) (jlast n).
Definition set_last (n : node) (l : option nat) : node := mkNode (jtype n) (jtext n) (jright n) (jdown n) l.
Definition set_down (n : node) (d : option nat) : node := mkNode (jtype n) (jtext n) (jright n) d (jlast n).

(** nx_json_node_alloc and the new_composite / new_constant / new_variable
    helpers, 125-155. *)
Definition node_new (h : heap node) (ty : N) (text : option (list N)) : heap node * nat :=
  halloc h (mkNode ty text None None None).

(** 157-195.  The argument of the text constructors is a C string. *)
Definition new_object (h : heap node) := node_new h JNT_OBJECT None.
Definition new_array (h : heap node) := node_new h JNT_ARRAY None.
Definition new_string (h : heap node) (s : list N) := node_new h JNT_STRING (Some s).
Definition new_integer (h : heap node) (s : list N) := node_new h JNT_INTEGER (Some s).
Definition new_fpnumber (h : heap node) (s : list N) := node_new h JNT_FPNUMBER (Some s).
Definition new_true (h : heap node) := node_new h JNT_TRUE None.
(** 187-190 *)
Definition new_false (h : heap node) := node_new h JNT_TRUE None.
(** 192-195 *)
Definition new_null (h : heap node) := node_new h JNT_TRUE None.

(** nx_json_node_add_child, 380-393. *)
Fixpoint last_loop (fuel : nat) (h : heap node) (parent : nat) : res (heap node) :=
  match fuel with
  | O => NoFuel
  | S f =>
    let* P := hget h parent in
    match jlast P with
    | None => UB
    | Some l => let* L := hget h l in
                match jright L with
                | None => Ok h
                | Some r => let* h := hset h parent (set_last P (Some r)) in last_loop f h parent
                end
    end
  end.
Definition add_child (h : heap node) (parent n : nat) : res (heap node) :=
  let* P := hget h parent in
  let* h := match jlast P with
            | None => hset h parent (set_last (set_down P (Some n)) (Some n))
            | Some l => let* L := hget h l in hset h l (set_right L (Some n))
            end in
  last_loop (S (S (length h))) h parent.

(** nx_json_node_is, nx_json_node_is_a, 212-220; [None] is NULL. *)
Definition node_is (h : heap node) (p : option nat) (ty : N) : res bool :=
  match p with None => Ok false | Some p => let* n := hget h p in Ok (jtype n =? ty) end.
Definition node_is_a (h : heap node) (p : option nat) (ty : N) : res bool :=
  match p with None => Ok false | Some p => let* n := hget h p in Ok (negb (N.land (jtype n) ty =? 0)) end.

(** nx_json_array_add, 395-402, and nx_json_object_add, 404-414 (non-NULL
    arguments). *)
Definition array_add (h : heap node) (a n : nat) : res (heap node) :=
  let* A := hget h a in
  if negb (jtype A =? JNT_ARRAY) then Fatal else add_child h a n.
Definition object_add (h : heap node) (o : nat) (name : list N) (n : nat) : res (heap node) :=
  let* Ob := hget h o in
  if negb (jtype Ob =? JNT_OBJECT) then Fatal
  else
    let '(h, m) := new_string h name in
    let* M := hget h m in
    let* h := hset h m (set_right M (Some n)) in
    add_child h o m.

(** nx_json_node_n_children, 227-236. *)
Fixpoint count_loop (fuel : nat) (h : heap node) (child : option nat) (n : Z) : res Z :=
  match fuel with
  | O => NoFuel
  | S f => match child with
           | None => Ok n
           | Some c => let* C := hget h c in count_loop f h (jright C) (n + 1)%Z
           end
  end.
Definition n_children (h : heap node) (p : nat) : res Z :=
  let* P := hget h p in count_loop (S (S (length h))) h (jdown P) 0%Z.

(** nx_json_array_get, 238-254.  position-- is evaluated only for a non-NULL
    n, and overflows for INT_MIN. *)
Fixpoint array_get_loop (fuel : nat) (h : heap node) (n : option nat) (position : Z) : res (option nat) :=
  match fuel with
  | O => NoFuel
  | S f => match n with
           | None => Ok None
           | Some q => let* position' := chk_int (position - 1) in
                       if (0 <? position)%Z then let* Q := hget h q in array_get_loop f h (jright Q) position'
                       else Ok n
           end
  end.
Definition array_get (h : heap node) (a : option nat) (position : Z) (ty : N) : res (option nat) :=
  let* isa := node_is h a JNT_ARRAY in
  match a, isa with
  | Some a, true =>
    let* A := hget h a in
    match jdown A with
    | None => Ok None
    | Some _ =>
      let* n := array_get_loop (S (S (length h))) h (jdown A) position in
      let* ok := node_is_a h n ty in
      if ok then Ok n else Ok None
    end
  | _, _ => Ok None
  end.

(** strcmp(n->text, name) != 0; a NULL text is undefined. *)
Fixpoint bytes_eq (a b : list N) : bool :=
  match a, b with
  | [], [] => true
  | x :: a', y :: b' => (x =? y) && bytes_eq a' b'
  | _, _ => false
  end.
(** nx_json_object_get, 256-279. *)
Fixpoint object_get_loop (fuel : nat) (h : heap node) (n : option nat) (name : list N) : res (option nat) :=
  match fuel with
  | O => NoFuel
  | S f =>
    match n with
    | None => Ok None
    | Some q =>
      let* Q := hget h q in
      match jtext Q with
      | None => UB
      | Some s =>
        if bytes_eq s name then Ok n
        else match jright Q with
             | None => Ok None
             | Some r => let* R := hget h r in object_get_loop f h (jright R) name
             end
      end
    end
  end.
Definition object_get (h : heap node) (o : option nat) (name : list N) (ty : N) : res (option nat) :=
  let* iso := node_is h o JNT_OBJECT in
  match o, iso with
  | Some o, true =>
    let* Ob := hget h o in
    let* n := object_get_loop (S (S (length h))) h (jdown Ob) name in
    match n with
    | None => Ok None
    | Some q => let* Q := hget h q in
                let* ok := node_is_a h (jright Q) ty in
                if ok then Ok (jright Q) else Ok None
    end
  | _, _ => Ok None
  end.

(** nx_json_array_fget, nx_json_object_fget, 281-299. *)
Definition array_fget (h : heap node) (a : option nat) (position : Z) (ty : N) : res nat :=
  let* n := array_get h a position ty in match n with None => Fatal | Some q => Ok q end.
Definition object_fget (h : heap node) (o : option nat) (name : list N) (ty : N) : res nat :=
  let* n := object_get h o name ty in match n with None => Fatal | Some q => Ok q end.

(** nx_json_tree_free, 197-205. *)
Fixpoint tree_free (fuel : nat) (h : heap node) (root : option nat) : res (heap node) :=
  match fuel with
  | O => NoFuel
  | S f =>
    match root with
    | None => Ok h
    | Some p =>
      let* P := hget h p in
      let* h := tree_free f h (jdown P) in
      let* P := hget h p in
      let* h := tree_free f h (jright P) in
      hfree h p
    end
  end.

(** ** Printing, 306-378: the bytes written. *)
Definition make_tab (width : Z) : list N := repeat 32 (Z.to_nat width).
Definition JSON_TAB_WIDTH : Z := 4.

Fixpoint fprint_rec (fuel : nat) (h : heap node) (root : option nat) (level tab : Z) : res (list N) :=
  match fuel with
  | O => NoFuel
  | S f =>
    let* tabc := (if (0 <? level)%Z then chk_int (tab + JSON_TAB_WIDTH) else Ok 0%Z) in
    let pp := if (0 <? level)%Z then [10] else [32] in
    match root with
    | None => Ok []
    | Some p =>
      let* P := hget h p in
      let ty := jtype P in
      if ty =? JNT_NULL then Ok [110; 117; 108; 108]
      else if ty =? JNT_TRUE then Ok [116; 114; 117; 101]
      else if ty =? JNT_FALSE then Ok [102; 97; 108; 115; 101]
      else if ty =? JNT_STRING then Ok (nx_fputs_readable (jtext P))
      else if (ty =? JNT_FPNUMBER) || (ty =? JNT_INTEGER) then
        (** fprintf "%s" of NULL is undefined *)
        match jtext P with None => UB | Some s => Ok s end
      else if ty =? JNT_ARRAY then
        let* body := array_loop f h (jdown P) level tab tabc pp in
        Ok ([91] ++ pp ++ make_tab tabc ++ body ++ pp ++ make_tab (tabc - JSON_TAB_WIDTH) ++ [93])
      else if ty =? JNT_OBJECT then
        let* body := object_loop f h (jdown P) level tab tabc pp in
        Ok ([123] ++ pp ++ make_tab tabc ++ body ++ pp ++ make_tab (tabc - JSON_TAB_WIDTH) ++ [125])
      else Fatal
    end
  end
(** 333-342 *)
with array_loop (fuel : nat) (h : heap node) (n : option nat) (level tab tabc : Z) (pp : list N) : res (list N) :=
  match fuel with
  | O => NoFuel
  | S f =>
    match n with
    | None => Ok []
    | Some q =>
      let* level' := chk_int (level - 1) in
      let* tab' := chk_int (tab + JSON_TAB_WIDTH) in
      let* s := fprint_rec f h (Some q) level' tab' in
      let* Q := hget h q in
      match jright Q with
      | None => Ok s
      | Some r => let* s' := array_loop f h (Some r) level tab tabc pp in
                  Ok (s ++ [44] ++ pp ++ make_tab tabc ++ s')
      end
    end
  end
(** 351-364 *)
with object_loop (fuel : nat) (h : heap node) (n : option nat) (level tab tabc : Z) (pp : list N) : res (list N) :=
  match fuel with
  | O => NoFuel
  | S f =>
    match n with
    | None => Ok []
    | Some q =>
      let* Q := hget h q in
      if negb (jtype Q =? JNT_STRING) then Fatal
      else
        let name := nx_fputs_readable (jtext Q) in
        match jright Q with
        | None => Fatal
        | Some v =>
          let* level' := chk_int (level - 1) in
          let* tab' := chk_int (tab + JSON_TAB_WIDTH) in
          let* s := fprint_rec f h (Some v) level' tab' in
          let* V := hget h v in
          match jright V with
          | None => Ok (name ++ [32; 58; 32] ++ s)
          | Some r => let* s' := object_loop f h (Some r) level tab tabc pp in
                      Ok (name ++ [32; 58; 32] ++ s ++ [44] ++ pp ++ make_tab tabc ++ s')
          end
        end
    end
  end.
(** nx_json_tree_fprint, 374-378. *)
Definition tree_fprint (h : heap node) (root : option nat) (level : Z) : res (list N) :=
  let* s := fprint_rec (2 * length h + 2) h root level 0 in Ok (s ++ [10]).

(** ** The lexer, src/nx_json_lexer.c.  A token carries its text. *)
Inductive token :=
| Teof | Tlsb | Trsb | Tlcb | Trcb | Tcomma | Tcolon | Ttrue | Tfalse | Tnull
| Tint (s : list N) | Tfp (s : list N) | Tstr (s : list N).

(** 123-129 *)
Definition is_ws (c : Z) : bool := ((c =? 10) || (c =? 13) || (c =? 9) || (c =? 32))%Z.
(** 131-135 *)
Fixpoint skip_ws (fuel : nat) (t : list N) (l : lexer) : res lexer :=
  match fuel with
  | O => NoFuel
  | S f => if is_ws (cur l) then let* l := consume t l in skip_ws f t l else Ok l
  end.
(** 137-162: TRUE, FALSE and NULL: the rest of the word [s]. *)
Definition word (t : list N) (l : lexer) (s : list N) (k : token) : res (lexer * token) :=
  let* l := consume t l in
  let* (ok, l) := lexer_match t l s in
  if ok then Ok (l, k) else Fatal.
Definition punct (t : list N) (l : lexer) (k : token) : res (lexer * token) :=
  let* l := consume t l in Ok (l, k).

(** nx_json_lexer_next_token, 185-216, with NUMBER (164-176), STRING (178-183)
    and nx_json_token_fill (52-75).  After skipping white space the character
    is not white space, so the loop is entered at most twice. *)
Definition next_token (t : list N) (l : lexer) : res (lexer * token) :=
  let* l := skip_ws (S (S (length t))) t l in
  let c := cur l in
  if (c =? EOF)%Z then Ok (l, Teof)
  else if (c =? 91)%Z then punct t l Tlsb
  else if (c =? 93)%Z then punct t l Trsb
  else if (c =? 123)%Z then punct t l Tlcb
  else if (c =? 125)%Z then punct t l Trcb
  else if (c =? 44)%Z then punct t l Tcomma
  else if (c =? 58)%Z then punct t l Tcolon
  else if (c =? 116)%Z then word t l [114; 117; 101] Ttrue
  else if (c =? 102)%Z then word t l [97; 108; 115; 101] Tfalse
  else if (c =? 110)%Z then word t l [117; 108; 108] Tnull
  else if (c =? 34)%Z then
    let* (l, start, len) := lexer_QUOTED_STRING t l in
    let* s := nx_xstr_from_readable (firstn len (skipn start t)) in
    Ok (l, Tstr s)
  else
    let* num := (if (c =? 45)%Z then Ok true else isdigit c) in
    if num then
      let start := pos l in
      let* (l, len, ty) := lexer_NUMBER t l in
      let s := firstn len (skipn start t) in
      Ok (l, match ty with LNT_INTEGER => Tint s | LNT_FLOAT => Tfp s end)
    else Fatal.

(** ** The parser, src/nx_json_parser.c. *)
(** struct NXJSONParser, 31-38, with the heap of nodes. *)
Record parser := mkPar { plex : lexer; ptok : token; pheap : heap node; proot : option nat; pcur : option nat }.
Definition set_heap (jp : parser) (h : heap node) := mkPar (plex jp) (ptok jp) h (proot jp) (pcur jp).
Definition set_cur (jp : parser) (c : option nat) := mkPar (plex jp) (ptok jp) (pheap jp) (proot jp) c.
Definition set_root (jp : parser) (c : option nat) := mkPar (plex jp) (ptok jp) (pheap jp) c (pcur jp).

(** 40-43 *)
Definition parser_consume (t : list N) (jp : parser) : res parser :=
  let* (l, k) := next_token t (plex jp) in Ok (mkPar l k (pheap jp) (proot jp) (pcur jp)).
(** 70-73; a NULL current node is undefined. *)
Definition add_child_node (jp : parser) (n : nat) : res parser :=
  match pcur jp with
  | None => UB
  | Some c => let* h := add_child (pheap jp) c n in Ok (set_heap jp h)
  end.

(** The token types of nx_json_lexer.h:33-48. *)
Inductive jtt := KEOF | KLSB | KRSB | KLCB | KRCB | KCOMMA | KCOLON | KTRUE | KFALSE | KNULL | KINT | KFP | KSTR.
Definition kind (k : token) : jtt :=
  match k with
  | Teof => KEOF | Tlsb => KLSB | Trsb => KRSB | Tlcb => KLCB | Trcb => KRCB | Tcomma => KCOMMA | Tcolon => KCOLON
  | Ttrue => KTRUE | Tfalse => KFALSE | Tnull => KNULL | Tint _ => KINT | Tfp _ => KFP | Tstr _ => KSTR
  end.
Definition jtt_eq_dec (a b : jtt) : {a = b} + {a <> b}.
Proof. decide equality. Defined.

(** nx_json_parser_match, 75-101. *)
Definition parser_match (t : list N) (jp : parser) (ty : jtt) : res parser :=
  if jtt_eq_dec (kind (ptok jp)) ty then
    let h := pheap jp in
    let made := match ptok jp with
                | Tstr s => Some (new_string h s)
                | Tint s => Some (new_integer h s)
                | Tfp s => Some (new_fpnumber h s)
                | Ttrue => Some (new_true h)
                | Tfalse => Some (new_false h)
                | Tnull => Some (new_null h)
                | _ => None
                end in
    let* jp := match made with
               | Some (h, n) => add_child_node (set_heap jp h) n
               | None => Ok jp
               end in
    parser_consume t jp
  else Fatal.

(** A composite node is made the root or a child, 146-152, 188-194. *)
Definition enter (jp : parser) (made : heap node * nat) : res (parser * nat) :=
  let '(h, n) := made in
  let jp := set_heap jp h in
  match proot jp with
  | None => Ok (set_cur (set_root jp (Some n)) (Some n), n)
  | Some _ => let* jp := add_child_node jp n in Ok (jp, n)
  end.

(** 117-209.  parse_number (106-115) is only called with a number token and is
    inlined. *)
Fixpoint parse_value (fuel : nat) (t : list N) (jp : parser) : res parser :=
  match fuel with
  | O => NoFuel
  | S f =>
    match ptok jp with
    | Tstr _ => parser_match t jp KSTR
    | Tint _ => parser_match t jp KINT
    | Tfp _ => parser_match t jp KFP
    | Ttrue => parser_match t jp KTRUE
    | Tfalse => parser_match t jp KFALSE
    | Tnull => parser_match t jp KNULL
    | Tlsb => parse_array f t jp
    | Tlcb => parse_object f t jp
    | _ => Fatal
    end
  end
(** 144-167 *)
with parse_array (fuel : nat) (t : list N) (jp : parser) : res parser :=
  match fuel with
  | O => NoFuel
  | S f =>
    let* (jp, n) := enter jp (new_array (pheap jp)) in
    let* jp := parser_match t jp KLSB in
    match ptok jp with
    | Trsb => parser_match t jp KRSB
    | _ =>
      let cn := pcur jp in
      let* jp := parse_elements f t (set_cur jp (Some n)) in
      parser_match t (set_cur jp cn) KRSB
    end
  end
(** 134-142: one value, then the while loop *)
with parse_elements (fuel : nat) (t : list N) (jp : parser) : res parser :=
  match fuel with
  | O => NoFuel
  | S f =>
    let* jp := parse_value f t jp in
    match ptok jp with
    | Tcomma => let* jp := parser_match t jp KCOMMA in parse_elements f t jp
    | _ => Ok jp
    end
  end
(** 186-209 *)
with parse_object (fuel : nat) (t : list N) (jp : parser) : res parser :=
  match fuel with
  | O => NoFuel
  | S f =>
    let* (jp, n) := enter jp (new_object (pheap jp)) in
    let* jp := parser_match t jp KLCB in
    match ptok jp with
    | Trcb => parser_match t jp KRCB
    | _ =>
      let cn := pcur jp in
      let* jp := parse_members f t (set_cur jp (Some n)) in
      parser_match t (set_cur jp cn) KRCB
    end
  end
(** 169-184: one pair, then the while loop *)
with parse_members (fuel : nat) (t : list N) (jp : parser) : res parser :=
  match fuel with
  | O => NoFuel
  | S f =>
    let* jp := parser_match t jp KSTR in
    let* jp := parser_match t jp KCOLON in
    let* jp := parse_value f t jp in
    match ptok jp with
    | Tcomma => let* jp := parser_match t jp KCOMMA in parse_members f t jp
    | _ => Ok jp
    end
  end.

(** nx_json_parser_new, parse_json and nx_json_parser_parse, 45-59, 211-229;
    nx_json_tree_from_string, src/nx_json_tree.c:48-57. *)
Definition parse_json (fuel : nat) (t : list N) (jp : parser) : res parser :=
  match ptok jp with
  | Tlsb => parse_array fuel t jp
  | Tlcb => parse_object fuel t jp
  | _ => Fatal
  end.
Definition tree_from_string (h : heap node) (t : list N) : res (heap node * nat) :=
  let* l := lexer_new t in
  let* (l, k) := next_token t l in
  let* jp := parse_json (3 * length t + 5) t (mkPar l k h None None) in
  match proot jp with None => UB | Some r => Ok (pheap jp, r) end.

(** nx_json_tree_from_stream, 59-80: the growing buffer, as the pair of the
    fill count and the capacity; [st] is the stream content. *)
Fixpoint stream_loop (st : list N) (i cap : Z) : res (Z * Z) :=
  match st with
  | [] => Ok (i, cap)
  | _ :: st' =>
    if (i <? cap)%Z then
      let i := (i + 1)%Z in
      let* cap := (if (cap - 2 <=? i)%Z then chk_int (cap * 2) else Ok cap) in
      stream_loop st' i cap
    else UB
  end.
Definition tree_from_stream (h : heap node) (st : list N) : res (heap node * nat) :=
  let* (i, cap) := stream_loop st 0%Z 1024%Z in
  if (i <? cap)%Z then tree_from_string h st else UB.

(** ** src/nx_json_bundle.c *)
(** 32-38, 143-149 *)
Definition bundle_bool (h : heap node) (b : Z) : heap node * nat := if (b =? 0)%Z then new_false h else new_true h.
Definition unbundle_bool (h : heap node) (p : nat) : res bool :=
  let* ok := node_is_a h (Some p) JNT_BOOL in
  if ok then node_is h (Some p) JNT_TRUE else Fatal.
(** 51-57, 169-174 *)
Definition bundle_int (h : heap node) (i : Z) : heap node * nat := new_integer h (print_int i).
Definition unbundle_int (h : heap node) (p : nat) : res Z :=
  let* ok := node_is_a h (Some p) JNT_INTEGER in
  if ok then let* P := hget h p in match jtext P with None => UB | Some s => Ok (atoi s) end else Fatal.
(** 80-83, 200-206 *)
Definition bundle_string (h : heap node) (s : list N) : heap node * nat := new_string h s.
Definition unbundle_string (h : heap node) (p : nat) : res (list N) :=
  let* ok := node_is_a h (Some p) JNT_STRING in
  if ok then let* P := hget h p in match jtext P with None => Fatal | Some s => Ok s end else Fatal.
(** 85-91, 109-115 *)
Fixpoint bundle_loop {A} (mk : heap node -> A -> heap node * nat) (xs : list A) (a : nat) (h : heap node) : res (heap node) :=
  match xs with
  | [] => Ok h
  | x :: xs' => let '(h, n) := mk h x in let* h := array_add h a n in bundle_loop mk xs' a h
  end.
Definition bundle_array {A} (mk : heap node -> A -> heap node * nat) (h : heap node) (xs : list A) : res (heap node * nat) :=
  let '(h, a) := new_array h in let* h := bundle_loop mk xs a h in Ok (h, a).
(** 208-218, 244-254 *)
Definition unbundle_array {A} (get : heap node -> nat -> res A) (ty : N) (h : heap node) (a : nat) : res (list A) :=
  let* ok := node_is_a h (Some a) JNT_ARRAY in
  if ok then
    let* n := n_children h a in
    for_each (fun i acc => let* e := array_fget h (Some a) (Z.of_nat i) ty in let* x := get h e in Ok (acc ++ [x])) (seq 0 (Z.to_nat n)) []
  else Fatal.
