(** Model of src/nx_string_array.c over an explicit heap of string blocks, and
    of NX_ENSURE_CAPACITY (include/virg/nexus/nx_alloc.h). *)
From Verif Require Import Base Bytes Heap ShaModel StrModel.
Local Open Scope Z_scope.

(** NX_ENSURE_CAPACITY, include/virg/nexus/nx_alloc.h:65-73, for int
    capacities (all its uses): the new value of [cap].  [req] is the value of
    the last macro argument. *)
Definition ensure_capacity (cap req : Z) : res Z :=
  if cap <? req then
    let* a := chk_int (cap + 8) in
    let* b := chk_int (a * 3) in
    Ok (if b / 2 <? req then req else b / 2)
  else Ok cap.

(** A slot of the elems array: [None] is uninitialised storage, [Some None] the
    NULL pointer, [Some (Some p)] a pointer to heap cell [p]. *)
Notation slot := (option (option nat)).
Notation sheap := (heap (list N)).

(** struct NXStringArray, src/nx_string_array.c:36-41; capacity is the length of
    [elems].  The struct and the elems array themselves are not heap cells. *)
Record sarr := mkSarr { elems : list slot; size : nat }.

Definition slot_get (l : list slot) (i : nat) : res (option nat) :=
  let* s := aget l i in match s with Some p => Ok p | None => UB end.

(** realloc of the elems array: kept prefix, uninitialised rest. *)
Definition slots_grow (l : list slot) (n : nat) : list slot := firstn n l ++ repeat None (n - length l).

(** src/nx_string_array.c:43-50. *)
Definition nx_string_array_alloc : sarr := mkSarr (repeat None 2) 0.

(** Lines 92-95, one iteration. *)
Definition shrink_step (i : nat) (s : sheap * list slot) : res (sheap * list slot) :=
  let '(h, el) := s in
  let* p := slot_get el i in
  let* h := nx_free h p in
  let* el := aset el i (Some None) in
  Ok (h, el).
(** Lines 98-99, one iteration. *)
Definition fill_step (i : nat) (el : list slot) : res (list slot) := aset el i (Some None).

(** src/nx_string_array.c:86-103. *)
Definition nx_string_array_resize (h : sheap) (sa : sarr) (new_size : Z) : res (sheap * sarr) :=
  if new_size <? 0 then Fatal
  else
    let n := Z.to_nat new_size in
    if (n <? size sa)%nat then
      let* r := for_each shrink_step (seq n (size sa - n)) (h, elems sa) in
      let '(h, el) := r in
      Ok (h, mkSarr el n)
    else
      let* cap := ensure_capacity (Z.of_nat (length (elems sa))) new_size in
      let el := slots_grow (elems sa) (Z.to_nat cap) in
      let* el := for_each fill_step (seq (size sa) (n - size sa)) el in
      Ok (h, mkSarr el n).

(** src/nx_string_array.c:52-57. *)
Definition nx_string_array_new (h : sheap) (n : Z) : res (sheap * sarr) :=
  nx_string_array_resize h nx_string_array_alloc n.

(** A char pointer argument: NULL, a string the array does not own, or a
    pointer to a heap cell. *)
Inductive strarg := ANull | AExt (s : list N) | APtr (p : nat).

(** nx_strdup, src/nx_string.c:38-48: strlen/strcpy of the argument. *)
Definition nx_strdup (h : sheap) (s : list N) : sheap * nat := halloc h (s ++ [0%N]).

(** nx_strredup, src/nx_string.c:50-58: frees *dest before reading src. *)
Definition nx_strredup (h : sheap) (dest : option nat) (src : strarg) : res (sheap * option nat) :=
  let* h := nx_free h dest in
  match src with
  | ANull => Ok (h, None)
  | AExt s => let '(h, p) := nx_strdup h s in Ok (h, Some p)
  | APtr q =>
    let* b := hget h q in
    let* s := cstr b in
    let '(h, p) := nx_strdup h s in Ok (h, Some p)
  end.

(** src/nx_string_array.c:112-118: the stored pointer. *)
Definition nx_string_array_get (sa : sarr) (id : Z) : res (option nat) :=
  if (0 <=? id) && (id <? Z.of_nat (size sa)) then slot_get (elems sa) (Z.to_nat id) else Fatal.

(** src/nx_string_array.c:120-126. *)
Definition nx_string_array_set (h : sheap) (sa : sarr) (id : Z) (s : strarg) : res (sheap * sarr) :=
  if (0 <=? id) && (id <? Z.of_nat (size sa)) then
    let* old := slot_get (elems sa) (Z.to_nat id) in
    let* r := nx_strredup h old s in
    let '(h, p) := r in
    let* el := aset (elems sa) (Z.to_nat id) (Some p) in
    Ok (h, mkSarr el (size sa))
  else Fatal.

(** src/nx_string_array.c:128-144 (setf, vsetf): [text] is the expansion of
    the format. *)
Definition nx_string_array_setf (junk : nat -> N) (h : sheap) (sa : sarr) (id : Z) (text : list N) : res (sheap * sarr) :=
  if (0 <=? id) && (id <? Z.of_nat (size sa)) then
    let* old := slot_get (elems sa) (Z.to_nat id) in
    let* h := nx_free h old in
    let* b := nx_vfstr junk text in
    let '(h, p) := halloc h b in
    let* el := aset (elems sa) (Z.to_nat id) (Some (Some p)) in
    Ok (h, mkSarr el (size sa))
  else Fatal.

(** src/nx_string_array.c:146-154. *)
Definition nx_string_array_append (h : sheap) (sa : sarr) (s : strarg) : res (sheap * sarr * Z) :=
  let n := Z.of_nat (size sa) in
  let* n1 := chk_int (n + 1) in
  let* r := nx_string_array_resize h sa n1 in
  let '(h, sa) := r in
  let* r := nx_string_array_set h sa n s in
  let '(h, sa) := r in
  Ok (h, sa, n).

(** src/nx_string_array.c:156-174 (appendf, vappendf). *)
Definition nx_string_array_appendf (junk : nat -> N) (h : sheap) (sa : sarr) (text : list N) : res (sheap * sarr * Z) :=
  let n := Z.of_nat (size sa) in
  let* n1 := chk_int (n + 1) in
  let* r := nx_string_array_resize h sa n1 in
  let '(h, sa) := r in
  let* r := nx_string_array_setf junk h sa n text in
  let '(h, sa) := r in
  Ok (h, sa, n).

(** src/nx_string_array.c:59-67: the list up to its NULL terminator. *)
Fixpoint nx_string_array_new_from_list_loop (h : sheap) (sa : sarr) (l : list (list N)) : res (sheap * sarr) :=
  match l with
  | [] => Ok (h, sa)
  | s :: t => let* r := nx_string_array_append h sa (AExt s) in
              let '(h, sa, _) := r in nx_string_array_new_from_list_loop h sa t
  end.

(** The C string an element points to; strcmp/strlen of NULL is undefined. *)
Definition elem_str (h : sheap) (p : option nat) : res (list N) :=
  match p with
  | None => UB
  | Some q => let* b := hget h q in cstr b
  end.

Fixpoint bytes_eqb (a b : list N) : bool :=
  match a, b with
  | [], [] => true
  | x :: a, y :: b => (x =? y)%N && bytes_eqb a b
  | _, _ => false
  end.

(** src/nx_string_array.c:176-186.  strcmp compares the C strings. *)
Fixpoint find_loop (h : sheap) (el : list slot) (is : list nat) (s : list N) : res Z :=
  match is with
  | [] => Ok (-1)
  | i :: is' =>
    let* p := slot_get el i in
    let* e := elem_str h p in
    if bytes_eqb s e then Ok (Z.of_nat i) else find_loop h el is' s
  end.
Definition nx_string_array_find (h : sheap) (sa : sarr) (s : list N) : res Z :=
  find_loop h (elems sa) (seq 0 (size sa)) s.

(** src/nx_string_array.c:69-77. *)
Definition free_step (el : list slot) (i : nat) (h : sheap) : res sheap :=
  let* p := slot_get el i in nx_free h p.
Definition nx_string_array_free (h : sheap) (sa : sarr) : res sheap :=
  for_each (free_step (elems sa)) (seq 0 (size sa)) h.

(** src/nx_string_array.c:188-205: the bytes written.  nx_strwrite asserts a
    non-NULL string (src/nx_string.c:101). *)
Definition write_step (h : sheap) (el : list slot) (i : nat) (out : list N) : res (list N) :=
  let* p := slot_get el i in
  match p with
  | None => Fatal
  | Some _ => let* s := elem_str h p in Ok (out ++ nx_strwrite s)
  end.
Definition nx_string_array_write (h : sheap) (sa : sarr) : res (list N) :=
  for_each (write_step h (elems sa)) (seq 0 (size sa)) (int_bytes (Z.of_nat (size sa))).

(** src/nx_string_array.c:226-230.  The realloc inside nx_strread may move the
    block: the old cell dies, a new one is made. *)
Fixpoint read_loop (junk : nat -> N) (is : list nat) (h : sheap) (el : list slot) (st : list N)
  : res (Z * sheap * list slot * list N) :=
  match is with
  | [] => Ok (0, h, el, st)
  | i :: is' =>
    let* p := slot_get el i in
    let* b := (match p with None => Ok [] | Some q => hget h q end) in
    (* with fewer than 8 bytes left nx_strread returns before its realloc *)
    if (length st <? 8)%nat then Ok (-1, h, el, [])
    else
      let* r := nx_strread junk b 0 st in
      let '(ret, b', st) := r in
      let* h := nx_free h p in
      let '(h, q) := halloc h b' in
      let* el := aset el i (Some (Some q)) in
      if ret =? 0 then read_loop junk is' h el st else Ok (-1, h, el, st)
  end.

(** src/nx_string_array.c:215-233. *)
Definition nx_string_array_read (junk : nat -> N) (h : sheap) (sa : sarr) (st : list N)
  : res (Z * sheap * sarr * list N) :=
  let '(hd, st) := take 4 st in
  if (length hd <? 4)%nat then Ok (-1, h, sa, st)
  else
    let* r := nx_string_array_resize h sa (int_of_bytes hd) in
    let '(h, sa) := r in
    let* r := read_loop junk (seq 0 (size sa)) h (elems sa) st in
    let '(ret, h, el, st) := r in
    Ok (ret, h, mkSarr el (size sa), st).

(** Driver: operations a client can issue on one array. *)
Inductive saop :=
| SaAppend (s : option (list N))
| SaAppendElem (j : nat)          (* append(sa, get(sa, j)) *)
| SaAppendf (text : list N)
| SaResize (n : nat)
| SaSet (i : nat) (s : option (list N))
| SaSetElem (i j : nat)           (* set(sa, i, get(sa, j)) *)
| SaSetf (i : nat) (text : list N)
| SaFind (s : list N)
| SaGet (i : nat).

(** What an operation returns to the caller. *)
Inductive saout := OutNone | OutInt (z : Z) | OutStr (s : option (list N)).

Definition ext (s : option (list N)) : strarg := match s with None => ANull | Some s => AExt s end.
Definition ptr (p : option nat) : strarg := match p with None => ANull | Some q => APtr q end.

Definition sa_step (junk : nat -> N) (h : sheap) (sa : sarr) (o : saop) : res (sheap * sarr * saout) :=
  match o with
  | SaAppend s =>
    let* r := nx_string_array_append h sa (ext s) in let '(h, sa, n) := r in Ok (h, sa, OutInt n)
  | SaAppendElem j =>
    let* p := nx_string_array_get sa (Z.of_nat j) in
    let* r := nx_string_array_append h sa (ptr p) in let '(h, sa, n) := r in Ok (h, sa, OutInt n)
  | SaAppendf t =>
    let* r := nx_string_array_appendf junk h sa t in let '(h, sa, n) := r in Ok (h, sa, OutInt n)
  | SaResize n =>
    let* r := nx_string_array_resize h sa (Z.of_nat n) in let '(h, sa) := r in Ok (h, sa, OutNone)
  | SaSet i s =>
    let* r := nx_string_array_set h sa (Z.of_nat i) (ext s) in let '(h, sa) := r in Ok (h, sa, OutNone)
  | SaSetElem i j =>
    let* p := nx_string_array_get sa (Z.of_nat j) in
    let* r := nx_string_array_set h sa (Z.of_nat i) (ptr p) in let '(h, sa) := r in Ok (h, sa, OutNone)
  | SaSetf i t =>
    let* r := nx_string_array_setf junk h sa (Z.of_nat i) t in let '(h, sa) := r in Ok (h, sa, OutNone)
  | SaFind s => let* z := nx_string_array_find h sa s in Ok (h, sa, OutInt z)
  | SaGet i =>
    let* p := nx_string_array_get sa (Z.of_nat i) in
    match p with
    | None => Ok (h, sa, OutStr None)
    | Some _ => let* s := elem_str h p in Ok (h, sa, OutStr (Some s))
    end
  end.

Fixpoint sa_run (junk : nat -> N) (h : sheap) (sa : sarr) (os : list saop) : res (sheap * sarr * list saout) :=
  match os with
  | [] => Ok (h, sa, [])
  | o :: os' =>
    let* r := sa_step junk h sa o in
    let '(h, sa, x) := r in
    let* r := sa_run junk h sa os' in
    let '(h, sa, xs) := r in
    Ok (h, sa, x :: xs)
  end.
