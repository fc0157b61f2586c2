(** Model of the rest of src/nx_json_bundle.c: characters, sizes, floating-point
    numbers and keypoints.

    Floating-point formatting and reading stay abstract: [print_e] is the text
    nx_fstr makes of a double with %e, [atof] the C function, [widen] and
    [narrow] the conversions between float ([F]) and double ([D]).  size_t and
    long have 64 bits, char is a byte. *)
From Verif Require Import Base Heap CsvModel DfModel JsonModel.
Local Open Scope Z_scope.

(** nx_json_node_text of a node whose type was checked; the leaves made by the
    constructors and by the parser always carry a text.  A NULL text would be
    dereferenced. *)
Definition leaf_text (h : heap node) (p : nat) : res (list N) :=
  let* P := hget h p in match jtext P with None => UB | Some s => Ok s end.

(** 40-44, 151-157: a char c makes the string of its one character, the empty
    string for NUL; text[0] of the empty string is its terminator. *)
Definition bundle_char (h : heap node) (c : N) : heap node * nat :=
  new_string h (if (c =? 0)%N then [] else [c]).
Definition unbundle_char (h : heap node) (p : nat) : res N :=
  let* ok := node_is_a h (Some p) JNT_STRING in
  if ok then let* s := leaf_text h p in match s with [] => Ok 0%N | c :: _ => Ok c end else Fatal.

(** 46-49, 159-167 *)
Definition bundle_uchar (h : heap node) (c : N) : heap node * nat := bundle_int h (Z.of_N c).
Definition unbundle_uchar (h : heap node) (p : nat) : res Z :=
  let* i := unbundle_int h p in
  Ok (if i <? 0 then 0 else if 255 <? i then 255 else i).

(** 59-65, 176-182: %zd prints the size_t as the signed value of its bits; atol
    reads a long, converted back modulo 2^64. *)
Definition wrap_long (v : Z) : Z := (v - LONG_MIN) mod 18446744073709551616 + LONG_MIN.
Definition to_u64 (v : Z) : Z := v mod 18446744073709551616.
Definition atol (s : list N) : Z := fst (strtol 10 s).
Definition bundle_size_t (h : heap node) (z : Z) : heap node * nat := new_integer h (print_int (wrap_long z)).
Definition unbundle_size_t (h : heap node) (p : nat) : res Z :=
  let* ok := node_is_a h (Some p) JNT_INTEGER in
  if ok then let* s := leaf_text h p in Ok (to_u64 (atol s)) else Fatal.

(** include/virg/nexus/nx_keypoint.h:35-51. *)
Record keypoint F := mkKey {
  kp_x : Z; kp_y : Z; kp_xs : F; kp_ys : F; kp_level : Z; kp_scale : F; kp_sigma : F; kp_score : F; kp_ori : F; kp_id : Z }.
Arguments mkKey {F}. Arguments kp_x {F}. Arguments kp_y {F}. Arguments kp_xs {F}. Arguments kp_ys {F}. Arguments kp_level {F}.
Arguments kp_scale {F}. Arguments kp_sigma {F}. Arguments kp_score {F}. Arguments kp_ori {F}. Arguments kp_id {F}.

(** The member names, 120-129 and 276-285. *)
Definition n_x : list N := [120]%N.
Definition n_y : list N := [121]%N.
Definition n_xs : list N := [120; 115]%N.
Definition n_ys : list N := [121; 115]%N.
Definition n_level : list N := [108; 101; 118; 101; 108]%N.
Definition n_scale : list N := [115; 99; 97; 108; 101]%N.
Definition n_sigma : list N := [115; 105; 103; 109; 97]%N.
Definition n_score : list N := [115; 99; 111; 114; 101]%N.
Definition n_ori : list N := [111; 114; 105]%N.
Definition n_id : list N := [105; 100]%N.

(** Arrays whose elements may fail to bundle, 134-140: the loop of
    nx_json_bundle_keypoint_array; [n] is the length of the list. *)
Fixpoint rbundle_loop {A} (mk : heap node -> A -> res (heap node * nat)) (xs : list A) (a : nat) (h : heap node) : res (heap node) :=
  match xs with
  | [] => Ok h
  | x :: xs' => let* (h, n) := mk h x in let* h := array_add h a n in rbundle_loop mk xs' a h
  end.

Section Floats.
Variables F D : Type.
Variable print_e : D -> list N.
Variable atof : list N -> D.
Variable widen : F -> D.
Variable narrow : D -> F.

(** 67-78 *)
Definition bundle_double (h : heap node) (d : D) : heap node * nat := new_fpnumber h (print_e d).
Definition bundle_float (h : heap node) (f : F) : heap node * nat := bundle_double h (widen f).
(** 184-198 *)
Definition unbundle_double (h : heap node) (p : nat) : res D :=
  let* ok := node_is_a h (Some p) JNT_NUMBER in
  if ok then let* s := leaf_text h p in Ok (atof s) else Fatal.
Definition unbundle_float (h : heap node) (p : nat) : res F :=
  let* ok := node_is_a h (Some p) JNT_NUMBER in
  if ok then let* s := leaf_text h p in Ok (narrow (atof s)) else Fatal.

(** 93-107, 220-242 *)
Definition bundle_double_array : heap node -> list D -> res (heap node * nat) := bundle_array bundle_double.
Definition bundle_float_array : heap node -> list F -> res (heap node * nat) := bundle_array bundle_float.
Definition unbundle_double_array : heap node -> nat -> res (list D) := unbundle_array unbundle_double JNT_NUMBER.
Definition unbundle_float_array : heap node -> nat -> res (list F) := unbundle_array unbundle_float JNT_NUMBER.

(** One line of 120-129: nx_json_object_add(jkey, name, value). *)
Definition add_member (o : nat) (name : list N) (mk : heap node -> heap node * nat) (h : heap node) : res (heap node) :=
  let '(h, n) := mk h in object_add h o name n.

(** 117-132.  The 64-bit id is passed to nx_json_bundle_int, whose parameter is
    an int: the conversion wraps. *)
Definition bundle_keypoint (h : heap node) (key : keypoint F) : res (heap node * nat) :=
  let '(h, o) := new_object h in
  let* h := add_member o n_x (fun h => bundle_int h (kp_x key)) h in
  let* h := add_member o n_y (fun h => bundle_int h (kp_y key)) h in
  let* h := add_member o n_xs (fun h => bundle_double h (widen (kp_xs key))) h in
  let* h := add_member o n_ys (fun h => bundle_double h (widen (kp_ys key))) h in
  let* h := add_member o n_level (fun h => bundle_int h (kp_level key)) h in
  let* h := add_member o n_scale (fun h => bundle_double h (widen (kp_scale key))) h in
  let* h := add_member o n_sigma (fun h => bundle_double h (widen (kp_sigma key))) h in
  let* h := add_member o n_score (fun h => bundle_double h (widen (kp_score key))) h in
  let* h := add_member o n_ori (fun h => bundle_double h (widen (kp_ori key))) h in
  let* h := add_member o n_id (fun h => bundle_int h (wrap_int (kp_id key))) h in
  Ok (h, o).
(** 134-140 *)
Definition bundle_keypoint_array (h : heap node) (keys : list (keypoint F)) : res (heap node * nat) :=
  let '(h, a) := new_array h in let* h := rbundle_loop bundle_keypoint keys a h in Ok (h, a).

(** The right-hand sides of 276-285. *)
Definition int_field (h : heap node) (o : nat) (name : list N) : res Z :=
  let* n := object_fget h (Some o) name JNT_INTEGER in unbundle_int h n.
Definition fp_field (h : heap node) (o : nat) (name : list N) : res F :=
  let* n := object_fget h (Some o) name JNT_FPNUMBER in let* d := unbundle_double h n in Ok (narrow d).
(** 270-288 *)
Definition unbundle_keypoint (h : heap node) (o : nat) : res (keypoint F) :=
  let* ok := node_is_a h (Some o) JNT_OBJECT in
  if ok then
    let* x := int_field h o n_x in
    let* y := int_field h o n_y in
    let* xs := fp_field h o n_xs in
    let* ys := fp_field h o n_ys in
    let* level := int_field h o n_level in
    let* scale := fp_field h o n_scale in
    let* sigma := fp_field h o n_sigma in
    let* score := fp_field h o n_score in
    let* ori := fp_field h o n_ori in
    let* id := int_field h o n_id in
    Ok (mkKey x y xs ys level scale sigma score ori (to_u64 id))
  else Fatal.
(** 290-301 *)
Definition unbundle_keypoint_array : heap node -> nat -> res (list (keypoint F)) := unbundle_array unbundle_keypoint JNT_OBJECT.
End Floats.
