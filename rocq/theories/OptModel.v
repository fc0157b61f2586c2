(** Model of the command line options, src/nx_options.c.

    Simplifications.  Option records are numbered by their position in
    opt_list (they are only ever appended, src/nx_options.c:662-675, and
    removed all together); the linked list is the list [o_list], a bucket of
    opt_map is the list of its nodes, newest first.  Strings are byte lists,
    NULL is [None].  The usage texts and everything that prints are left out;
    exit(EXIT_FAILURE) after printing the usage is [Fatal].  A double is its
    64-bit pattern and atof is an arbitrary function. *)
From Verif Require Import Base CsvModel.
Local Open Scope Z_scope.

(** enum NXOptionType, 41-48; NX_OT_Rest records live in [o_rest] only. *)
Inductive otype := TBool | TInt | TDouble | TString | THelp.
(** union NXOptionValue, 50-56; [UNone] is the zeroed union of a help option. *)
Inductive oval := UB_ (b : Z) | UI (i : Z) | UD (d : N) | US (s : option (list N)) | UNone.

(** struct NXOptionData, 58-69 (without the help text and the list link). *)
Record odata := { q_short : option (list N); q_name : option (list N); q_type : otype;
                  q_val : oval; q_req : bool; q_set : bool; q_def : oval }.
(** The record of the remaining arguments: value.r, is_required, is_set.
    default_value.i is the number of strings in value.r. *)
Record rdata := { r_val : option (list (list N)); r_req : bool; r_set : bool }.
(** struct NXOptions, 77-91. *)
Record options := { o_prog : option (list N); o_list : list odata;
                    o_map : list (list (list N * nat)); o_rest : option rdata }.

Definition q_with (q : odata) (v : oval) (s : bool) : odata :=
  {| q_short := q_short q; q_name := q_name q; q_type := q_type q; q_val := v;
     q_req := q_req q; q_set := s; q_def := q_def q |}.
Definition o_with (o : options) (l : list odata) : options :=
  {| o_prog := o_prog o; o_list := l; o_map := o_map o; o_rest := o_rest o |}.
Definition o_with_rest (o : options) (r : option rdata) : options :=
  {| o_prog := o_prog o; o_list := o_list o; o_map := o_map o; o_rest := r |}.

(** OPTION_MAP_SIZE, 39. *)
Definition OPTION_MAP_SIZE : Z := 32.

(** A char is signed. *)
Definition schar (c : N) : Z := if (c <? 128)%N then Z.of_N c else Z.of_N c - 256.

(** nx_options_hash_code, 755-765, as the C standard defines it: the signed
    multiplication and addition are undefined when they overflow. *)
Fixpoint hash_strict_loop (hash : Z) (key : list N) : res Z :=
  match key with
  | [] => Ok hash
  | c :: key' =>
    let* m := chk_int (hash * 31) in
    let* hash := chk_int (m + schar c) in
    hash_strict_loop hash key'
  end.
Definition hash_strict (key : list N) : res Z := hash_strict_loop 0 key.

Section WithOverflow.
(** What the compiled program yields where an int operation overflows: any
    function of the exact result. *)
Variable ovf : Z -> Z.
Variable atof : list N -> N.

Definition arith (z : Z) : Z := if in_int z then z else ovf z.
(** nx_options_hash_code, 755-765. *)
Fixpoint hash_loop (hash : Z) (key : list N) : Z :=
  match key with
  | [] => hash
  | c :: key' => hash_loop (arith (arith (hash * 31) + schar c)) key'
  end.
Definition hash_code (key : list N) : Z := hash_loop 0 key.
(** abs(nx_options_hash_code(key) % OPTION_MAP_SIZE), 692 and 709. *)
Definition bucket_id (key : list N) : Z := Z.abs (Z.rem (hash_code key) OPTION_MAP_SIZE).

(** nx_options_alloc, 129-142 with nx_options_init_map, 677-685. *)
Definition options_alloc : options :=
  {| o_prog := None; o_list := []; o_map := repeat [] (Z.to_nat OPTION_MAP_SIZE); o_rest := None |}.

(** nx_options_add_to_map, 687-700 with nx_option_map_node_new, 736-745. *)
Definition add_to_map (o : options) (key : list N) (data : nat) : res options :=
  let bid := bucket_id key in
  let* b := zget (o_map o) bid in
  let* m := zset (o_map o) bid ((key, data) :: b) in
  Ok {| o_prog := o_prog o; o_list := o_list o; o_map := m; o_rest := o_rest o |}.

(** strcmp(a, b) == 0. *)
Fixpoint str_eq (a b : list N) : bool :=
  match a, b with
  | [], [] => true
  | x :: a', y :: b' => (x =? y)%N && str_eq a' b'
  | _, _ => false
  end.
(** The loop of nx_options_find_in_map, 711-717. *)
Fixpoint find_node (b : list (list N * nat)) (name : list N) : option nat :=
  match b with
  | [] => None
  | (key, data) :: b' => if str_eq key name then Some data else find_node b' name
  end.
(** nx_options_find_in_map, 702-718. *)
Definition find_in_map (o : options) (name : option (list N)) : res (option nat) :=
  match name with
  | None => Ok None
  | Some name => let* b := zget (o_map o) (bucket_id name) in Ok (find_node b name)
  end.

(** The text before the first '|' and, if there is one, the text after it
    (strchr, strlen and the two strredup of 881-890). *)
Fixpoint split_names (t : list N) : list N * option (list N) :=
  match t with
  | [] => ([], None)
  | c :: t' => if (c =? 124)%N then ([], Some t')
               else let '(a, b) := split_names t' in (c :: a, b)
  end.
(** One iteration of the loop 892-911 on (name, short_name). *)
Definition set_name (n : list N) (nm : option (list N) * option (list N))
  : res (option (list N) * option (list N)) :=
  match n with
  | 45%N :: c :: [] => Ok (fst nm, Some n)
  | 45%N :: c :: _ => if (c =? 45)%N then Ok (Some n, snd nm) else Fatal
  | _ => Fatal
  end.
(** nx_option_data_set_names, 874-912: (name, short_name). *)
Definition set_names (names : list N) : res (option (list N) * option (list N)) :=
  let '(a, b) := split_names names in
  let* nm := set_name a (None, None) in
  match b with None => Ok nm | Some b => set_name b nm end.

(** nx_option_data_new, 789-801, followed by the assignments of
    nx_options_add_bool/int/double/string, 599-637. *)
Definition data_new (names : list N) (ty : otype) (dflt : oval) (req : bool) : res odata :=
  let* (n, s) := set_names names in
  Ok {| q_short := s; q_name := n; q_type := ty; q_val := dflt; q_req := req; q_set := false; q_def := dflt |}.

(** nx_option_data_add, 820-836. *)
Definition data_add (q : odata) (o : options) : res options :=
  let* f := find_in_map o (q_name q) in
  match f with
  | Some _ => Fatal
  | None =>
    let* f := find_in_map o (q_short q) in
    match f with
    | Some _ => Fatal
    | None =>
      let id := length (o_list o) in
      let o := o_with o (o_list o ++ [q]) in
      let* o := match q_name q with None => Ok o | Some n => add_to_map o n id end in
      match q_short q with None => Ok o | Some n => add_to_map o n id end
    end
  end.

(** The variable arguments one format letter takes (the help text is left out). *)
Inductive vargs :=
| AB (names : list N) (b : Z)
| AI (names : list N) (i : Z)
| AD (names : list N) (d : N)
| AS (names : list N) (s : option (list N))
| AR.

(** isupper and tolower of the C locale. *)
Definition isupper (c : N) : bool := ((65 <=? c) && (c <=? 90))%N.
Definition tolower (c : N) : N := if isupper c then (c + 32)%N else c.

(** nx_options_add_rest, 639-648. *)
Definition add_rest (o : options) (req : bool) : options :=
  o_with_rest o (Some {| r_val := None; r_req := req; r_set := false |}).

(** One iteration of nx_options_vadd, 194-237: letter [c] with its arguments.
    Arguments of another type than the letter announces are undefined. *)
Definition vadd1 (o : options) (c : N) (a : vargs) : res options :=
  let is_required := isupper c in
  let c := tolower c in
  if (c =? 98)%N then
    match a with
    | AB names b => let* q := data_new names TBool (UB_ b) is_required in data_add q o
    | _ => UB end
  else if (c =? 105)%N then
    match a with
    | AI names i => let* q := data_new names TInt (UI i) is_required in data_add q o
    | _ => UB end
  else if (c =? 100)%N then
    match a with
    | AD names d => let* q := data_new names TDouble (UD d) is_required in data_add q o
    | _ => UB end
  else if (c =? 115)%N then
    match a with
    | AS names s => let* q := data_new names TString (US s) is_required in data_add q o
    | _ => UB end
  else if (c =? 114)%N then
    match a with AR => Ok (add_rest o is_required) | _ => UB end
  else Fatal.
(** nx_options_vadd, 187-238, behind nx_options_new and nx_options_add. *)
Definition vadd (o : options) (format : list (N * vargs)) : res options :=
  for_each (fun ca o => vadd1 o (fst ca) (snd ca)) format o.
(** nx_options_add_help, 177-185; the name is "-h|--help". *)
Definition add_help (o : options) : res options :=
  let* q := data_new [45; 104; 124; 45; 45; 104; 101; 108; 112]%N THelp UNone false in
  data_add q o.

(** nx_options_clear_set_flags, 587-597. *)
Definition clear_set_flags (o : options) : options :=
  {| o_prog := o_prog o; o_list := map (fun q => q_with q (q_val q) false) (o_list o); o_map := o_map o;
     o_rest := match o_rest o with
               | None => None
               | Some r => Some {| r_val := r_val r; r_req := r_req r; r_set := false |}
               end |}.

(** nx_options_check_required, 240-271: one option of the list. *)
Definition check_data (q : odata) : res odata :=
  if q_set q then Ok q
  else if q_req q then Fatal
  else match q_type q with
       | THelp => Ok q
       | _ => Ok (q_with q (q_def q) false)
       end.
Fixpoint check_list (l : list odata) : res (list odata) :=
  match l with
  | [] => Ok []
  | q :: l' => let* q := check_data q in let* l' := check_list l' in Ok (q :: l')
  end.
Definition check_required (o : options) : res options :=
  let* l := check_list (o_list o) in
  let o := o_with o l in
  match o_rest o with
  | None => Ok o
  | Some r =>
    if r_set r then Ok o
    else if r_req r then Fatal
    else Ok (o_with_rest o (Some {| r_val := None; r_req := r_req r; r_set := false |}))
  end.

(** nx_options_set_rest_from_args, 273-300: copies, in order, of the
    arguments not processed. *)
Fixpoint unprocessed (argv : list (list N)) (isp : list bool) : list (list N) :=
  match argv, isp with
  | a :: argv', p :: isp' => if p then unprocessed argv' isp' else a :: unprocessed argv' isp'
  | _, _ => []
  end.
Definition set_rest_from_args (o : options) (argv : list (list N)) (isp : list bool) : options :=
  match o_rest o with
  | None => o
  | Some r =>
    let v := unprocessed argv isp in
    o_with_rest o (Some {| r_val := Some v; r_req := r_req r;
                           r_set := if (0 <? length v)%nat then true else r_set r |})
  end.

(** 331-350: the value an option gets. *)
Definition convert (q : odata) (arg : list N) : res oval :=
  match q_type q with
  | TBool => Ok (UB_ 1)
  | TInt => Ok (UI (wrap_int (fst (strtol 10 arg))))
  | TDouble => Ok (UD (atof arg))
  | TString => Ok (US (Some arg))
  | THelp => Fatal
  end.
Definition needs_param (ty : otype) : bool :=
  match ty with TInt | TDouble | TString => true | _ => false end.

(** The loop of nx_options_set_from_args, 315-354. *)
Fixpoint args_loop (fuel : nat) (o : options) (argv : list (list N)) (isp : list bool) (i : nat)
  : res (options * list bool) :=
  match fuel with
  | O => NoFuel
  | S f =>
    if (i <? length argv)%nat then
      let* a := aget argv i in
      let* d := find_in_map o (Some a) in
      match d with
      | None => args_loop f o argv isp (S i)
      | Some id =>
        let* q := aget (o_list o) id in
        let* (arg, isp, i) :=
          (if needs_param (q_type q) then
             if (i =? length argv - 1)%nat then Fatal
             else let* isp := aset isp i true in
                  let* arg := aget argv (S i) in
                  Ok (arg, isp, S i)
           else Ok ([], isp, i)) in
        let* v := convert q arg in
        let* l := aset (o_list o) id (q_with q v true) in
        let* isp := aset isp i true in
        args_loop f (o_with o l) argv isp (S i)
      end
    else Ok (o, isp)
  end.

(** nx_options_set_from_args, 302-368. *)
Definition set_from_args (o : options) (argv : list (list N)) : res options :=
  let o := clear_set_flags o in
  let isp := repeat false (length argv) in
  let* a0 := aget argv 0 in
  let o := {| o_prog := Some a0; o_list := o_list o; o_map := o_map o; o_rest := o_rest o |} in
  let* isp := aset isp 0 true in
  let* (o, isp) := args_loop (S (length argv)) o argv isp 1 in
  let o := set_rest_from_args o argv isp in
  check_required o.

(** nx_options_is_set, 370-379. *)
Definition is_set (o : options) (name : list N) : res bool :=
  let* d := find_in_map o (Some name) in
  match d with
  | None => Fatal
  | Some id => let* q := aget (o_list o) id in Ok (q_set q)
  end.
(** The common part of the getters, 381-435. *)
Definition fetch (o : options) (name : list N) : res odata :=
  let* d := find_in_map o (Some name) in
  match d with None => Fatal | Some id => aget (o_list o) id end.
(** nx_options_get_bool, 381-393. *)
Definition get_bool (o : options) (name : list N) : res Z :=
  let* q := fetch o name in
  match q_type q with TBool => match q_val q with UB_ b => Ok b | _ => UB end | _ => Fatal end.
(** nx_options_get_int, 395-407. *)
Definition get_int (o : options) (name : list N) : res Z :=
  let* q := fetch o name in
  match q_type q with TInt => match q_val q with UI i => Ok i | _ => UB end | _ => Fatal end.
(** nx_options_get_double, 409-421. *)
Definition get_double (o : options) (name : list N) : res N :=
  let* q := fetch o name in
  match q_type q with TDouble => match q_val q with UD d => Ok d | _ => UB end | _ => Fatal end.
(** nx_options_get_string, 423-435. *)
Definition get_string (o : options) (name : list N) : res (option (list N)) :=
  let* q := fetch o name in
  match q_type q with TString => match q_val q with US s => Ok s | _ => UB end | _ => Fatal end.
(** nx_options_get_rest, 437-446: [None] is NULL. *)
Definition get_rest (o : options) : option (list (list N)) :=
  match o_rest o with None => None | Some r => r_val r end.

(** Driver: a table used over time. *)
Inductive opt_op :=
| OAdd (format : list (N * vargs))   (* nx_options_new, nx_options_add *)
| OHelp                              (* nx_options_add_help *)
| OParse (argv : list (list N)).     (* nx_options_set_from_args *)
Definition opt_step (op : opt_op) (o : options) : res options :=
  match op with
  | OAdd f => vadd o f
  | OHelp => add_help o
  | OParse argv => set_from_args o argv
  end.
Definition opt_run (ops : list opt_op) : res options := for_each opt_step ops options_alloc.
End WithOverflow.
