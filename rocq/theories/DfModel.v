(** Model of src/nx_data_frame.c and of the data-frame half of
    src/nx_csv_parser.c.

    Cells are heap blocks.  A double is its 64-bit pattern; its text under
    "%.17g" and the value atof gives a text are parameters ([print_d], [atof]).
    The levels of a factor column, an NXStringArray that is only searched and
    appended to, are a list of strings (C16 proves that refinement).  Capacities
    are kept for their int arithmetic; storage between size and capacity is
    never read.  A freshly allocated column is fresh storage, so labels are byte
    lists. *)
From Verif Require Import Base Heap StrModel StrArrModel LexModel CsvModel.
Local Open Scope Z_scope.

(** A cell's block: char[], int, double, NXBool; a factor cell is an int. *)
Inductive elem := EStr (s : list N) | EInt (z : Z) | EDbl (d : N) | EBool (z : Z).
Notation dheap := (heap elem).

(** struct NXDataColumn, src/nx_data_frame.c:63-72; size is the length of
    [celems]. *)
Record dcol := mkCol { celems : list (option nat); ccap : Z; ctype : dctype; clabel : list N; clevels : list (list N) }.
(** struct NXDataFrame and NXDataColumnArray, 145-154. *)
Record frame := mkDf { n_rows : Z; cols : list dcol; dcap : Z }.

(** src/nx_data_frame.c:90-100. *)
Definition column_grow (dc : dcol) (new_size : Z) : res dcol :=
  let size := Z.of_nat (length (celems dc)) in
  if size <? new_size then
    let* cap := ensure_capacity (ccap dc) new_size in
    Ok (mkCol (celems dc ++ repeat None (Z.to_nat (new_size - size))) cap (ctype dc) (clabel dc) (clevels dc))
  else Ok dc.
(** src/nx_data_frame.c:74-88, 102-108. *)
Definition column_new (ty : dctype) (label : list N) (initial_size : Z) : res dcol :=
  column_grow (mkCol [] 0 ty label []) initial_size.
(** src/nx_data_frame.c:111-118. *)
Definition column_append_row (dc : dcol) : res dcol :=
  let size := Z.of_nat (length (celems dc)) in
  if size <? INT_MAX then column_grow dc (size + 1) else Fatal.
(** src/nx_data_frame.c:120-132: the cells of a column are freed. *)
Definition column_free (h : dheap) (dc : dcol) : res dheap := for_each (fun p h => nx_free h p) (celems dc) h.

(** src/nx_data_frame.c:156-166, 168-179. *)
Definition frame_alloc : frame := mkDf 0 [] 0.
Definition frame_free (h : dheap) (df : frame) : res dheap := for_each (fun dc h => column_free h dc) (cols df) h.

(** src/nx_data_frame.c:181-191. *)
Definition add_column (df : frame) (ty : dctype) (label : list N) : res frame :=
  let* dc := column_new ty label (n_rows df) in
  let* cap := ensure_capacity (dcap df) (Z.of_nat (length (cols df)) + 1) in
  Ok (mkDf (n_rows df) (cols df ++ [dc]) cap).
(** src/nx_data_frame.c:193-204. *)
Definition add_columns (df : frame) (l : list (dctype * list N)) : res frame :=
  for_each (fun x df => add_column df (fst x) (snd x)) l df.

(** src/nx_data_frame.c:287-296; returns the new row's index. *)
Fixpoint append_rows (l : list dcol) : res (list dcol) :=
  match l with
  | [] => Ok []
  | dc :: l' => let* dc := column_append_row dc in let* l' := append_rows l' in Ok (dc :: l')
  end.
Definition add_row (df : frame) : res (frame * Z) :=
  let* l := append_rows (cols df) in
  let* n := chk_int (n_rows df + 1) in
  Ok (mkDf n l (dcap df), n_rows df).

(** NX_ASSERT_INDEX on the row and the column (active in debug builds), then
    the column; e.g. src/nx_data_frame.c:322-325. *)
Definition column_at (df : frame) (r c : Z) : res dcol :=
  if (r <? 0) || (n_rows df <=? r) then Fatal
  else if (c <? 0) || (Z.of_nat (length (cols df)) <=? c) then Fatal
  else aget (cols df) (Z.to_nat c).
Definition dctype_eqb (a b : dctype) : bool :=
  match a, b with DSTRING, DSTRING | DBOOL, DBOOL | DDOUBLE, DDOUBLE | DINT, DINT | DFACTOR, DFACTOR => true | _, _ => false end.

(** NA_DATA_FRAME_ELEMENT, src/nx_data_frame.c:55-61. *)
Definition na_element (h : dheap) (dc : dcol) (r : Z) : res (dheap * dcol) :=
  let* p := zget (celems dc) r in
  match p with
  | None => Ok (h, dc)
  | Some q =>
    let* h := hfree h q in
    let* l := zset (celems dc) r None in
    Ok (h, mkCol l (ccap dc) (ctype dc) (clabel dc) (clevels dc))
  end.
(** dc->elems[row_id] = fresh block holding [e]. *)
Definition new_element (h : dheap) (dc : dcol) (r : Z) (e : elem) : res (dheap * dcol) :=
  let '(h, q) := halloc h e in
  let* l := zset (celems dc) r (Some q) in
  Ok (h, mkCol l (ccap dc) (ctype dc) (clabel dc) (clevels dc)).
(** The column is changed in place. *)
Definition put_column (df : frame) (c : Z) (dc : dcol) : frame := mkDf (n_rows df) (lset (cols df) (Z.to_nat c) dc) (dcap df).

(** src/nx_data_frame.c:428-436. *)
Definition set_na (h : dheap) (df : frame) (r c : Z) : res (dheap * frame) :=
  let* dc := column_at df r c in
  let* (h, dc) := na_element h dc r in
  Ok (h, put_column df c dc).

(** A string argument: storage of the caller or the string of a cell. *)
Inductive sarg := SExt (s : list N) | SPtr (p : nat).
Definition sarg_read (h : dheap) (a : sarg) : res (list N) :=
  match a with
  | SExt s => Ok s
  | SPtr p => let* e := hget h p in match e with EStr s => Ok s | _ => UB end
  end.
(** src/nx_data_frame.c:438-450. *)
Definition set_string (h : dheap) (df : frame) (r c : Z) (v : sarg) : res (dheap * frame) :=
  let* dc := column_at df r c in
  if negb (dctype_eqb (ctype dc) DSTRING) then Fatal
  else
    let* (h, dc) := na_element h dc r in
    let* s := sarg_read h v in
    let* (h, dc) := new_element h dc r (EStr s) in
    Ok (h, put_column df c dc).
(** set_int, set_double, set_bool, src/nx_data_frame.c:452-495. *)
Definition set_plain (ty : dctype) (e : elem) (h : dheap) (df : frame) (r c : Z) : res (dheap * frame) :=
  let* dc := column_at df r c in
  if negb (dctype_eqb (ctype dc) ty) then Fatal
  else
    let* (h, dc) := na_element h dc r in
    let* (h, dc) := new_element h dc r e in
    Ok (h, put_column df c dc).
Definition set_int h df r c (v : Z) := set_plain DINT (EInt v) h df r c.
Definition set_double h df r c (v : N) := set_plain DDOUBLE (EDbl v) h df r c.
Definition set_bool h df r c (v : Z) := set_plain DBOOL (EBool v) h df r c.

(** nx_string_array_find on the levels: first index or -1. *)
Fixpoint level_find (l : list (list N)) (s : list N) (i : Z) : Z :=
  match l with [] => -1 | x :: l' => if bytes_eqb s x then i else level_find l' s (i + 1) end.
(** src/nx_data_frame.c:135-143. *)
Definition value_to_factor (dc : dcol) (s : list N) : dcol * Z :=
  let i := level_find (clevels dc) s 0 in
  if i <? 0 then (mkCol (celems dc) (ccap dc) (ctype dc) (clabel dc) (clevels dc ++ [s]), Z.of_nat (length (clevels dc)))
  else (dc, i).
(** src/nx_data_frame.c:497-513. *)
Definition set_factor (h : dheap) (df : frame) (r c : Z) (v : sarg) : res (dheap * frame) :=
  let* dc := column_at df r c in
  if negb (dctype_eqb (ctype dc) DFACTOR) then Fatal
  else
    let* (h, dc) := na_element h dc r in
    let* s := sarg_read h v in
    let '(dc, level_id) := value_to_factor dc s in
    let* (h, dc) := new_element h dc r (EInt level_id) in
    Ok (h, put_column df c dc).

(** is_na, src/nx_data_frame.c:319-327. *)
Definition is_na (df : frame) (r c : Z) : res bool :=
  let* dc := column_at df r c in
  let* p := zget (celems dc) r in
  Ok (match p with None => true | _ => false end).
(** nx_data_frame_n_columns, nx_data_frame_column (243-255) and the accessors
    of a column, 257-285. *)
Definition n_columns (df : frame) : Z := Z.of_nat (length (cols df)).
Definition column (df : frame) (c : Z) : res dcol :=
  if (c <? 0) || (n_columns df <=? c) then Fatal else zget (cols df) c.
Definition n_factor_levels (dc : dcol) : Z :=
  if dctype_eqb (ctype dc) DFACTOR then Z.of_nat (length (clevels dc)) else 0.
Definition factor_level (dc : dcol) (i : Z) : res (list N) :=
  if negb (dctype_eqb (ctype dc) DFACTOR) then Fatal
  else if (i <? 0) || (n_factor_levels dc <=? i) then Fatal
  else zget (clevels dc) i.
(** The checks common to the getters: CHECK_DATA_FRAME_ELEMENT, 47-53. *)
Definition get_elem (h : dheap) (df : frame) (r c : Z) (ty : dctype) : res (dcol * nat * elem) :=
  let* dc := column_at df r c in
  if negb (dctype_eqb (ctype dc) ty) then Fatal
  else
    let* p := zget (celems dc) r in
    match p with None => Fatal | Some q => let* e := hget h q in Ok (dc, q, e) end.
(** src/nx_data_frame.c:329-384. *)
Definition get_string h df r c : res (list N) := let* (_, _, e) := get_elem h df r c DSTRING in match e with EStr s => Ok s | _ => UB end.
Definition get_string_ptr h df r c : res nat := let* (_, q, _) := get_elem h df r c DSTRING in Ok q.
Definition get_int h df r c : res Z := let* (_, _, e) := get_elem h df r c DINT in match e with EInt z => Ok z | _ => UB end.
Definition get_double h df r c : res N := let* (_, _, e) := get_elem h df r c DDOUBLE in match e with EDbl d => Ok d | _ => UB end.
Definition get_bool h df r c : res Z := let* (_, _, e) := get_elem h df r c DBOOL in match e with EBool z => Ok z | _ => UB end.
Definition get_factor h df r c : res (list N) :=
  let* (dc, _, e) := get_elem h df r c DFACTOR in match e with EInt i => zget (clevels dc) i | _ => UB end.

(** printf "%d". *)
Fixpoint print_nat (fuel : nat) (n : N) (acc : list N) : list N :=
  match fuel with
  | O => acc
  | S f => let acc := (48 + n mod 10)%N :: acc in if (n / 10 =? 0)%N then acc else print_nat f (n / 10)%N acc
  end.
Definition print_int (z : Z) : list N :=
  if z <? 0 then 45%N :: print_nat (S (N.to_nat (N.log2 (Z.to_N (- z))))) (Z.to_N (- z)) []
  else print_nat (S (N.to_nat (N.log2 (Z.to_N z)))) (Z.to_N z) [].

Section Print.
Variable print_d : N -> list N.

(** src/nx_data_frame.c:206-241.  The values are printed into 256 bytes. *)
Definition factor_value (ty : dctype) (e : elem) : res (list N) :=
  match ty, e with
  | DINT, EInt z => Ok (firstn 255 (print_int z))
  | DDOUBLE, EDbl d => Ok (firstn 255 (print_d d))
  | DBOOL, EBool b => Ok (if b =? 0 then s_false else s_true)
  | DFACTOR, _ => Fatal
  | _, _ => UB
  end.
Definition make_factor (h : dheap) (df : frame) (c : Z) : res (dheap * frame) :=
  if (c <? 0) || (Z.of_nat (length (cols df)) <=? c) then Fatal
  else
    let* dc := aget (cols df) (Z.to_nat c) in
    if dctype_eqb (ctype dc) DFACTOR then Ok (h, df)
    else
      let* new := column_new DFACTOR (clabel dc) (n_rows df) in
      let* (h, df) := for_each (fun i '(h, df) =>
          let* p := aget (celems dc) i in
          match p with
          | None => Ok (h, df)
          | Some q =>
            if dctype_eqb (ctype dc) DSTRING then set_factor h df (Z.of_nat i) c (SPtr q)
            else
              let* e := hget h q in
              let* value := factor_value (ctype dc) e in
              set_factor h df (Z.of_nat i) c (SExt value)
          end) (seq 0 (Z.to_nat (n_rows df))) (h, put_column df c new) in
      let* h := column_free h dc in
      Ok (h, df).

(** src/nx_data_frame.c:544-599: one cell. *)
Definition cell_text (h : dheap) (df : frame) (r c : Z) : res (list N) :=
  let* na := is_na df r c in
  if na then Ok []
  else
    let* dc := column_at df r c in
    match ctype dc with
    | DSTRING => let* s := get_string h df r c in Ok (nx_fputs_double_quoted (Some s))
    | DFACTOR => let* s := get_factor h df r c in Ok (nx_fputs_double_quoted (Some s))
    | DINT => let* z := get_int h df r c in Ok (print_int z)
    | DDOUBLE => let* d := get_double h df r c in Ok (print_d d)
    | DBOOL => let* b := get_bool h df r c in Ok (if b =? 0 then s_false else s_true)
    end.
(** src/nx_data_frame.c:515-603: the bytes put on the stream. *)
Definition frame_fprintf (h : dheap) (df : frame) (col_sep : list N) : res (list N) :=
  let nc := length (cols df) in
  let* out := for_each (fun i out =>
      let* dc := aget (cols df) i in
      Ok (out ++ nx_fputs_readable (Some (clabel dc)) ++ (if negb (i =? nc - 1)%nat then col_sep else [10%N]))) (seq 0 nc) [] in
  for_each (fun r out =>
    for_each (fun c out =>
      let* s := cell_text h df (Z.of_nat r) (Z.of_nat c) in
      Ok (out ++ s ++ (if negb (c =? nc - 1)%nat then col_sep else [10%N]))) (seq 0 nc) out)
    (seq 0 (Z.to_nat (n_rows df))) out.
(** src/nx_data_frame.c:606-612. *)
Definition save_csv (h : dheap) (df : frame) : res (list N) := frame_fprintf h df [44%N].
End Print.

(** Variadic row values: nx_data_frame_vset, src/nx_data_frame.c:386-415.  A
    va_arg of the wrong type (or missing) is undefined. *)
Inductive varg := VInt (z : Z) | VDbl (d : N) | VStr (s : list N).
Fixpoint vset_loop (h : dheap) (df : frame) (r : Z) (cs : list nat) (args : list varg) : res (dheap * frame) :=
  match cs with
  | [] => Ok (h, df)
  | c :: cs' =>
    let* dc := aget (cols df) c in
    match args with
    | [] => UB
    | a :: args' =>
      let* (h, df) :=
        match ctype dc, a with
        | DINT, VInt z => set_int h df r (Z.of_nat c) z
        | DBOOL, VInt z => set_bool h df r (Z.of_nat c) z
        | DDOUBLE, VDbl d => set_double h df r (Z.of_nat c) d
        | DSTRING, VStr s => set_string h df r (Z.of_nat c) (SExt s)
        | DFACTOR, VStr s => set_factor h df r (Z.of_nat c) (SExt s)
        | _, _ => UB
        end in
      vset_loop h df r cs' args'
    end
  end.
Definition vset (h : dheap) (df : frame) (r : Z) (args : list varg) : res (dheap * frame) :=
  if (r <? 0) || (n_rows df <=? r) then Fatal else vset_loop h df r (seq 0 (length (cols df))) args.
(** src/nx_data_frame.c:300-311. *)
Definition append_row (h : dheap) (df : frame) (args : list varg) : res (dheap * frame * Z) :=
  let* (df, r) := add_row df in
  let* (h, df) := vset h df r args in
  Ok (h, df, r).

(** nx_data_frame_set, src/nx_data_frame.c:417-426. *)
Definition set_row (h : dheap) (df : frame) (r : Z) (args : list varg) : res (dheap * frame) :=
  if (r <? 0) || (n_rows df <=? r) then Fatal else vset h df r args.

(** ** CSV: src/nx_csv_parser.c:86-101, 225-259 and src/nx_data_frame.c:614-650. *)
Section Load.
Variable atof : list N -> N.
Variable strtod_all : list N -> bool.
Variable print_d : N -> list N.

Definition field_set_data_frame (f : option (bool * list N)) (h : dheap) (df : frame) (r c : Z) : res (dheap * frame) :=
  match f with
  | None => set_na h df r c
  | Some (_, s) =>
    (* nx_data_frame_column asserts the index *)
    if (c <? 0) || (Z.of_nat (length (cols df)) <=? c) then Fatal
    else
      let* dc := aget (cols df) (Z.to_nat c) in
      match ctype dc with
      | DSTRING => set_string h df r c (SExt s)
      | DBOOL => set_bool h df r c (if str_eqb s_true s then 1 else 0)
      | DDOUBLE => set_double h df r c (atof s)
      | DINT => set_int h df r c (atoi s)
      | DFACTOR => set_factor h df r c (SExt s)
      end
  end.
Definition fill_data_frame (nc : nat) (rows : list (list (option (bool * list N)))) (h : dheap) (df : frame) : res (dheap * frame) :=
  for_each (fun record '(h, df) =>
    let* (df, row_id) := add_row df in
    for_each (fun c '(h, df) =>
      let* field := aget record c in
      field_set_data_frame field h df row_id (Z.of_nat c)) (seq 0 nc) (h, df)) rows (h, df).
Definition to_data_frame (h : dheap) (nc : nat) (records : list (list (option (bool * list N)))) : res (dheap * frame) :=
  match records with
  | [] => Fatal (* NX_ASSERT(data->size > 0) *)
  | labelr :: rows =>
    if (nc =? 0)%nat then Fatal
    else
      let* ctypes := get_column_types strtod_all nc records in
      let* df := for_each (fun i df =>
          let* f := aget labelr i in
          let* ty := aget ctypes i in
          add_column df ty (match f with None => [] | Some (_, s) => s end)) (seq 0 nc) frame_alloc in
      fill_data_frame nc rows h df
  end.
(** src/nx_csv_parser.c:356-365. *)
Definition csv_parse (h : dheap) (t : list N) : res (dheap * frame) :=
  let* (nc, records) := parse_csv t in to_data_frame h nc records.

(** src/nx_data_frame.c:619-632: reading the stream into a growing buffer.
    Storing at index [i] needs i < cap. *)
Fixpoint read_stream (file : list N) (cap i : Z) (text : list N) : res (list N * Z) :=
  match file with
  | [] => if i <? cap then Ok (text, i) else UB
  | c :: file' =>
    if i <? cap then
      let* i := chk_int (i + 1) in
      let* cap := (if cap - 2 <=? i then chk_int (cap * 2) else Ok cap) in
      read_stream file' cap i (text ++ [c])
    else UB
  end.
(** src/nx_data_frame.c:638-643: the loop increments [i], not col_id. *)
Fixpoint factors_loop (fuel : nat) (h : dheap) (df : frame) (col_id i : Z) : res (dheap * frame) :=
  match fuel with
  | O => NoFuel
  | S f =>
    if col_id <? Z.of_nat (length (cols df)) then
      let* dc := zget (cols df) col_id in
      let* (h, df) := (if dctype_eqb (ctype dc) DSTRING then make_factor print_d h df col_id else Ok (h, df)) in
      let* i := chk_int (i + 1) in
      factors_loop f h df col_id i
    else Ok (h, df)
  end.
Definition load_csv_stream (fuel : nat) (h : dheap) (file : list N) (strings_as_factors : bool) : res (dheap * frame) :=
  let* (text, i) := read_stream file 1024 0 [] in
  let* (h, df) := csv_parse h text in
  if strings_as_factors then factors_loop fuel h df 0 i else Ok (h, df).
End Load.

(** ** Driver: histories of frame operations by a client. *)
Inductive dfop :=
| DfAddColumn (ty : dctype) (label : list N)
| DfAddRow
| DfSetNa (r c : Z)
| DfSetString (r c : Z) (s : list N)
| DfSetStringFrom (r c r' c' : Z)   (* value obtained by get_string at r', c' *)
| DfSetInt (r c : Z) (z : Z)
| DfSetDouble (r c : Z) (d : N)
| DfSetBool (r c : Z) (b : Z)
| DfSetFactor (r c : Z) (s : list N)
| DfAppendRow (args : list varg)
| DfSetRow (r : Z) (args : list varg)
| DfMakeFactor (c : Z).
Definition df_step (print_d : N -> list N) (h : dheap) (df : frame) (o : dfop) : res (dheap * frame) :=
  match o with
  | DfAddColumn ty label => let* df := add_column df ty label in Ok (h, df)
  | DfAddRow => let* (df, _) := add_row df in Ok (h, df)
  | DfSetNa r c => set_na h df r c
  | DfSetString r c s => set_string h df r c (SExt s)
  | DfSetStringFrom r c r' c' => let* p := get_string_ptr h df r' c' in set_string h df r c (SPtr p)
  | DfSetInt r c z => set_int h df r c z
  | DfSetDouble r c d => set_double h df r c d
  | DfSetBool r c b => set_bool h df r c b
  | DfSetFactor r c s => set_factor h df r c (SExt s)
  | DfAppendRow args => let* (h, df, _) := append_row h df args in Ok (h, df)
  | DfSetRow r args => set_row h df r args
  | DfMakeFactor c => make_factor print_d h df c
  end.
Fixpoint df_run (print_d : N -> list N) (h : dheap) (df : frame) (os : list dfop) : res (dheap * frame) :=
  match os with [] => Ok (h, df) | o :: os' => let* (h, df) := df_step print_d h df o in df_run print_d h df os' end.
