(** Specification of data frames: a table of optional typed values. *)
From Verif Require Import Base StrArrModel CsvModel DfModel.
Local Open Scope Z_scope.

(** A value.  The value of a factor cell is its string. *)
Inductive aval := AStr (s : list N) | AInt (z : Z) | ADbl (d : N) | ABool (z : Z).
(** A column: type, label, factor levels and one optional value per row. *)
Record acol := mkACol { atype : dctype; alabel : list N; alevels : list (list N); acells : list (option aval) }.
Record table := mkTable { trows : nat; tcols : list acol }.
Definition empty_table : table := mkTable 0 [].

(** The column of an existing cell; a cell outside the table is fatal. *)
Definition t_col (T : table) (r c : Z) : res acol :=
  if (0 <=? r) && (r <? Z.of_nat (trows T)) && (0 <=? c) then
    match nth_error (tcols T) (Z.to_nat c) with Some ac => Ok ac | None => Fatal end
  else Fatal.

(** Changing one cell. *)
Definition put_cell (ac : acol) (r : Z) (v : option aval) : acol :=
  mkACol (atype ac) (alabel ac) (alevels ac) (lset (acells ac) (Z.to_nat r) v).
Definition put_col (T : table) (c : Z) (ac : acol) : table := mkTable (trows T) (lset (tcols T) (Z.to_nat c) ac).

(** A level is added at the end when it is new. *)
Definition add_level (l : list (list N)) (s : list N) : list (list N) :=
  if existsb (bytes_eqb s) l then l else l ++ [s].
Definition with_level (ac : acol) (v : aval) : acol :=
  match atype ac, v with
  | DFACTOR, AStr s => mkACol (atype ac) (alabel ac) (add_level (alevels ac) s) (acells ac)
  | _, _ => ac
  end.

(** Storing value [v] through the setter for columns of type [ty]. *)
Definition t_set (T : table) (r c : Z) (ty : dctype) (v : aval) : res table :=
  let* ac := t_col T r c in
  if dctype_eqb (atype ac) ty then Ok (put_col T c (put_cell (with_level ac v) r (Some v))) else Fatal.
(** Reading with the getter for type [ty]: wrong type and NA are fatal. *)
Definition t_get (T : table) (r c : Z) (ty : dctype) : res aval :=
  let* ac := t_col T r c in
  if dctype_eqb (atype ac) ty then
    match nth_error (acells ac) (Z.to_nat r) with Some (Some v) => Ok v | _ => Fatal end
  else Fatal.
Definition t_is_na (T : table) (r c : Z) : res bool :=
  let* ac := t_col T r c in
  Ok (match nth_error (acells ac) (Z.to_nat r) with Some (Some _) => false | _ => true end).

Definition t_add_column (T : table) (ty : dctype) (label : list N) : table :=
  mkTable (trows T) (tcols T ++ [mkACol ty label [] (repeat None (trows T))]).
Definition t_add_row (T : table) : table :=
  mkTable (S (trows T)) (map (fun ac => mkACol (atype ac) (alabel ac) (alevels ac) (acells ac ++ [None])) (tcols T)).

(** The value a variadic argument gives a column of type [ty]. *)
Definition arg_value (ty : dctype) (a : varg) : option aval :=
  match ty, a with
  | DINT, VInt z => Some (AInt z)
  | DBOOL, VInt z => Some (ABool z)
  | DDOUBLE, VDbl d => Some (ADbl d)
  | DSTRING, VStr s | DFACTOR, VStr s => Some (AStr s)
  | _, _ => None
  end.
(** Storing a whole row; arguments of other types than the columns', or too
    few of them, are undefined (va_arg). *)
Fixpoint put_row (l : list acol) (r : Z) (args : list varg) : res (list acol) :=
  match l, args with
  | [], _ => Ok []
  | _ :: _, [] => UB
  | ac :: l', a :: args' =>
    match arg_value (atype ac) a with
    | None => UB
    | Some v => let* l' := put_row l' r args' in Ok (put_cell (with_level ac v) r (Some v) :: l')
    end
  end.
Definition t_set_row (T : table) (r : Z) (args : list varg) : res table :=
  if (0 <=? r) && (r <? Z.of_nat (trows T)) then
    let* l := put_row (tcols T) r args in Ok (mkTable (trows T) l)
  else Fatal.

(** Factors: the text of each value, levels in order of first occurrence. *)
Definition value_text (print_d : N -> list N) (v : aval) : list N :=
  match v with
  | AStr s => s
  | AInt z => print_int z
  | ADbl d => print_d d
  | ABool b => if b =? 0 then s_false else s_true
  end.
Fixpoint distinct (l : list (list N)) : list (list N) :=
  match l with [] => [] | x :: l' => x :: filter (fun y => negb (bytes_eqb x y)) (distinct l') end.
Definition present {A} (l : list (option A)) : list A :=
  flat_map (fun o => match o with Some v => [v] | None => [] end) l.
Definition factor_column (print_d : N -> list N) (ac : acol) : acol :=
  if dctype_eqb (atype ac) DFACTOR then ac
  else mkACol DFACTOR (alabel ac) (distinct (map (value_text print_d) (present (acells ac))))
         (map (option_map (fun v => AStr (value_text print_d v))) (acells ac)).
Definition t_make_factor (print_d : N -> list N) (T : table) (c : Z) : res table :=
  if 0 <=? c then
    match nth_error (tcols T) (Z.to_nat c) with
    | Some ac => Ok (put_col T c (factor_column print_d ac))
    | None => Fatal
    end
  else Fatal.

Definition t_step (print_d : N -> list N) (T : table) (o : dfop) : res table :=
  match o with
  | DfAddColumn ty label => Ok (t_add_column T ty label)
  | DfAddRow => Ok (t_add_row T)
  | DfSetNa r c => let* ac := t_col T r c in Ok (put_col T c (put_cell ac r None))
  | DfSetString r c s => t_set T r c DSTRING (AStr s)
  | DfSetStringFrom r c r' c' =>
    let* v := t_get T r' c' DSTRING in
    if (r =? r') && (c =? c') then UB (* the string is freed before it is copied *)
    else t_set T r c DSTRING v
  | DfSetInt r c z => t_set T r c DINT (AInt z)
  | DfSetDouble r c d => t_set T r c DDOUBLE (ADbl d)
  | DfSetBool r c b => t_set T r c DBOOL (ABool b)
  | DfSetFactor r c s => t_set T r c DFACTOR (AStr s)
  | DfAppendRow args => let T' := t_add_row T in t_set_row T' (Z.of_nat (trows T)) args
  | DfSetRow r args => t_set_row T r args
  | DfMakeFactor c => t_make_factor print_d T c
  end.
Fixpoint t_run (print_d : N -> list N) (T : table) (os : list dfop) : res table :=
  match os with [] => Ok T | o :: os' => let* T := t_step print_d T o in t_run print_d T os' end.

(** Arguments that are C ints are in range. *)
Definition arg_ok (a : varg) : Prop := match a with VInt z => in_int z = true | _ => True end.
Definition dfop_ok (o : dfop) : Prop :=
  match o with
  | DfSetInt _ _ z | DfSetBool _ _ z => in_int z = true
  | DfAppendRow args | DfSetRow _ args => Forall arg_ok args
  | _ => True
  end.

(** What a client sees of a cell: NA or the value of the getter for the type of
    its column. *)
Definition cell_value (h : dheap) (df : frame) (r c : Z) : res (option aval) :=
  let* na := is_na df r c in
  if na then Ok None
  else
    let* dc := column df c in
    match ctype dc with
    | DSTRING => let* s := get_string h df r c in Ok (Some (AStr s))
    | DFACTOR => let* s := get_factor h df r c in Ok (Some (AStr s))
    | DINT => let* z := get_int h df r c in Ok (Some (AInt z))
    | DDOUBLE => let* d := get_double h df r c in Ok (Some (ADbl d))
    | DBOOL => let* z := get_bool h df r c in Ok (Some (ABool z))
    end.
(** The client sees exactly table [T]: sizes, column descriptions, cells, and
    every getter on every index. *)
Definition shows (h : dheap) (df : frame) (T : table) : Prop :=
  n_rows df = Z.of_nat (trows T) /\ n_columns df = Z.of_nat (length (tcols T)) /\
  (forall c, match nth_error (tcols T) c with
             | Some ac => length (acells ac) = trows T /\
                 exists dc, column df (Z.of_nat c) = Ok dc /\ ctype dc = atype ac /\ clabel dc = alabel ac /\
                   (atype ac = DFACTOR -> n_factor_levels dc = Z.of_nat (length (alevels ac)) /\
                      forall i s, nth_error (alevels ac) i = Some s -> factor_level dc (Z.of_nat i) = Ok s)
             | None => True
             end) /\
  (forall r c, is_na df r c = t_is_na T r c) /\
  (forall r c, (let* s := get_string h df r c in Ok (AStr s)) = t_get T r c DSTRING) /\
  (forall r c, (let* z := get_int h df r c in Ok (AInt z)) = t_get T r c DINT) /\
  (forall r c, (let* d := get_double h df r c in Ok (ADbl d)) = t_get T r c DDOUBLE) /\
  (forall r c, (let* z := get_bool h df r c in Ok (ABool z)) = t_get T r c DBOOL) /\
  (forall r c, (let* s := get_factor h df r c in Ok (AStr s)) = t_get T r c DFACTOR).

(** The operations that store into one cell. *)
Inductive stores : dfop -> Z -> Z -> option aval -> Prop :=
| st_na r c : stores (DfSetNa r c) r c None
| st_string r c s : stores (DfSetString r c s) r c (Some (AStr s))
| st_int r c z : stores (DfSetInt r c z) r c (Some (AInt z))
| st_double r c d : stores (DfSetDouble r c d) r c (Some (ADbl d))
| st_bool r c z : stores (DfSetBool r c z) r c (Some (ABool z))
| st_factor r c s : stores (DfSetFactor r c s) r c (Some (AStr s)).

(** The state after a history. *)
Definition history print_d os h df T :=
  Forall dfop_ok os /\ (Z.of_nat (length os) < 700000000)%Z /\ df_run print_d [] frame_alloc os = Ok (h, df) /\
  t_run print_d empty_table os = Ok T.
