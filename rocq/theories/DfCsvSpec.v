(** Specification of saving and loading data frames as CSV. *)
From Verif Require Import Base StrModel CsvModel CsvSpec DfModel DfSpec.
Local Open Scope Z_scope.

(** The field written for a cell. *)
Definition cell_field (print_d : N -> list N) (ty : dctype) (v : option aval) : csv_field :=
  match v with
  | None => None
  | Some (AStr s) => Some (true, s)
  | Some v => Some (false, value_text print_d v)
  end.
(** The records of a table: labels (quoted), then one record per row. *)
Definition label_record (T : DfSpec.table) : list csv_field := map (fun ac => Some (true, alabel ac)) (tcols T).
Definition row_record (print_d : N -> list N) (T : DfSpec.table) (r : nat) : list csv_field :=
  map (fun ac => cell_field print_d (atype ac) (nth r (acells ac) None)) (tcols T).
Definition row_records print_d T : list (list csv_field) := map (row_record print_d T) (seq 0 (trows T)).

(** The value of a non-empty field in a column of type [ty]. *)
Definition field_value (atof : list N -> N) (ty : dctype) (f : csv_field) : option aval :=
  match f with
  | None => None
  | Some (_, s) =>
    Some (match ty with
          | DSTRING | DFACTOR => AStr s
          | DBOOL => ABool (if str_eqb s_true s then 1 else 0)
          | DDOUBLE => ADbl (atof s)
          | DINT => AInt (atoi s)
          end)
  end.
(** The table loaded from records with [nc] columns: labels from the first
    record, types by C25, values by field_value. *)
Definition field_string (f : csv_field) : list N := match f with None => [] | Some (_, s) => s end.
Definition loaded_column (atof : list N -> N) (strtod_all : list N -> bool) (hdr : list csv_field) (rows : list (list csv_field)) (c : nat) : acol :=
  let ty := type_join (map (field_type strtod_all) (column_fields c rows)) in
  mkACol ty (field_string (nth c hdr None)) [] (map (fun r => field_value atof ty (nth c r None)) rows).
Definition loaded atof strtod_all (nc : nat) (hdr : list csv_field) (rows : list (list csv_field)) : DfSpec.table :=
  mkTable (length rows) (map (loaded_column atof strtod_all hdr rows) (seq 0 nc)).

(** What comes back of a column: factors become strings, a column without
    values becomes a string column, a column of doubles that are all written as
    decimal integers becomes an int column, bools become 0 or 1. *)
Definition reload_type (print_d : N -> list N) (strtod_all : list N -> bool) (ac : acol) : dctype :=
  match present (acells ac) with
  | [] => DSTRING
  | vs =>
    match atype ac with
    | DFACTOR => DSTRING
    | DDOUBLE => if forallb (fun v => match field_type_from_text strtod_all (value_text print_d v) with DINT => true | _ => false end) vs then DINT else DDOUBLE
    | ty => ty
    end
  end.
Definition reload_column print_d strtod_all (ac : acol) : acol :=
  let ty := reload_type print_d strtod_all ac in
  mkACol ty (alabel ac) [] (map (fun v =>
    match ty, v with
    | DINT, Some (ADbl d) => Some (AInt (atoi (print_d d)))
    | _, Some (ABool z) => Some (ABool (if z =? 0 then 0 else 1))
    | _, v => v
    end) (acells ac)).
Definition reload print_d strtod_all (T : DfSpec.table) : DfSpec.table :=
  mkTable (trows T) (map (reload_column print_d strtod_all) (tcols T)).

(** Labels that are written as they are. *)
Definition label_ok (s : list N) : Prop := Forall (fun b => text_char b /\ ~ In b [8; 9; 10; 12; 13; 34; 92]%N) s.
(** Values whose text survives: strings without byte 0 or 255; doubles whose
    text is a plain field read back to the same double. *)
Definition value_ok (print_d : N -> list N) (atof : list N -> N) (strtod_all : list N -> bool) (v : aval) : Prop :=
  match v with
  | AStr s => Forall text_char s
  | ADbl d => print_d d <> [] /\ Forall text_char (print_d d) /\ Forall plain_char (print_d d) /\
              atof (print_d d) = d /\
              (field_type_from_text strtod_all (print_d d) = DINT \/ field_type_from_text strtod_all (print_d d) = DDOUBLE)
  | _ => True
  end.
Definition frame_ok print_d atof strtod_all (T : DfSpec.table) : Prop :=
  tcols T <> [] /\
  (forall ac, In ac (tcols T) -> label_ok (alabel ac) /\ forall v, In (Some v) (acells ac) -> value_ok print_d atof strtod_all v) /\
  (* a row of a one-column frame must not be NA *)
  (forall ac, tcols T = [ac] -> ~ In None (acells ac)).
(** Frames that come back unchanged. *)
Definition column_stable print_d strtod_all (ac : acol) : Prop :=
  match atype ac with
  | DSTRING => True
  | DINT => exists v, In (Some v) (acells ac)
  | DBOOL => (exists v, In (Some v) (acells ac)) /\ forall z, In (Some (ABool z)) (acells ac) -> z = 0 \/ z = 1
  | DDOUBLE => exists d, In (Some (ADbl d)) (acells ac) /\ field_type_from_text strtod_all (print_d d) = DDOUBLE
  | DFACTOR => False
  end.
