(** Model of src/nx_csv_lexer.c and of the parsing and typing half of
    src/nx_csv_parser.c (the data frame it fills is in DfModel).

    Token texts are fresh copies, modelled as byte lists; freeing them is not
    modelled. *)
From Verif Require Import Base StrModel LexModel.
Local Open Scope Z_scope.

(** struct NXCSVToken, include/virg/nexus/nx_csv_lexer.h. *)
Inductive token := TEOF | TEOR | TCOMMA | TFIELD (s : list N) | TQFIELD (s : list N).

(** The bytes text[start .. start+len), src/nx_csv_lexer.c:145,171: strncpy of
    bytes that contain no NUL. *)
Definition slice (t : list N) (start len : nat) : list N := firstn len (skipn start t).

(** src/nx_csv_lexer.c:134-141: the do-while loop of FIELD. *)
Fixpoint field_loop (fuel : nat) (t : list N) (l : lexer) : res lexer :=
  match fuel with
  | O => NoFuel
  | S f =>
    if cur l =? 34 then Fatal
    else
      let* l := consume t l in
      if negb (cur l =? EOF) && negb (cur l =? 10) && negb (cur l =? 44) then field_loop f t l else Ok l
  end.
(** src/nx_csv_lexer.c:130-147 (and 51-64). *)
Definition csv_FIELD (t : list N) (l : lexer) : res (lexer * token) :=
  let start := pos l in
  let* l := field_loop (S (length t)) t l in
  Ok (l, TFIELD (slice t start (pos l - start))).

(** src/nx_csv_lexer.c:154-164: the loop of QFIELD; the flag is
    has_closing_dquote. *)
Fixpoint qfield_loop (fuel : nat) (t : list N) (l : lexer) : res (bool * lexer) :=
  match fuel with
  | O => NoFuel
  | S f =>
    if cur l =? 34 then
      let* l := consume t l in
      if negb (cur l =? 34) then Ok (true, l)
      else let* l := consume t l in if negb (cur l =? EOF) then qfield_loop f t l else Ok (false, l)
    else let* l := consume t l in if negb (cur l =? EOF) then qfield_loop f t l else Ok (false, l)
  end.
(** src/nx_csv_lexer.c:149-173 (and 66-74). *)
Definition csv_QFIELD (t : list N) (l : lexer) : res (lexer * token) :=
  let* l := consume t l in
  let start := pos l in
  let* (closed, l) := qfield_loop (S (length t)) t l in
  if negb closed then Fatal
  else
    let* s := nx_xstr_from_double_quoted (slice t start (pos l - 1 - start)) in
    Ok (l, TQFIELD s).

(** src/nx_csv_lexer.c:175-189. *)
Definition csv_next_token (t : list N) (l : lexer) : res (lexer * token) :=
  if cur l =? EOF then Ok (l, TEOF)
  else if cur l =? 44 then let* l := consume t l in Ok (l, TCOMMA)
  else if cur l =? 10 then let* l := consume t l in Ok (l, TEOR)
  else if cur l =? 34 then csv_QFIELD t l
  else csv_FIELD t l.

(** Driver: all tokens of a text, up to and including the first TEOF. *)
Fixpoint tokens_loop (fuel : nat) (t : list N) (l : lexer) : res (list token) :=
  match fuel with
  | O => NoFuel
  | S f =>
    let* (l, k) := csv_next_token t l in
    match k with
    | TEOF => Ok [TEOF]
    | _ => let* ks := tokens_loop f t l in Ok (k :: ks)
    end
  end.
Definition csv_tokens (t : list N) : res (list token) :=
  let* l := lexer_new t in tokens_loop (S (length t)) t l.

(** ** Parser.
    A field is NULL (empty) or a text with a flag telling whether the token was
    quoted; its type is computed below from these two.
    src/nx_csv_parser.c:56-76, 103-107. *)
Definition field_of (k : token) : option (bool * list N) :=
  match k with
  | TFIELD s => Some (false, s)
  | TQFIELD s => Some (true, s)
  | _ => None
  end.

(** src/nx_csv_parser.c:320-329: [l] and [k] are the lexer and cp->token,
    [r] the fields read so far. *)
Fixpoint fields_loop (fuel : nat) (t : list N) (l : lexer) (k : token) (r : list (option (bool * list N))) :
  res (lexer * token * list (option (bool * list N))) :=
  match fuel with
  | O => NoFuel
  | S f =>
    match k with
    | TEOR | TEOF => Ok (l, k, r)
    | TCOMMA =>
      let* (l, k) := csv_next_token t l in
      match k with
      | TCOMMA | TEOR | TEOF => fields_loop f t l k (r ++ [None])
      | _ => let* (l', k') := csv_next_token t l in fields_loop f t l' k' (r ++ [field_of k])
      end
    | _ => Fatal
    end
  end.
(** src/nx_csv_parser.c:307-335. *)
Definition parse_record (t : list N) (l : lexer) (k : token) : res (lexer * token * list (option (bool * list N))) :=
  let fuel := S (length t) in
  let* (l, k, r) :=
    match k with
    | TEOR => Fatal
    | TCOMMA => fields_loop fuel t l k [None]
    | _ => let* (l', k') := csv_next_token t l in fields_loop fuel t l' k' [field_of k]
    end in
  match k with
  | TEOR => let* (l, k) := csv_next_token t l in Ok (l, k, r)
  | _ => Ok (l, k, r)
  end.
(** src/nx_csv_parser.c:344-351: [nc] is data->n_columns. *)
Fixpoint records_loop (fuel : nat) (t : list N) (l : lexer) (k : token) (nc : nat) (rs : list (list (option (bool * list N)))) :
  res (nat * list (list (option (bool * list N)))) :=
  match fuel with
  | O => NoFuel
  | S f =>
    match k with
    | TEOF => Ok (nc, rs)
    | _ =>
      let* (l, k, r) := parse_record t l k in
      if (nc =? 0)%nat then records_loop f t l k (length r) (rs ++ [r])
      else if negb (length r =? nc)%nat then Fatal
      else records_loop f t l k nc (rs ++ [r])
    end
  end.
(** src/nx_csv_parser.c:273-287, 337-354: n_columns and the records, the first
    of which holds the labels. *)
Definition parse_csv (t : list N) : res (nat * list (list (option (bool * list N)))) :=
  let* l := lexer_new t in
  let* (l, k) := csv_next_token t l in
  match k with
  | TEOF => Fatal
  | _ => records_loop (S (length t)) t l k 0 []
  end.

(** ** strtol and atoi (C11 7.22.1.4, 7.22.1.2; C locale, 64-bit long). *)
Definition LONG_MAX : Z := 9223372036854775807.
Definition LONG_MIN : Z := -9223372036854775808.
Definition isspace (c : N) : bool := ((c =? 32) || ((9 <=? c) && (c <=? 13)))%N.
Fixpoint skip_space (s : list N) : list N :=
  match s with c :: s' => if isspace c then skip_space s' else s | [] => [] end.
Definition digit_value (c : N) : Z :=
  if ((48 <=? c) && (c <=? 57))%N then Z.of_N c - 48
  else if ((97 <=? c) && (c <=? 122))%N then Z.of_N c - 87
  else if ((65 <=? c) && (c <=? 90))%N then Z.of_N c - 55
  else 36.
(** Value of the longest prefix of digits below [base], the number of digits and the rest. *)
Fixpoint read_digits (base : Z) (s : list N) (v : Z) (n : nat) : Z * nat * list N :=
  match s with
  | c :: s' => if digit_value c <? base then read_digits base s' (v * base + digit_value c) (S n) else (v, n, s)
  | [] => (v, n, [])
  end.
Definition clamp_long (v : Z) : Z := Z.max LONG_MIN (Z.min LONG_MAX v).
(** The value and the remaining text; without digits the rest is the whole text. *)
Definition strtol (base : Z) (s : list N) : Z * list N :=
  let s1 := skip_space s in
  let '(neg, s2) := match s1 with
                    | c :: s' => if (c =? 45)%N then (true, s') else if (c =? 43)%N then (false, s') else (false, s1)
                    | [] => (false, [])
                    end in
  let '(b, s3) :=
    if base =? 0 then
      match s2 with
      | z :: x :: h :: s' =>
        if ((z =? 48) && ((x =? 120) || (x =? 88)))%N && (digit_value h <? 16) then (16, h :: s')
        else if (z =? 48)%N then (8, s2) else (10, s2)
      | z :: _ => if (z =? 48)%N then (8, s2) else (10, s2)
      | [] => (10, s2)
      end
    else (base, s2) in
  let '(v, n, rest) := read_digits b s3 0 0 in
  if (n =? 0)%nat then (0, s) else (clamp_long (if neg then - v else v), rest).
(** atoi(s) is (int)strtol(s, NULL, 10); the conversion to int wraps. *)
Definition wrap_int (v : Z) : Z := (v - INT_MIN) mod 4294967296 + INT_MIN.
Definition atoi (s : list N) : Z := wrap_int (fst (strtol 10 s)).

(** ** Field types, include/virg/nexus/nx_data_frame.h: enum NXDataColumnType. *)
Inductive dctype := DSTRING | DBOOL | DDOUBLE | DINT | DFACTOR.

Definition s_true : list N := [116; 114; 117; 101]%N.
Definition s_false : list N := [102; 97; 108; 115; 101]%N.
Definition str_eqb (a b : list N) : bool := if list_eq_dec N.eq_dec a b then true else false.

Section Types.
(** [strtod_all s]: strtod consumes all of [s] without ERANGE.  The model leaves
    floating-point parsing abstract. *)
Variable strtod_all : list N -> bool.

(** src/nx_csv_parser.c:38-54. *)
Definition field_type_from_text (s : list N) : dctype :=
  if str_eqb s_true s || str_eqb s_false s then DBOOL
  else
    let '(lv, rest) := strtol 0 s in
    if match rest with [] => true | _ => false end && (lv <=? INT_MAX) && (INT_MIN <=? lv) then DINT
    else if strtod_all s then DDOUBLE else DSTRING.
(** src/nx_csv_parser.c:61-76. *)
Definition field_type (f : option (bool * list N)) : dctype :=
  match f with
  | None => DSTRING
  | Some (true, _) => DSTRING
  | Some (false, s) => field_type_from_text s
  end.

Definition is_string (t : dctype) : bool := match t with DSTRING => true | _ => false end.
Definition is_bool (t : dctype) : bool := match t with DBOOL => true | _ => false end.
Definition is_double (t : dctype) : bool := match t with DDOUBLE => true | _ => false end.
(** src/nx_csv_parser.c:177-191. *)
Definition pick_larger_type (t0 t1 : dctype) : dctype :=
  if is_string t0 || is_string t1 then DSTRING
  else if is_bool t0 && is_bool t1 then DBOOL
  else if is_bool t0 || is_bool t1 then DSTRING
  else if is_double t0 || is_double t1 then DDOUBLE
  else DINT.

(** src/nx_csv_parser.c:204-213: one record; the entry is None while
    ctype_is_set is false. *)
Definition types_of_record (nc : nat) (record : list (option (bool * list N))) (ct : list (option dctype)) : res (list (option dctype)) :=
  for_each (fun c ct =>
    let* field := aget record c in
    match field with
    | None => Ok ct
    | Some _ =>
      let* t := aget ct c in
      match t with
      | None => aset ct c (Some (field_type field))
      | Some t => aset ct c (Some (pick_larger_type t (field_type field)))
      end
    end) (seq 0 nc) ct.
(** src/nx_csv_parser.c:193-223. *)
Definition get_column_types (nc : nat) (records : list (list (option (bool * list N)))) : res (list dctype) :=
  let* ct := for_each (types_of_record nc) (tl records) (repeat None nc) in
  Ok (map (fun t => match t with None => DSTRING | Some t => t end) ct).
End Types.
