(** Specification of CSV texts, column types and integer texts. *)
From Verif Require Import Base CsvModel.
Local Open Scope N_scope.

(** A field is empty, plain or quoted (flag true). *)
Notation csv_field := (option (bool * list N)).

(** Text of a field: a quoted field doubles its quotes. *)
Fixpoint double_quotes (s : list N) : list N :=
  match s with [] => [] | c :: s' => if c =? 34 then 34 :: 34 :: double_quotes s' else c :: double_quotes s' end.
Definition field_text (f : csv_field) : list N :=
  match f with
  | None => []
  | Some (false, s) => s
  | Some (true, s) => 34 :: double_quotes s ++ [34]
  end.
Fixpoint join {A} (sep : A) (l : list (list A)) : list A :=
  match l with
  | [] => []
  | [x] => x
  | x :: l' => x ++ sep :: join sep l'
  end.
Definition record_text (r : list csv_field) : list N := join 44 (map field_text r).
(** All records, each ended by a newline. *)
Definition csv_text (rs : list (list csv_field)) : list N := flat_map (fun r => record_text r ++ [10]) rs.

(** Fields that CSV can express: a plain field is not empty and has no comma,
    newline or quote; no field has byte 0 or 255 (the lexer's end marks). *)
Definition plain_char (b : N) : Prop := b <> 44 /\ b <> 10 /\ b <> 34.
Definition text_char (b : N) : Prop := 0 < b < 255.
Definition field_ok (f : csv_field) : Prop :=
  match f with
  | None => True
  | Some (false, s) => s <> [] /\ Forall text_char s /\ Forall plain_char s
  | Some (true, s) => Forall text_char s
  end.

(** Tokens of a record. *)
Definition field_tokens (f : csv_field) : list token :=
  match f with
  | None => []
  | Some (false, s) => [TFIELD s]
  | Some (true, s) => [TQFIELD s]
  end.
Definition record_tokens (r : list csv_field) : list token := join TCOMMA (map field_tokens r).
Definition csv_text_tokens (rs : list (list csv_field)) : list token := flat_map (fun r => record_tokens r ++ [TEOR]) rs.

(** Text of a token. *)
Definition token_text (k : token) : list N :=
  match k with
  | TEOF => []
  | TEOR => [10]
  | TCOMMA => [44]
  | TFIELD s => s
  | TQFIELD s => 34 :: double_quotes s ++ [34]
  end.

(** A table: at least one record, all of the same length; a record is not a
    single empty field (an empty line). *)
Definition table (rs : list (list csv_field)) : Prop :=
  exists r0 rest, rs = r0 :: rest /\ Forall (fun r => length r = length r0) rs /\
    Forall (fun r => r <> [] /\ r <> [None] /\ Forall field_ok r) rs.
(** [v] is a text of the table, the last newline being optional. *)
Definition text_of_table (rs : list (list csv_field)) (v : list N) : Prop :=
  v = csv_text rs \/ v ++ [10] = csv_text rs.

(** Join of the types of the non-empty fields of a column. *)
Definition type_join (ts : list dctype) : dctype :=
  let has k := existsb k ts in
  match ts with
  | [] => DSTRING
  | _ => if has is_string then DSTRING
         else if has is_bool then if forallb is_bool ts then DBOOL else DSTRING
         else if has is_double then DDOUBLE
         else DINT
  end.
(** Field [c] of each record, without the empty ones. *)
Definition column_fields (c : nat) (rows : list (list csv_field)) : list csv_field :=
  filter (fun f => match f with None => false | Some _ => true end) (map (fun r => nth c r None) rows).

(** Decimal integers: sign, digits without superfluous leading zeros. *)
Definition dec_value (ds : list N) : Z := fold_left (fun v d => v * 10 + (Z.of_N d - 48))%Z ds 0%Z.
Definition decimal_digits (ds : list N) : Prop :=
  ds = [48] \/ exists d ds', ds = d :: ds' /\ 49 <= d <= 57 /\ Forall (fun b => 48 <= b <= 57) ds'.

(** Integer texts of the classifier: white space, sign, and a decimal, octal
    (leading 0) or hexadecimal (leading 0x) numeral. *)
Definition spaces (ws : list N) : Prop := Forall (fun c => c = 32 \/ 9 <= c <= 13) ws.
Definition sign_of (sg : list N) (v : Z) : Z := match sg with [45] => - v | _ => v end.
Definition sign_ok (sg : list N) : Prop := sg = [] \/ sg = [43] \/ sg = [45].
Definition oct_digits (ds : list N) : Prop := exists os, ds = 48 :: os /\ os <> [] /\ Forall (fun b => 48 <= b <= 55) os.
Definition oct_value (ds : list N) : Z := fold_left (fun v d => v * 8 + (Z.of_N d - 48))%Z ds 0%Z.
Definition hex_digit (b : N) : Prop := 48 <= b <= 57 \/ 97 <= b <= 102 \/ 65 <= b <= 70.
Definition hex_digits (ds : list N) : Prop := exists x hs, ds = 48 :: x :: hs /\ (x = 120 \/ x = 88) /\ hs <> [] /\ Forall hex_digit hs.
Definition hex_value (ds : list N) : Z :=
  fold_left (fun v d => v * 16 + (if (d <=? 57)%N then Z.of_N d - 48 else if (d <=? 70)%N then Z.of_N d - 55 else Z.of_N d - 87))%Z (skipn 2 ds) 0%Z.
