(** What is said about the printed options. *)
From Coq Require Import String Ascii.
From Verif Require Import Base CsvSpec DfCsvSpec OptModel DsSpec.
Local Open Scope Z_scope.
Local Open Scope list_scope.

(** The names of an option as they are shown: "--name, -n", "--name" or "-n". *)
Definition shown_names (q : odata) : list N :=
  match q_name q, q_short q with
  | Some n, Some s => n ++ text ", " ++ s
  | Some n, None => n
  | None, Some s => s
  | None, None => []
  end.
(** [l] is [t] moved to the right until it ends in column [w]. *)
Definition right_aligned (w : nat) (t l : list N) : Prop := List.length l = w /\ exists k, l = repeat 32%N k ++ t.
(** [w] is the length of the longest text (0 if there is none). *)
Definition longest (ts : list (list N)) (w : nat) : Prop :=
  (forall t, In t ts -> (List.length t <= w)%nat) /\ (w = 0%nat \/ exists t, In t ts /\ List.length t = w).
(** An int in decimal. *)
Definition decimal (z : Z) (t : list N) : Prop := exists sg ds, t = sg ++ ds /\ sign_ok sg /\ decimal_digits ds /\ sign_of sg (dec_value ds) = z.
(** The text of a value; a string is cut to 1023 bytes, quotes included. *)
Inductive shown_value (print_d : N -> list N) : oval -> list N -> Prop :=
| sv_false : shown_value print_d (UB_ 0) (text "false")
| sv_true b : b <> 0 -> shown_value print_d (UB_ b) (text "true")
| sv_int i t : decimal i t -> shown_value print_d (UI i) t
| sv_double d : shown_value print_d (UD d) (print_d d)
| sv_string s : shown_value print_d (US (Some s)) (firstn 1023 (text "'" ++ s ++ text "'"))
| sv_none : shown_value print_d UNone [].
(** An option as the interface creates it: it has a name, its values are of its type
    and no string among them is NULL. *)
Definition of_type (ty : otype) (v : oval) : Prop :=
  match ty, v with TBool, UB_ _ | TInt, UI _ | TDouble, UD _ | TString, US _ | THelp, UNone => True | _, _ => False end.
Definition wellformed (q : odata) : Prop := (q_name q <> None \/ q_short q <> None) /\ of_type (q_type q) (q_val q) /\ of_type (q_type q) (q_def q).
Definition no_null (q : odata) : Prop := q_val q <> US None /\ q_def q <> US None.
Definition int_value (v : oval) : Prop := match v with UI i => in_int i = true | _ => True end.
(** One line of the usage. *)
Definition usage_line (print_d : N -> list N) (w : nat) (it : odata * list N) (l : list N) : Prop :=
  exists names d dflt, right_aligned w (shown_names (fst it)) names /\ shown_value print_d (q_def (fst it)) d /\
    dflt = (if q_req (fst it) then text "(REQUIRED)" else match q_type (fst it) with THelp => [] | _ => text "[" ++ d ++ text "]" end) /\
    l = text "  " ++ names ++ text " : " ++ snd it ++ text " " ++ dflt ++ [10%N].
(** One line of the values. *)
Definition value_line (print_d : N -> list N) (w : nat) (it : odata * list N) (l : list N) : Prop :=
  exists names v, right_aligned w (shown_names (fst it)) names /\ shown_value print_d (q_val (fst it)) v /\ l = names ++ text ": " ++ v ++ [10%N].
Definition not_help (it : odata * list N) : bool := match q_type (fst it) with THelp => false | _ => true end.
(** Strings in quotes, separated by commas. *)
Fixpoint quoted_list (vs : list (list N)) : list N :=
  match vs with
  | [] => []
  | [v] => text "'" ++ v ++ text "'"
  | v :: vs' => text "'" ++ v ++ text "'" ++ text ", " ++ quoted_list vs'
  end.
