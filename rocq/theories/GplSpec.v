(** What gnuplot reads: lines, and in a line words and quoted strings. *)
From Coq Require Import String Ascii.
From Verif Require Import Base DfModel DfSpec DsSpec.
Local Open Scope list_scope.

(** The lines of a text.  What follows the last newline is not a line yet. *)
Fixpoint lines_from (acc : list N) (t : list N) : list (list N) :=
  match t with
  | [] => []
  | b :: t' => if N.eqb b 10 then acc :: lines_from [] t' else lines_from (acc ++ [b]) t'
  end.
Definition lines (t : list N) : list (list N) := lines_from [] t.

(** The words of a line, separated by blanks; a string is between double quotes. *)
Inductive token := Word (s : list N) | Str (s : list N).
Inductive reading := Between | InWord (acc : list N) | InStr (acc : list N).
Fixpoint tokens_from (st : reading) (l : list N) : list token :=
  match l with
  | [] => match st with Between => [] | InWord acc => [Word acc] | InStr acc => [Str acc] end
  | b :: l' =>
    match st with
    | Between => if N.eqb b 32 || N.eqb b 9 then tokens_from Between l' else if N.eqb b 34 then tokens_from (InStr []) l' else tokens_from (InWord [b]) l'
    | InWord acc => if N.eqb b 32 || N.eqb b 9 then Word acc :: tokens_from Between l' else tokens_from (InWord (acc ++ [b])) l'
    | InStr acc => if N.eqb b 34 then Str acc :: tokens_from Between l' else tokens_from (InStr (acc ++ [b])) l'
    end
  end%bool.
Definition tokens (l : list N) : list token := tokens_from Between l.
Definition statements (t : list N) : list (list token) := map tokens (lines t).
Definition w (s : string) : token := Word (text s).

(** The lines up to an end mark, and those after it. *)
Fixpoint until (mark : list N) (ls : list (list N)) : option (list (list N) * list (list N)) :=
  match ls with
  | [] => None
  | l :: ls' => if list_eq_dec N.eq_dec l mark then Some ([], ls')
                else match until mark ls' with Some (a, b) => Some (l :: a, b) | None => None end
  end.

(** Texts that can be in a string: no double quote, backslash or newline. *)
Definition plain (s : list N) : Prop := Forall (fun b => b <> 34 /\ b <> 92 /\ b <> 10)%N s.
(** A printed number: a word without blanks or quotes, not starting like an end mark. *)
Definition word_like (s : list N) : Prop :=
  Forall (fun b => b <> 32 /\ b <> 9 /\ b <> 10 /\ b <> 34)%N s /\ exists b s', s = b :: s' /\ (b <> 69 /\ b <> 101)%N.

(** How a value of a data frame appears. *)
Definition value_token (print_d : N -> list N) (v : aval) : token :=
  match v with
  | AStr s => Str s
  | AInt z => Word (print_int z)
  | ADbl d => Word (print_d d)
  | ABool b => if Z.eqb b 0 then w "false" else w "true"
  end.
(** Frames that can be sent: some column, labels without special characters, no value
    missing, strings plain. *)
Definition sendable (T : table) : Prop :=
  tcols T <> [] /\
  (forall c, In c (tcols T) -> plain (alabel c) /\ Forall (fun b => ~ In b [8; 9; 12; 13]%N) (alabel c)) /\
  (forall c v, In c (tcols T) -> In v (acells c) -> match v with None => False | Some (AStr s) => plain s | Some _ => True end).
(** Its labels, and its rows. *)
Definition label_row (T : table) : list token := map (fun c => Str (alabel c)) (tcols T).
Definition value_row (print_d : N -> list N) (T : table) (r : nat) : list token :=
  flat_map (fun c => match nth r (acells c) None with Some v => [value_token print_d v] | None => [] end) (tcols T).

(** A text is read as some statements, whatever follows it. *)
Definition says (out : list N) (sts : list (list token)) : Prop := forall t, statements (out ++ t) = sts ++ statements t.
