(** Specification vocabulary for strings: what a C string is, what the escaped
    texts may contain, how a stream splits into lines. *)
From Verif Require Import Base.
Local Open Scope N_scope.

(** A C string: bytes, none of them NUL. *)
Definition cstr_ok (s : list N) : Prop := Forall (fun c => c < 256 /\ c <> 0) s.

(** Characters that readable text must not contain raw: backspace, tab,
    newline, form feed, carriage return. *)
Definition is_control (c : N) : Prop := c = 8 \/ c = 9 \/ c = 10 \/ c = 12 \/ c = 13.

(** [closes t]: reading [t] left to right and skipping the character after
    each backslash, a double quote is met. *)
Fixpoint closes (t : list N) : bool :=
  match t with
  | [] => false
  | 92 :: t' => match t' with [] => false | _ :: t'' => closes t'' end
  | 34 :: _ => true
  | _ :: t' => closes t'
  end.

(** The lines of a stream: each line is the maximal run up to and including
    the next newline (10); the last one may lack it. *)
Fixpoint lines (st : list N) : list (list N) :=
  match st with
  | [] => []
  | c :: st' =>
    if c =? 10 then [c] :: lines st'
    else match lines st' with
         | [] => [[c]]
         | l :: ls => (c :: l) :: ls
         end
  end.
