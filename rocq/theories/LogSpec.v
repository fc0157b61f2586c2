(** What is said about log messages. *)
From Coq Require Import String Ascii.
From Verif Require Import Base DfModel DsSpec LogModel.
Local Open Scope Z_scope.
Local Open Scope list_scope.

(** The levels of the messages and of the verbosity, with the numbers of the header. *)
Inductive severity := Info | Normal | Warning | Error.
Definition severity_code (v : severity) : Z := match v with Info => 0 | Normal => 1 | Warning => 2 | Error => 3 end.
Inductive verbosity := Informative | Default | Cautious | Silent.
Definition verbosity_code (v : verbosity) : Z := match v with Informative => 0 | Default => 1 | Cautious => 2 | Silent => 3 end.

(** Which messages are shown under which verbosity. *)
Definition visible (v : verbosity) (s : severity) : bool :=
  match v, s with
  | Informative, _ => true
  | Default, Info => false
  | Default, _ => true
  | Cautious, Info | Cautious, Normal => false
  | Cautious, _ => true
  | Silent, Error => true
  | Silent, _ => false
  end.

(** What a program does with the log. *)
Inductive use :=
| SetVerbosity (v : verbosity)
| SetHandler (h : option nat)
| Message (s : severity) (fn : list N) (line : Z) (tag msg : list N)
| FatalMessage (fn : list N) (line : Z) (tag msg : list N).
Definition call_of (u : use) : lcall :=
  match u with
  | SetVerbosity v => CVerb (verbosity_code v)
  | SetHandler h => CHandler h
  | Message s fn line tag msg => CLog (severity_code s) fn line tag msg
  | FatalMessage fn line tag msg => CFatal fn line tag msg
  end.

(** The settings in force after a history: those made last. *)
Definition verbosity_after (us : list use) : verbosity :=
  last (flat_map (fun u => match u with SetVerbosity v => [v] | _ => [] end) us) Default.
Definition handler_after (us : list use) : option nat :=
  last (flat_map (fun u => match u with SetHandler h => [h] | _ => [] end) us) None.
(** A fatal error without a handler ends the program. *)
Definition ended (us : list use) : Prop :=
  exists before fn line tag msg after, us = before ++ FatalMessage fn line tag msg :: after /\ handler_after before = None.

(** The line of a message. *)
Definition letter (s : severity) : list N := text (match s with Info => "I" | Normal => "L" | Warning => "W" | Error => "E" end).
Definition message_line (ty fn : list N) (line : Z) (tag msg : list N) : list N :=
  text "[" ++ ty ++ text "][" ++ tag ++ text "][" ++ fn ++ text ":" ++ print_int line ++ text "] " ++ msg.
(** On a terminal the line is between a colour code, ESC [ ... m, and the reset code. *)
Definition color_code (c : list N) : Prop := exists d, c = 27%N :: text "[" ++ d ++ text "m" /\ Forall (fun b => b = 59 \/ 48 <= b <= 57)%N d.
Definition painted (tty : bool) (c line : list N) : list N :=
  if tty then c ++ line ++ 27%N :: text "[0m" else line.

(** All effects of a history. *)
Definition effects (tty : bool) (stack : list (list N)) (us : list use) : list effect :=
  fst (log_run tty stack log_start (map call_of us)).
