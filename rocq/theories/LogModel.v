(** Log messages: src/nx_log_c_impl.c, include/virg/nexus/nx_log.h.

    Simplifications.  The message is the text printf makes of its format and arguments.
    Texts are byte lists; NULL is not modelled.  [tty] says whether stderr is a terminal
    and [stack] are the lines of the call stack (backtrace_symbols).  A handler of fatal
    errors is a number; it does not return, but it may jump back into the program, so
    that more calls can follow. *)
From Coq Require Import String Ascii.
From Verif Require Import Base DfModel DsModel.
Local Open Scope Z_scope.
Local Open Scope list_scope.

(** src/nx_log_c_impl.c:37-43. *)
Definition info_code : list N := 27%N :: bs "[34;1m".
Definition log_code : list N := 27%N :: bs "[36m".
Definition warning_code : list N := 27%N :: bs "[33m".
Definition error_code : list N := 27%N :: bs "[31;1m".
Definition fatal_code : list N := 27%N :: bs "[35;1m".
Definition reset_code : list N := 27%N :: bs "[0m".

(** src/nx_log_c_impl.c:49-50: [None] is default_fatal_func. *)
Record lstate := mkL { verb : Z; fatal : option nat }.
Definition log_start : lstate := mkL 1 None.

(** What can be seen from outside: bytes on stderr, a call of a handler, the exit code. *)
Inductive effect :=
| Wrote (b : list N)
| Handled (h : nat) (fn : list N) (line : Z) (tag msg : list N)
| Exited (code : Z).

(** src/nx_log_c_impl.c:47. *)
Definition header (ty tag fn : list N) (line : Z) : list N :=
  bs "[" ++ ty ++ bs "][" ++ tag ++ bs "][" ++ fn ++ bs ":" ++ print_int line ++ bs "] ".

(** src/nx_log_c_impl.c:52-67.  %2d for the index. *)
Definition print_stack (stack : list (list N)) : list N :=
  bs "Call stack:" ++ [10%N] ++
  concat (map (fun '(i, s) =>
      let d := print_int (Z.of_nat i) in
      bs "   (" ++ repeat 32%N (2 - List.length d) ++ d ++ bs ") " ++ s ++ [10%N])
    (combine (seq 0 (List.length stack)) stack)).

(** src/nx_log_c_impl.c:84-99; NX_EXIT_FATAL is -99. *)
Definition default_fatal (tty : bool) (stack : list (list N)) (fn : list N) (line : Z) (tag msg : list N) : list effect :=
  [Wrote ((if tty then fatal_code else []) ++ header (bs "F") tag fn line ++ msg ++
          (if tty then reset_code else []) ++ [10%N] ++ print_stack stack);
   Exited (-99)].

(** src/nx_log_c_impl.c:101-131. *)
Definition log_formatted (tty : bool) (s : lstate) (level : Z) (fn : list N) (line : Z) (tag msg : list N) : list effect :=
  if verb s <=? level then
    let color := if tty then
        match level with 0 => info_code | 1 => log_code | 2 => warning_code | 3 => error_code | _ => [] end else [] in
    let ty := match level with 0 => bs "I" | 1 => bs "L" | 2 => bs "W" | 3 => bs "E" | _ => bs "?" end in
    [Wrote (color ++ header ty tag fn line ++ msg ++ (if tty then reset_code else []) ++ [10%N])]
  else [].

(** Calls of the interface, include/virg/nexus/nx_log.h:51-82. *)
Inductive lcall :=
| CVerb (v : Z)
| CHandler (h : option nat)
| CLog (level : Z) (fn : list N) (line : Z) (tag msg : list N)
| CFatal (fn : list N) (line : Z) (tag msg : list N).

(** One call: src/nx_log_c_impl.c:101-153.  [None]: the program has ended. *)
Definition log_step (tty : bool) (stack : list (list N)) (s : lstate) (c : lcall) : list effect * option lstate :=
  match c with
  | CVerb v => ([], Some (mkL v (fatal s)))
  | CHandler h => ([], Some (mkL (verb s) (match h with Some f => Some f | None => None end)))
  | CLog level fn line tag msg => (log_formatted tty s level fn line tag msg, Some s)
  | CFatal fn line tag msg =>
    match fatal s with
    | Some h => ([Handled h fn line tag msg], Some s)
    | None => (default_fatal tty stack fn line tag msg, None)
    end
  end.
Fixpoint log_run (tty : bool) (stack : list (list N)) (s : lstate) (cs : list lcall) : list effect * option lstate :=
  match cs with
  | [] => ([], Some s)
  | c :: cs' =>
    let '(e, o) := log_step tty stack s c in
    match o with
    | None => (e, None)
    | Some s' => let '(e', o') := log_run tty stack s' cs' in (e ++ e', o')
    end
  end.
