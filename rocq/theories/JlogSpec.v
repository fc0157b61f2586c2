(** Histories of JSON log calls and what the streams should then hold. *)
From Verif Require Import Base Heap LexModel JsonModel JsonSpec JlogModel.
Local Open Scope Z_scope.

Inductive call :=
| CLog (id : Z) (key : list N) (v : json)      (* NX_JLOG, NX_JLOG_I, ... *)
| CAdd (id : Z) (key : list N) (v : json)      (* NX_JLOG_ADDI, ... *)
| CGet (id : Z)                                (* any read or print of a stream *)
| CClear (id : Z)                              (* NX_JLOG_CLEAR *)
| CClearAll.                                   (* NX_JLOG_CLEAR_ALL *)

(** The calls, run on the model; values are made by the JSON constructors. *)
Definition perform (s : jlog) (c : call) : res jlog :=
  match c with
  | CLog id key v => log_value s id key (fun h => build h v)
  | CAdd id key v => log_add s id key (fun h => build h v)
  | CGet id => let* (s, _) := get_stream s id in Ok s
  | CClear id => clear_stream s id
  | CClearAll => log_free s
  end.
Fixpoint run (s : jlog) (cs : list call) : res jlog :=
  match cs with [] => Ok s | c :: cs' => let* s := perform s c in run s cs' end.
(** The start of the program: no table and no node. *)
Definition start : jlog := JL None [].

(** The stream a call is about. *)
Definition stream_of (c : call) : option Z :=
  match c with CLog id _ _ | CAdd id _ _ | CGet id | CClear id => Some id | CClearAll => None end.
Definition valid (c : call) : Prop := match stream_of c with Some id => 0 <= id < 32 | None => True end.
Definition clears (c : call) (id : Z) : Prop := c = CClear id \/ c = CClearAll.

(** Appending [v] to the array called [key]: to the first entry of that name
    when it is an array, else as a new one-element array at the end. *)
Fixpoint append_to (key : list N) (v : json) (ms : list (list N * json)) : list (list N * json) :=
  match ms with
  | [] => [(key, JArr [v])]
  | (k, w) :: ms' =>
    if list_eq_dec N.eq_dec k key
    then match w with
         | JArr vs => (k, JArr (vs ++ [v])) :: ms'
         | _ => (k, w) :: ms' ++ [(key, JArr [v])]
         end
    else (k, w) :: append_to key v ms'
  end.

(** The entries of stream [id] after a history: those logged since the last
    call that cleared it. *)
Definition entries_step (id : Z) (ms : list (list N * json)) (c : call) : list (list N * json) :=
  match c with
  | CLog i key v => if i =? id then ms ++ [(key, built v)] else ms
  | CAdd i key v => if i =? id then append_to key (built v) ms else ms
  | CGet _ => ms
  | CClear i => if i =? id then [] else ms
  | CClearAll => []
  end.
Definition entries (cs : list call) (id : Z) : list (list N * json) := fold_left (entries_step id) cs [].
