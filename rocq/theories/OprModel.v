(** Printing of options: src/nx_options.c.

    Simplifications.  Texts are byte lists without NUL.  Every option comes with its
    help text, which [OptModel.odata] leaves out; help texts and the name of the
    remaining arguments are not NULL.  A stream is the text written to it.  [print_d]
    is what printf writes for a double with %f. *)
From Coq Require Import String Ascii.
From Verif Require Import Base DfModel OptModel DsModel.
Local Open Scope Z_scope.
Local Open Scope list_scope.

(** strcpy(b + off, s) and the text that starts at b. *)
Definition strcpy_at (b : list N) (off : nat) (s : list N) : res (list N) :=
  if (off + List.length s + 1 <=? List.length b)%nat then Ok (firstn off b ++ s ++ 0%N :: skipn (off + List.length s + 1) b) else UB.
Fixpoint cstr (b : list N) : res (list N) :=
  match b with [] => UB | c :: b' => if (c =? 0)%N then Ok [] else let* s := cstr b' in Ok (c :: s) end.
(** name_short_name_join, 546-567; [junk] is the content of the new buffer.
    nx_strredup of NULL gives NULL. *)
Definition name_join (junk : nat -> N) (name short_name : option (list N)) : res (option (list N)) :=
  match name, short_name with
  | Some n, Some s =>
    let nsz := List.length n in
    let snsz := List.length s in
    let colsz := (nsz + snsz + 3)%nat in
    let b := map junk (seq 0 colsz) in
    let* b := strcpy_at b 0 n in
    let* b := strcpy_at b nsz (bs ", ") in
    let* b := strcpy_at b (nsz + 2) s in
    let* b := aset b (colsz - 1) 0%N in
    let* t := cstr b in
    Ok (Some t)
  | Some n, None => Ok (Some n)
  | None, s => Ok s
  end.
(** compute_name_column_size, 518-544. *)
Definition name_len (q : odata) : res Z :=
  match q_name q, q_short q with
  | Some n, Some s => chk_int (Z.of_nat (List.length n) + (Z.of_nat (List.length s) + 2))
  | Some n, None => chk_int (Z.of_nat (List.length n))
  | None, Some s => chk_int (Z.of_nat (List.length s))
  | None, None => UB
  end.
Definition column_size (l : list (odata * list N)) (rest : option (rdata * list N)) (process_rest : bool) : res Z :=
  let* w := for_each (fun it w => let* n := name_len (fst it) in Ok (if w <? n then n else w)) l 0 in
  match rest with
  | Some (_, help) => if process_rest then let* n := chk_int (Z.of_nat (List.length help)) in Ok (if w <? n then n else w) else Ok w
  | None => Ok w
  end.

Section Print.
Variables (junk : nat -> N) (print_d : N -> list N).
(** nx_option_data_to_string, 838-862: snprintf keeps 1023 bytes. *)
Definition data_to_string (ty : otype) (v : oval) : res (list N) :=
  let snprintf t := Ok (firstn 1023 t) in
  match ty, v with
  | TBool, UB_ b => snprintf (if b =? 0 then bs "false" else bs "true")
  | TInt, UI i => snprintf (print_int i)
  | TDouble, UD d => snprintf (print_d d)
  | TString, US (Some s) => snprintf (bs "'" ++ s ++ bs "'")
  | TString, US None => UB
  | THelp, _ => Ok []
  | _, _ => UB
  end.
(** %*s; a NULL argument is undefined. *)
Definition pad_left (w : Z) (t : list N) : list N := repeat 32%N (Z.to_nat w - List.length t) ++ t.
Definition str_arg (s : option (list N)) : res (list N) := match s with Some s => Ok s | None => UB end.
Definition NL : list N := [10%N].
(** nx_options_print, 569-585. *)
Definition print_list (l : list (odata * list N)) (rest : option (rdata * list N)) (out : list N) : res (list N) :=
  let* w := column_size l rest false in
  for_each (fun it out =>
    let '(q, help) := it in
    let* name_col := name_join junk (q_name q) (q_short q) in
    let* dflt := data_to_string (q_type q) (q_def q) in
    let is_help := match q_type q with THelp => true | _ => false end in
    let open_delim := if q_req q then bs "(" else if negb is_help then bs "[" else [] in
    let close_delim := if q_req q then bs ")" else if negb is_help then bs "]" else [] in
    let* name_col := str_arg name_col in
    Ok (out ++ bs "  " ++ pad_left w name_col ++ bs " : " ++ help ++ bs " " ++ open_delim ++ (if q_req q then bs "REQUIRED" else dflt) ++ close_delim ++ NL)) l out.
(** nx_options_print_usage, 480-502. *)
Definition print_usage (header prog footer : option (list N)) (l : list (odata * list N)) (rest : option (rdata * list N)) : res (list N) :=
  let out := match header with Some t => t | None => [] end in
  let out := out ++ bs "USAGE: " ++ match prog with Some p => p | None => bs "prog" end ++ bs " [options]" in
  let out := match rest with
             | Some (r, help) => if r_req r then out ++ bs " <" ++ help ++ bs ">" else out ++ bs " [<" ++ help ++ bs ">]"
             | None => out
             end in
  let out := out ++ NL in
  let* out := match l with [] => Ok out | _ => print_list l rest out end in
  Ok (out ++ match footer with Some t => t | None => [] end).
(** nx_options_print_values, 448-478; the strings of the rest are value.r[0..rest_len-1]. *)
Definition print_values (l : list (odata * list N)) (rest : option (rdata * list N)) : res (list N) :=
  let* w := column_size l rest true in
  let* out := for_each (fun it out =>
    let q : odata := fst it in
    match q_type q with
    | THelp => Ok out
    | _ =>
      let* v := data_to_string (q_type q) (q_val q) in
      let* name := name_join junk (q_name q) (q_short q) in
      let* name := str_arg name in
      Ok (out ++ pad_left w name ++ bs ": " ++ v ++ NL)
    end) l [] in
  match rest with
  | None => Ok out
  | Some (r, help) =>
    let vals := match r_val r with Some v => v | None => [] end in
    let n := List.length vals in
    let out := out ++ pad_left w help ++ bs ": [" in
    let* out := for_each (fun i out =>
      let* s := aget vals i in
      let out := out ++ bs "'" ++ s ++ bs "'" in
      Ok (if (i =? n - 1)%nat then out else out ++ bs ", ")) (seq 0 n) out in
    Ok (out ++ bs "]" ++ NL)
  end.
End Print.
