(** Writing files, and directories: src/nx_io.c, src/nx_filesystem.c.

    Simplifications.  A stream opened for writing has a buffer of [cap] bytes, and the
    device behind it takes [room] more bytes before it reports an error; what is not
    taken when the buffer is emptied is lost.  A call that dies (NX_IO_FATAL) leaves the
    stream as it is.  Log output is not modelled. *)
From Verif Require Import Base.
Local Open Scope nat_scope.

(** The C library's stream: what has reached the file, what is in the buffer, the space
    left on the device, the error flag. *)
Record ostr := mkO { ofile : list N; obuf : list N; oroom : nat; oerr : bool }.
Definition opened (room : nat) : ostr := mkO [] [] room false.

(** Emptying the buffer (C library). *)
Definition stdio_flush (s : ostr) : ostr * bool :=
  let k := Nat.min (length (obuf s)) (oroom s) in
  let ok := k =? length (obuf s) in
  (mkO (ofile s ++ firstn k (obuf s)) [] (oroom s - k) (oerr s || negb ok), ok).
(** fwrite (C library); the flag says whether all items were accepted. *)
Definition stdio_fwrite (cap : nat) (s : ostr) (bytes : list N) : ostr * bool :=
  let s := mkO (ofile s) (obuf s ++ bytes) (oroom s) (oerr s) in
  if length (obuf s) <=? cap then (s, true) else stdio_flush s.

(** How a call ends. *)
Inductive ending := Returned | Died.
(** src/nx_io.c:92-96: nx_xfwrite. *)
Definition xfwrite (cap : nat) (s : ostr) (bytes : list N) : ostr * ending :=
  let '(s, ok) := stdio_fwrite cap s bytes in
  if negb ok then (s, Died) else (s, Returned).
(** src/nx_io.c:47-59: nx_xfclose.  The result of fclose is not looked at. *)
Definition xfclose (s : ostr) : ostr * ending :=
  let e := oerr s in
  let '(s, _) := stdio_flush s in
  if e then (s, Died) else (s, Returned).
(** src/nx_io.c:75-89: nx_fclose, with its result NX_OK (true) or NX_FAIL. *)
Definition nx_fclose (s : ostr) : ostr * bool :=
  let e := oerr s in
  let '(s, _) := stdio_flush s in
  if e then (s, false) else (s, true).

(** A program that writes pieces: with nx_xfwrite, or with fwrite without a check. *)
Fixpoint xwrites (cap : nat) (s : ostr) (ps : list (list N)) : ostr * ending :=
  match ps with
  | [] => (s, Returned)
  | p :: ps' => match xfwrite cap s p with (s, Died) => (s, Died) | (s, Returned) => xwrites cap s ps' end
  end.
Fixpoint fwrites (cap : nat) (s : ostr) (ps : list (list N)) : ostr :=
  match ps with [] => s | p :: ps' => fwrites cap (fst (stdio_fwrite cap s p)) ps' end.

(** *** Directories *)
(** What is at a path, and whether it may be read. *)
Inductive node := NDir (readable : bool) | NFile (readable : bool).
Notation fsys := (list N -> option node).
(** opendir and closedir (C library). *)
Definition opendir_ok (f : fsys) (p : list N) : bool := match f p with Some (NDir r) => r | _ => false end.
(** fopen with mode "rb" (C library): on Linux a directory can be opened for reading. *)
Definition fopen_rb_ok (f : fsys) (p : list N) : bool := match f p with Some (NDir r) | Some (NFile r) => r | None => false end.
(** mkdir (C library).  [can]: whether the parent exists and may be written. *)
Definition mkdir (can : list N -> bool) (f : fsys) (p : list N) : option fsys :=
  match f p with
  | Some _ => None
  | None => if can p then Some (fun q => if list_eq_dec N.eq_dec q p then Some (NDir true) else f q) else None
  end.
(** src/nx_filesystem.c:59-69. *)
Definition check_dir (f : fsys) (p : list N) : bool := opendir_ok f p.
(** src/nx_filesystem.c:71-83. *)
Definition check_file (f : fsys) (p : list N) : bool := fopen_rb_ok f p.
(** src/nx_filesystem.c:85-95.  [env]: what other programs do between the check and mkdir. *)
Definition ensure_dir (can : list N -> bool) (env : fsys -> fsys) (f : fsys) (p : list N) : fsys * ending :=
  if check_dir f p then (f, Returned)
  else
    let f := env f in
    match mkdir can f p with
    | None => (f, Died)
    | Some f' => (f', Returned)
    end.
