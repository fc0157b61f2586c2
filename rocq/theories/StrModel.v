(** Model of src/nx_string.c (escaping, binary I/O, formatted strings),
    of the text output of src/nx_io.c and of nx_getline.
    Characters are byte values; 34 is the double quote, 92 the backslash. *)
From Verif Require Import Base Bytes ShaModel.
Local Open Scope N_scope.

(** ** nx_fputs_readable, src/nx_io.c:104-135: the bytes put on the stream. A
    NULL string is [None].  Stream write errors are not modelled. *)
Definition readable_char (c : N) : list N :=
  match c with
  | 10 => [92; 110]
  | 13 => [92; 114]
  | 9 => [92; 116]
  | 8 => [92; 98]
  | 12 => [92; 102]
  | 34 => [92; 34]
  | 92 => [92; 92]
  | _ => [c]
  end.
Definition nx_fputs_readable (s : option (list N)) : list N :=
  match s with
  | None => [110; 117; 108; 108]
  | Some s => [34] ++ flat_map readable_char s ++ [34]
  end.

(** ** nx_fputs_double_quoted, src/nx_io.c:137-162. *)
Definition double_quoted_char (c : N) : list N := if c =? 34 then [34; 34] else [c].
Definition nx_fputs_double_quoted (s : option (list N)) : list N :=
  match s with
  | None => []
  | Some s => [34] ++ flat_map double_quoted_char s ++ [34]
  end.

(** ** nx_xstr_from_readable, src/nx_string.c:149-181, for a non-NULL
    [readable] of [size = length t] bytes.  The result buffer has size+1 bytes
    and at most one byte is stored per byte consumed, so the stores are in
    bounds; the model returns the stored bytes (terminating NUL omitted). *)
Definition unescape_readable (c : N) : res N :=
  match c with
  | 114 => Ok 13
  | 116 => Ok 9
  | 110 => Ok 10
  | 92 => Ok 92
  | 102 => Ok 12
  | 98 => Ok 8
  | 34 => Ok 34
  | _ => Fatal
  end.
Fixpoint nx_xstr_from_readable (t : list N) : res (list N) :=
  match t with
  | [] => Ok []
  | c :: t' =>
    if c =? 92 then
      match t' with
      | [] => Fatal
      | d :: t'' =>
        let* x := unescape_readable d in
        let* r := nx_xstr_from_readable t'' in Ok (x :: r)
      end
    else let* r := nx_xstr_from_readable t' in Ok (c :: r)
  end.

(** ** nx_xstr_from_double_quoted, src/nx_string.c:183-208. *)
Fixpoint nx_xstr_from_double_quoted (t : list N) : res (list N) :=
  match t with
  | [] => Ok []
  | c :: t' =>
    if c =? 34 then
      match t' with
      | [] => Fatal
      | d :: t'' =>
        if d =? 34 then let* r := nx_xstr_from_double_quoted t'' in Ok (34 :: r) else Fatal
      end
    else let* r := nx_xstr_from_double_quoted t' in Ok (c :: r)
  end.

(** ** Memory blocks holding C strings.
    realloc to [n] bytes keeps the common prefix; new bytes are indeterminate
    ([junk] gives whatever is there). *)
Definition realloc (junk : nat -> N) (b : list N) (n : nat) : list N :=
  firstn n b ++ map junk (seq (length b) (n - length b)).

(** The C string stored in a block: up to the first NUL, which must exist. *)
Fixpoint cstr (b : list N) : res (list N) :=
  match b with
  | [] => UB
  | c :: t => if c =? 0 then Ok [] else let* r := cstr t in Ok (c :: r)
  end.

(** ** nx_strwrite, src/nx_string.c:99-112: an 8-byte length, then the bytes. *)
Definition nx_strwrite (s : list N) : list N := size_bytes (N.of_nat (length s)) ++ s.

(** ** nx_strread, src/nx_string.c:114-133.  [b] is the block *s ([[]] for
    NULL), [size] the capacity the caller claims for it, [st] the stream.  Returns the
    return code, the block and the remaining stream. *)
Definition nx_strread (junk : nat -> N) (b : list N) (size : N) (st : list N)
  : res (Z * list N * list N) :=
  let '(hd, st1) := take 8 st in
  if (length hd <? 8)%nat then Ok (1%Z, b, st1)
  else
    let ls := le_decode hd in
    let b := if size <=? ls then realloc junk b (N.to_nat ((ls + 1) mod 2 ^ 64)) else b in
    let '(bs, st2) := (if N.of_nat (length st1) <? ls then (st1, []) else take (N.to_nat ls) st1) in
    let* b := blit b 0 bs in
    if ls <? N.of_nat (length b)
    then Ok ((if N.of_nat (length bs) =? ls then 0%Z else 1%Z), lset b (N.to_nat ls) 0, st2)
    else UB.

(** ** nx_strread0, src/nx_string.c:135-147: [None] is NULL. *)
Definition nx_strread0 (junk : nat -> N) (st : list N) : res (option (list N) * list N) :=
  let* r := nx_strread junk [] 0 st in
  let '(ret, b, st) := r in
  if (ret =? 0)%Z then Ok (Some b, st) else Ok (None, st).

(** ** nx_vfstr, src/nx_string.c:72-97.  [text] is what the format expands to.
    vsnprintf(s, ls, ...) stores the first ls-1 bytes and a NUL and returns
    the full length (negative for an encoding error or a length above
    INT_MAX). *)
Definition vsnprintf (text : list N) (b : list N) (ls : nat) : res (list N * Z) :=
  if (INT_MAX <? Z.of_nat (length text))%Z then Ok (b, (-1)%Z)
  else let* b := blit b 0 (firstn (ls - 1) text ++ [0]) in Ok (b, Z.of_nat (length text)).

Fixpoint nx_vfstr_loop (fuel : nat) (junk : nat -> N) (text : list N) (b : list N) (ls : nat) : res (list N) :=
  match fuel with
  | O => NoFuel
  | S fuel' =>
    let* r := vsnprintf text b ls in
    let '(b, n) := r in
    if (n <? 0)%Z then Fatal
    else if (Z.of_nat ls <=? n)%Z
         then let* ls' := chk_int (n + 1) in
              nx_vfstr_loop fuel' junk text (realloc junk b (Z.to_nat ls')) (Z.to_nat ls')
         else Ok b
  end.
Definition nx_vfstr (junk : nat -> N) (text : list N) : res (list N) :=
  nx_vfstr_loop 2 junk text (map junk (seq 0 65)) 65.

(** ** nx_getline, src/nx_io.c:173-207. *)

(** Rounding of a positive integer to 24 significant bits, ties to even: the
    value of an IEEE binary32 operation whose exact result is that integer
    times a power of two (no overflow or underflow in the range used). *)
Definition rnd24 (m : N) : N :=
  if m <? 2 ^ 24 then m
  else
    let k := N.log2 m - 23 in
    let q := m / 2 ^ k in
    let r := m mod 2 ^ k in
    let h := 2 ^ (k - 1) in
    let q' := if r <? h then q else if h <? r then q + 1 else if N.even q then q else q + 1 in
    q' * 2 ^ k.

(** (int)( *n * 1.6f ): 1.6f is 13421773 * 2^-23. *)
Definition grow_1_6 (n : N) : N := rnd24 (rnd24 n * 13421773) / 2 ^ 23.

(** NX_EXPAND_IF_NECESSARY_AND_APPEND_CHAR, src/nx_io.c:173-181.  The block
    *line has exactly *n bytes.  Converting a float above INT_MAX to int is
    undefined. *)
Definition append_char (junk : nat -> N) (line : list N) (idx : nat) (c : N) : res (list N * nat) :=
  let* line :=
    (if (length line <=? idx)%nat
     then let g := grow_1_6 (N.of_nat (length line)) in
          if (Z.of_N g <=? INT_MAX)%Z then Ok (realloc junk line (Nat.max 4 (N.to_nat g))) else UB
     else Ok line) in
  let* line := aset line idx c in
  Ok (line, S idx).

(** The fgetc loop, lines 192-198; returns the block, idx and the rest of the
    stream after the newline or at end of file. *)
Fixpoint getline_loop (junk : nat -> N) (st : list N) (line : list N) (idx : nat)
  : res (list N * nat * list N) :=
  match st with
  | [] => Ok (line, idx, [])
  | c :: st' =>
    let* r := append_char junk line idx c in
    let '(line, idx) := r in
    if c =? 10 then Ok (line, idx, st') else getline_loop junk st' line idx
  end.

(** Returns the block ( *n is its length), the return value and the rest of the
    stream.  The idx == 0 test of lines 202-203 is kept although a NUL was just
    appended. *)
Definition nx_getline (junk : nat -> N) (line : list N) (st : list N) : res (list N * Z * list N) :=
  let* r := getline_loop junk st line 0 in
  let '(line, idx, st) := r in
  let* r := append_char junk line idx 0 in
  let '(line, idx) := r in
  Ok (line, (if (idx =? 0)%nat then -1 else Z.of_nat idx - 1)%Z, st).

(** Driver: a caller collecting lines until nothing is read. *)
Fixpoint read_lines (fuel : nat) (junk : nat -> N) (line : list N) (st : list N) : res (list (list N)) :=
  match fuel with
  | O => NoFuel
  | S fuel' =>
    let* r := nx_getline junk line st in
    let '(line, n, st) := r in
    if (n <=? 0)%Z then Ok []
    else let* rest := read_lines fuel' junk line st in
         Ok (firstn (Z.to_nat n) line :: rest)
  end.
