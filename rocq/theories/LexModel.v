(** Model of src/nx_lexer.c.

    The text is the byte list [t] followed by a NUL; reading beyond that NUL is
    undefined.  char is signed.  The int counters are unbounded here: the code
    agrees for texts below 2^28 bytes. *)
From Verif Require Import Base.
Local Open Scope Z_scope.

(** char to int conversion (signed char). *)
Definition schar (b : N) : Z := if (b <? 128)%N then Z.of_N b else Z.of_N b - 256.
Definition EOF : Z := -1.

(** text[i]. *)
Definition text_at (t : list N) (i : nat) : res Z :=
  if (i =? length t)%nat then Ok 0 else let* b := aget t i in Ok (schar b).

(** struct NXLexer, src/nx_lexer.c:46-54, without the constant text pointer;
    also struct NXLexerState, 56-61. *)
Record lexer := mkLex { pos : nat; cur : Z; line_no : Z; col_no : Z }.

(** src/nx_lexer.c:146-159: loading the character at [p]. *)
Definition load_char (t : list N) (p : nat) (line col : Z) : res lexer :=
  let* c := text_at t p in
  let c := if c =? 0 then EOF else c in
  Ok (if c =? 10 then mkLex p c (line + 1) 0
      else if c =? 13 then mkLex p c line 0
      else if c =? 9 then mkLex p c line (col + 8)
      else mkLex p c line (col + 1)).

(** src/nx_lexer.c:139-162. *)
Definition consume (t : list N) (l : lexer) : res lexer :=
  if cur l =? EOF then Ok l else load_char t (S (pos l)) (line_no l) (col_no l).

(** src/nx_lexer.c:87-101: position -1, then one consume (the character before
    the text is 0, not EOF). *)
Definition lexer_new (t : list N) : res lexer := load_char t 0 1 0.

(** src/nx_lexer.c:164-184. *)
Fixpoint match_loop (t : list N) (start l : lexer) (s : list N) : res (bool * lexer) :=
  match s with
  | [] => Ok (true, l)
  | c :: s' => if cur l =? schar c then let* l := consume t l in match_loop t start l s'
               else Ok (false, start)
  end.
Definition lexer_match (t : list N) (l : lexer) (s : list N) : res (bool * lexer) := match_loop t l l s.

(** isdigit: undefined for a negative argument other than EOF (C11 7.4p1). *)
Definition isdigit (c : Z) : res bool := if c <? -1 then UB else Ok ((48 <=? c) && (c <=? 57)).

(** while (isdigit(lex->c)) nx_lexer_consume(lex); *)
Fixpoint skip_digits (fuel : nat) (t : list N) (l : lexer) : res lexer :=
  match fuel with
  | O => NoFuel
  | S f => let* d := isdigit (cur l) in
           if d then let* l := consume t l in skip_digits f t l else Ok l
  end.

Inductive numtype := LNT_INTEGER | LNT_FLOAT.

(** src/nx_lexer.c:186-237: the new state, the length of the token and its
    type; the token starts at the entry position. *)
Definition lexer_NUMBER (t : list N) (l : lexer) : res (lexer * nat * numtype) :=
  let fuel := S (S (length t)) in
  let start := pos l in
  let* l := (if cur l =? 45 then consume t l else Ok l) in
  let* l := skip_digits fuel t l in
  let len := (pos l - start)%nat in
  let* c0 := text_at t start in
  if (c0 =? 45) && (len =? 1)%nat then Fatal
  else if (c0 =? 48) && (1 <? len)%nat then Fatal
  else
    let* c1 := (if (2 <? len)%nat && (c0 =? 45) then text_at t (S start) else Ok 0) in
    if (2 <? len)%nat && (c0 =? 45) && (c1 =? 48) then Fatal
    else if negb (cur l =? 46) && negb (cur l =? 101) && negb (cur l =? 69) then Ok (l, len, LNT_INTEGER)
    else
      let* l := (if cur l =? 46 then
                   let* l := consume t l in
                   let* d := isdigit (cur l) in
                   if d then skip_digits fuel t l else Fatal
                 else Ok l) in
      let* l := (if (cur l =? 101) || (cur l =? 69) then
                   let* l := consume t l in
                   let* l := (if (cur l =? 43) || (cur l =? 45) then consume t l else Ok l) in
                   let* d := isdigit (cur l) in
                   if d then skip_digits fuel t l else Fatal
                 else Ok l) in
      Ok (l, (pos l - start)%nat, LNT_FLOAT).

(** src/nx_lexer.c:245-264: the do-while loop of QUOTED_STRING. *)
Fixpoint quoted_loop (fuel : nat) (t : list N) (l : lexer) : res lexer :=
  match fuel with
  | O => NoFuel
  | S f =>
    let* l := (if cur l =? 92 then
                 let* l := consume t l in
                 if existsb (Z.eqb (cur l)) [34; 92; 47; 98; 102; 110; 114; 116] then consume t l else Fatal
               else consume t l) in
    if negb (cur l =? EOF) && negb (cur l =? 34) then quoted_loop f t l else Ok l
  end.
(** src/nx_lexer.c:239-274: the new state, start and length of the content. *)
Definition lexer_QUOTED_STRING (t : list N) (l : lexer) : res (lexer * nat * nat) :=
  let start := S (pos l) in
  let* l := quoted_loop (S (length t)) t l in
  if negb (cur l =? 34) then Fatal
  else let* l := consume t l in Ok (l, start, (pos l - 1 - start)%nat).

(** Driver: [n] consume calls on a fresh lexer. *)
Fixpoint consume_n (t : list N) (n : nat) (l : lexer) : res lexer :=
  match n with O => Ok l | S n' => let* l := consume t l in consume_n t n' l end.
