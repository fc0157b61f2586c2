(** What a user of the options table expects.  Nothing here refers to the
    hash table or to the option records. *)
From Verif Require Import Base.
Local Open Scope Z_scope.

(** A declaration: the names text, the type with its default, and whether the
    option must be given. *)
Inductive kind :=
| KBool (dflt : Z) | KInt (dflt : Z) | KDouble (dflt : N) | KString (dflt : option (list N)) | KHelp.
Record decl := { d_names : list N; d_kind : kind; d_required : bool }.

(** "-s|--long": the parts around the first bar. *)
Inductive parts : list N -> list (list N) -> Prop :=
| parts_one : forall t, ~ In 124%N t -> parts t [t]
| parts_two : forall a b, ~ In 124%N a -> parts (a ++ 124%N :: b) [a; b].

(** A dash and another character; or two dashes and more. *)
Definition short_name (n : list N) : Prop := exists c, n = [45%N; c].
Definition long_name (n : list N) : Prop := exists c r, n = 45%N :: 45%N :: c :: r.
Definition legal_names (t : list N) : Prop :=
  exists ps, parts t ps /\ Forall (fun n => short_name n \/ long_name n) ps.

(** The names an option answers to: its long name and its short name; of two
    names of the same sort, the second. *)
Inductive answers_to (t : list N) : list N -> Prop :=
| at_single : forall n, parts t [n] -> answers_to t n
| at_second : forall a b, parts t [a; b] -> answers_to t b
| at_first : forall a b, parts t [a; b] ->
    (short_name a /\ long_name b \/ long_name a /\ short_name b) -> answers_to t a.

(** Values seen through the getters. *)
Inductive value := ValB (b : Z) | ValI (i : Z) | ValD (d : N) | ValS (s : option (list N)).
Definition default_of (k : kind) : option value :=
  match k with
  | KBool b => Some (ValB b) | KInt i => Some (ValI i) | KDouble d => Some (ValD d)
  | KString s => Some (ValS s) | KHelp => None
  end.

Section Parse.
(** The declarations, in order, and the readings of numbers. *)
Variable ds : list decl.
Variable int_of : list N -> Z.
Variable double_of : list N -> N.

(** Option number [i] is the one called [a]. *)
Definition called (a : list N) (i : nat) (k : kind) : Prop :=
  exists d, nth_error ds i = Some d /\ d_kind d = k /\ answers_to (d_names d) a.

(** Reading the command line from left to right: the assignments made, in
    order, and the arguments left over, in order. *)
Inductive reads : list (list N) -> list (nat * value) -> list (list N) -> Prop :=
| reads_end : reads [] [] []
| reads_left_over : forall a args l r,
    (forall i k, ~ called a i k) -> reads args l r -> reads (a :: args) l (a :: r)
| reads_flag : forall a i b args l r,
    called a i (KBool b) -> reads args l r -> reads (a :: args) ((i, ValB 1) :: l) r
| reads_int : forall a i z v args l r,
    called a i (KInt z) -> reads args l r -> reads (a :: v :: args) ((i, ValI (int_of v)) :: l) r
| reads_double : forall a i z v args l r,
    called a i (KDouble z) -> reads args l r -> reads (a :: v :: args) ((i, ValD (double_of v)) :: l) r
| reads_string : forall a i z v args l r,
    called a i (KString z) -> reads args l r -> reads (a :: v :: args) ((i, ValS (Some v)) :: l) r.
End Parse.

(** The last assignment to option [i], if any. *)
Fixpoint last_assigned (l : list (nat * value)) (i : nat) : option value :=
  match l with
  | [] => None
  | (j, v) :: l' =>
    match last_assigned l' i with
    | Some w => Some w
    | None => if Nat.eqb j i then Some v else None
    end
  end.

(** Every required option was given; left-over arguments if they are required. *)
Definition demands_met (ds : list decl) (rs : option bool) (l : list (nat * value)) (r : list (list N)) : Prop :=
  (forall i d, nth_error ds i = Some d -> d_required d = true -> last_assigned l i <> None) /\
  (rs = Some true -> r <> []).

From Verif Require Import OptModel.
(** The declarations a history of calls makes.  The letters b, i, d, s, r are
    98, 105, 100, 115, 114; the capital letter makes the option required. *)
Definition letter (c base : N) : option bool :=
  if (c =? base)%N then Some false else if (c =? base - 32)%N then Some true else None.
Definition decl_of (c : N) (a : vargs) : option decl :=
  let mk names k base := match letter c base with
                         | Some req => Some {| d_names := names; d_kind := k; d_required := req |}
                         | None => None end in
  match a with
  | AB n b => mk n (KBool b) 98%N
  | AI n i => mk n (KInt i) 105%N
  | AD n d => mk n (KDouble d) 100%N
  | AS n s => mk n (KString s) 115%N
  | AR => None
  end.
Definition rest_of (c : N) (a : vargs) : option bool :=
  match a with AR => letter c 114%N | _ => None end.
(** Letter and arguments belong together. *)
Definition well_typed (ca : N * vargs) : Prop := decl_of (fst ca) (snd ca) <> None \/ rest_of (fst ca) (snd ca) <> None.
Definition op_well_typed (op : opt_op) : Prop :=
  match op with
  | OAdd f => Forall well_typed f
  | OHelp => True
  | OParse argv => argv <> []
  end.
Definition opt_list {A} (o : option A) : list A := match o with Some a => [a] | None => [] end.
(** "-h|--help" *)
Definition help_decl : decl :=
  {| d_names := [45; 104; 124; 45; 45; 104; 101; 108; 112]%N; d_kind := KHelp; d_required := false |}.
Definition decls_of_op (op : opt_op) : list decl :=
  match op with
  | OAdd f => flat_map (fun ca => opt_list (decl_of (fst ca) (snd ca))) f
  | OHelp => [help_decl]
  | OParse _ => []
  end.
Definition decls_of (ops : list opt_op) : list decl := flat_map decls_of_op ops.
(** Whether the left-over arguments are kept, and whether there must be some:
    the last declaration counts. *)
Definition rests_of_op (op : opt_op) : list bool :=
  match op with
  | OAdd f => flat_map (fun ca => opt_list (rest_of (fst ca) (snd ca))) f
  | _ => []
  end.
Definition rest_declared (ops : list opt_op) : option bool :=
  fold_left (fun _ b => Some b) (flat_map rests_of_op ops) None.

(** Table is fine: legal names, no name shared by two options. *)
Definition table_ok (ds : list decl) : Prop :=
  Forall (fun d => legal_names (d_names d)) ds /\
  forall i j d e n, nth_error ds i = Some d -> nth_error ds j = Some e ->
    answers_to (d_names d) n -> answers_to (d_names e) n -> i = j.

(** The getter that fits the type. *)
Section Get.
Variable ovf : Z -> Z.
Definition get_value (k : kind) (o : options) (n : list N) : res value :=
  match k with
  | KBool _ => let* b := get_bool ovf o n in Ok (ValB b)
  | KInt _ => let* b := get_int ovf o n in Ok (ValI b)
  | KDouble _ => let* b := get_double ovf o n in Ok (ValD b)
  | KString _ => let* b := get_string ovf o n in Ok (ValS b)
  | KHelp => Fatal
  end.
End Get.
(** A history without a parse. *)
Definition adds_only (ops : list opt_op) : Prop := Forall (fun op => match op with OParse _ => False | _ => True end) ops.

Definition same_type (k k' : kind) : Prop :=
  match k, k' with
  | KBool _, KBool _ | KInt _, KInt _ | KDouble _, KDouble _ | KString _, KString _ => True
  | _, _ => False
  end.
