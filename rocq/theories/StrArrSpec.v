(** Specification of string arrays: a list of optional strings.  An operation
    outside the documented contract has no specified result ([None]). *)
From Verif Require Import Base StrSpec StrArrModel.
Local Open Scope nat_scope.

Notation strings := (list (option (list N))).

(** Index of the first string equal to [s]; a NULL met before it is outside
    the contract. *)
Fixpoint first_index (s : list N) (l : strings) (i : Z) : option Z :=
  match l with
  | [] => Some (-1)%Z
  | None :: _ => None
  | Some e :: t => if bytes_eqb s e then Some i else first_index s t (i + 1)%Z
  end.

(** Replacing element [i]. *)
Definition put {A} (l : list A) (i : nat) (v : A) : list A := firstn i l ++ [v] ++ skipn (S i) l.

Definition sa_spec (l : strings) (o : saop) : option (strings * saout) :=
  match o with
  | SaAppend s => Some (l ++ [s], OutInt (Z.of_nat (length l)))
  | SaAppendf t => Some (l ++ [Some t], OutInt (Z.of_nat (length l)))
  | SaAppendElem j =>
    match nth_error l j with Some e => Some (l ++ [e], OutInt (Z.of_nat (length l))) | None => None end
  | SaResize n => Some (firstn n l ++ repeat None (n - length l), OutNone)
  | SaSet i s => if i <? length l then Some (put l i s, OutNone) else None
  | SaSetf i t => if i <? length l then Some (put l i (Some t), OutNone) else None
  | SaSetElem i j =>
    match nth_error l j with
    | Some e => if (i <? length l) && negb (i =? j) then Some (put l i e, OutNone) else None
    | None => None
    end
  | SaFind s => match first_index s l 0 with Some z => Some (l, OutInt z) | None => None end
  | SaGet i => match nth_error l i with Some e => Some (l, OutStr e) | None => None end
  end.

Fixpoint sa_spec_run (l : strings) (os : list saop) : option (strings * list saout) :=
  match os with
  | [] => Some (l, [])
  | o :: os' =>
    match sa_spec l o with
    | None => None
    | Some (l, x) => match sa_spec_run l os' with
                     | None => None
                     | Some (l, xs) => Some (l, x :: xs)
                     end
    end
  end.

(** Argument strings are C strings of less than INT_MAX bytes, requested
    sizes stay below 2^28. *)
Definition str_ok (s : list N) : Prop := cstr_ok s /\ (Z.of_nat (length s) < INT_MAX)%Z.
Definition op_ok (o : saop) : Prop :=
  match o with
  | SaAppend (Some s) | SaAppendf s | SaSet _ (Some s) | SaSetf _ s | SaFind s => str_ok s
  | SaResize n => (Z.of_nat n <= 2 ^ 28)%Z
  | _ => True
  end.
