(** Specification of lexer positions and of the number grammar. *)
From Verif Require Import Base LexModel.
Local Open Scope N_scope.

(** The characters the lexer sees: up to the first NUL or byte 255. *)
Fixpoint visible (t : list N) : list N :=
  match t with
  | [] => []
  | b :: t' => if (b =? 0) || (b =? 255) then [] else b :: visible t'
  end.

Definition newlines (l : list N) : nat := count_occ N.eq_dec l 10.

(** Column after a sequence of characters: reset by newline and carriage
    return, a tab counts 8. *)
Definition column (l : list N) : Z :=
  fold_left (fun col b => if ((b =? 10) || (b =? 13))%N then 0 else if (b =? 9)%N then col + 8 else col + 1)%Z l 0%Z.

Definition starts_with (s r : list N) : Prop := exists r', r = s ++ r'.

(** JSON numbers. *)
Definition digit (b : N) : Prop := 48 <= b <= 57.
Inductive json_int : list N -> Prop :=
| int_zero : json_int [48]
| int_pos d ds : 49 <= d <= 57 -> Forall digit ds -> json_int (d :: ds).
Definition json_frac (l : list N) : Prop := exists d ds, l = 46 :: d :: ds /\ Forall digit (d :: ds).
Definition json_exp (l : list N) : Prop :=
  exists e sg d ds, l = e :: sg ++ d :: ds /\ (e = 101 \/ e = 69) /\ (sg = [] \/ sg = [43] \/ sg = [45]) /\ Forall digit (d :: ds).
Definition opt (P : list N -> Prop) (l : list N) : Prop := l = [] \/ P l.

Definition json_number (p : list N) (ty : numtype) : Prop :=
  exists sg i f e, p = sg ++ i ++ f ++ e /\ (sg = [] \/ sg = [45]) /\ json_int i /\ opt json_frac f /\ opt json_exp e /\
    (ty = LNT_INTEGER <-> f = [] /\ e = []).

(** The rest of the input asks for the number [p] to go on: a digit, a fraction
    after an integer, an exponent after a number without exponent. *)
Definition goes_on (p rest : list N) : Prop :=
  exists b r, rest = b :: r /\
    (digit b \/ (b = 46 /\ Forall (fun c => c = 45 \/ digit c) p) \/
     ((b = 101 \/ b = 69) /\ Forall (fun c => c <> 101 /\ c <> 69) p)).

(** No byte above 127 where the number scanner looks: not at the start and not
    after a run of the characters that occur in numbers. *)
Definition num_char (b : N) : Prop := digit b \/ In b [43; 45; 46; 69; 101].
Definition ascii_ahead (r : list N) : Prop := forall a b r', r = a ++ b :: r' -> Forall num_char a -> b < 128.
