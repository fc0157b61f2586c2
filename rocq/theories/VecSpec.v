(** Specification of vectors: lists of items, [None] where an item has never
    been written.  [None] as a result: outside the contract. *)
From Verif Require Import Base VecModel.
Local Open Scope nat_scope.

Section VecSpec.
Variable isz : nat.
Notation items := (list (option (list N))).

(** Byte sizes stay within size_t. *)
Definition fits (n : nat) : bool := (N.of_nat n * N.of_nat isz <? 2 ^ 64)%N.
Definition is_item (it : list N) : bool := length it =? isz.

Inductive sout := SNone | SNum (n : nat) | SItem (it : option (list N)).
Definition vec_at (s : list (option items)) (i : nat) : option items :=
  match nth_error s i with Some (Some l) => Some l | _ => None end.

Definition v_spec (s : list (option items)) (o : vop) : option (list (option items) * sout) :=
  let upd i (f : items -> option items) :=
    match vec_at s i with
    | Some l => match f l with Some l => Some (lset s i (Some l), SNone) | None => None end
    | None => None
    end in
  match o with
  | VAlloc => Some (s ++ [Some []], SNone)
  | VNew n => if fits n then Some (s ++ [Some []], SNone) else None
  | VFree i => match vec_at s i with Some _ => Some (lset s i None, SNone) | None => None end
  | VRelease i | VClear i => upd i (fun _ => Some [])
  | VReserve i n => upd i (fun l => if fits n then Some l else None)
  | VResize i n => upd i (fun l => if fits n then Some (firstn n l ++ repeat None (n - length l)) else None)
  | VPush i it => upd i (fun l => if is_item it && fits (2 * length l + 1) then Some (l ++ [Some it]) else None)
  | VWrapOwn i its sz =>
    upd i (fun _ => if forallb is_item its && (sz <=? length its) && fits (length its)
                    then Some (firstn sz (map Some its)) else None)
  | VCopy0 i => match vec_at s i with Some l => Some (s ++ [Some l], SNone) | None => None end
  | VCopy i j => if i =? j then None else
                 match vec_at s j with Some l => upd i (fun _ => Some l) | None => None end
  | VSet i k it => upd i (fun l => if is_item it && (k <? length l)
                                   then Some (firstn k l ++ Some it :: skipn (S k) l) else None)
  | VGet i k => match vec_at s i with
                | Some l => match nth_error l k with Some x => Some (s, SItem x) | None => None end
                | None => None
                end
  | VSize i => match vec_at s i with Some l => Some (s, SNum (length l)) | None => None end
  end.

Fixpoint v_spec_run (s : list (option items)) (os : list vop) : option (list (option items) * list sout) :=
  match os with
  | [] => Some (s, [])
  | o :: os' =>
    match v_spec s o with
    | None => None
    | Some (s, x) => match v_spec_run s os' with None => None | Some (s, xs) => Some (s, x :: xs) end
    end
  end.

Definition out_agrees (x : sout) (y : vout) : Prop :=
  match x with
  | SNone => y = VNone
  | SNum n => y = VNum n
  | SItem None => exists it, y = VItem it
  | SItem (Some it) => y = VItem it
  end.
End VecSpec.
