(** Common vocabulary of the model: outcomes of C functions, byte strings,
    arrays with checked access.  No proofs about the code live here. *)
From Coq Require Export List Arith NArith ZArith Bool Lia.
From Coq Require Export ZifyBool ZifyNat ZifyN.
Export ListNotations.
Open Scope bool_scope.

(** Outcome of running a piece of C code.
    - [Ok v]    : returned normally;
    - [Fatal]   : the library terminated the process through NX_FATAL /
                  NX_ASSERT (include/virg/nexus/nx_log.h, nx_assert.h; asserts
                  are active in the modelled debug configuration);
    - [UB]      : undefined behaviour in the sense of the C standard
                  (out-of-bounds access, use after free, signed overflow, ...);
    - [NoFuel]  : the model ran out of its explicit step budget; theorems
                  either exclude it or state that every budget leads to it
                  (non-termination). *)
Inductive res (A : Type) : Type :=
| Ok (a : A)
| Fatal
| UB
| NoFuel.
Arguments Ok {A} a.
Arguments Fatal {A}.
Arguments UB {A}.
Arguments NoFuel {A}.

Definition bind {A B} (m : res A) (k : A -> res B) : res B :=
  match m with
  | Ok a => k a
  | Fatal => Fatal
  | UB => UB
  | NoFuel => NoFuel
  end.

Notation "'let*' x ':=' m 'in' k" := (bind m (fun x => k))
  (at level 200, x pattern, m at level 100, k at level 200, right associativity).

Definition is_ok {A} (r : res A) : bool := match r with Ok _ => true | _ => false end.

(** Bytes and byte strings. A byte is an [N] below 256. *)
Definition byte := N.
Definition byte_ok (b : N) : Prop := (b < 256)%N.
Definition bytes_ok (l : list N) : Prop := Forall byte_ok l.
Definition byte_okb (b : N) : bool := (b <? 256)%N.

(** Checked read and write of a C array represented as a list. *)
Definition aget {A} (l : list A) (i : nat) : res A :=
  match nth_error l i with Some a => Ok a | None => UB end.

Fixpoint lset {A} (l : list A) (i : nat) (v : A) : list A :=
  match l, i with
  | [], _ => []
  | _ :: t, O => v :: t
  | h :: t, S j => h :: lset t j v
  end.

Definition aset {A} (l : list A) (i : nat) (v : A) : res (list A) :=
  if (i <? length l)%nat then Ok (lset l i v) else UB.

(** Same with a C [int]/pointer-difference index, which may be negative. *)
Definition zget {A} (l : list A) (i : Z) : res A :=
  if (i <? 0)%Z then UB else aget l (Z.to_nat i).
Definition zset {A} (l : list A) (i : Z) (v : A) : res (list A) :=
  if (i <? 0)%Z then UB else aset l (Z.to_nat i) v.

(** C [int] range (32-bit) with overflow as undefined behaviour. *)
Definition INT_MAX : Z := 2147483647%Z.
Definition INT_MIN : Z := (-2147483648)%Z.
Definition in_int (z : Z) : bool := (INT_MIN <=? z)%Z && (z <=? INT_MAX)%Z.
Definition chk_int (z : Z) : res Z := if in_int z then Ok z else UB.

(** The body of a C loop over a list of iterations, threading a state. *)
Fixpoint for_each {A S} (f : A -> S -> res S) (l : list A) (s : S) : res S :=
  match l with
  | [] => Ok s
  | x :: xs => let* s' := f x s in for_each f xs s'
  end.
