(** A descriptor map is a list of identifiers with descriptors. *)
From Verif Require Import Base Gray Flt BriefSpec DmapModel.
Local Open Scope Z_scope.

Notation table := (list (Z * list N)).
(** What a user sees of a map: the number of entries, their identifiers and the
    octets of their descriptors. *)
Record shows (m : dmap) (n_octets : Z) (t : table) : Prop := {
  sh_oct : d_oct m = n_octets;
  sh_size : size m = Z.of_nat (length t);
  sh_id : forall i e, nth_error t i = Some e -> get_id m (Z.of_nat i) = Ok (fst e);
  sh_desc : forall i e, nth_error t i = Some e -> exists o, get_descriptor m (Z.of_nat i) = Ok o /\ octets (d_data m) o n_octets = Ok (snd e) }.
(** The effect of an operation on the number of octets and the entries. *)
Definition effect (s : Z * table) (o : op) : Z * table :=
  match o with
  | OClear => (fst s, [])
  | OReserve _ => s
  | OSetOctets n => (n, [])
  | OAdd id (Caller l) => (fst s, snd s ++ [(id, firstn (Z.to_nat (fst s)) l)])
  | OAdd id (Own off) => (fst s, snd s ++ [(id, snd (nth (Z.to_nat (off / fst s)) (snd s) (0, [])))])
  end.
(** Reasonable uses: octets are bytes, there are enough of them, and the map has less
    than 2^31 octets.  A descriptor of the map itself is one of its entries. *)
Definition sane (s : Z * table) (o : op) : Prop :=
  match o with
  | OClear => True
  | OReserve n => 0 <= n /\ n * fst s <= INT_MAX
  | OSetOctets n => 1 <= n /\ 8 * n <= INT_MAX
  | OAdd id (Caller l) => bytes_ok l /\ fst s <= Z.of_nat (length l) /\ (Z.of_nat (length (snd s)) + 1) * fst s <= INT_MAX
  | OAdd id (Own off) => exists i, 0 <= i < Z.of_nat (length (snd s)) /\ off = i * fst s /\ (Z.of_nat (length (snd s)) + 1) * fst s <= INT_MAX
  end.
Fixpoint sane_all (s : Z * table) (ops : list op) : Prop :=
  match ops with [] => True | o :: ops' => sane s o /\ sane_all (effect s o) ops' end.
Definition external (o : op) : Prop := match o with OAdd _ (Own _) => False | _ => True end.
(** Entry [k] is the first of those nearest to [desc]. *)
Definition first_nearest (t : table) (desc : list N) (k : nat) (id d : Z) : Prop :=
  exists e, nth_error t k = Some e /\ id = fst e /\ d = hamming desc (snd e) /\
    (forall i e', nth_error t i = Some e' -> d <= hamming desc (snd e')) /\
    (forall i e', (i < k)%nat -> nth_error t i = Some e' -> d < hamming desc (snd e')).
