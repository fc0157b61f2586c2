(** What C++ programs expect of shared images. *)
From Verif Require Import Base ViModel.

(** What a variable refers to: an image, as an owner or not. *)
Notation ref := (option (nat * bool)).
(** Variables after an operation; [n] images were made before. *)
Definition expect (o : op) (s : list ref * nat) : list ref * nat :=
  let '(v, n) := s in
  let at_ i := nth i v None in
  match o with
  | Make i => (lset v i (Some (n, true)), S n)
  | Copy i j => (lset v i (at_ j), n)
  | View i j => (lset v i (option_map (fun r => (fst r, false)) (at_ j)), n)
  | Swap i j => (lset (lset v i (at_ j)) j (at_ i), n)
  | Destroy i => (lset v i None, n)
  | Use _ => (v, n)
  end.
(** An image is kept by its owners. *)
Definition owned (v : list ref) (m : nat) : Prop := exists i, nth i v None = Some (m, true).
(** The operation is on existing variables, and uses no image without owner. *)
Definition proper (v : list ref) (o : op) : Prop :=
  match o with
  | Make i | Destroy i => i < length v
  | Copy i j | View i j | Swap i j => i < length v /\ j < length v
  | Use i => exists m w, nth i v None = Some (m, w) /\ owned v m
  end.
Fixpoint proper_all (s : list ref * nat) (l : list op) : Prop :=
  match l with [] => True | o :: l => proper (fst s) o /\ proper_all (expect o s) l end.
(** Variables after a program. *)
Definition expect_all (l : list op) (s : list ref * nat) : list ref * nat := fold_left (fun s o => expect o s) l s.
