(** The generated decision trees decide the segment test: a symbolic checker
    that tracks, for each circle pixel, whether it may still be brighter, darker
    or neither, its soundness, and its run on the two trees. *)
From Verif Require Import Base BaseLemmas FastTree FastModel.

Inductive cls := Bt | Dk | Sm.
Definition cls_eqb (a b : cls) : bool := match a, b with Bt, Bt | Dk, Dk | Sm, Sm => true | _, _ => false end.
Lemma cls_eqb_eq a b : cls_eqb a b = true <-> a = b.
Proof. destruct a, b; cbn; split; congruence. Qed.
(** A set of classes. *)
Record mask := { mB : bool; mD : bool; mS : bool }.
Definition mem (c : cls) (m : mask) : bool := match c with Bt => mB m | Dk => mD m | Sm => mS m end.
Definition only (c : cls) (m : mask) : bool :=
  match c with Bt => negb (mD m) && negb (mS m) | Dk => negb (mB m) && negb (mS m) | Sm => negb (mB m) && negb (mD m) end.
Definition keep (c : cls) (m : mask) : mask :=
  {| mB := mB m && cls_eqb c Bt; mD := mD m && cls_eqb c Dk; mS := mS m && cls_eqb c Sm |}.
Definition drop (c : cls) (m : mask) : mask :=
  {| mB := mB m && negb (cls_eqb c Bt); mD := mD m && negb (cls_eqb c Dk); mS := mS m && negb (cls_eqb c Sm) |}.
Definition empty (m : mask) : bool := negb (mB m) && negb (mD m) && negb (mS m).
Definition full : mask := {| mB := true; mD := true; mS := true |}.

Definition at16 (m : list mask) (i : nat) : mask := nth (i mod 16) m full.
Definition arc (P : mask -> bool) (m : list mask) (s : nat) : bool := forallb (fun i => P (at16 m (s + i))) (seq 0 9).
Definition some_arc (P : mask -> bool) (m : list mask) : bool := existsb (arc P m) (seq 0 16).

Fixpoint check (t : dtree) (m : list mask) : bool :=
  match t with
  | TY => some_arc (only Bt) m || some_arc (only Dk) m
  | TN => negb (some_arc mB m) && negb (some_arc mD m)
  | TG k a e => Nat.ltb k 16 &&
      (empty (keep Bt (at16 m k)) || check a (lset m k (keep Bt (at16 m k)))) &&
      (empty (drop Bt (at16 m k)) || check e (lset m k (drop Bt (at16 m k))))
  | TL k a e => Nat.ltb k 16 &&
      (empty (keep Dk (at16 m k)) || check a (lset m k (keep Dk (at16 m k)))) &&
      (empty (drop Dk (at16 m k)) || check e (lset m k (drop Dk (at16 m k))))
  end.

Fixpoint eval_cls (t : dtree) (c : nat -> cls) : bool :=
  match t with
  | TY => true
  | TN => false
  | TG k a e => if cls_eqb (c k) Bt then eval_cls a c else eval_cls e c
  | TL k a e => if cls_eqb (c k) Dk then eval_cls a c else eval_cls e c
  end.
Definition seg_cls (c : nat -> cls) : Prop :=
  exists s, s < 16 /\ ((forall i, i < 9 -> c ((s + i) mod 16) = Bt) \/ (forall i, i < 9 -> c ((s + i) mod 16) = Dk)).
Definition fits (c : nat -> cls) (m : list mask) : Prop :=
  length m = 16 /\ forall i, i < 16 -> mem (c i) (nth i m full) = true.

Lemma mod16_lt i : i mod 16 < 16.
Proof. apply Nat.mod_upper_bound. lia. Qed.
Lemma some_arc_iff P m : some_arc P m = true <-> exists s, s < 16 /\ forall i, i < 9 -> P (at16 m (s + i)) = true.
Proof.
  unfold some_arc, arc. rewrite existsb_exists. split.
  - intros (s & I & H). apply in_seq in I. exists s. split; [lia|]. intros i L. rewrite forallb_forall in H. apply H, in_seq. lia.
  - intros (s & L & H). exists s. split; [apply in_seq; lia|]. apply forallb_forall. intros i I. apply in_seq in I. apply H. lia.
Qed.
Lemma only_mem c d m : only c m = true -> mem d m = true -> d = c.
Proof. destruct c, d, m as [b1 b2 b3]; cbn; destruct b1, b2, b3; cbn; congruence. Qed.
Lemma fits_keep c m k d : fits c m -> k < 16 -> c k = d -> fits c (lset m k (keep d (at16 m k))) /\ empty (keep d (at16 m k)) = false.
Proof.
  intros [L F] K E. unfold at16. rewrite Nat.mod_small by lia.
  pose proof (F k K) as Fk. split.
  - split; [now rewrite lset_length|]. intros i I. rewrite nth_lset. destruct (Nat.eqb_spec k i) as [<-|]; cbn [andb]; [|now apply F].
    destruct (Nat.ltb_spec k (length m)); [|lia].
    rewrite E in *. destruct d, (nth k m full) as [b1 b2 b3]; cbn in *; rewrite Fk; reflexivity.
  - rewrite E in Fk. destruct d, (nth k m full) as [b1 b2 b3]; cbn in *; rewrite Fk; unfold empty; cbn; now rewrite ?Bool.andb_false_r, ?Bool.andb_false_l.
Qed.
Lemma fits_drop c m k d : fits c m -> k < 16 -> c k <> d -> fits c (lset m k (drop d (at16 m k))) /\ empty (drop d (at16 m k)) = false.
Proof.
  intros [L F] K E. unfold at16. rewrite Nat.mod_small by lia.
  pose proof (F k K) as Fk. split.
  - split; [now rewrite lset_length|]. intros i I. rewrite nth_lset. destruct (Nat.eqb_spec k i) as [<-|]; cbn [andb]; [|now apply F].
    destruct (Nat.ltb_spec k (length m)); [|lia].
    destruct (c k) eqn:Ck, d, (nth k m full) as [b1 b2 b3]; cbn in *; try congruence; rewrite Fk; reflexivity.
  - destruct (c k) eqn:Ck, d, (nth k m full) as [b1 b2 b3]; cbn in *; try congruence; rewrite Fk; unfold empty; cbn; now rewrite ?Bool.andb_false_r, ?Bool.andb_false_l.
Qed.

Lemma check_sound t : forall m c, check t m = true -> fits c m -> (eval_cls t c = true <-> seg_cls c).
Proof.
  induction t as [| |k a IHa e IHe|k a IHa e IHe]; intros m c H F; cbn [check eval_cls] in H |- *.
  - split; [|reflexivity]. intros _. apply Bool.orb_true_iff in H. destruct F as [L F].
    destruct H as [H|H]; apply some_arc_iff in H; destruct H as (s & S & H); exists s; (split; [exact S|]); [left|right]; intros i I;
    (eapply only_mem; [apply (H i I)|]); apply F, mod16_lt.
  - split; [discriminate|]. intros (s & S & A). exfalso. apply Bool.andb_true_iff in H as [H1 H2]. apply Bool.negb_true_iff in H1, H2.
    destruct F as [L F]. destruct A as [A|A].
    + assert (some_arc mB m = true); [|congruence]. apply some_arc_iff. exists s. split; [exact S|]. intros i I.
      pose proof (F ((s + i) mod 16) (mod16_lt _)) as M. rewrite A in M by lia. exact M.
    + assert (some_arc mD m = true); [|congruence]. apply some_arc_iff. exists s. split; [exact S|]. intros i I.
      pose proof (F ((s + i) mod 16) (mod16_lt _)) as M. rewrite A in M by lia. exact M.
  - apply Bool.andb_true_iff in H as [H He]. apply Bool.andb_true_iff in H as [K Ha]. apply Nat.ltb_lt in K.
    destruct (cls_eqb (c k) Bt) eqn:E.
    + apply cls_eqb_eq in E. destruct (fits_keep c m k Bt F K E) as [F' N]. rewrite N in Ha. eapply IHa; eauto.
    + assert (c k <> Bt) as E' by (intro X; apply cls_eqb_eq in X; congruence).
      destruct (fits_drop c m k Bt F K E') as [F' N]. rewrite N in He. eapply IHe; eauto.
  - apply Bool.andb_true_iff in H as [H He]. apply Bool.andb_true_iff in H as [K Ha]. apply Nat.ltb_lt in K.
    destruct (cls_eqb (c k) Dk) eqn:E.
    + apply cls_eqb_eq in E. destruct (fits_keep c m k Dk F K E) as [F' N]. rewrite N in Ha. eapply IHa; eauto.
    + assert (c k <> Dk) as E' by (intro X; apply cls_eqb_eq in X; congruence).
      destruct (fits_drop c m k Dk F K E') as [F' N]. rewrite N in He. eapply IHe; eauto.
Qed.

Definition start : list mask := repeat full 16.
Lemma fits_start c : fits c start.
Proof.
  split; [reflexivity|]. intros i I. unfold start. rewrite nth_repeat. now destruct (c i).
Qed.
Lemma detect_tree_checked : check detect_tree start = true.
Proof. vm_compute. reflexivity. Qed.
Lemma score_tree_checked : check score_tree start = true.
Proof. vm_compute. reflexivity. Qed.
Lemma detect_tree_ok c : eval_cls detect_tree c = true <-> seg_cls c.
Proof. apply (check_sound _ start), fits_start. apply detect_tree_checked. Qed.
Lemma score_tree_ok c : eval_cls score_tree c = true <-> seg_cls c.
Proof. apply (check_sound _ start), fits_start. apply score_tree_checked. Qed.

Local Open Scope Z_scope.
(** Reading pixels: the model's tree walk is the walk over classes. *)
Definition classify (cb c_b v : Z) : cls := if cb <? v then Bt else if v <? c_b then Dk else Sm.
Fixpoint small (t : dtree) : bool :=
  match t with TY | TN => true | TG k a e | TL k a e => Nat.ltb k 16 && small a && small e end.
Lemma eval_classes t cb c_b rd v : c_b <= cb -> small t = true -> (forall k, (k < 16)%nat -> rd k = Ok (v k)) ->
  eval t cb c_b rd = Ok (eval_cls t (fun k => classify cb c_b (v k))).
Proof.
  intros CB. induction t as [| |k a IHa e IHe|k a IHa e IHe]; intros W R; cbn [eval eval_cls small] in *; try reflexivity;
  apply Bool.andb_true_iff in W as [W We]; apply Bool.andb_true_iff in W as [K Wa]; apply Nat.ltb_lt in K; rewrite R by exact K; cbn [bind].
  - unfold classify at 1. destruct (Z.ltb_spec cb (v k)); cbn; [now apply IHa|]. destruct (v k <? c_b); cbn; now apply IHe.
  - unfold classify at 1. destruct (Z.ltb_spec cb (v k)); cbn.
    + destruct (Z.ltb_spec (v k) c_b); [lia|]. now apply IHe.
    + destruct (v k <? c_b); cbn; [now apply IHa|now apply IHe].
Qed.
Lemma detect_small : small detect_tree = true. Proof. vm_compute. reflexivity. Qed.
Lemma score_small : small score_tree = true. Proof. vm_compute. reflexivity. Qed.
