(** Generic lemmas about the vocabulary of [Base]. *)
From Verif Require Import Base.

Lemma bind_ok {A B} (m : res A) (k : A -> res B) b :
  bind m k = Ok b <-> exists a, m = Ok a /\ k a = Ok b.
Proof.
  split.
  - destruct m; simpl; try discriminate. eauto.
  - intros [a [-> H]]. exact H.
Qed.

Lemma bind_assoc {A B C} (m : res A) (f : A -> res B) (g : B -> res C) :
  bind (bind m f) g = bind m (fun x => bind (f x) g).
Proof. destruct m; reflexivity. Qed.

Lemma lset_length {A} (l : list A) i v : length (lset l i v) = length l.
Proof. revert i; induction l as [|h t IH]; intros [|i]; simpl; congruence. Qed.

Lemma nth_error_lset_eq {A} (l : list A) i v :
  i < length l -> nth_error (lset l i v) i = Some v.
Proof.
  revert i; induction l as [|h t IH]; intros [|i] H; simpl in *; try lia; auto.
  apply IH; lia.
Qed.

Lemma nth_error_lset_neq {A} (l : list A) i j v :
  i <> j -> nth_error (lset l i v) j = nth_error l j.
Proof.
  revert i j; induction l as [|h t IH]; intros [|i] [|j] H; simpl; auto; try lia.
Qed.

Lemma nth_lset {A} (l : list A) i j v d :
  nth j (lset l i v) d =
  if (i =? j) && (i <? length l) then v else nth j l d.
Proof.
  revert i j; induction l as [|h t IH]; intros [|i] [|j]; simpl; auto.
  - rewrite andb_false_r; reflexivity.
  - rewrite IH. reflexivity.
Qed.

Lemma aget_ok {A} (l : list A) i a : aget l i = Ok a <-> nth_error l i = Some a.
Proof. unfold aget; destruct (nth_error l i); split; congruence. Qed.

Lemma aget_lt {A} (l : list A) i d : i < length l -> aget l i = Ok (nth i l d).
Proof.
  intros H. unfold aget. rewrite (nth_error_nth' l d H). reflexivity.
Qed.

Lemma aset_lt {A} (l : list A) i v : i < length l -> aset l i v = Ok (lset l i v).
Proof. intros H. unfold aset. apply Nat.ltb_lt in H. rewrite H. reflexivity. Qed.

Lemma for_each_app {A S} (f : A -> S -> res S) l1 l2 s :
  for_each f (l1 ++ l2) s = let* s' := for_each f l1 s in for_each f l2 s'.
Proof.
  revert s; induction l1 as [|x xs IH]; intros s; simpl; auto.
  destruct (f x s); simpl; auto.
Qed.

(** Invariant rule for loops over a list. *)
Lemma for_each_inv {A S} (f : A -> S -> res S) (P : list A -> S -> Prop) l s :
  P [] s ->
  (forall pre x s', P pre s' -> (exists post, l = pre ++ x :: post) ->
     exists s'', f x s' = Ok s'' /\ P (pre ++ [x]) s'') ->
  exists s', for_each f l s = Ok s' /\ P l s'.
Proof.
  intros H0 Hstep.
  enough (forall pre post s0, l = pre ++ post -> P pre s0 ->
            exists s', for_each f post s0 = Ok s' /\ P l s') as H.
  { apply (H [] l s); auto. }
  intros pre post; revert pre; induction post as [|x xs IH]; intros pre s0 Hl HP.
  - rewrite app_nil_r in Hl; subst. exists s0; simpl; auto.
  - destruct (Hstep pre x s0 HP) as [s'' [Hf HP']]; [eauto|].
    simpl. rewrite Hf; simpl. apply (IH (pre ++ [x])); auto.
    rewrite <- app_assoc; exact Hl.
Qed.

Lemma skipn_skipn {A} (x y : nat) (l : list A) : skipn x (skipn y l) = skipn (y + x) l.
Proof.
  revert l; induction y as [|y IH]; intros l; [reflexivity|].
  destruct l; [rewrite !skipn_nil; reflexivity|]. cbn [skipn Nat.add]. apply IH.
Qed.

Lemma bytes_ok_app a b : bytes_ok (a ++ b) <-> bytes_ok a /\ bytes_ok b.
Proof. apply Forall_app. Qed.
Lemma bytes_ok_firstn n a : bytes_ok a -> bytes_ok (firstn n a).
Proof. intros H. rewrite <- (firstn_skipn n a) in H. apply bytes_ok_app in H. tauto. Qed.
Lemma bytes_ok_skipn n a : bytes_ok a -> bytes_ok (skipn n a).
Proof. intros H. rewrite <- (firstn_skipn n a) in H. apply bytes_ok_app in H. tauto. Qed.
Lemma bytes_ok_zeros n : bytes_ok (repeat 0%N n).
Proof. apply Forall_forall. intros x Hx. apply repeat_spec in Hx. subst. reflexivity. Qed.

Lemma NoDup_app_iff {A} (a b : list A) :
  NoDup (a ++ b) <-> NoDup a /\ NoDup b /\ (forall x, In x a -> ~ In x b).
Proof.
  induction a as [|x a IH]; cbn [app].
  - split; [intros H; repeat split; auto; constructor|tauto].
  - split.
    + intros H. inversion H as [|? ? H1 H2]; subst. apply IH in H2 as (Ha & Hb & Hd).
      rewrite in_app_iff in H1. repeat split; auto.
      * constructor; tauto.
      * intros y [->|Hy]; auto.
    + intros (Ha & Hb & Hd). inversion Ha as [|? ? H1 H2]; subst. constructor.
      * rewrite in_app_iff. intros [?|?]; [tauto|]. apply (Hd x); cbn; auto.
      * apply IH. repeat split; auto. intros y Hy. apply Hd. right; auto.
Qed.

Lemma app_eq_app_l {A} (a b c d : list A) : length a = length c -> a ++ b = c ++ d -> a = c /\ b = d.
Proof.
  revert c; induction a as [|x a IH]; intros [|y c] Hl H; cbn in *; try discriminate; auto.
  injection H as -> H. destruct (IH c) as [-> ->]; auto.
Qed.

Lemma Forall2_length {A B} (R : A -> B -> Prop) l l' : Forall2 R l l' -> length l = length l'.
Proof. induction 1; cbn; congruence. Qed.
