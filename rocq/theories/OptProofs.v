(** Proofs about the options model. *)
From Verif Require Import Base BaseLemmas CsvModel OptModel OptSpec.
Local Open Scope Z_scope.

(** ** Names. *)
Lemma str_eq_eq : forall a b, str_eq a b = true <-> a = b.
Proof.
  induction a as [|x a IH]; intros [|y b]; cbn; split; intro H; try congruence; try discriminate.
  - apply andb_prop in H as [H1 H2]. apply N.eqb_eq in H1. apply IH in H2. congruence.
  - injection H as -> ->. rewrite N.eqb_refl. cbn. now apply IH.
Qed.

Lemma split_parts : forall t a b, split_names t = (a, b) ->
  parts t (match b with None => [a] | Some b => [a; b] end).
Proof.
  assert (G : forall t a b, split_names t = (a, b) -> ~ In 124%N a /\ t = match b with None => a | Some b => a ++ 124%N :: b end).
  { induction t as [|c t IH]; cbn; intros a b E.
    - injection E as <- <-. auto.
    - destruct (c =? 124)%N eqn:C.
      + injection E as <- <-. apply N.eqb_eq in C. subst. auto.
      + destruct (split_names t) as [a' b']. injection E as <- <-.
        destruct (IH _ _ eq_refl) as [N1 E1]. apply N.eqb_neq in C. split.
        * intros [Q|Q]; [congruence|tauto].
        * destruct b'; cbn; congruence. }
  intros t a b E. destruct (G _ _ _ E) as [N1 ->]. destruct b; constructor; auto.
Qed.

Lemma app_bar_inj : forall (a a' b b' : list N), ~ In 124%N a -> ~ In 124%N a' ->
  a ++ 124%N :: b = a' ++ 124%N :: b' -> a = a' /\ b = b'.
Proof.
  induction a as [|x a IH]; intros [|y a'] b b' H H' E; cbn in E.
  - injection E as ->. auto.
  - injection E as E _. exfalso. apply H'. left. auto.
  - injection E as E _. exfalso. apply H. left. auto.
  - injection E as -> E. cbn in H, H'. destruct (IH a' b b') as [-> ->]; auto.
Qed.
Lemma parts_fun : forall t p q, parts t p -> parts t q -> p = q.
Proof.
  intros t p q H1 H2. inversion H1; subst; inversion H2; subst.
  - auto.
  - exfalso. apply H. apply in_or_app. right. now left.
  - exfalso. apply H0. apply in_or_app. right. now left.
  - destruct (app_bar_inj _ _ _ _ H H3 (eq_sym H0)) as [-> ->]. auto.
Qed.

Lemma set_name_cases : forall n nm,
  (short_name n /\ set_name n nm = Ok (fst nm, Some n)) \/
  (long_name n /\ set_name n nm = Ok (Some n, snd nm)) \/
  (~ short_name n /\ ~ long_name n /\ set_name n nm = Fatal).
Proof.
  intros n nm. destruct n as [|c n].
  { right; right. split; [intros [? ?]; discriminate|]. split; [intros (?&?&?); discriminate|]. reflexivity. }
  destruct (N.eq_dec c 45) as [->|C].
  2:{ right; right. split; [intros [? ?]; congruence|]. split; [intros (?&?&?); congruence|].
      unfold set_name. destruct c as [|p]; auto.
      repeat match goal with |- context [match ?x with xH => _ | _ => _ end] => destruct x end; try reflexivity; congruence. }
  destruct n as [|c n].
  { right; right. split; [intros [? ?]; discriminate|]. split; [intros (?&?&?); discriminate|]. reflexivity. }
  destruct n as [|e n].
  { left. split; [now exists c|]. reflexivity. }
  right. cbn. destruct (c =? 45)%N eqn:C.
  - left. apply N.eqb_eq in C. subst. split; [now exists e, n|]. reflexivity.
  - right. apply N.eqb_neq in C. split; [intros [? ?]; congruence|]. split; [intros (?&?&?); congruence|]. reflexivity.
Qed.
Lemma short_not_long : forall n, short_name n -> long_name n -> False.
Proof. intros n [c ->] (d & r & E). discriminate. Qed.

Lemma set_names_spec : forall t,
  match set_names t with
  | Ok (n, s) => legal_names t /\ (forall k, answers_to t k <-> (n = Some k \/ s = Some k)) /\
                 (forall k, n = Some k -> s = Some k -> False)
  | Fatal => ~ legal_names t
  | _ => False
  end.
Proof.
  intro t. unfold set_names. destruct (split_names t) as [a b] eqn:E. apply split_parts in E.
  destruct (set_name_cases a (None, None)) as [[A ->]|[[A ->]|(A & A' & ->)]]; cbn [bind fst snd].
  - destruct b as [b|].
    + destruct (set_name_cases b (@None (list N), Some a)) as [[B ->]|[[B ->]|(B & B' & ->)]]; cbn [fst snd].
      * split; [|split].
        -- eexists; split; [exact E|]. constructor; [auto|]. constructor; auto.
        -- intro k. split.
           ++ intro H. inversion H; subst;
                (match goal with Q : parts t ?x |- _ => pose proof (parts_fun _ _ _ E Q) as X end).
              ** discriminate.
              ** injection X as -> ->. auto.
              ** injection X as -> ->. destruct H1 as [[_ H1]|[H1 _]]; exfalso; eauto using short_not_long.
           ++ intros [H|H]; [discriminate|]. injection H as <-. eapply at_second; eauto.
        -- discriminate.
      * split; [|split].
        -- eexists; split; [exact E|]. constructor; [auto|]. constructor; auto.
        -- intro k. split.
           ++ intro H. inversion H; subst;
                (match goal with Q : parts t ?x |- _ => pose proof (parts_fun _ _ _ E Q) as X end).
              ** discriminate.
              ** injection X as -> ->. auto.
              ** injection X as -> ->. auto.
           ++ intros [H|H]; injection H as <-; [eapply at_second; eauto|eapply at_first; eauto].
        -- intros k H H'. injection H as <-. injection H' as <-. eauto using short_not_long.
      * intros (ps & P & F). rewrite <- (parts_fun _ _ _ E P) in F.
        apply Forall_cons_iff in F as [_ F]. apply Forall_cons_iff in F as [F _]. tauto.
    + split; [|split].
      * eexists; split; [exact E|]. constructor; auto.
      * intro k. split.
        -- intro H. inversion H; subst;
             (match goal with Q : parts t ?x |- _ => pose proof (parts_fun _ _ _ E Q) as X end); try discriminate.
           injection X as ->. auto.
        -- intros [H|H]; [discriminate|]. injection H as <-. now constructor.
      * discriminate.
  - destruct b as [b|].
    + destruct (set_name_cases b (Some a, @None (list N))) as [[B ->]|[[B ->]|(B & B' & ->)]]; cbn [fst snd].
      * split; [|split].
        -- eexists; split; [exact E|]. constructor; [auto|]. constructor; auto.
        -- intro k. split.
           ++ intro H. inversion H; subst;
                (match goal with Q : parts t ?x |- _ => pose proof (parts_fun _ _ _ E Q) as X end).
              ** discriminate.
              ** injection X as -> ->. auto.
              ** injection X as -> ->. auto.
           ++ intros [H|H]; injection H as <-; [eapply at_first; eauto|eapply at_second; eauto].
        -- intros k H H'. injection H as <-. injection H' as <-. eauto using short_not_long.
      * split; [|split].
        -- eexists; split; [exact E|]. constructor; [auto|]. constructor; auto.
        -- intro k. split.
           ++ intro H. inversion H; subst;
                (match goal with Q : parts t ?x |- _ => pose proof (parts_fun _ _ _ E Q) as X end).
              ** discriminate.
              ** injection X as -> ->. auto.
              ** injection X as -> ->. destruct H1 as [[H1 _]|[_ H1]]; exfalso; eauto using short_not_long.
           ++ intros [H|H]; [|discriminate]. injection H as <-. eapply at_second; eauto.
        -- discriminate.
      * intros (ps & P & F). rewrite <- (parts_fun _ _ _ E P) in F.
        apply Forall_cons_iff in F as [_ F]. apply Forall_cons_iff in F as [F _]. tauto.
    + split; [|split].
      * eexists; split; [exact E|]. constructor; auto.
      * intro k. split.
        -- intro H. inversion H; subst;
             (match goal with Q : parts t ?x |- _ => pose proof (parts_fun _ _ _ E Q) as X end); try discriminate.
           injection X as ->. auto.
        -- intros [H|H]; [|discriminate]. injection H as <-. now constructor.
      * discriminate.
  - intros (ps & P & F). rewrite <- (parts_fun _ _ _ E P) in F.
    destruct b; apply Forall_cons_iff in F as [F _]; tauto.
Qed.

(** ** The table. *)
Section Opt.
Variable ovf : Z -> Z.
Notation bucket_id := (bucket_id ovf).
Notation find_in_map := (find_in_map ovf).

Definition type_of (k : kind) : otype :=
  match k with KBool _ => TBool | KInt _ => TInt | KDouble _ => TDouble | KString _ => TString | KHelp => THelp end.
Definition def_of (k : kind) : oval :=
  match k with KBool b => UB_ b | KInt i => UI i | KDouble d => UD d | KString s => US s | KHelp => UNone end.
Definition oval_of (v : value) : oval :=
  match v with ValB b => UB_ b | ValI i => UI i | ValD d => UD d | ValS s => US s end.
Definition typed (t : otype) (v : oval) : Prop :=
  match t, v with
  | TBool, UB_ _ | TInt, UI _ | TDouble, UD _ | TString, US _ | THelp, UNone => True
  | _, _ => False
  end.
Definition matches (q : odata) (d : decl) : Prop :=
  set_names (d_names d) = Ok (q_name q, q_short q) /\ q_type q = type_of (d_kind d) /\
  q_def q = def_of (d_kind d) /\ q_req q = d_required d /\ typed (q_type q) (q_val q).
Definition eff (q : odata) (k : list N) : Prop := q_name q = Some k \/ q_short q = Some k.

Lemma matches_eff : forall q d k, matches q d -> (eff q k <-> answers_to (d_names d) k).
Proof.
  intros q d k (E & _). pose proof (set_names_spec (d_names d)) as S. rewrite E in S.
  destruct S as (_ & S & _). specialize (S k). unfold eff. tauto.
Qed.

Lemma bucket_range : forall k, 0 <= bucket_id k < 32.
Proof.
  intro k. unfold bucket_id, OPTION_MAP_SIZE.
  pose proof (Z.rem_bound_abs (hash_code ovf k) 32 ltac:(lia)). lia.
Qed.

Definition in_map (m : list (list (list N * nat))) (k : list N) (i : nat) : Prop :=
  exists b, nth_error m (Z.to_nat (bucket_id k)) = Some b /\ In (k, i) b.
Definition rest_ok (r : option rdata) (rs : option bool) : Prop :=
  match r, rs with
  | None, None => True
  | Some r, Some b => r_req r = b
  | _, _ => False
  end.
Record Inv (o : options) (ds : list decl) (rs : option bool) : Prop := {
  inv_ds : Forall2 matches (o_list o) ds;
  inv_len : length (o_map o) = 32%nat;
  inv_map : forall k i, in_map (o_map o) k i <-> exists q, nth_error (o_list o) i = Some q /\ eff q k;
  inv_one : forall k i j, in_map (o_map o) k i -> in_map (o_map o) k j -> i = j;
  inv_rest : rest_ok (o_rest o) rs }.

Lemma find_node_some : forall b k i, find_node b k = Some i -> In (k, i) b.
Proof.
  induction b as [|[k' j] b IH]; cbn; intros k i H; [discriminate|].
  destruct (str_eq k' k) eqn:E.
  - apply str_eq_eq in E. subst. injection H as ->. auto.
  - right. auto.
Qed.
Lemma find_node_none : forall b k i, find_node b k = None -> ~ In (k, i) b.
Proof.
  induction b as [|[k' j] b IH]; cbn; intros k i H.
  { tauto. }
  intros [Q|Q].
  - injection Q as -> ->. assert (str_eq k k = true) as X by now apply str_eq_eq. rewrite X in H. discriminate.
  - destruct (str_eq k' k); [discriminate|]. eapply IH; eauto.
Qed.

Lemma bucket_get : forall (m : list (list (list N * nat))) k, length m = 32%nat ->
  exists b, nth_error m (Z.to_nat (bucket_id k)) = Some b /\ zget m (bucket_id k) = Ok b.
Proof.
  intros m k L. pose proof (bucket_range k) as R.
  destruct (nth_error m (Z.to_nat (bucket_id k))) as [b|] eqn:E.
  2:{ apply nth_error_None in E. lia. }
  exists b. split; auto. unfold zget, aget. rewrite E. destruct (Z.ltb_spec (bucket_id k) 0); [lia|auto].
Qed.

Lemma find_spec : forall o ds rs k, Inv o ds rs ->
  match find_in_map o (Some k) with
  | Ok (Some i) => exists q d, nth_error (o_list o) i = Some q /\ nth_error ds i = Some d /\
                   matches q d /\ answers_to (d_names d) k
  | Ok None => forall i kd, ~ called ds k i kd
  | _ => False
  end.
Proof.
  intros o ds rs k I. unfold OptModel.find_in_map.
  destruct (bucket_get (o_map o) k (inv_len _ _ _ I)) as (b & E & ->). cbn [bind].
  destruct (find_node b k) as [i|] eqn:F.
  - assert (in_map (o_map o) k i) as M by (exists b; split; auto using find_node_some).
    apply (inv_map _ _ _ I) in M as (q & Q & H).
    pose proof (inv_ds _ _ _ I) as D.
    assert (exists d, nth_error ds i = Some d /\ matches q d) as (d & Hd & Hm).
    { clear - D Q. revert i Q. induction D; intros [|i] Q; cbn in Q; try discriminate.
      - injection Q as ->. exists y. auto.
      - apply IHD; auto. }
    exists q, d. repeat (split; [assumption|]). now apply (matches_eff q d k Hm).
  - intros i kd (d & Hd & _ & A).
    pose proof (inv_ds _ _ _ I) as D.
    assert (exists q, nth_error (o_list o) i = Some q /\ matches q d) as (q & Hq & Hm).
    { clear - D Hd. revert i Hd. induction D; intros [|i] Q; cbn in Q; try discriminate.
      - injection Q as ->. exists x. auto.
      - apply IHD; auto. }
    assert (in_map (o_map o) k i) as (b' & E' & M).
    { apply (inv_map _ _ _ I). exists q. split; auto. now apply (matches_eff q d k Hm). }
    rewrite E in E'. injection E' as <-. exact (find_node_none b k i F M).
Qed.

Lemma F2_nth : forall A B (P : A -> B -> Prop) l l' i x, Forall2 P l l' -> nth_error l i = Some x ->
  exists y, nth_error l' i = Some y /\ P x y.
Proof.
  intros A B P l l' i x D. revert i x. induction D; intros [|i] z Q; cbn in Q; try discriminate.
  - injection Q as ->. exists y. auto.
  - apply IHD; auto.
Qed.
Lemma F2_nth_r : forall A B (P : A -> B -> Prop) l l' i y, Forall2 P l l' -> nth_error l' i = Some y ->
  exists x, nth_error l i = Some x /\ P x y.
Proof.
  intros A B P l l' i x D. revert i x. induction D; intros [|i] z Q; cbn in Q; try discriminate.
  - injection Q as ->. exists x. auto.
  - apply IHD; auto.
Qed.

Lemma called_unique : forall o ds rs a i j k k', Inv o ds rs -> called ds a i k -> called ds a j k' -> i = j /\ k = k'.
Proof.
  intros o ds rs a i j k k' I (d & D & K & A) (e & E & K' & A').
  assert (forall i d, nth_error ds i = Some d -> answers_to (d_names d) a -> in_map (o_map o) a i) as G.
  { intros i0 d0 D0 A0. destruct (F2_nth_r _ _ _ _ _ _ _ (inv_ds _ _ _ I) D0) as (q & Q & M).
    apply (inv_map _ _ _ I). exists q. split; auto. now apply (matches_eff q d0). }
  assert (i = j) by (eapply (inv_one _ _ _ I); eauto). subst j. split; auto. congruence.
Qed.

Lemma find_called : forall o ds rs a i k, Inv o ds rs -> called ds a i k -> find_in_map o (Some a) = Ok (Some i).
Proof.
  intros o ds rs a i k I C. pose proof (find_spec o ds rs a I) as F.
  destruct (find_in_map o (Some a)) as [[j|]| | |]; try tauto.
  - destruct F as (q & d & _ & D & _ & A).
    assert (called ds a j (d_kind d)) as C' by (exists d; auto).
    destruct (called_unique _ _ _ _ _ _ _ _ I C C') as [-> _]. auto.
  - exfalso. eapply F; eauto.
Qed.

(** Adding to the map. *)
Lemma add_to_map_ok : forall o k i, length (o_map o) = 32%nat ->
  exists m, add_to_map ovf o k i = Ok {| o_prog := o_prog o; o_list := o_list o; o_map := m; o_rest := o_rest o |} /\
  length m = 32%nat /\ (forall k' j, in_map m k' j <-> in_map (o_map o) k' j \/ (k' = k /\ j = i)).
Proof.
  intros o k i L. unfold add_to_map. destruct (bucket_get (o_map o) k L) as (b & E & ->). cbn [bind].
  pose proof (bucket_range k) as R.
  unfold zset, aset. destruct (Z.ltb_spec (bucket_id k) 0); [lia|].
  destruct (Nat.ltb_spec (Z.to_nat (bucket_id k)) (length (o_map o))); [|lia]. cbn [bind].
  eexists. split; [reflexivity|]. split; [now rewrite lset_length|].
  intros k' j. unfold in_map.
  destruct (Nat.eq_dec (Z.to_nat (bucket_id k')) (Z.to_nat (bucket_id k))) as [Q|Q].
  - rewrite Q. rewrite nth_error_lset_eq by lia. rewrite E. split.
    + intros (b' & X & Y). injection X as <-. destruct Y as [Y|Y]; [injection Y as -> ->; auto|left; eauto].
    + intros [(b' & X & Y)|[-> ->]].
      * injection X as <-. eexists; split; eauto. now right.
      * eexists; split; eauto. now left.
  - rewrite nth_error_lset_neq by auto. split; [auto|]. intros [X|[-> _]]; [auto|]. congruence.
Qed.

Lemma F2_app : forall A B (P : A -> B -> Prop) l l' x y, Forall2 P l l' -> P x y -> Forall2 P (l ++ [x]) (l' ++ [y]).
Proof. intros. apply Forall2_app; auto. Qed.

Lemma find_none_iff : forall o ds rs n, Inv o ds rs ->
  match find_in_map o n with
  | Ok (Some _) => exists k, n = Some k /\ exists d, In d ds /\ answers_to (d_names d) k
  | Ok None => forall k d, n = Some k -> In d ds -> ~ answers_to (d_names d) k
  | _ => False
  end.
Proof.
  intros o ds rs [k|] I.
  - pose proof (find_spec o ds rs k I) as F. destruct (find_in_map o (Some k)) as [[i|]| | |]; auto.
    + destruct F as (q & d & _ & D & _ & A). exists k. split; auto. exists d. split; auto. eapply nth_error_In; eauto.
    + intros k0 d E D A. injection E as <-. apply In_nth_error in D as [i D]. apply (F i (d_kind d)). exists d. auto.
  - cbn. intros k d E. discriminate.
Qed.

Lemma in_map_lt : forall o ds rs k i, Inv o ds rs -> in_map (o_map o) k i -> (i < length (o_list o))%nat.
Proof.
  intros o ds rs k i I M. apply (inv_map _ _ _ I) in M as (q & Q & _). apply nth_error_Some. congruence.
Qed.

Lemma data_add_spec : forall o ds rs q d, Inv o ds rs -> matches q d ->
  match data_add ovf q o with
  | Ok o' => Inv o' (ds ++ [d]) rs /\ (forall e k, In e ds -> answers_to (d_names e) k -> ~ answers_to (d_names d) k)
             /\ o_list o' = o_list o ++ [q] /\ o_rest o' = o_rest o
  | Fatal => exists e k, In e ds /\ answers_to (d_names e) k /\ answers_to (d_names d) k
  | _ => False
  end.
Proof.
  intros o ds rs q d I M. unfold data_add.
  assert (N : forall k, answers_to (d_names d) k <-> (q_name q = Some k \/ q_short q = Some k)).
  { intro k. symmetry. apply matches_eff; auto. }
  assert (ND : forall k, q_name q = Some k -> q_short q = Some k -> False).
  { destruct M as (E & _). pose proof (set_names_spec (d_names d)) as S. rewrite E in S. tauto. }
  pose proof (find_none_iff o ds rs (q_name q) I) as F1.
  destruct (OptModel.find_in_map ovf o (q_name q)) as [[i|]| | |]; try tauto; cbn [bind].
  { destruct F1 as (k & E & e & He & A). exists e, k. split; auto. split; auto. apply N; auto. }
  pose proof (find_none_iff o ds rs (q_short q) I) as F2.
  destruct (OptModel.find_in_map ovf o (q_short q)) as [[i|]| | |]; try tauto; cbn [bind].
  { destruct F2 as (k & E & e & He & A). exists e, k. split; auto. split; auto. apply N; auto. }
  set (o1 := o_with o (o_list o ++ [q])).
  set (id := length (o_list o)).
  assert (S1 : exists m1, (match q_name q with None => Ok o1 | Some n => add_to_map ovf o1 n id end) =
     Ok {| o_prog := o_prog o; o_list := o_list o ++ [q]; o_map := m1; o_rest := o_rest o |} /\ length m1 = 32%nat /\
     forall k j, in_map m1 k j <-> in_map (o_map o) k j \/ (q_name q = Some k /\ j = id)).
  { destruct (q_name q) as [n|].
    - destruct (add_to_map_ok o1 n id (inv_len _ _ _ I)) as (m & -> & L & X). exists m. split; [reflexivity|].
      split; auto. intros k j. rewrite X. cbn. split; (intros [Y|[Y Z]]; [auto|right; split; congruence]).
    - exists (o_map o). split; [reflexivity|]. split; [apply (inv_len _ _ _ I)|].
      intros k j. split; [auto|]. intros [Y|[Y _]]; [auto|discriminate]. }
  destruct S1 as (m1 & -> & L1 & X1). cbn [bind].
  set (o2 := {| o_prog := o_prog o; o_list := o_list o ++ [q]; o_map := m1; o_rest := o_rest o |}).
  assert (S2 : exists m2, (match q_short q with None => Ok o2 | Some n => add_to_map ovf o2 n id end) =
     Ok {| o_prog := o_prog o; o_list := o_list o ++ [q]; o_map := m2; o_rest := o_rest o |} /\ length m2 = 32%nat /\
     forall k j, in_map m2 k j <-> in_map (o_map o) k j \/ (eff q k /\ j = id)).
  { destruct (q_short q) as [n|] eqn:Qs.
    - destruct (add_to_map_ok o2 n id L1) as (m & -> & L & X). exists m. split; [reflexivity|].
      split; auto. intros k j. rewrite X. cbn [o2 o_map]. rewrite X1. unfold eff. rewrite Qs. split.
      + intros [[Y|[Y Z]]|[Y Z]]; subst; auto.
      + intros [Y|[[Y|Y] Z]]; auto. injection Y as ->. auto.
    - exists m1. split; [reflexivity|]. split; auto.
      intros k j. rewrite X1. unfold eff. rewrite Qs. intuition discriminate. }
  destruct S2 as (m2 & -> & L2 & X2).
  split; [|split; [|split; reflexivity]].
  - constructor; cbn.
    + apply F2_app; auto. apply (inv_ds _ _ _ I).
    + auto.
    + intros k j. rewrite X2. rewrite (inv_map _ _ _ I k j). split.
      * intros [(q' & Q & Y)|[Y ->]].
        -- exists q'. split; auto. rewrite nth_error_app1; auto. apply nth_error_Some. congruence.
        -- exists q. split; auto. unfold id. rewrite nth_error_app2 by lia. now rewrite Nat.sub_diag.
      * intros (q' & Q & Y). destruct (Nat.lt_ge_cases j (length (o_list o))).
        -- rewrite nth_error_app1 in Q by auto. left; eauto.
        -- rewrite nth_error_app2 in Q by auto. destruct (j - length (o_list o))%nat eqn:J.
           ++ cbn in Q. injection Q as <-. right. split; auto. unfold id. lia.
           ++ cbn in Q. destruct n; discriminate.
    + assert (NEW : forall k i, eff q k -> ~ in_map (o_map o) k i).
      { intros k i E Mi. apply (inv_map _ _ _ I) in Mi as (q' & Q & Y).
        destruct (F2_nth _ _ _ _ _ _ _ (inv_ds _ _ _ I) Q) as (e & He & Me).
        apply (matches_eff _ _ _ Me) in Y. apply nth_error_In in He.
        destruct E as [E|E]; [eapply F1|eapply F2]; eauto. }
      intros k i j Hi Hj. apply X2 in Hi. apply X2 in Hj.
      destruct Hi as [Hi|[Hi ->]]; destruct Hj as [Hj|[Hj ->]]; auto.
      * eapply (inv_one _ _ _ I); eauto.
      * exfalso. eapply NEW; eauto.
      * exfalso. eapply NEW; eauto.
    + apply (inv_rest _ _ _ I).
  - intros e k He A B. apply N in B as [B|B]; [eapply F1|eapply F2]; eauto.
Qed.

Lemma data_new_spec : forall d,
  match data_new (d_names d) (type_of (d_kind d)) (def_of (d_kind d)) (d_required d) with
  | Ok q => legal_names (d_names d) /\ matches q d /\ q_val q = def_of (d_kind d) /\ q_set q = false
  | Fatal => ~ legal_names (d_names d)
  | _ => False
  end.
Proof.
  intro d. unfold data_new. pose proof (set_names_spec (d_names d)) as S.
  destruct (set_names (d_names d)) as [[n s]| | |] eqn:E; cbn [bind]; auto.
  split; [tauto|]. split; [|auto]. unfold matches; cbn. repeat (split; auto). destruct (d_kind d); exact Logic.I.
Qed.

Lemma answers_legal_table : forall ds d, table_ok (ds ++ [d]) <->
  table_ok ds /\ legal_names (d_names d) /\ (forall e k, In e ds -> answers_to (d_names e) k -> ~ answers_to (d_names d) k).
Proof.
  intros ds d. unfold table_ok. split.
  - intros [F U]. apply Forall_app in F as [F F1]. apply Forall_cons_iff in F1 as [F1 _].
    split; [split; auto|split; auto].
    + intros i j x y n Hi Hj. apply U; rewrite nth_error_app1; auto; apply nth_error_Some; congruence.
    + intros e k He A B. apply In_nth_error in He as [i Hi].
      assert (i < length ds)%nat by (apply nth_error_Some; congruence).
      assert (i = length ds); [|lia].
      eapply (U i (length ds) e d k); auto.
      * now rewrite nth_error_app1.
      * rewrite nth_error_app2 by lia. now rewrite Nat.sub_diag.
  - intros ([F U] & L & NW). split; [apply Forall_app; auto|].
    assert (G : forall i x, nth_error (ds ++ [d]) i = Some x -> (i < length ds)%nat /\ nth_error ds i = Some x \/ i = length ds /\ x = d).
    { intros i x H. destruct (Nat.lt_ge_cases i (length ds)).
      - rewrite nth_error_app1 in H by auto. auto.
      - rewrite nth_error_app2 in H by auto. destruct (i - length ds)%nat eqn:J; cbn in H.
        + injection H as <-. right. split; auto. lia.
        + destruct n; discriminate. }
    intros i j x y n Hi Hj A B. apply G in Hi. apply G in Hj.
    destruct Hi as [[_ Hi]|[-> ->]]; destruct Hj as [[_ Hj]|[-> ->]]; eauto.
    + exfalso. apply nth_error_In in Hi. eapply (NW x n); eauto.
    + exfalso. apply nth_error_In in Hj. eapply (NW y n); eauto.
Qed.

Lemma inv_table : forall o ds rs, Inv o ds rs -> table_ok ds.
Proof.
  intros o ds rs I. split.
  - apply Forall_forall. intros d Hd. apply In_nth_error in Hd as [i Hi].
    destruct (F2_nth_r _ _ _ _ _ _ _ (inv_ds _ _ _ I) Hi) as (q & _ & (E & _)).
    pose proof (set_names_spec (d_names d)) as S. rewrite E in S. tauto.
  - intros i j d e n Hi Hj A B.
    eapply (called_unique o ds rs n i j (d_kind d) (d_kind e) I); [exists d|exists e]; auto.
Qed.

Lemma letter_cases : forall c base r, (97 <= base <= 122)%N -> letter c base = Some r -> tolower c = base /\ isupper c = r.
Proof.
  intros c base r B. unfold letter, tolower, isupper.
  destruct (N.eqb_spec c base); [intros E; injection E as <-; subst|].
  - destruct (N.leb_spec 65 base); destruct (N.leb_spec base 90); cbn; try lia; auto.
  - destruct (N.eqb_spec c (base - 32)); [|discriminate]. intros E; injection E as <-; subst.
    destruct (N.leb_spec 65 (base - 32)); destruct (N.leb_spec (base-32) 90); cbn; try lia.
Qed.

Definition fresh_q (o o' : options) : Prop :=
  o_list o' = o_list o \/ exists q, o_list o' = o_list o ++ [q] /\ q_set q = false /\ q_val q = q_def q.

Lemma add_decl_spec : forall o ds rs d, Inv o ds rs ->
  match (let* q := data_new (d_names d) (type_of (d_kind d)) (def_of (d_kind d)) (d_required d) in data_add ovf q o) with
  | Ok o' => Inv o' (ds ++ [d]) rs /\ fresh_q o o' /\ o_rest o' = o_rest o
  | Fatal => ~ table_ok (ds ++ [d])
  | _ => False
  end.
Proof.
  intros o ds rs d I. pose proof (data_new_spec d) as D.
  destruct (data_new (d_names d) (type_of (d_kind d)) (def_of (d_kind d)) (d_required d)) as [q| | |]; cbn [bind]; auto.
  - destruct D as (L & M & V & S0). pose proof (data_add_spec o ds rs q d I M) as A.
    destruct (data_add ovf q o) as [o'| | |]; auto.
    + destruct A as (A & _ & Al & Ar). split; auto. split; auto. right. exists q. split; auto. split; auto.
      destruct M as (_ & _ & -> & _). auto.
    + intro T. apply answers_legal_table in T as (_ & _ & T). destruct A as (e & k & He & A & B). eapply T; eauto.
  - intro T. apply answers_legal_table in T as (_ & T & _). auto.
Qed.

Definition upd_rest (rs : option bool) (l : list bool) : option bool := fold_left (fun _ b => Some b) l rs.

Lemma vadd1_spec : forall o ds rs c a, Inv o ds rs -> well_typed (c, a) ->
  match vadd1 ovf o c a with
  | Ok o' => Inv o' (ds ++ opt_list (decl_of c a)) (upd_rest rs (opt_list (rest_of c a))) /\ fresh_q o o'
  | Fatal => ~ table_ok (ds ++ opt_list (decl_of c a))
  | _ => False
  end.
Proof.
  intros o ds rs c a I W. unfold well_typed in W; cbn [fst snd] in W. unfold vadd1.
  destruct a as [n b|n b|n b|n b|]; cbn [decl_of rest_of] in *;
    (match type of W with _ => match goal with |- context [letter c ?b] =>
       destruct (letter c b) as [r|] eqn:E; [|destruct W as [W|W]; exfalso; now apply W];
       apply letter_cases in E as [E1 E2]; [|lia]; rewrite E1, E2 end end); cbn [N.eqb Pos.eqb opt_list upd_rest fold_left].
  1-4: match goal with H : Inv ?o ?ds ?rs |- context [_ ++ [?d]] => pose proof (add_decl_spec o ds rs d H) as A end;
    cbn [d_names d_kind d_required type_of def_of] in A;
    match goal with |- match ?x with _ => _ end => destruct x end; auto; tauto.
  rewrite app_nil_r. split; [|left; reflexivity]. destruct I as [I1 I2 I3 I4 I5].
  constructor; cbn; auto.
Qed.

Lemma table_prefix : forall l ds, table_ok (ds ++ l) -> table_ok ds.
Proof.
  induction l as [|d l IH]; intros ds H.
  - now rewrite app_nil_r in H.
  - replace (ds ++ d :: l) with ((ds ++ [d]) ++ l) in H by (rewrite <- app_assoc; auto).
    apply IH in H. now apply answers_legal_table in H.
Qed.

Definition defaults_until (o : options) : Prop := Forall (fun q => q_set q = false /\ q_val q = q_def q) (o_list o).
Lemma fresh_defaults : forall o o', fresh_q o o' -> defaults_until o -> defaults_until o'.
Proof.
  intros o o' [E|(q & E & A)] D; unfold defaults_until; rewrite E; auto.
  apply Forall_app. split; auto.
Qed.

Lemma vadd_spec : forall f o ds rs, Inv o ds rs -> Forall well_typed f ->
  match vadd ovf o f with
  | Ok o' => Inv o' (ds ++ decls_of_op (OAdd f)) (upd_rest rs (rests_of_op (OAdd f))) /\ (defaults_until o -> defaults_until o')
  | Fatal => ~ table_ok (ds ++ decls_of_op (OAdd f))
  | _ => False
  end.
Proof.
  induction f as [|[c a] f IH]; intros o ds rs I W.
  - cbn. rewrite app_nil_r. auto.
  - apply Forall_cons_iff in W as [W1 W]. cbn [vadd for_each fst snd].
    pose proof (vadd1_spec o ds rs c a I W1) as A.
    cbn [decls_of_op rests_of_op flat_map fst snd].
    destruct (vadd1 ovf o c a) as [o1| | |]; cbn [bind]; auto.
    + destruct A as [A Fq]. specialize (IH o1 _ _ A W). unfold vadd in IH.
      rewrite <- app_assoc in IH. unfold upd_rest in *. rewrite fold_left_app.
      match goal with |- match ?x with _ => _ end => destruct x end; auto.
      destruct IH as [IH IH']. split; auto. intro D. apply IH'. eapply fresh_defaults; eauto.
    + intro T. apply A. rewrite app_assoc in T. now apply table_prefix in T.
Qed.

Lemma help_spec : forall o ds rs, Inv o ds rs ->
  match add_help ovf o with
  | Ok o' => Inv o' (ds ++ [help_decl]) rs /\ (defaults_until o -> defaults_until o')
  | Fatal => ~ table_ok (ds ++ [help_decl])
  | _ => False
  end.
Proof.
  intros o ds rs I. pose proof (add_decl_spec o ds rs help_decl I) as A. unfold add_help.
  cbn [help_decl d_names d_kind d_required type_of def_of] in A.
  match goal with |- match ?x with _ => _ end => destruct x end; auto.
  destruct A as (A & B & _). split; auto. apply fresh_defaults; auto.
Qed.

(** ** Parsing. *)
Section Atof.
Variable atof : list N -> N.
Notation reads ds := (reads ds atoi atof).

Lemma matches_with : forall q d v s, matches q d -> typed (q_type q) v -> matches (q_with q v s) d.
Proof. intros q d v s (A & B & C & D & E) T. unfold matches, q_with; cbn. auto. Qed.

Lemma inv_list : forall o ds rs l p, Inv o ds rs -> Forall2 matches l ds ->
  (forall i q q', nth_error (o_list o) i = Some q -> nth_error l i = Some q' -> q_name q' = q_name q /\ q_short q' = q_short q) ->
  Inv {| o_prog := p; o_list := l; o_map := o_map o; o_rest := o_rest o |} ds rs.
Proof.
  intros o ds rs l p [I1 I2 I3 I4 I5] M N. constructor; cbn; auto.
  intros k i. rewrite I3. split; intros (q & Q & E).
  - destruct (F2_nth _ _ _ _ _ _ _ I1 Q) as (d & D & _).
    destruct (F2_nth_r _ _ _ _ _ _ _ M D) as (q' & Q' & _).
    exists q'. split; auto. unfold eff in *. destruct (N _ _ _ Q Q') as [-> ->]. auto.
  - destruct (F2_nth _ _ _ _ _ _ _ M Q) as (d & D & _).
    destruct (F2_nth_r _ _ _ _ _ _ _ I1 D) as (q' & Q' & _).
    exists q'. split; auto. unfold eff in *. destruct (N _ _ _ Q' Q) as [<- <-]. auto.
Qed.

Lemma F2_lset : forall A B (P : A -> B -> Prop) l l' i x y, Forall2 P l l' -> nth_error l' i = Some y -> P x y ->
  Forall2 P (lset l i x) l'.
Proof.
  intros A B P l l' i x y F. revert i. induction F; intros [|i] E H1; cbn in *; try discriminate; constructor; auto.
  injection E as <-. auto.
Qed.

Lemma set_opt_inv : forall o ds rs i q v, Inv o ds rs -> nth_error (o_list o) i = Some q -> typed (q_type q) v ->
  Inv (o_with o (lset (o_list o) i (q_with q v true))) ds rs.
Proof.
  intros o ds rs i q v I Q T. unfold o_with. apply inv_list; auto.
  - destruct (F2_nth _ _ _ _ _ _ _ (inv_ds _ _ _ I) Q) as (d & D & M).
    eapply F2_lset; eauto using (inv_ds _ _ _ I), matches_with.
  - intros j q1 q2 H1 H2. destruct (Nat.eq_dec j i) as [->|J].
    + rewrite nth_error_lset_eq in H2 by (apply nth_error_Some; congruence).
      injection H2 as <-. cbn. rewrite Q in H1. injection H1 as <-. auto.
    + rewrite nth_error_lset_neq in H2 by auto. rewrite H1 in H2. injection H2 as <-. auto.
Qed.

Definition assigned (l : list (nat * value)) (L L' : list odata) : Prop :=
  length L' = length L /\
  forall i q, nth_error L i = Some q ->
    nth_error L' i = Some (match last_assigned l i with Some v => q_with q (oval_of v) true | None => q end).

Lemma assigned_cons : forall L L' i v q l, nth_error L i = Some q ->
  assigned l (lset L i (q_with q (oval_of v) true)) L' -> assigned ((i, v) :: l) L L'.
Proof.
  intros L L' i v q l Q [A B]. rewrite lset_length in A. split; auto.
  intros j p P. cbn [last_assigned]. destruct (Nat.eqb_spec i j) as [->|J].
  - rewrite P in Q. injection Q as <-.
    specialize (B j). rewrite nth_error_lset_eq in B by (apply nth_error_Some; congruence).
    specialize (B _ eq_refl). rewrite B. destruct (last_assigned l j); auto.
  - specialize (B j p). rewrite nth_error_lset_neq in B by auto. rewrite (B P).
    destruct (last_assigned l j); auto.
Qed.

Lemma aset_app : forall (a : list bool) n, aset (a ++ repeat false (S n)) (length a) true = Ok (a ++ true :: repeat false n).
Proof.
  intros a n. unfold aset. rewrite app_length, repeat_length.
  destruct (Nat.ltb_spec (length a) (length a + S n)); [|lia]. f_equal.
  induction a; cbn; [auto|]. cbn in IHa. now rewrite IHa by lia.
Qed.
Lemma aset_app' : forall (a : list bool) n m, length a = m -> aset (a ++ repeat false (S n)) m true = Ok (a ++ true :: repeat false n).
Proof. intros a n m <-. apply aset_app. Qed.
Lemma aget_app : forall A (a : list A) x b, aget (a ++ x :: b) (length a) = Ok x.
Proof. intros. unfold aget. rewrite nth_error_app2, Nat.sub_diag by lia. auto. Qed.
Lemma app_cons : forall A (a : list A) x b, a ++ x :: b = (a ++ [x]) ++ b.
Proof. intros. now rewrite <- app_assoc. Qed.
Lemma len_snoc : forall A (a : list A) x, length (a ++ [x]) = S (length a).
Proof. intros. rewrite app_length. cbn. lia. Qed.

Lemma type_called : forall ds q d a i, nth_error ds i = Some d -> matches q d -> answers_to (d_names d) a -> called ds a i (d_kind d).
Proof. intros. exists d. auto. Qed.

Lemma args_loop_spec : forall f o pre args ispre ds rs, length ispre = length pre -> (length args < f)%nat -> Inv o ds rs ->
  match args_loop ovf atof f o (pre ++ args) (ispre ++ repeat false (length args)) (length pre) with
  | Ok (o', isp') => exists l r marks, reads ds args l r /\ isp' = ispre ++ marks /\ length marks = length args /\
       unprocessed args marks = r /\ Inv o' ds rs /\ o_rest o' = o_rest o /\ assigned l (o_list o) (o_list o')
  | Fatal => forall l r, ~ reads ds args l r
  | _ => False
  end.
Proof.
  induction f as [|f IH]; intros o pre args ispre ds rs L F I; [lia|].
  cbn [args_loop]. rewrite app_length. destruct args as [|a args].
  { destruct (Nat.ltb_spec (length pre) (length pre + @length (list N) [])); [cbn in *; lia|].
    exists [], [], []. split; [apply reads_end|]. do 5 (split; [auto; fail|]). split; [auto|]. intros i q Hq; exact Hq. }
  destruct (Nat.ltb_spec (length pre) (length pre + length (a :: args))); [|cbn in *; lia].
  rewrite aget_app. cbn [bind].
  pose proof (find_spec o ds rs a I) as FS.
  destruct (OptModel.find_in_map ovf o (Some a)) as [[i|]| | |] eqn:FE; try tauto; cbn [bind].
  2:{ (* left over *)
    specialize (IH o (pre ++ [a]) args (ispre ++ [false]) ds rs).
    rewrite !len_snoc in IH. rewrite <- !app_assoc in IH. cbn [app] in IH.
    cbn [length repeat] in *. specialize (IH ltac:(lia) ltac:(lia) I).
    destruct (args_loop ovf atof f o (pre ++ a :: args) (ispre ++ false :: repeat false (length args)) (S (length pre))) as [[o' isp']| | |]; auto.
    - destruct IH as (l & r & marks & R & E & LM & U & I' & Er & As).
      exists l, (a :: r), (false :: marks).
      split; [now constructor|]. split; [rewrite E; rewrite <- ?app_assoc; reflexivity|]. split; [cbn; lia|]. split; [cbn; now rewrite U|]. auto.
    - intros l r R. inversion R; subst; try (match goal with Q : called _ _ _ _ |- _ => eapply FS; exact Q end).
      eapply IH; eauto. }
  destruct FS as (q & d & Q & D & M & A).
  unfold aget at 1. rewrite Q. cbn [bind].
  assert (Li : (i < length (o_list o))%nat) by (apply nth_error_Some; congruence).
  assert (CL : called ds a i (d_kind d)) by (exists d; auto).
  assert (UN : forall j k, called ds a j k -> j = i /\ k = d_kind d) by (intros j k C; eapply called_unique; eauto).
  assert (TY : q_type q = type_of (d_kind d)) by apply M.
  destruct (needs_param (q_type q)) eqn:NP.
  - (* with value *)
    destruct args as [|v args].
    { destruct (Nat.eqb_spec (length pre) (length pre + length [a] - 1)); [|cbn in *; lia]. cbn [bind].
      intros l r R. inversion R; subst.
      - exfalso. match goal with H : forall i k, ~ called _ _ i k |- _ => eapply H; eauto end.
      - match goal with Q : called _ _ ?j _ |- _ => tryif unify j i then fail else (apply UN in Q as [_ Q]; rewrite <- Q in TY) end. rewrite TY in NP. discriminate. }
    destruct (Nat.eqb_spec (length pre) (length pre + length (a :: v :: args) - 1)); [cbn in *; lia|].
    cbn [length]. rewrite (aset_app' _ _ _ L). cbn [bind].
    replace (aget (pre ++ a :: v :: args) (S (length pre))) with (Ok v : res (list N)).
    2:{ rewrite app_cons. rewrite <- (len_snoc _ pre a). now rewrite aget_app. }
    cbn [bind].
    assert (exists w, convert atof q v = Ok (oval_of w) /\ typed (q_type q) (oval_of w) /\
       (forall l r, reads ds (a :: v :: args) l r -> exists l', l = (i, w) :: l' /\ reads ds args l' r) /\
       (forall l r, reads ds args l r -> reads ds (a :: v :: args) ((i, w) :: l) r)) as (w & CV & TW & RD & RB).
    { unfold convert. destruct (d_kind d) as [b|z|z|z|] eqn:KD; cbn in TY; rewrite TY in NP; try discriminate; rewrite TY.
      - exists (ValI (atoi v)). split; [reflexivity|]. split; [exact Logic.I|]. split.
        + intros l r R. inversion R; subst; try (match goal with Q : called _ _ ?j _ |- _ => tryif unify j i then fail else (apply UN in Q as [Q1 Q2]; try discriminate; subst) end).
          * exfalso. match goal with H : forall i k, ~ called _ _ i k |- _ => eapply H; eauto end.
          * eauto.
        + intros. eapply reads_int; eauto.
      - exists (ValD (atof v)). split; [reflexivity|]. split; [exact Logic.I|]. split.
        + intros l r R. inversion R; subst; try (match goal with Q : called _ _ ?j _ |- _ => tryif unify j i then fail else (apply UN in Q as [Q1 Q2]; try discriminate; subst) end).
          * exfalso. match goal with H : forall i k, ~ called _ _ i k |- _ => eapply H; eauto end.
          * eauto.
        + intros. eapply reads_double; eauto.
      - exists (ValS (Some v)). split; [reflexivity|]. split; [exact Logic.I|]. split.
        + intros l r R. inversion R; subst; try (match goal with Q : called _ _ ?j _ |- _ => tryif unify j i then fail else (apply UN in Q as [Q1 Q2]; try discriminate; subst) end).
          * exfalso. match goal with H : forall i k, ~ called _ _ i k |- _ => eapply H; eauto end.
          * eauto.
        + intros. eapply reads_string; eauto. }
    rewrite CV. cbn [bind]. unfold aset at 1. destruct (Nat.ltb_spec i (length (o_list o))); [|lia]. cbn [bind].
    replace (aset (ispre ++ true :: repeat false (S (length args))) (S (length pre)) true) with
      (Ok (ispre ++ true :: true :: repeat false (length args))).
    2:{ rewrite <- L. rewrite (app_cons _ ispre true (repeat _ _)), (app_cons _ ispre true (true :: _)).
        rewrite <- (len_snoc _ ispre true). now rewrite aset_app. }
    cbn [bind].
    specialize (IH (o_with o (lset (o_list o) i (q_with q (oval_of w) true))) (pre ++ [a] ++ [v]) args (ispre ++ [true] ++ [true]) ds rs).
    rewrite !app_assoc, !len_snoc in IH. rewrite <- !app_assoc in IH. cbn [app length] in IH.
    cbn [length] in *.
    specialize (IH ltac:(lia) ltac:(lia) (set_opt_inv _ _ _ _ _ _ I Q TW)).
    match goal with |- match ?x with _ => _ end => destruct x as [[o' isp']| | |] end; auto.
    + destruct IH as (l & r & marks & R & E & LM & U & I' & Er & As).
      exists ((i, w) :: l), r, (true :: true :: marks).
      split; [auto|]. split; [rewrite E; rewrite <- ?app_assoc; reflexivity|]. split; [cbn; lia|]. split; [auto|]. split; [auto|]. split; [auto|].
      eapply assigned_cons; eauto.
    + intros l r R. apply RD in R as (l' & -> & R). eapply IH; eauto.
  - (* flag or help *)
    cbn [bind].
    destruct (d_kind d) as [b|z|z|z|] eqn:KD; cbn in TY; rewrite TY in NP; try discriminate;
      unfold convert; rewrite TY; cbn [bind].
    + unfold aset at 1. destruct (Nat.ltb_spec i (length (o_list o))); [|lia]. cbn [bind].
      cbn [length]. rewrite (aset_app' _ _ _ L). cbn [bind].
      specialize (IH (o_with o (lset (o_list o) i (q_with q (oval_of (ValB 1)) true))) (pre ++ [a]) args (ispre ++ [true]) ds rs).
      rewrite !len_snoc in IH. rewrite <- !app_assoc in IH. cbn [app length] in IH.
      cbn [length] in *.
      assert (TW : typed (q_type q) (oval_of (ValB 1))) by (rewrite TY; exact Logic.I).
      specialize (IH ltac:(lia) ltac:(lia) (set_opt_inv _ _ _ _ _ _ I Q TW)). cbn [oval_of] in IH.
      match goal with |- match ?x with _ => _ end => destruct x as [[o' isp']| | |] end; auto.
      * destruct IH as (l & r & marks & R & E & LM & U & I' & Er & As).
        exists ((i, ValB 1) :: l), r, (true :: marks).
        split; [eapply reads_flag; eauto|]. split; [rewrite E; rewrite <- ?app_assoc; reflexivity|]. split; [cbn; lia|]. split; [auto|]. split; [auto|]. split; [auto|].
        eapply assigned_cons; eauto.
      * intros l r R. inversion R; subst; try (match goal with Q : called _ _ ?j _ |- _ => tryif unify j i then fail else (apply UN in Q as [Q1 Q2]; try discriminate; subst) end).
        -- exfalso. match goal with H : forall i k, ~ called _ _ i k |- _ => eapply H; eauto end.
        -- eapply IH; eauto.
    + intros l r R. inversion R; subst; try (match goal with Q : called _ _ ?j _ |- _ => tryif unify j i then fail else (apply UN in Q as [Q1 Q2]; try discriminate; subst) end).
      exfalso. match goal with H : forall i k, ~ called _ _ i k |- _ => eapply H; eauto end.
Qed.

(** check_required. *)
Lemma check_list_spec : forall L, 
  match check_list L with
  | Ok L' => Forall (fun q => q_set q = false -> q_req q = false) L /\ length L' = length L /\
      (forall i q, nth_error L i = Some q -> nth_error L' i = Some
          (if q_set q then q else match q_type q with THelp => q | _ => q_with q (q_def q) false end))
  | Fatal => ~ Forall (fun q => q_set q = false -> q_req q = false) L
  | _ => False
  end.
Proof.
  induction L as [|q L IH]; cbn [check_list].
  - split; [constructor|]. split; auto. intros [|i] q H; discriminate.
  - unfold check_data. destruct (q_set q) eqn:S; cbn [bind].
    + destruct (check_list L) as [L'| | |]; cbn [bind]; auto.
      * destruct IH as (A & B & C). split; [constructor; auto; congruence|]. split; [cbn; lia|].
        intros [|i] p H; cbn in *; auto. injection H as <-. now rewrite S.
      * intro F. apply Forall_cons_iff in F as [_ F]. auto.
    + destruct (q_req q) eqn:R; cbn [bind].
      * intro F. apply Forall_cons_iff in F as [F _]. rewrite F in R by auto. discriminate.
      * assert (X : (match q_type q with THelp => Ok q | _ => Ok (q_with q (q_def q) false) end) =
                Ok (match q_type q with THelp => q | _ => q_with q (q_def q) false end)) by (destruct (q_type q); auto).
        rewrite X. cbn [bind].
        destruct (check_list L) as [L'| | |]; cbn [bind]; auto.
        -- destruct IH as (A & B & C). split; [constructor; auto|]. split; [cbn; lia|].
           intros [|i] p H; cbn in *; auto. injection H as <-. now rewrite S.
        -- intro F. apply Forall_cons_iff in F as [_ F]. auto.
Qed.

Definition final (o : options) (ds : list decl) (rs : option bool) l r : Prop :=
  (forall i d q, nth_error ds i = Some d -> nth_error (o_list o) i = Some q ->
     q_set q = (match last_assigned l i with Some _ => true | None => false end) /\
     q_val q = match last_assigned l i with Some v => oval_of v | None => def_of (d_kind d) end) /\
  get_rest o = match rs, r with Some _, _ :: _ => Some r | _, _ => None end.

Lemma reads_help : forall ds args l r i d, table_ok ds -> reads ds args l r -> nth_error ds i = Some d -> d_kind d = KHelp -> last_assigned l i = None.
Proof.
  intros ds args l r i d T R Hd K.
  assert (G : forall a j k, called ds a j k -> k <> KHelp -> j <> i).
  { intros a j k (e & E & K' & _) N ->. rewrite Hd in E. injection E as <-. congruence. }
  induction R; cbn; auto; rewrite IHR;
    match goal with Q : called _ _ _ _ |- _ => apply G in Q; [|discriminate] end;
    match goal with |- (if Nat.eqb ?a ?b then _ else _) = _ => destruct (Nat.eqb_spec a b); congruence end.
Qed.

Lemma last_typed : forall ds args l r i d v, reads ds args l r -> nth_error ds i = Some d -> last_assigned l i = Some v ->
  typed (type_of (d_kind d)) (oval_of v).
Proof.
  intros ds args l r i d v R Hd.
  assert (G : forall a j k w, called ds a j k -> typed (type_of k) (oval_of w) -> j = i -> Some w = Some v -> typed (type_of (d_kind d)) (oval_of v)).
  { intros a j k w (e & E & K & _) T -> X. rewrite Hd in E. injection E as <-. injection X as <-. now rewrite K. }
  induction R; cbn; intro E; auto; try discriminate;
    (destruct (last_assigned l i); [auto|]);
    match type of E with (if Nat.eqb ?a ?b then _ else _) = _ => destruct (Nat.eqb_spec a b); [|discriminate] end;
    (eapply G; [eassumption| |assumption|eassumption]; exact Logic.I).
Qed.

Lemma F2_intro : forall A B (P : A -> B -> Prop) l l', length l = length l' ->
  (forall i x y, nth_error l i = Some x -> nth_error l' i = Some y -> P x y) -> Forall2 P l l'.
Proof.
  induction l as [|x l IH]; intros [|y l'] E H; cbn in E; try lia; constructor.
  - apply (H O); auto.
  - apply IH; [lia|]. intros i a b Ha Hb. apply (H (S i)); auto.
Qed.

Lemma clear_inv : forall o ds rs, Inv o ds rs -> Inv (clear_set_flags o) ds rs.
Proof.
  intros o ds rs I. unfold clear_set_flags. 
  assert (Inv {| o_prog := o_prog o; o_list := map (fun q => q_with q (q_val q) false) (o_list o); o_map := o_map o; o_rest := o_rest o |} ds rs) as J.
  { apply inv_list; auto.
    - pose proof (inv_ds _ _ _ I) as F. clear - F. induction F; cbn; constructor; auto.
    - intros i q q' H H'. rewrite nth_error_map, H in H'. cbn in H'. injection H' as <-. auto. }
  destruct J as [J1 J2 J3 J4 J5]. constructor; auto. cbn in *. destruct (o_rest o); auto.
Qed.

Lemma set_from_args_spec : forall o ds rs p args, Inv o ds rs ->
  match set_from_args ovf atof o (p :: args) with
  | Ok o' => Inv o' ds rs /\ exists l r, reads ds args l r /\ demands_met ds rs l r /\ final o' ds rs l r
  | Fatal => forall l r, reads ds args l r -> ~ demands_met ds rs l r
  | _ => False
  end.
Proof.
  intros o ds rs p args I. unfold set_from_args. apply clear_inv in I as I1.
  set (o1 := clear_set_flags o) in *. assert (Hflag : Forall (fun q => q_set q = false) (o_list o1)).
  { unfold o1; cbn. apply Forall_forall. intros q H. apply in_map_iff in H as (q0 & <- & _). auto. }
  assert (HrestF : match o_rest o1 with Some r => r_set r = false | None => True end).
  { unfold o1; cbn. destruct (o_rest o); auto. }
  clearbody o1. cbn [aget nth_error bind length repeat aset Nat.ltb Nat.leb lset].
  change (aget (p :: args) 0) with (Ok p : res (list N)). cbn [bind].
  set (o2 := {| o_prog := Some p; o_list := o_list o1; o_map := o_map o1; o_rest := o_rest o1 |}).
  assert (I2 : Inv o2 ds rs) by (destruct I1; constructor; auto).
  pose proof (args_loop_spec (S (S (length args))) o2 [p] args [true] ds rs eq_refl ltac:(lia) I2) as A.
  cbn [app length] in A.
  assert (DET : forall l r, reads ds args l r -> forall l' r', reads ds args l' r' -> l' = l /\ r' = r).
  { assert (UN : forall a i j k k', called ds a i k -> called ds a j k' -> i = j /\ k = k') by (intros; eapply called_unique; eauto).
    clear - UN. intros l r R. induction R; intros l2 r2 R2; inversion R2; subst;
      try (exfalso; match goal with Q : forall i k, ~ called _ ?a i k, C : called _ ?a _ _ |- _ => eapply Q; exact C end);
      try (match goal with Q : called _ ?a _ _, C : called _ ?a _ _ |- _ => destruct (UN _ _ _ _ _ Q C) as [? ?]; subst; try discriminate end);
      auto; edestruct IHR; eauto; subst; auto. }
  destruct (args_loop ovf atof (S (S (length args))) o2 (p :: args) (true :: repeat false (length args)) 1) as [[o3 isp]| | |]; cbn [bind]; auto.
  2:{ intros l r R. exfalso. eapply A; eauto. }
  destruct A as (l & r & marks & R & -> & LM & U & I3 & Er & [AL As]).
  cbn [o_rest o_list o2] in *.
  assert (Hset : forall i q, nth_error (o_list o3) i = Some q -> q_set q = match last_assigned l i with Some _ => true | None => false end).
  { intros i q H. destruct (nth_error (o_list o1) i) as [q0|] eqn:E.
    - rewrite (As _ _ E) in H. injection H as <-. destruct (last_assigned l i); auto.
      rewrite Forall_forall in Hflag. apply Hflag. eapply nth_error_In; eauto.
    - apply nth_error_None in E. assert (i < length (o_list o3))%nat by (apply nth_error_Some; congruence). lia. }
  set (o4 := set_rest_from_args o3 (p :: args) (true :: marks)).
  assert (E4 : o_list o4 = o_list o3 /\ o_map o4 = o_map o3 /\
     match o_rest o4, rs with
     | None, None => True
     | Some x, Some b => r_req x = b /\ r_set x = (match r with [] => false | _ => true end) /\ r_val x = Some r
     | _, _ => False end).
  { unfold o4, set_rest_from_args. pose proof (inv_rest _ _ _ I3) as IR. cbn [app unprocessed]. rewrite U.
    rewrite Er in *. destruct (o_rest o1) as [x|]; cbn [o_list o_map o_rest o_with_rest]; split; auto; split; auto.
    - cbn in IR. destruct rs; [|tauto]. cbn. split; auto. split; auto. destruct r; cbn; auto.
    - rewrite Er. cbn in IR. destruct rs; tauto. }
  destruct E4 as (E4l & E4m & E4r). clearbody o4.
  unfold check_required. rewrite E4l.
  pose proof (check_list_spec (o_list o3)) as CS.
  assert (REQ : Forall (fun q => q_set q = false -> q_req q = false) (o_list o3) <->
                (forall i d, nth_error ds i = Some d -> d_required d = true -> last_assigned l i <> None)).
  { rewrite Forall_forall. split.
    - intros F i d Hd Hr N. destruct (F2_nth_r _ _ _ _ _ _ _ (inv_ds _ _ _ I3) Hd) as (q & Hq & M).
      pose proof (Hset _ _ Hq) as HS. rewrite N in HS. specialize (F q (nth_error_In _ _ Hq) HS).
      destruct M as (_ & _ & _ & M & _). congruence.
    - intros F q Hq HS. apply In_nth_error in Hq as [i Hi].
      destruct (F2_nth _ _ _ _ _ _ _ (inv_ds _ _ _ I3) Hi) as (d & Hd & M).
      destruct M as (_ & _ & _ & M & _). rewrite M. destruct (d_required d) eqn:D; auto.
      specialize (F _ _ Hd D). rewrite (Hset _ _ Hi) in HS. destruct (last_assigned l i); congruence. }
  destruct (check_list (o_list o3)) as [L'| | |]; cbn [bind]; auto.
  2:{ intros l' r' R' [D _]. destruct (DET _ _ R _ _ R') as [-> ->]. apply CS. now apply REQ. }
  destruct CS as (C1 & C2 & C3). cbn [o_with o_rest].
  assert (PT : forall i d q, nth_error ds i = Some d -> nth_error L' i = Some q ->
     q_set q = (match last_assigned l i with Some _ => true | None => false end) /\
     q_val q = match last_assigned l i with Some v => oval_of v | None => def_of (d_kind d) end /\ matches q d
     /\ forall q3, nth_error (o_list o3) i = Some q3 -> q_name q = q_name q3 /\ q_short q = q_short q3).
  { intros i d q Hd Hq. destruct (F2_nth_r _ _ _ _ _ _ _ (inv_ds _ _ _ I3) Hd) as (q3 & H3 & M).
    pose proof (C3 _ _ H3) as X. rewrite Hq in X. injection X as ->.
    pose proof (Hset _ _ H3) as HS.
    assert (q_type q3 = type_of (d_kind d)) as TY by apply M.
    destruct (last_assigned l i) as [v|] eqn:LA; rewrite HS.
    - split; auto. split; [|split; [auto|]].
      + destruct (nth_error (o_list o1) i) as [q1|] eqn:E1.
        * rewrite (As _ _ E1), LA in H3. injection H3 as <-. auto.
        * exfalso. apply nth_error_None in E1. assert (i < length (o_list o3))%nat by (apply nth_error_Some; congruence). lia.
      + intros q3' E. rewrite H3 in E. injection E as <-. auto.
    - destruct M as (M1 & M2 & M3 & M4 & M5).
      destruct (d_kind d) eqn:KD; cbn in TY; rewrite TY.
      1-4: (split; [auto|]; split; [cbn; rewrite M3; auto|]; split;
           [unfold matches; cbn; rewrite KD, M3, TY; cbn; repeat split; auto|intros q3' E; rewrite H3 in E; injection E as <-; auto]).
      split; auto. split; [|split].
      + rewrite TY in M5. cbn. destruct (q_val q3); cbn in M5; tauto.
      + unfold matches. rewrite KD. auto 10.
      + intros q3' E. rewrite H3 in E. injection E as <-. auto. }
  assert (LL : length L' = length ds) by (rewrite C2; eapply Forall2_length; exact (inv_ds _ _ _ I3)).
  assert (FIN : forall rr, rest_ok rr rs -> Inv {| o_prog := o_prog o4; o_list := L'; o_map := o_map o4; o_rest := rr |} ds rs).
  { intros rr HR.
    assert (Inv {| o_prog := o_prog o4; o_list := L'; o_map := o_map o3; o_rest := o_rest o3 |} ds rs) as J.
    { apply inv_list; auto.
      - apply F2_intro; auto. intros i x y Hx Hy. now destruct (PT _ _ _ Hy Hx) as (_ & _ & M & _).
      - intros i q q' H H'.
        destruct (F2_nth _ _ _ _ _ _ _ (inv_ds _ _ _ I3) H) as (d & Hd & _).
        destruct (PT _ _ _ Hd H') as (_ & _ & _ & N). auto. }
    destruct J as [J1 J2 J3 J4 J5]. constructor; cbn [o_list o_map o_rest] in *; auto; rewrite E4m; auto. }
  assert (FV : forall i d q, nth_error ds i = Some d -> nth_error L' i = Some q ->
     q_set q = (match last_assigned l i with Some _ => true | None => false end) /\
     q_val q = match last_assigned l i with Some v => oval_of v | None => def_of (d_kind d) end).
  { intros i d q Hd Hq. destruct (PT _ _ _ Hd Hq) as (A & B & _). auto. }
  unfold o_with_rest, o_with; cbn [o_rest o_prog o_list o_map]. destruct (o_rest o4) as [x|]; destruct rs as [b|]; try tauto.
  2:{ split; [apply FIN; exact Logic.I|]. exists l, r. split; auto. split.
      - split; [now apply REQ|discriminate].
      - split; [auto|]. reflexivity. }
  destruct E4r as (X1 & X2 & X3). rewrite X2.
  destruct r as [|a r]; cbn beta iota.
  - destruct (r_req x) eqn:RQ; cbn beta iota.
    + intros l' r' R' [_ D]. destruct (DET _ _ R _ _ R') as [-> ->]. apply D; congruence.
    + split; [apply FIN; cbn; auto|]. exists l, []. split; auto. split.
      * split; [now apply REQ|]. congruence.
      * split; [auto|]. reflexivity.
  - split; [apply FIN; cbn; auto|]. exists l, (a :: r). split; auto. split.
    + split; [now apply REQ|]. discriminate.
    + split; [auto|]. cbn. auto.
Qed.

Lemma alloc_inv : Inv options_alloc [] None.
Proof.
  constructor; cbn; auto.
  - intros k i. split.
    + intros (b & E & H). exfalso.
      assert (b = []) as ->.
      { pose proof (bucket_range k). apply nth_error_In in E. change (In b (repeat [] 32)) in E. now apply repeat_spec in E. }
      destruct H.
    + intros (q & H & _). destruct i; discriminate.
  - intros k i j (b & E & H). exfalso.
    assert (b = []) as -> by (apply nth_error_In in E; change (In b (repeat [] 32)) in E; now apply repeat_spec in E).
    destruct H.
Qed.

Lemma run_inv : forall ops o ds rs, Inv o ds rs -> Forall op_well_typed ops ->
  match for_each (opt_step ovf atof) ops o with
  | Ok o' => Inv o' (ds ++ decls_of ops) (upd_rest rs (flat_map rests_of_op ops))
  | Fatal => True
  | _ => False
  end.
Proof.
  induction ops as [|op ops IH]; intros o ds rs I W.
  - cbn. now rewrite app_nil_r.
  - apply Forall_cons_iff in W as [W1 W]. cbn [for_each]. cbn [decls_of flat_map].
    unfold upd_rest. rewrite fold_left_app. rewrite app_assoc.
    destruct op as [f| |argv]; cbn [opt_step].
    + pose proof (vadd_spec f o ds rs I W1) as V. destruct (vadd ovf o f) as [o1| | |]; cbn [bind]; auto.
      apply (IH o1 _ _ (proj1 V) W).
    + pose proof (help_spec o ds rs I) as V. destruct (add_help ovf o) as [o1| | |]; cbn [bind]; auto.
      apply (IH o1 _ _ (proj1 V) W).
    + destruct argv as [|p args]; [cbn in W1; congruence|].
      pose proof (set_from_args_spec o ds rs p args I) as V.
      destruct (set_from_args ovf atof o (p :: args)) as [o1| | |]; cbn [bind]; auto.
      cbn [decls_of_op rests_of_op fold_left]. rewrite app_nil_r. apply (IH o1 _ _ (proj1 V) W).
Qed.

Lemma reach : forall ops o, Forall op_well_typed ops -> opt_run ovf atof ops = Ok o ->
  Inv o (decls_of ops) (rest_declared ops).
Proof.
  intros ops o W E. pose proof (run_inv ops options_alloc [] None alloc_inv W) as R.
  unfold opt_run in E. rewrite E in R. exact R.
Qed.

Lemma run_adds : forall ops o ds rs, Inv o ds rs -> Forall op_well_typed ops -> adds_only ops ->
  match for_each (opt_step ovf atof) ops o with
  | Ok o' => table_ok (ds ++ decls_of ops) /\ (defaults_until o -> defaults_until o')
  | Fatal => ~ table_ok (ds ++ decls_of ops)
  | _ => False
  end.
Proof.
  induction ops as [|op ops IH]; intros o ds rs I W A.
  - cbn. rewrite app_nil_r. split; auto. eapply inv_table; eauto.
  - apply Forall_cons_iff in W as [W1 W]. apply Forall_cons_iff in A as [A1 A]. cbn [for_each]. cbn [decls_of flat_map].
    rewrite app_assoc. destruct op as [f| |argv]; cbn [opt_step]; [| |tauto].
    + pose proof (vadd_spec f o ds rs I W1) as V. destruct (vadd ovf o f) as [o1| | |]; cbn [bind]; auto.
      * destruct V as [V V']. specialize (IH o1 _ _ V W A).
        match goal with |- match ?x with _ => _ end => destruct x end; auto. tauto.
      * intro T. apply V. now apply table_prefix in T.
    + pose proof (help_spec o ds rs I) as V. destruct (add_help ovf o) as [o1| | |]; cbn [bind]; auto.
      * destruct V as [V V']. specialize (IH o1 _ _ V W A).
        match goal with |- match ?x with _ => _ end => destruct x end; auto. tauto.
      * intro T. apply V. now apply table_prefix in T.
Qed.

End Atof.

(** ** Getters. *)
Lemma fetch_called : forall o ds rs n i k, Inv o ds rs -> called ds n i k ->
  exists q d, fetch ovf o n = Ok q /\ nth_error (o_list o) i = Some q /\ nth_error ds i = Some d /\ d_kind d = k /\ matches q d.
Proof.
  intros o ds rs n i k I C. pose proof (find_called _ _ _ _ _ _ I C) as F. destruct C as (d & D & K & A).
  destruct (F2_nth_r _ _ _ _ _ _ _ (inv_ds _ _ _ I) D) as (q & Q & M).
  exists q, d. unfold fetch. rewrite F. cbn [bind]. unfold aget. rewrite Q. auto.
Qed.

Lemma fetch_unknown : forall o ds rs n, Inv o ds rs -> (forall i k, ~ called ds n i k) -> fetch ovf o n = Fatal /\ is_set ovf o n = Fatal.
Proof.
  intros o ds rs n I U. pose proof (find_spec o ds rs n I) as F. unfold fetch, is_set.
  destruct (OptModel.find_in_map ovf o (Some n)) as [[i|]| | |]; try tauto; cbn [bind]; auto.
  destruct F as (q & d & _ & D & _ & A). exfalso. apply (U i (d_kind d)). exists d. auto.
Qed.

Lemma get_value_val : forall o n q k v, fetch ovf o n = Ok q -> q_type q = type_of k -> q_val q = oval_of v -> typed (q_type q) (q_val q) ->
  get_value ovf k o n = Ok v.
Proof.
  intros o n q k v F T V TY. rewrite T in TY.
  destruct k; cbn [get_value]; unfold get_bool, get_int, get_double, get_string; rewrite ?F; cbn [bind]; rewrite ?T; cbn [type_of];
    destruct v; rewrite V in *; cbn in *; tauto || auto.
Qed.
End Opt.
