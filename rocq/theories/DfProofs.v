(** Data frames refine tables. *)
From Verif Require Import Base BaseLemmas Heap StrModel StrArrModel StrArrProofs LexModel CsvModel DfModel DfSpec.
Local Open Scope nat_scope.

(** *** Lists *)
Lemma lset_split {A} (l : list A) i x : nth_error l i = Some x ->
  exists a b, l = a ++ x :: b /\ length a = i /\ forall y, lset l i y = a ++ y :: b.
Proof.
  revert i; induction l as [|h t IH]; intros [|i] H; try discriminate; cbn in H.
  - injection H as ->. exists [], t. repeat split.
  - destruct (IH i H) as (a & b & -> & <- & Hs). exists (h :: a), b. split; [|split]; auto.
    intros y. cbn. rewrite Hs. reflexivity.
Qed.
Lemma lset_lset {A} (l : list A) i x y : lset (lset l i x) i y = lset l i y.
Proof. revert i; induction l as [|h t IH]; intros [|i]; cbn; congruence. Qed.
Lemma lset_same {A} (l : list A) i x : nth_error l i = Some x -> lset l i x = l.
Proof. revert i; induction l as [|h t IH]; intros [|i] H; cbn in *; try congruence. rewrite IH; auto. Qed.
Lemma Forall2_lset {A B} (R : A -> B -> Prop) l l' i x y : Forall2 R l l' -> R x y -> Forall2 R (lset l i x) (lset l' i y).
Proof. intros H Hx. revert i. induction H; intros [|i]; cbn; constructor; auto. Qed.
Lemma Forall2_nth {A B} (R : A -> B -> Prop) l l' i x : Forall2 R l l' -> nth_error l i = Some x ->
  exists y, nth_error l' i = Some y /\ R x y.
Proof. intros H. revert i. induction H; intros [|i] E; cbn in *; try discriminate; eauto. injection E as <-. eauto. Qed.
Lemma Forall2_nth_r {A B} (R : A -> B -> Prop) l l' i y : Forall2 R l l' -> nth_error l' i = Some y ->
  exists x, nth_error l i = Some x /\ R x y.
Proof. intros H. revert i. induction H; intros [|i] E; cbn in *; try discriminate; eauto. injection E as <-. eauto. Qed.
Lemma Forall2_lsetl {A B} (R : A -> B -> Prop) l l' i x y : Forall2 R l l' -> nth_error l' i = Some y -> R x y ->
  Forall2 R (lset l i x) l'.
Proof. intros H Hy Hx. rewrite <- (lset_same l' i y Hy). apply Forall2_lset; auto. Qed.

Lemma Forall2_mono {A B} (R R' : A -> B -> Prop) l l' : (forall a b, R a b -> R' a b) -> Forall2 R l l' -> Forall2 R' l l'.
Proof. intros H. induction 1; constructor; auto. Qed.

Lemma dctype_eqb_eq a b : dctype_eqb a b = true <-> a = b.
Proof. destruct a, b; cbn; split; congruence. Qed.

(** *** Representation *)
Definition elem_rep (ty : dctype) (lv : list (list N)) (e : elem) (v : aval) : Prop :=
  match ty, e, v with
  | DSTRING, EStr s, AStr s' => s = s'
  | DINT, EInt z, AInt z' => z = z' /\ in_int z = true
  | DDOUBLE, EDbl d, ADbl d' => d = d'
  | DBOOL, EBool z, ABool z' => z = z'
  | DFACTOR, EInt i, AStr s => zget lv i = Ok s
  | _, _, _ => False
  end.
Definition cell_rep (h : dheap) ty lv (p : option nat) (v : option aval) : Prop :=
  match p, v with
  | None, None => True
  | Some q, Some v => exists e, cell h q = Some e /\ elem_rep ty lv e v
  | _, _ => False
  end.
Definition col_rep (h : dheap) (n : nat) (dc : dcol) (ac : acol) : Prop :=
  ctype dc = atype ac /\ clabel dc = alabel ac /\ clevels dc = alevels ac /\ (0 <= ccap dc)%Z /\
  length (celems dc) = n /\ NoDup (clevels dc) /\
  Forall2 (cell_rep h (ctype dc) (clevels dc)) (celems dc) (acells ac).
Definition olist (p : option nat) : list nat := match p with Some q => [q] | None => [] end.
Definition cptrs (dc : dcol) : list nat := flat_map olist (celems dc).
Definition ptrs (l : list dcol) : list nat := flat_map cptrs l.
(** [X]: further blocks in use, with their contents. *)
Section Extra.
Variable X : list (nat * elem).
Definition owns (h : dheap) (l : list dcol) : Prop :=
  NoDup (ptrs l ++ map fst X) /\ (forall p, cell h p <> None <-> In p (ptrs l ++ map fst X)) /\ forall q e, In (q, e) X -> cell h q = Some e.
Definition rep (h : dheap) (df : frame) (T : table) : Prop :=
  n_rows df = Z.of_nat (trows T) /\ (0 <= dcap df)%Z /\ Forall2 (col_rep h (trows T)) (cols df) (tcols T) /\ owns h (cols df).

Lemma in_X q e : In (q, e) X -> In q (map fst X).
Proof. intros H. apply (in_map fst) in H. exact H. Qed.

Lemma cell_rep_ext h h' ty lv p v : (forall q, In q (olist p) -> cell h' q = cell h q) ->
  cell_rep h ty lv p v -> cell_rep h' ty lv p v.
Proof. unfold cell_rep. destruct p, v; auto. intros H (e & E & He). exists e. rewrite H by (left; auto). auto. Qed.
Lemma cells_rep_ext h h' ty lv l l' : (forall q, In q (flat_map olist l) -> cell h' q = cell h q) ->
  Forall2 (cell_rep h ty lv) l l' -> Forall2 (cell_rep h' ty lv) l l'.
Proof.
  intros H HF. induction HF as [|p v l l' Hp HF IH]; constructor.
  - eapply cell_rep_ext; [|exact Hp]. intros q Hq. apply H. cbn. apply in_or_app; auto.
  - apply IH. intros q Hq. apply H. cbn. apply in_or_app; auto.
Qed.
Lemma col_rep_ext h h' n dc ac : (forall q, In q (cptrs dc) -> cell h' q = cell h q) ->
  col_rep h n dc ac -> col_rep h' n dc ac.
Proof.
  intros H (H1 & H2 & H3 & H4 & H5 & H6 & H7). unfold col_rep. do 6 (split; auto). eapply cells_rep_ext; eauto.
Qed.
Lemma cols_rep_ext h h' n l l' : (forall q, In q (ptrs l) -> cell h' q = cell h q) ->
  Forall2 (col_rep h n) l l' -> Forall2 (col_rep h' n) l l'.
Proof.
  intros H HF. induction HF as [|p v l l' Hp HF IH]; constructor.
  - eapply col_rep_ext; [|exact Hp]. intros q Hq. apply H. cbn. apply in_or_app; auto.
  - apply IH. intros q Hq. apply H. cbn. apply in_or_app; auto.
Qed.

Lemma ptrs_split (l : list dcol) c dc r p : nth_error l c = Some dc -> nth_error (celems dc) r = Some p ->
  exists P Q, ptrs l = P ++ olist p ++ Q /\
    forall p' dc', celems dc' = lset (celems dc) r p' -> ptrs (lset l c dc') = P ++ olist p' ++ Q.
Proof.
  intros Hc Hr. destruct (lset_split l c dc Hc) as (a & b & -> & <- & Hl).
  destruct (lset_split _ r p Hr) as (x & y & E & <- & Hx).
  exists (ptrs a ++ flat_map olist x), (flat_map olist y ++ ptrs b). split.
  - unfold ptrs. rewrite flat_map_app. cbn [flat_map]. unfold cptrs at 2. rewrite E, flat_map_app. cbn [flat_map].
    rewrite <- !app_assoc. reflexivity.
  - intros p' dc' E'. rewrite Hl. unfold ptrs. rewrite flat_map_app. cbn [flat_map]. unfold cptrs at 2.
    rewrite E', Hx, flat_map_app. cbn [flat_map]. rewrite <- !app_assoc. reflexivity.
Qed.

(** Replacing a column by one with the same cells. *)
Lemma ptrs_same (l : list dcol) c dc dc' : nth_error l c = Some dc -> celems dc' = celems dc -> ptrs (lset l c dc') = ptrs l.
Proof.
  intros Hc E. destruct (lset_split l c dc Hc) as (a & b & -> & <- & Hl). rewrite Hl. unfold ptrs.
  rewrite !flat_map_app. cbn [flat_map]. unfold cptrs at 2 5. rewrite E. reflexivity.
Qed.

(** *** Access to a column *)
Lemma column_at_rep h df T r c : rep h df T ->
  match t_col T r c with
  | Ok ac => (0 <= r < n_rows df)%Z /\ (0 <= c)%Z /\ nth_error (tcols T) (Z.to_nat c) = Some ac /\
             exists dc, column_at df r c = Ok dc /\ nth_error (cols df) (Z.to_nat c) = Some dc /\ col_rep h (trows T) dc ac
  | _ => t_col T r c = Fatal /\ column_at df r c = Fatal
  end.
Proof.
  intros (Hn & _ & HF & _). pose proof (Forall2_length _ _ _ HF) as Hl. unfold t_col, column_at. rewrite Hn.
  destruct (Z.leb_spec 0 r); cbn [andb]; [|replace (r <? 0)%Z with true by lia; cbn; auto].
  destruct (Z.ltb_spec r (Z.of_nat (trows T))); cbn [andb]; [|replace (_ || _) with true by lia; auto].
  replace ((r <? 0)%Z || _) with false by lia.
  destruct (Z.leb_spec 0 c); [|replace (c <? 0)%Z with true by lia; cbn; auto].
  destruct (nth_error (tcols T) (Z.to_nat c)) as [ac|] eqn:E.
  - destruct (Forall2_nth_r _ _ _ _ _ HF E) as (dc & E' & HR).
    assert (Z.to_nat c < length (cols df)) by (apply nth_error_Some; congruence).
    replace (_ || _) with false by lia. split; [lia|]. split; [lia|]. split; auto.
    exists dc. unfold aget. rewrite E'. auto.
  - apply nth_error_None in E. replace (_ || _) with true by lia. auto.
Qed.

Lemma col_rep_row h n dc ac r : col_rep h n dc ac -> (0 <= r < Z.of_nat n)%Z ->
  exists p v, zget (celems dc) r = Ok p /\ nth_error (celems dc) (Z.to_nat r) = Some p /\
    nth_error (acells ac) (Z.to_nat r) = Some v /\ cell_rep h (ctype dc) (clevels dc) p v.
Proof.
  intros (H1 & H2 & H3 & H4 & H5 & H6 & H7) Hr. unfold zget, aget. replace (r <? 0)%Z with false by lia.
  destruct (nth_error (celems dc) (Z.to_nat r)) as [p|] eqn:E.
  - destruct (Forall2_nth _ _ _ _ _ H7 E) as (v & E' & Hv). exists p, v. auto.
  - apply nth_error_None in E. lia.
Qed.

Lemma zset_ok {A} (l : list A) r v : (0 <= r < Z.of_nat (length l))%Z -> zset l r v = Ok (lset l (Z.to_nat r) v).
Proof. intros H. unfold zset. replace (r <? 0)%Z with false by lia. apply aset_lt. lia. Qed.

(** *** Freeing a cell *)
Definition nad (ac : acol) (r : Z) : acol := put_cell ac r None.
Lemma na_step h df T r c dc ac : rep h df T -> (0 <= r < n_rows df)%Z -> (0 <= c)%Z ->
  nth_error (cols df) (Z.to_nat c) = Some dc -> nth_error (tcols T) (Z.to_nat c) = Some ac ->
  exists h1 dc1 p, na_element h dc r = Ok (h1, dc1) /\
    rep h1 (put_column df c dc1) (put_col T c (put_cell ac r None)) /\
    ctype dc1 = ctype dc /\ clevels dc1 = clevels dc /\ celems dc1 = lset (celems dc) (Z.to_nat r) None /\
    nth_error (celems dc) (Z.to_nat r) = Some p /\
    forall q, ~ In q (olist p) -> cell h1 q = cell h q.
Proof.
  intros (Hn & Hd & HF & Hnd & Hlive & HX) Hr Hc Edc Eac.
  destruct (Forall2_nth _ _ _ _ _ HF Edc) as (ac' & Eac' & HR). rewrite Eac in Eac'. injection Eac' as <-.
  destruct (col_rep_row _ _ _ _ r HR) as (p & v & Ep & Ep' & Ev & Hp); [lia|].
  assert (0 <= r < Z.of_nat (length (celems dc)))%Z as Hr'. { destruct HR as (_ & _ & _ & _ & H5 & _). lia. }
  pose proof HR as (H1 & H2 & H3 & H4 & H5 & H6 & H7).
  destruct (ptrs_split (cols df) _ dc _ p Edc Ep') as (P & Q & EP & Hsp).
  set (dc1 := mkCol (lset (celems dc) (Z.to_nat r) None) (ccap dc) (ctype dc) (clabel dc) (clevels dc)).
  assert (Forall2 (col_rep h (trows T)) (lset (cols df) (Z.to_nat c) dc1) (lset (tcols T) (Z.to_nat c) (put_cell ac r None))) as HF1.
  { apply Forall2_lset; auto. unfold col_rep, dc1, put_cell. cbn. rewrite lset_length.
    do 6 (split; auto). apply Forall2_lset; auto. exact I. }
  assert (ptrs (lset (cols df) (Z.to_nat c) dc1) = P ++ Q) as EP1 by (rewrite (Hsp None) by reflexivity; reflexivity).
  unfold na_element. rewrite Ep. cbn [bind]. destruct p as [q|].
  - destruct v as [v|]; [|contradiction]. destruct Hp as (e & Ee & He). rewrite (hfree_ok h q e Ee). cbn [bind].
    rewrite zset_ok by auto. cbn [bind]. exists (lset h q None), dc1, (Some q). split; [reflexivity|].
    assert (forall x, cell (lset h q None) x = if x =? q then None else cell h x) as Hcell.
    { intros x. apply cell_lset. eapply cell_lt; eauto. }
    rewrite EP, <- !app_assoc in Hnd. cbn [olist app] in Hnd. apply NoDup_remove in Hnd as [Hnd Hni].
    split; [|split; [reflexivity|split; [reflexivity|split; [reflexivity|split; auto]]]].
    + unfold rep. cbn [n_rows put_column put_col trows tcols dcap cols]. do 2 (split; auto). split.
      * eapply cols_rep_ext; [|exact HF1]. rewrite EP1. intros x Hx. rewrite Hcell. destruct (Nat.eqb_spec x q); auto.
        subst x. exfalso. apply Hni. rewrite app_assoc. apply in_or_app. auto.
      * unfold owns. rewrite EP1, <- app_assoc. split; auto. split.
        -- intros x. rewrite Hcell. specialize (Hlive x). rewrite EP, <- !app_assoc in Hlive.
           cbn [olist app] in Hlive. rewrite in_app_iff in *. cbn [In] in Hlive.
           destruct (Nat.eqb_spec x q) as [->|Hne]; [|rewrite Hlive; intuition congruence].
           tauto.
        -- intros x e' Hx. rewrite Hcell. destruct (Nat.eqb_spec x q); auto. subst x. exfalso. apply Hni.
           apply in_or_app. right. apply in_or_app. right. eapply in_X; eauto.
    + intros x Hx. rewrite Hcell. destruct (Nat.eqb_spec x q); auto. subst. cbn in Hx. tauto.
  - destruct v as [v|]; [contradiction|].
    exists h, dc, None. assert (lset (celems dc) (Z.to_nat r) None = celems dc) as El by (apply lset_same; auto).
    assert (dc1 = dc) as E1. { unfold dc1. rewrite El. destruct dc; reflexivity. }
    rewrite E1 in *. split; [reflexivity|]. split; [|repeat split; auto].
    unfold rep. cbn [n_rows put_column put_col trows tcols dcap cols]. do 2 (split; auto). split; auto.
    unfold owns. rewrite EP1. rewrite EP in *. auto.
Qed.

(** *** A fresh block in an NA cell *)
Lemma new_step h df T r c dc ac e v : rep h df T -> (0 <= r < n_rows df)%Z -> (0 <= c)%Z ->
  nth_error (cols df) (Z.to_nat c) = Some dc -> nth_error (tcols T) (Z.to_nat c) = Some ac ->
  nth_error (celems dc) (Z.to_nat r) = Some None -> elem_rep (ctype dc) (clevels dc) e v ->
  exists h1 dc1, new_element h dc r e = Ok (h1, dc1) /\
    rep h1 (put_column df c dc1) (put_col T c (put_cell ac r (Some v))).
Proof.
  intros (Hn & Hd & HF & Hnd & Hlive & HX) Hr Hc Edc Eac Ep He.
  destruct (Forall2_nth _ _ _ _ _ HF Edc) as (ac' & Eac' & HR). rewrite Eac in Eac'. injection Eac' as <-.
  pose proof HR as (H1 & H2 & H3 & H4 & H5 & H6 & H7).
  unfold new_element. cbn [halloc]. rewrite zset_ok by lia. cbn [bind].
  destruct (ptrs_split (cols df) _ dc _ _ Edc Ep) as (P & Q & EP & Hsp). cbn [olist app] in EP.
  set (q := length h). set (h1 := h ++ [Some e]).
  eexists h1, _. split; [reflexivity|].
  assert (forall x, cell h1 x = if x =? q then Some e else cell h x) as Hcell by (intros; apply cell_alloc).
  assert (~ In q (ptrs (cols df) ++ map fst X)) as Hni'.
  { intros Hi. apply Hlive in Hi. destruct (cell h q) eqn:E; [|congruence]. apply cell_lt in E. unfold q in E. lia. }
  assert (~ In q (ptrs (cols df))) as Hni by (rewrite in_app_iff in Hni'; tauto).
  unfold rep. cbn [n_rows put_column put_col trows tcols dcap cols]. do 2 (split; auto). split.
  - apply Forall2_lset.
    + eapply cols_rep_ext; [|exact HF]. intros x Hx. rewrite Hcell. destruct (Nat.eqb_spec x q); congruence.
    + unfold col_rep, put_cell. cbn [ctype clabel clevels ccap celems atype alabel alevels acells]. rewrite lset_length.
      do 6 (split; auto). apply Forall2_lset.
      * eapply cells_rep_ext; [|exact H7]. intros x Hx. rewrite Hcell. destruct (Nat.eqb_spec x q) as [->|]; auto.
        exfalso. apply Hni. unfold ptrs. apply in_flat_map. exists dc. split; [eapply nth_error_In; eauto|exact Hx].
      * exists e. split; auto. rewrite Hcell. replace (q =? q) with true by lia. reflexivity.
  - unfold owns. rewrite (Hsp (Some q)) by reflexivity. cbn [olist app]. rewrite EP, <- app_assoc in *. cbn [app]. split.
    + apply NoDup_Add with (l := P ++ Q ++ map fst X) (a := q); [apply Add_app|auto].
    + split.
      * intros x. rewrite Hcell. specialize (Hlive x). rewrite in_app_iff in *. cbn [In].
        destruct (Nat.eqb_spec x q) as [->|Hne]; [split; [auto|congruence]|]. rewrite Hlive. intuition congruence.
      * intros x e' Hx. rewrite Hcell. destruct (Nat.eqb_spec x q); auto. subst x. exfalso. apply Hni'.
        apply in_X in Hx. rewrite !in_app_iff in *. tauto.
Qed.

(** *** Levels *)
Lemma level_find_spec l s : forall i, (0 <= i)%Z ->
  if existsb (bytes_eqb s) l then exists k, level_find l s i = (i + Z.of_nat k)%Z /\ nth_error l k = Some s
  else level_find l s i = (-1)%Z.
Proof.
  induction l as [|x l IH]; intros i Hi; cbn [existsb level_find]; auto.
  destruct (bytes_eqb s x) eqn:E; cbn [orb].
  - apply bytes_eqb_eq in E as ->. exists 0. split; [lia|auto].
  - specialize (IH (i + 1)%Z ltac:(lia)). destruct (existsb _ l); auto.
    destruct IH as (k & -> & Hk). exists (S k). split; [lia|auto].
Qed.
Lemma existsb_in s l : existsb (bytes_eqb s) l = true <-> In s l.
Proof.
  rewrite existsb_exists. split.
  - intros (x & Hx & E). apply bytes_eqb_eq in E as ->. auto.
  - intros H. exists s. split; auto. apply bytes_eqb_eq. reflexivity.
Qed.
Lemma add_level_app l s : exists x, add_level l s = l ++ x.
Proof. unfold add_level. destruct existsb; [exists []; rewrite app_nil_r|exists [s]]; auto. Qed.
Lemma zget_app {A} (l x : list A) i a : zget l i = Ok a -> zget (l ++ x) i = Ok a.
Proof.
  unfold zget, aget. destruct (Z.ltb_spec i 0); [discriminate|]. intros E.
  destruct (nth_error l (Z.to_nat i)) eqn:E'; [|discriminate]. rewrite nth_error_app1, E'; auto.
  apply nth_error_Some. congruence.
Qed.
Lemma value_to_factor_spec dc s : NoDup (clevels dc) ->
  exists i, value_to_factor dc s = (mkCol (celems dc) (ccap dc) (ctype dc) (clabel dc) (add_level (clevels dc) s), i) /\
    zget (add_level (clevels dc) s) i = Ok s /\ NoDup (add_level (clevels dc) s).
Proof.
  intros Hnd. unfold value_to_factor, add_level. pose proof (level_find_spec (clevels dc) s 0 ltac:(lia)) as H.
  destruct (existsb (bytes_eqb s) (clevels dc)) eqn:E.
  - destruct H as (k & -> & Hk). replace (_ <? 0)%Z with false by lia. eexists. split; [destruct dc; reflexivity|].
    split; auto. unfold zget, aget. replace (_ <? 0)%Z with false by lia. replace (Z.to_nat _) with k by lia. rewrite Hk. auto.
  - rewrite H. replace (-1 <? 0)%Z with true by lia. eexists. split; [reflexivity|]. split.
    + unfold zget, aget. replace (_ <? 0)%Z with false by lia. rewrite Nat2Z.id, nth_error_app2, Nat.sub_diag by lia. reflexivity.
    + apply NoDup_app_iff. split; auto. split; [repeat constructor; intros []|]. intros x Hx [<-|[]].
      apply existsb_in in Hx. congruence.
Qed.

Lemma level_step h df T c dc ac s : rep h df T -> (0 <= c)%Z -> ctype dc = DFACTOR ->
  nth_error (cols df) (Z.to_nat c) = Some dc -> nth_error (tcols T) (Z.to_nat c) = Some ac ->
  exists i dc1, value_to_factor dc s = (dc1, i) /\ celems dc1 = celems dc /\ ctype dc1 = DFACTOR /\
    zget (clevels dc1) i = Ok s /\
    rep h (put_column df c dc1) (put_col T c (with_level ac (AStr s))).
Proof.
  intros (Hn & Hd & HF & Hnd & Hlive & HX) Hc Hty Edc Eac.
  destruct (Forall2_nth _ _ _ _ _ HF Edc) as (ac' & Eac' & HR). rewrite Eac in Eac'. injection Eac' as <-.
  pose proof HR as (H1 & H2 & H3 & H4 & H5 & H6 & H7).
  destruct (value_to_factor_spec dc s H6) as (i & E & Ei & Hl). rewrite E. eexists i, _. split; [reflexivity|].
  split; [auto|]. split; [auto|]. split; [auto|].
  unfold rep. cbn [n_rows put_column put_col trows tcols dcap cols]. do 2 (split; auto). split.
  - apply Forall2_lset; auto. unfold with_level. rewrite <- H1, Hty, <- H3.
    unfold col_rep. cbn [ctype clabel clevels ccap celems atype alabel alevels acells]. do 6 (split; auto).
    rewrite Hty in *. destruct (add_level_app (clevels dc) s) as (x & ->).
    eapply Forall2_mono; [|exact H7]. intros p v. unfold cell_rep. destruct p, v; auto.
    intros (e & Ee & He). exists e. split; auto. unfold elem_rep in *. destruct e, a; auto. apply zget_app; auto.
  - unfold owns. rewrite (ptrs_same (cols df) _ dc) by auto. auto.
Qed.

(** *** The setters *)
Lemma put_put df c a b : put_column (put_column df c a) c b = put_column df c b.
Proof. unfold put_column. cbn. rewrite lset_lset. reflexivity. Qed.
Lemma put_put_T T c a b : put_col (put_col T c a) c b = put_col T c b.
Proof. unfold put_col. cbn. rewrite lset_lset. reflexivity. Qed.
Lemma cell_put_put ac r a b : put_cell (put_cell ac r a) r b = put_cell ac r b.
Proof. unfold put_cell. cbn. rewrite lset_lset. reflexivity. Qed.
Lemma nth_put df c dc x : nth_error (cols df) (Z.to_nat c) = Some x -> nth_error (cols (put_column df c dc)) (Z.to_nat c) = Some dc.
Proof. intros H. cbn. apply nth_error_lset_eq. apply nth_error_Some. congruence. Qed.
Lemma nth_put_T T c ac x : nth_error (tcols T) (Z.to_nat c) = Some x -> nth_error (tcols (put_col T c ac)) (Z.to_nat c) = Some ac.
Proof. intros H. cbn. apply nth_error_lset_eq. apply nth_error_Some. congruence. Qed.

(** The outcomes agree. *)
Definition sim (a : res (dheap * frame)) (b : res table) : Prop :=
  match a, b with
  | Ok (h, df), Ok T => rep h df T
  | Fatal, Fatal | UB, UB => True
  | _, _ => False
  end.

Lemma set_na_sim h df T r c : rep h df T ->
  sim (set_na h df r c) (let* ac := t_col T r c in Ok (put_col T c (put_cell ac r None))).
Proof.
  intros HR. unfold set_na. pose proof (column_at_rep h df T r c HR) as H.
  destruct (t_col T r c) as [ac| | |]; try (destruct H as [E ->]; try discriminate E; exact I).
  destruct H as (Hr & Hc & Eac & dc & -> & Edc & Hcol). cbn [bind].
  destruct (na_step h df T r c dc ac HR Hr Hc Edc Eac) as (h1 & dc1 & p & -> & HR1 & _). exact HR1.
Qed.

Lemma elem_rep_type ty lv e v lv' : elem_rep ty lv e v -> ty <> DFACTOR -> elem_rep ty lv' e v.
Proof. destruct ty; auto. congruence. Qed.

Lemma set_plain_sim ty e v h df T r c : rep h df T -> ty <> DFACTOR -> elem_rep ty [] e v ->
  sim (set_plain ty e h df r c) (t_set T r c ty v).
Proof.
  intros HR Hty He. unfold set_plain, t_set. pose proof (column_at_rep h df T r c HR) as H.
  destruct (t_col T r c) as [ac| | |]; try (destruct H as [E ->]; try discriminate E; exact I).
  destruct H as (Hr & Hc & Eac & dc & -> & Edc & Hcol). cbn [bind].
  pose proof Hcol as (Et & _). rewrite Et. destruct (dctype_eqb (atype ac) ty) eqn:E; cbn [negb]; [|exact I].
  apply dctype_eqb_eq in E.
  destruct (na_step h df T r c dc ac HR Hr Hc Edc Eac) as (h1 & dc1 & p & -> & HR1 & Ety & Elv & Eel & Ep & Hcell). cbn [bind].
  destruct (new_step h1 _ _ r c dc1 (put_cell ac r None) e v HR1) as (h2 & dc2 & -> & HR2); auto.
  - eapply nth_put; eauto.
  - eapply nth_put_T; eauto.
  - rewrite Eel. apply nth_error_lset_eq. apply nth_error_Some. congruence.
  - rewrite Ety, Et, E. eapply elem_rep_type; eauto.
  - cbn [bind sim]. rewrite put_put, put_put_T, cell_put_put in HR2.
    replace (with_level ac v) with ac; auto. unfold with_level. rewrite E. destruct ty; congruence.
Qed.

Lemma set_string_ext_eq h df r c s : set_string h df r c (SExt s) = set_plain DSTRING (EStr s) h df r c.
Proof.
  reflexivity.
Qed.

Lemma set_string_sim h df T r c s : rep h df T -> sim (set_string h df r c (SExt s)) (t_set T r c DSTRING (AStr s)).
Proof. intros. rewrite set_string_ext_eq. apply set_plain_sim; [auto|discriminate|reflexivity]. Qed.

(** Reading. *)
Lemma get_elem_sim h df T r c ty : rep h df T ->
  match t_get T r c ty with
  | Ok v => exists dc q e, get_elem h df r c ty = Ok (dc, q, e) /\ elem_rep ty (clevels dc) e v /\ cell h q = Some e /\
      nth_error (cols df) (Z.to_nat c) = Some dc /\ nth_error (celems dc) (Z.to_nat r) = Some (Some q) /\ (0 <= r)%Z /\ (0 <= c)%Z
  | _ => t_get T r c ty = Fatal /\ get_elem h df r c ty = Fatal
  end.
Proof.
  intros HR. unfold t_get, get_elem. pose proof (column_at_rep h df T r c HR) as H.
  destruct (t_col T r c) as [ac| | |]; try (destruct H as [E ->]; try discriminate E; cbn [bind]; auto).
  destruct H as (Hr & Hc & Eac & dc & -> & Edc & Hcol). cbn [bind].
  pose proof Hcol as (Et & _). rewrite Et. destruct (dctype_eqb (atype ac) ty) eqn:E; cbn [negb]; auto.
  apply dctype_eqb_eq in E.
  assert (n_rows df = Z.of_nat (trows T)) as Hn by apply HR.
  destruct (col_rep_row _ _ _ _ r Hcol) as (p & v & -> & Ep & -> & Hp); [lia|]. cbn [bind].
  destruct p as [q|], v as [v|]; try contradiction; auto.
  destruct Hp as (e & Ee & He). rewrite (proj2 (hget_cell h q e) Ee). cbn [bind].
  exists dc, q, e. rewrite Et, E in He. repeat split; auto; lia.
Qed.

Lemma set_string_from_sim h df T r c r' c' : rep h df T ->
  sim (let* p := get_string_ptr h df r' c' in set_string h df r c (SPtr p))
      (let* v := t_get T r' c' DSTRING in if (r =? r')%Z && (c =? c')%Z then UB else t_set T r c DSTRING v).
Proof.
  intros HR. unfold get_string_ptr. pose proof (get_elem_sim h df T r' c' DSTRING HR) as H.
  destruct (t_get T r' c' DSTRING) as [v| | |] eqn:EG; try (destruct H as [E ->]; try discriminate E; exact I).
  destruct H as (dc' & q & e & -> & He & Eq & Edc' & Eel' & Hr' & Hc'). cbn [bind].
  destruct e as [s| | |]; try contradiction. destruct v as [s'| | |]; try contradiction. cbn in He. subst s'.
  unfold set_string, t_set. pose proof (column_at_rep h df T r c HR) as H.
  destruct (t_col T r c) as [ac| | |] eqn:Etc.
  - destruct H as (Hr & Hc & Eac & dc & -> & Edc & Hcol). cbn [bind].
    pose proof Hcol as (Et & _). rewrite Et.
    destruct (na_step h df T r c dc ac HR Hr Hc Edc Eac) as (h1 & dc1 & p & Ena & HR1 & Ety & Elv & Eel & Ep & Hcell).
    destruct (Z.eqb_spec r r') as [->|Hne]; cbn [andb].
    + destruct (Z.eqb_spec c c') as [->|Hne]; cbn [andb].
      * (* same cell *)
        unfold t_get in EG. rewrite Etc in EG. cbn [bind] in EG. destruct (dctype_eqb _ _); [|discriminate]. cbn [negb].
        rewrite Edc in Edc'. injection Edc' as <-. 
        unfold na_element in Ena |- *. unfold zget, aget in *. replace (r' <? 0)%Z with false in * by lia. rewrite Eel' in *.
        cbn [bind] in *. rewrite (hfree_ok h q _ Eq) in *. cbn [bind] in *. rewrite zset_ok in * by (destruct Hcol as (_&_&_&_&Hlen&_); destruct HR; lia).
        cbn [bind] in *. cbn [sarg_read]. unfold hget. rewrite nth_error_lset_eq by (eapply cell_lt; eauto). exact I.
      * destruct (dctype_eqb (atype ac) DSTRING) eqn:E; cbn [negb]; [|exact I]. apply dctype_eqb_eq in E.
        rewrite Ena. cbn [bind sarg_read].
        assert (cell h1 q = Some (EStr s)) as Eq1.
        { rewrite Hcell; auto. intros Hi. destruct p as [p|]; [|destruct Hi]. destruct Hi as [->|[]].
          destruct (ptrs_split _ _ _ _ _ Edc Ep) as (P & Q & EP & Hsp).
          pose proof (proj2 (proj2 (proj2 HR))) as [Hnd _]. rewrite EP, <- app_assoc in Hnd. cbn [olist app] in Hnd.
          apply NoDup_remove_2 in Hnd. apply Hnd.
          assert (In q (ptrs (lset (cols df) (Z.to_nat c) dc1))) as Hin.
          { unfold ptrs. apply in_flat_map. exists dc'. split.
            - eapply nth_error_In with (n := Z.to_nat c'). rewrite nth_error_lset_neq; auto. lia.
            - unfold cptrs. apply in_flat_map. exists (Some q). split; [eapply nth_error_In; eauto|left; auto]. }
          rewrite (Hsp None) in Hin by auto. cbn [olist app] in Hin. rewrite !in_app_iff in *. tauto. }
        rewrite (proj2 (hget_cell h1 q _) Eq1). cbn [bind].
        destruct (new_step h1 _ _ r' c dc1 (put_cell ac r' None) (EStr s) (AStr s) HR1) as (h2 & dc2 & -> & HR2); auto.
        -- eapply nth_put; eauto.
        -- eapply nth_put_T; eauto.
        -- rewrite Eel. apply nth_error_lset_eq. apply nth_error_Some. congruence.
        -- rewrite Ety, Et, E. reflexivity.
        -- cbn [bind sim]. rewrite put_put, put_put_T, cell_put_put in HR2. unfold with_level. rewrite E. exact HR2.
    + destruct (dctype_eqb (atype ac) DSTRING) eqn:E; cbn [negb]; [|exact I]. apply dctype_eqb_eq in E.
      rewrite Ena. cbn [bind sarg_read].
      assert (cell h1 q = Some (EStr s)) as Eq1.
      { rewrite Hcell; auto. intros Hi. destruct p as [p|]; [|destruct Hi]. destruct Hi as [->|[]].
        destruct (ptrs_split _ _ _ _ _ Edc Ep) as (P & Q & EP & Hsp).
        pose proof (proj2 (proj2 (proj2 HR))) as [Hnd _]. rewrite EP, <- app_assoc in Hnd. cbn [olist app] in Hnd.
        apply NoDup_remove_2 in Hnd. apply Hnd.
        assert (In q (ptrs (lset (cols df) (Z.to_nat c) dc1))) as Hin.
        { unfold ptrs. apply in_flat_map. destruct (Z.eq_dec c c') as [->|Hnc].
          - exists dc1. split; [eapply nth_error_In with (n := Z.to_nat c'); apply nth_error_lset_eq, nth_error_Some; congruence|].
            rewrite Edc in Edc'. injection Edc' as <-.
            unfold cptrs. apply in_flat_map. exists (Some q). split; [|left; auto].
            rewrite Eel. eapply nth_error_In with (n := Z.to_nat r'). rewrite nth_error_lset_neq; auto. lia.
          - exists dc'. split.
            + eapply nth_error_In with (n := Z.to_nat c'). rewrite nth_error_lset_neq; auto. lia.
            + unfold cptrs. apply in_flat_map. exists (Some q). split; [eapply nth_error_In; eauto|left; auto]. }
        rewrite (Hsp None) in Hin by auto. cbn [olist app] in Hin. rewrite !in_app_iff in *. tauto. }
      rewrite (proj2 (hget_cell h1 q _) Eq1). cbn [bind].
      destruct (new_step h1 _ _ r c dc1 (put_cell ac r None) (EStr s) (AStr s) HR1) as (h2 & dc2 & -> & HR2); auto.
      * eapply nth_put; eauto.
      * eapply nth_put_T; eauto.
      * rewrite Eel. apply nth_error_lset_eq. apply nth_error_Some. congruence.
      * rewrite Ety, Et, E. reflexivity.
      * cbn [bind sim]. rewrite put_put, put_put_T, cell_put_put in HR2. unfold with_level. rewrite E. exact HR2.
  - destruct H as [_ ->]. unfold t_get in EG. destruct (Z.eqb_spec r r') as [->|]; [|exact I].
    destruct (Z.eqb_spec c c') as [->|]; [|exact I]. rewrite Etc in EG. discriminate.
  - destruct H; discriminate.
  - destruct H; discriminate.
Qed.

(** [p] is either not a cell of the frame or not the freed one. *)
Lemma set_factor_gen h df T r c v s : rep h df T ->
  (forall h1 dc ac p, nth_error (cols df) (Z.to_nat c) = Some dc -> nth_error (tcols T) (Z.to_nat c) = Some ac ->
      nth_error (celems dc) (Z.to_nat r) = Some p -> (forall q, ~ In q (olist p) -> cell h1 q = cell h q) ->
      sarg_read h1 v = Ok s) ->
  sim (set_factor h df r c v) (t_set T r c DFACTOR (AStr s)).
Proof.
  intros HR Hv. unfold set_factor, t_set. pose proof (column_at_rep h df T r c HR) as H.
  destruct (t_col T r c) as [ac| | |]; try (destruct H as [E ->]; try discriminate E; exact I).
  destruct H as (Hr & Hc & Eac & dc & -> & Edc & Hcol). cbn [bind].
  pose proof Hcol as (Et & _). rewrite Et. destruct (dctype_eqb (atype ac) DFACTOR) eqn:E; cbn [negb]; [|exact I].
  apply dctype_eqb_eq in E.
  destruct (na_step h df T r c dc ac HR Hr Hc Edc Eac) as (h1 & dc1 & p & -> & HR1 & Ety & Elv & Eel & Ep & Hcell). cbn [bind].
  rewrite (Hv h1 dc ac p) by auto. cbn [bind].
  destruct (level_step h1 _ _ c dc1 (put_cell ac r None) s HR1) as (i & dc2 & -> & Eel2 & Ety2 & Ei & HR2); auto.
  { congruence. } { eapply nth_put; eauto. } { eapply nth_put_T; eauto. }
  rewrite put_put, put_put_T in HR2.
  destruct (new_step h1 _ _ r c dc2 (with_level (put_cell ac r None) (AStr s)) (EInt i) (AStr s) HR2) as (h2 & dc3 & -> & HR3); auto.
  - eapply nth_put; eauto.
  - eapply nth_put_T; eauto.
  - rewrite Eel2, Eel. apply nth_error_lset_eq. apply nth_error_Some. congruence.
  - rewrite Ety2. cbn. auto.
  - cbn [bind sim]. rewrite put_put, put_put_T in HR3.
    replace (put_cell (with_level ac (AStr s)) r (Some (AStr s)))
      with (put_cell (with_level (put_cell ac r None) (AStr s)) r (Some (AStr s))); auto.
    unfold with_level, put_cell. cbn [atype]. rewrite E. cbn. rewrite lset_lset. reflexivity.
Qed.
Lemma set_factor_sim h df T r c s : rep h df T -> sim (set_factor h df r c (SExt s)) (t_set T r c DFACTOR (AStr s)).
Proof. intros HR. apply set_factor_gen; auto. Qed.

(** *** Columns and rows *)
Definition small (n : Z) : Prop := (n <= 700000000)%Z.
Lemma ensure_small cap req : (0 <= cap)%Z -> small req -> exists c, ensure_capacity cap req = Ok c /\ (0 <= c)%Z.
Proof.
  unfold small. intros H1 H2. unfold ensure_capacity. destruct (Z.ltb_spec cap req); [|eauto].
  unfold chk_int, in_int, INT_MAX, INT_MIN. replace (_ && _) with true by lia. cbn [bind].
  replace (_ && _) with true by lia. cbn [bind]. eexists. split; [reflexivity|].
  destruct (Z.ltb_spec ((cap + 8) * 3 / 2) req); [lia|]. apply Z.div_pos; lia.
Qed.
Lemma column_new_ok ty label n : small (Z.of_nat n) ->
  exists cap, column_new ty label (Z.of_nat n) = Ok (mkCol (repeat None n) cap ty label []) /\ (0 <= cap)%Z.
Proof.
  intros Hn. unfold column_new, column_grow. cbn [celems length ccap ctype clabel clevels].
  destruct (Z.ltb_spec (Z.of_nat 0) (Z.of_nat n)).
  - destruct (ensure_small 0 (Z.of_nat n)) as (c & -> & Hc); auto; [lia|]. cbn [bind app].
    replace (Z.to_nat _) with n by lia. eauto.
  - replace n with 0 by lia. cbn. exists 0%Z. split; [auto|lia].
Qed.
Lemma nulls_rep h ty lv n : Forall2 (cell_rep h ty lv) (repeat None n) (repeat None n).
Proof. induction n; cbn; constructor; auto. exact I. Qed.
Lemma nulls_ptrs n : flat_map olist (repeat None n) = [].
Proof. induction n; cbn; auto. Qed.

Lemma add_column_sim h df T ty label : rep h df T -> small (Z.of_nat (trows T)) -> small (Z.of_nat (length (tcols T)) + 1) ->
  exists df', add_column df ty label = Ok df' /\ rep h df' (t_add_column T ty label).
Proof.
  intros (Hn & Hd & HF & Hnd & Hlive & HX) Hs1 Hs2. pose proof (Forall2_length _ _ _ HF) as Hl.
  unfold add_column. rewrite Hn. destruct (column_new_ok ty label (trows T) Hs1) as (cap & -> & Hcap). cbn [bind].
  rewrite Hl. destruct (ensure_small (dcap df) _ Hd Hs2) as (c & -> & Hc). cbn [bind].
  eexists. split; [reflexivity|]. unfold rep, t_add_column. cbn [n_rows trows dcap cols tcols]. do 2 (split; auto). split.
  - apply Forall2_app; auto. constructor; auto. unfold col_rep. cbn. rewrite repeat_length.
    do 4 (split; auto). split; auto. split; [constructor|]. apply nulls_rep.
  - unfold owns. assert (ptrs (cols df ++ [mkCol (repeat None (trows T)) cap ty label []]) = ptrs (cols df)) as ->; auto.
    unfold ptrs. rewrite flat_map_app. cbn [flat_map]. unfold cptrs at 2. cbn [celems]. rewrite nulls_ptrs. rewrite !app_nil_r. auto.
Qed.

Lemma append_rows_ok h n l l' : Forall2 (col_rep h n) l l' -> small (Z.of_nat n + 1) ->
  exists m, append_rows l = Ok m /\
    Forall2 (col_rep h (S n)) m (map (fun ac => mkACol (atype ac) (alabel ac) (alevels ac) (acells ac ++ [None])) l') /\
    ptrs m = ptrs l.
Proof.
  intros HF Hs. induction HF as [|dc ac l l' (H1 & H2 & H3 & H4 & H5 & H6 & H7) HF (m & E & HF' & Hp)]; cbn [append_rows].
  - exists []. repeat split. constructor.
  - unfold column_append_row, column_grow. rewrite H5. unfold small in Hs.
    replace (Z.of_nat n <? INT_MAX)%Z with true by (unfold INT_MAX; lia).
    replace (_ <? _)%Z with true by lia. destruct (ensure_small (ccap dc) (Z.of_nat n + 1) H4 Hs) as (c & -> & Hc). cbn [bind].
    rewrite E. cbn [bind]. replace (Z.to_nat _) with 1 by lia. eexists. split; [reflexivity|]. split.
    + cbn [map]. constructor; auto. unfold col_rep. cbn [ctype clabel clevels ccap celems atype alabel alevels acells repeat].
      rewrite app_length. cbn [length]. do 4 (split; auto). split; [lia|]. split; auto. apply Forall2_app; auto.
      constructor; auto. exact I.
    + cbn [ptrs flat_map]. fold (ptrs m) (ptrs l). rewrite Hp. f_equal. unfold cptrs. cbn [celems repeat].
      rewrite flat_map_app. cbn. apply app_nil_r.
Qed.
Lemma add_row_sim h df T : rep h df T -> small (Z.of_nat (trows T) + 1) ->
  exists df', add_row df = Ok (df', Z.of_nat (trows T)) /\ rep h df' (t_add_row T).
Proof.
  intros (Hn & Hd & HF & Hnd & Hlive & HX) Hs. unfold add_row.
  destruct (append_rows_ok h (trows T) _ _ HF Hs) as (m & -> & HF' & Hp). cbn [bind]. rewrite Hn.
  unfold chk_int, in_int. unfold small in Hs. replace (_ && _) with true by (unfold INT_MAX, INT_MIN; lia). cbn [bind].
  eexists. split; [reflexivity|]. unfold rep, t_add_row, owns. cbn [n_rows trows dcap cols tcols].
  rewrite Hp. split; [lia|]. split; auto.
Qed.

(** *** Whole rows *)
Lemma vset_loop_sim h df T r args : forall l1 l2, rep h df T -> (0 <= r < Z.of_nat (trows T))%Z -> Forall arg_ok args ->
  tcols T = l1 ++ l2 ->
  sim (vset_loop h df r (seq (length l1) (length l2)) args)
      (let* l := put_row l2 r args in Ok (mkTable (trows T) (l1 ++ l))).
Proof.
  intros l1 l2. revert h df T args l1. induction l2 as [|ac l2 IH]; intros h df T args l1 HR Hr Ha ET.
  - cbn. rewrite <- ET. destruct T. exact HR.
  - cbn [length seq vset_loop put_row].
    pose proof HR as (Hn & Hd & HF & Ho).
    assert (nth_error (tcols T) (length l1) = Some ac) as Eac by (rewrite ET, nth_error_app2, Nat.sub_diag; auto).
    destruct (Forall2_nth_r _ _ _ _ _ HF Eac) as (dc & Edc & Hcol).
    unfold aget. rewrite Edc. cbn [bind]. destruct args as [|a args]; [exact I|].
    apply Forall_cons_iff in Ha as [Ha Has].
    pose proof Hcol as (Et & _). rewrite Et.
    assert (forall v e (m : res (dheap * frame)), sim m (t_set T r (Z.of_nat (length l1)) (atype ac) v) ->
       arg_value (atype ac) a = Some v ->  m = e ->
       sim (let* (h0, df0) := e in vset_loop h0 df0 r (seq (S (length l1)) (length l2)) args)
         (let* l := match arg_value (atype ac) a with
                    | Some v => let* l' := put_row l2 r args in Ok (put_cell (with_level ac v) r (Some v) :: l')
                    | None => UB
                    end in Ok (mkTable (trows T) (l1 ++ l)))) as Hstep.
    { intros v e m Hsim Ev ->. rewrite Ev. unfold t_set, t_col in Hsim.
      replace ((0 <=? r)%Z && _ && _) with true in Hsim by lia. rewrite Nat2Z.id, Eac in Hsim. cbn [bind] in Hsim.
      replace (dctype_eqb _ _) with true in Hsim by (symmetry; apply dctype_eqb_eq; auto).
      destruct e as [[h1 df1]| | |]; try contradiction. cbn [bind].
      unfold put_col in Hsim. rewrite Nat2Z.id in Hsim.
      assert (lset (tcols T) (length l1) (put_cell (with_level ac v) r (Some v)) =
              (l1 ++ [put_cell (with_level ac v) r (Some v)]) ++ l2) as El.
      { rewrite ET, <- app_assoc. generalize (put_cell (with_level ac v) r (Some v)). clear. intros x. cbn [app]. induction l1; cbn; congruence. }
      rewrite El in Hsim.
      specialize (IH h1 df1 _ args _ Hsim Hr Has eq_refl). rewrite app_length in IH. cbn [length trows] in IH.
      replace (length l1 + 1) with (S (length l1)) in IH by lia.
      destruct (put_row l2 r args); cbn [bind] in *; auto. rewrite <- app_assoc in IH. exact IH. }
    destruct (atype ac) eqn:Ety, a; cbn [arg_value] in Hstep |- *; try exact I.
    + eapply Hstep; [|reflexivity|reflexivity]. apply set_string_sim; auto.
    + eapply Hstep; [|reflexivity|reflexivity]. apply set_plain_sim; [auto|discriminate|reflexivity].
    + eapply Hstep; [|reflexivity|reflexivity]. apply set_plain_sim; [auto|discriminate|reflexivity].
    + eapply Hstep; [|reflexivity|reflexivity]. apply set_plain_sim; [auto|discriminate|split; auto].
    + eapply Hstep; [|reflexivity|reflexivity]. apply set_factor_sim; auto.
Qed.
Lemma vset_sim h df T r args : rep h df T -> Forall arg_ok args -> sim (vset h df r args) (t_set_row T r args).
Proof.
  intros HR Ha. unfold vset, t_set_row. pose proof HR as (Hn & Hd & HF & Ho). rewrite Hn.
  destruct ((0 <=? r)%Z && (r <? _)%Z) eqn:E.
  - replace (_ || _) with false by lia. rewrite (Forall2_length _ _ _ HF).
    apply (vset_loop_sim h df T r args [] (tcols T)); auto. lia.
  - replace (_ || _) with true by lia. exact I.
Qed.
End Extra.
