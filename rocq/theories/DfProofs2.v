(** Factor conversion, freeing, observation; histories. *)
From Coq Require Import Permutation.
From Verif Require Import Base BaseLemmas Heap StrModel StrArrModel StrArrProofs LexModel CsvModel DfModel DfSpec DfProofs.
Local Open Scope nat_scope.

(** *** Freeing *)
Lemma free_cells ps : forall h : dheap, NoDup (flat_map olist ps) -> (forall q, In q (flat_map olist ps) -> cell h q <> None) ->
  exists h', for_each (fun p h => nx_free h p) ps h = Ok h' /\
    forall q, cell h' q = if in_dec Nat.eq_dec q (flat_map olist ps) then None else cell h q.
Proof.
  induction ps as [|p ps IH]; intros h Hnd Hl; cbn [for_each].
  - exists h. split; auto.
  - cbn [flat_map] in *. destruct p as [q|]; cbn [nx_free olist app bind] in *.
    + destruct (cell h q) as [e|] eqn:E; [|exfalso; apply (Hl q); auto; left; auto].
      rewrite (hfree_ok h q e E). cbn [bind]. inversion Hnd as [|? ? Hni Hnd']; subst.
      assert (forall x, cell (lset h q None) x = if x =? q then None else cell h x) as Hcell
        by (intros; apply cell_lset; eapply cell_lt; eauto).
      destruct (IH (lset h q None)) as (h' & E' & H'); auto.
      { intros x Hx. rewrite Hcell. destruct (Nat.eqb_spec x q) as [->|]; [tauto|]. apply Hl. right. auto. }
      exists h'. split; auto. intros x. rewrite H', Hcell.
      destruct (in_dec Nat.eq_dec x (flat_map olist ps)), (in_dec Nat.eq_dec x (q :: flat_map olist ps)), (Nat.eqb_spec x q); cbn in *; auto; intuition congruence.
    + apply IH; auto.
Qed.
Lemma free_cols l : forall h : dheap, NoDup (ptrs l) -> (forall q, In q (ptrs l) -> cell h q <> None) ->
  exists h', for_each (fun dc h => column_free h dc) l h = Ok h' /\
    forall q, cell h' q = if in_dec Nat.eq_dec q (ptrs l) then None else cell h q.
Proof.
  induction l as [|dc l IH]; intros h Hnd Hl; cbn [for_each].
  - exists h. split; auto.
  - cbn [ptrs flat_map] in Hnd, Hl. fold (ptrs l) in *. apply NoDup_app_iff in Hnd as (Hn1 & Hn2 & Hd).
    unfold column_free at 1. destruct (free_cells (celems dc) h Hn1) as (h1 & -> & H1).
    { intros q Hq. apply Hl. apply in_or_app; auto. } cbn [bind].
    destruct (IH h1 Hn2) as (h2 & -> & H2).
    { intros q Hq. rewrite H1. destruct (in_dec _ _ _) as [Hi|]; [exfalso; eapply Hd; eauto|]. apply Hl. apply in_or_app; auto. }
    exists h2. split; auto. intros q. rewrite H2, H1. cbn [ptrs flat_map]. fold (ptrs l). fold (cptrs dc).
    destruct (in_dec Nat.eq_dec q (ptrs l)) as [Ha|Ha], (in_dec Nat.eq_dec q (cptrs dc)) as [Hb|Hb], (in_dec Nat.eq_dec q (cptrs dc ++ ptrs l)) as [Hc|Hc];
      auto; rewrite in_app_iff in Hc; tauto.
Qed.
Lemma frame_free_ok h df T : rep [] h df T -> exists h', frame_free h df = Ok h' /\ forall q, cell h' q = None.
Proof.
  intros (Hn & Hd & HF & Hnd & Hlive & _). cbn [map] in *. rewrite app_nil_r in *.
  destruct (free_cols (cols df) h Hnd) as (h' & E & H'). { intros q Hq. apply Hlive. auto. }
  exists h'. split; [exact E|]. intros q. rewrite H'. destruct (in_dec _ _ _) as [|Hni]; auto.
  destruct (cell h q) eqn:E'; auto. exfalso. apply Hni. apply Hlive. congruence.
Qed.

(** *** Text of values *)
Lemma print_nat_length f : forall n acc, length (print_nat f n acc) <= f + length acc.
Proof.
  induction f as [|f IH]; intros n acc; cbn [print_nat]; [lia|].
  destruct (_ =? _)%N; [cbn [length]; lia|]. specialize (IH (n / 10)%N ((48 + n mod 10)%N :: acc)). cbn [length] in *. lia.
Qed.
Lemma print_int_length z : in_int z = true -> length (print_int z) <= 255.
Proof.
  unfold in_int, INT_MIN, INT_MAX. intros H. unfold print_int.
  assert (forall n, (n <= 2147483648)%N -> length (print_nat (S (N.to_nat (N.log2 n))) n []) <= 40) as Hn.
  { intros n Hn. pose proof (print_nat_length (S (N.to_nat (N.log2 n))) n []) as Hl. cbn [length] in Hl.
    pose proof (N.log2_le_mono n 2147483648 Hn) as Hm. change (N.log2 2147483648) with 31%N in Hm. lia. }
  destruct (z <? 0)%Z; cbn [length].
  - specialize (Hn (Z.to_N (- z)) ltac:(lia)). lia.
  - specialize (Hn (Z.to_N z) ltac:(lia)). lia.
Qed.

(** *** Distinct values in order *)
Lemma filter_filter' {A} (f g : A -> bool) l : filter f (filter g l) = filter (fun x => g x && f x) l.
Proof. induction l as [|x l IH]; cbn; auto. destruct (g x); cbn; destruct (f x); cbn; congruence. Qed.
Lemma distinct_fold l : forall acc,
  fold_left add_level l acc = acc ++ filter (fun y => negb (existsb (bytes_eqb y) acc)) (distinct l).
Proof.
  induction l as [|x l IH]; intros acc; cbn [fold_left distinct].
  - cbn. rewrite app_nil_r. auto.
  - rewrite IH. unfold add_level. cbn [filter]. rewrite filter_filter'. destruct (existsb (bytes_eqb x) acc) eqn:E; cbn [negb].
    + f_equal. apply filter_ext. intros y. destruct (bytes_eqb x y) eqn:Exy; cbn [negb andb]; auto.
      apply bytes_eqb_eq in Exy as <-. rewrite E. auto.
    + rewrite <- app_assoc. cbn [app]. do 2 f_equal. apply filter_ext. intros y. rewrite existsb_app. cbn [existsb].
      rewrite orb_false_r, negb_orb, andb_comm. f_equal. f_equal.
      destruct (bytes_eqb y x) eqn:E1, (bytes_eqb x y) eqn:E2; auto.
      * apply bytes_eqb_eq in E1 as ->. rewrite (proj2 (bytes_eqb_eq x x)) in E2; congruence.
      * apply bytes_eqb_eq in E2 as ->. rewrite (proj2 (bytes_eqb_eq y y)) in E1; congruence.
Qed.
Lemma distinct_eq l : fold_left add_level l [] = distinct l.
Proof.
  rewrite distinct_fold. cbn [app existsb negb]. induction (distinct l) as [|x m IH]; cbn; congruence.
Qed.
Lemma distinct_in l x : In x (distinct l) <-> In x l.
Proof.
  induction l as [|y l IH]; cbn; [tauto|]. rewrite filter_In, IH. split; [tauto|].
  intros [->|H]; auto. destruct (bytes_eqb y x) eqn:E; [apply bytes_eqb_eq in E; auto|auto].
Qed.
Lemma distinct_nodup l : NoDup (distinct l).
Proof.
  induction l as [|y l IH]; cbn; constructor.
  - rewrite filter_In. intros [_ H]. rewrite (proj2 (bytes_eqb_eq y y)) in H; [discriminate|auto].
  - apply NoDup_filter. auto.
Qed.

(** *** make_factor *)
Section MakeFactor.
Variable print_d : N -> list N.
Hypothesis print_d_short : forall d, length (print_d d) <= 255.

Lemma factor_value_ok ty lv e v : elem_rep ty lv e v -> ty <> DFACTOR -> ty <> DSTRING ->
  factor_value print_d ty e = Ok (value_text print_d v).
Proof.
  destruct ty, e, v; cbn [elem_rep factor_value value_text]; try contradiction; try congruence; intros H _ _.
  - subst; auto.
  - subst. rewrite firstn_all2; auto.
  - destruct H as [-> H]. rewrite firstn_all2; auto. apply print_int_length; auto.
Qed.

(** The blocks of a column with their contents. *)
Lemma col_blocks h n dc ac : col_rep h n dc ac -> exists X : list (nat * elem), map fst X = cptrs dc /\ forall q e, In (q, e) X -> cell h q = Some e.
Proof.
  intros (_ & _ & _ & _ & _ & _ & H7). unfold cptrs. induction H7 as [|p v l l' Hp HF (X & E & HX)].
  - exists []. split; [auto|intros q e []].
  - destruct p as [q|]; cbn [flat_map olist app].
    + destruct v; [|contradiction]. destruct Hp as (e & Ee & _). exists ((q, e) :: X). split; [cbn; congruence|].
      intros q' e' [[= <- <-]|H]; auto.
    + exists X. auto.
Qed.
Lemma map_fst_inj (X : list (nat * elem)) q : In q (map fst X) -> exists e, In (q, e) X.
Proof. intros H. apply in_map_iff in H as ([q' e] & <- & H). exists e. auto. Qed.

Definition texts (l : list (option aval)) : list (list N) := map (value_text print_d) (present l).
Definition fcells (l : list (option aval)) : list (option aval) := map (option_map (fun v => AStr (value_text print_d v))) l.
Lemma texts_app a b : texts (a ++ b) = texts a ++ texts b.
Proof. unfold texts, present. rewrite flat_map_app, map_app. auto. Qed.
(** After the first cells [a]; [b] remain. *)
Definition partial_col label (a b : list (option aval)) : acol :=
  mkACol DFACTOR label (fold_left add_level (texts a) []) (fcells a ++ repeat None (length b)).

Lemma factor_loop X dc ac T c (h0 : dheap) : nth_error (tcols T) (Z.to_nat c) <> None -> (0 <= c)%Z ->
  ctype dc <> DFACTOR -> map fst X = cptrs dc -> (forall q e, In (q, e) X -> cell h0 q = Some e) ->
  col_rep h0 (trows T) dc ac ->
  forall b a h df, acells ac = a ++ b ->
    rep X h df (put_col T c (partial_col (alabel ac) a b)) ->
    exists h' df', for_each (fun i '(h, df) =>
          let* p := aget (celems dc) i in
          match p with
          | None => Ok (h, df)
          | Some q =>
            if dctype_eqb (ctype dc) DSTRING then set_factor h df (Z.of_nat i) c (SPtr q)
            else
              let* e := hget h q in
              let* value := factor_value print_d (ctype dc) e in
              set_factor h df (Z.of_nat i) c (SExt value)
          end) (seq (length a) (length b)) (h, df) = Ok (h', df') /\
      rep X h' df' (put_col T c (partial_col (alabel ac) (a ++ b) [])).
Proof.
  intros Hc Hc0 Hty EX HX0 Hcol. induction b as [|v b IH]; intros a h df Ecells HR.
  - exists h, df. rewrite app_nil_r. split; [reflexivity|exact HR].
  - cbn [length seq for_each].
    pose proof Hcol as (H1 & H2 & H3 & H4 & H5 & H6 & H7).
    assert (nth_error (acells ac) (length a) = Some v) as Ev by (rewrite Ecells, nth_error_app2, Nat.sub_diag; auto).
    destruct (Forall2_nth_r _ _ _ _ _ H7 Ev) as (p & Ep & Hp). unfold aget. rewrite Ep. cbn [bind].
    replace (a ++ v :: b) with ((a ++ [v]) ++ b) in * by (rewrite <- app_assoc; auto).
    specialize (IH (a ++ [v])). rewrite app_length in IH. cbn [length] in IH.
    replace (length a + 1) with (S (length a)) in IH by lia.
    destruct p as [q|]; destruct v as [v|]; try contradiction.
    + destruct Hp as (e & Ee & He).
      assert (In q (cptrs dc)) as Hq.
      { unfold cptrs. apply in_flat_map. exists (Some q). split; [eapply nth_error_In; eauto|left; auto]. }
      assert (In (q, e) X) as HqX.
      { rewrite <- EX in Hq. apply map_fst_inj in Hq as (e' & Hq). replace e with e'; auto. apply HX0 in Hq. congruence. }
      pose proof HR as (_ & _ & _ & Hnd & _ & HX).
      assert (sim X (set_factor h df (Z.of_nat (length a)) c (SExt (value_text print_d v)))
         (t_set (put_col T c (partial_col (alabel ac) a (Some v :: b))) (Z.of_nat (length a)) c DFACTOR (AStr (value_text print_d v)))) as Hs
        by (apply set_factor_sim; auto).
      assert ((if dctype_eqb (ctype dc) DSTRING then set_factor h df (Z.of_nat (length a)) c (SPtr q)
               else let* e := hget h q in let* value := factor_value print_d (ctype dc) e in set_factor h df (Z.of_nat (length a)) c (SExt value))
              = set_factor h df (Z.of_nat (length a)) c (SExt (value_text print_d v)) \/
              sim X (if dctype_eqb (ctype dc) DSTRING then set_factor h df (Z.of_nat (length a)) c (SPtr q)
               else let* e := hget h q in let* value := factor_value print_d (ctype dc) e in set_factor h df (Z.of_nat (length a)) c (SExt value))
                (t_set (put_col T c (partial_col (alabel ac) a (Some v :: b))) (Z.of_nat (length a)) c DFACTOR (AStr (value_text print_d v)))) as Hcase.
      { destruct (dctype_eqb (ctype dc) DSTRING) eqn:Es.
        - right. apply dctype_eqb_eq in Es. rewrite Es in He. destruct e as [s| | |]; try contradiction. destruct v as [s'| | |]; try contradiction.
          cbn in He. subst s'. cbn [value_text]. apply set_factor_gen; auto.
          intros h1 dc' ac' p Edc' Eac' Ep' Hcell. cbn [sarg_read]. unfold hget.
          assert (cell h1 q = Some (EStr s)) as Eq.
          { rewrite Hcell; [eapply HX; eauto|]. intros Hi. destruct p as [p|]; [|destruct Hi]. destruct Hi as [->|[]].
            apply NoDup_app_iff in Hnd as (_ & _ & Hd). apply (Hd q); [|apply (in_map fst) in HqX; exact HqX].
            unfold ptrs. apply in_flat_map. exists dc'. split; [eapply nth_error_In; eauto|].
            unfold cptrs. apply in_flat_map. exists (Some q). split; [eapply nth_error_In; eauto|left; auto]. }
          unfold cell in Eq. destruct (nth_error h1 q) as [[x|]|]; try discriminate. injection Eq as ->. reflexivity.
        - left. rewrite (proj2 (hget_cell h q e)) by (eapply HX; eauto). cbn [bind].
          rewrite (factor_value_ok _ _ _ _ He); auto. intros E. rewrite E in Es. discriminate. }
      assert (t_set (put_col T c (partial_col (alabel ac) a (Some v :: b))) (Z.of_nat (length a)) c DFACTOR (AStr (value_text print_d v)) =
              Ok (put_col T c (partial_col (alabel ac) (a ++ [Some v]) b))) as Et.
      { unfold t_set, t_col. cbn [trows put_col tcols].
        assert (length (acells ac) = trows T) as Hlen.
        { rewrite <- (Forall2_length _ _ _ H7). auto. }
        rewrite Ecells, !app_length in Hlen. cbn [length] in Hlen.
        replace ((0 <=? _)%Z && _ && _) with true by lia. rewrite nth_error_lset_eq by (apply nth_error_Some; auto). cbn [bind atype partial_col dctype_eqb].
        f_equal. unfold put_col. cbn [trows tcols]. rewrite lset_lset. f_equal. f_equal.
        unfold with_level, put_cell, partial_col. cbn [atype alabel alevels acells]. f_equal.
        - rewrite texts_app, fold_left_app. reflexivity.
        - rewrite Nat2Z.id. unfold fcells. rewrite map_app, <- app_assoc. cbn [map option_map app length repeat].
          generalize (Some (AStr (value_text print_d v))), (repeat (@None aval) (length b)). intros x y.
          clear. induction a as [|w a IHa]; cbn; [auto|]. rewrite IHa. auto. }
      rewrite Et in *.
      match goal with |- context [bind ?m _] => assert (exists h1 df1, m = Ok (h1, df1) /\ rep X h1 df1 (put_col T c (partial_col (alabel ac) (a ++ [Some v]) b))) as (h1 & df1 & -> & HR1) end.
      { destruct Hcase as [->|Hcase].
        - destruct (set_factor _ _ _ _ _) as [[h1 df1]| | |]; try contradiction. eauto.
        - destruct (if dctype_eqb _ _ then _ else _) as [[h1 df1]| | |]; try contradiction. eauto. }
      cbn [bind]. apply IH; auto.
    + cbn [bind]. apply IH; auto.
      replace (partial_col (alabel ac) (a ++ [None]) b) with (partial_col (alabel ac) a (None :: b)); auto.
      unfold partial_col. f_equal.
      * rewrite texts_app. cbn. rewrite app_nil_r. auto.
      * unfold fcells. rewrite map_app, <- app_assoc. reflexivity.
Qed.

Lemma make_factor_sim h df T c : rep [] h df T -> small (Z.of_nat (trows T)) ->
  sim [] (make_factor print_d h df c) (t_make_factor print_d T c).
Proof.
  intros HR Hs. pose proof HR as (Hn & Hd & HF & Hnd & Hlive & _). cbn [map] in *. rewrite app_nil_r in *.
  pose proof (Forall2_length _ _ _ HF) as Hl.
  unfold make_factor, t_make_factor. destruct (Z.leb_spec 0 c) as [Hc|Hc].
  2:{ replace (c <? 0)%Z with true by lia. exact I. }
  destruct (nth_error (tcols T) (Z.to_nat c)) as [ac|] eqn:Eac.
  2:{ apply nth_error_None in Eac. replace (_ || _) with true by lia. exact I. }
  destruct (Forall2_nth_r _ _ _ _ _ HF Eac) as (dc & Edc & Hcol).
  assert (Z.to_nat c < length (cols df)) as Hcl by (apply nth_error_Some; congruence).
  replace (_ || _) with false by lia. unfold aget at 1. rewrite Edc. cbn [bind].
  pose proof Hcol as (H1 & H2 & H3 & H4 & H5 & H6 & H7). rewrite H1.
  unfold factor_column. destruct (dctype_eqb (atype ac) DFACTOR) eqn:Ef.
  - cbn [sim]. unfold put_col. rewrite lset_same by auto. destruct T; exact HR.
  - rewrite Hn. destruct (column_new_ok DFACTOR (clabel dc) (trows T) Hs) as (cap & -> & Hcap). cbn [bind]. rewrite H2.
    destruct (col_blocks h _ _ _ Hcol) as (X & EX & HX).
    assert (rep X h (put_column df c (mkCol (repeat None (trows T)) cap DFACTOR (alabel ac) []))
              (put_col T c (partial_col (alabel ac) [] (acells ac)))) as HR0.
    { unfold rep. cbn [n_rows put_column put_col trows tcols dcap cols]. do 2 (split; auto). split.
      - apply Forall2_lset; auto. unfold col_rep, partial_col. cbn. rewrite repeat_length, <- (Forall2_length _ _ _ H7), H5.
        do 5 (split; auto). split; [constructor|]. apply nulls_rep.
      - destruct (lset_split _ _ _ Edc) as (l1 & l2 & El & Hl1 & Hls). rewrite Hls. unfold owns. rewrite EX.
        assert (Permutation (ptrs (l1 ++ {| celems := repeat None (trows T); ccap := cap; ctype := DFACTOR; clabel := alabel ac; clevels := [] |} :: l2) ++ cptrs dc) (ptrs (cols df))) as HP.
        { rewrite El. unfold ptrs. rewrite !flat_map_app. cbn [flat_map]. unfold cptrs at 2. cbn [celems]. rewrite nulls_ptrs. cbn [app].
          rewrite <- app_assoc. apply Permutation_app_head. apply Permutation_app_comm. }
        split; [eapply Permutation_NoDup; [symmetry; exact HP|auto]|]. split; auto.
        intros p. rewrite Hlive. split; apply Permutation_in; [symmetry|]; auto. }
    destruct (factor_loop X dc ac T c h) with (b := acells ac) (a := @nil (option aval)) (h := h)
       (df := put_column df c (mkCol (repeat None (trows T)) cap DFACTOR (alabel ac) [])) as (h1 & df1 & E & HR1); auto.
    { congruence. } { rewrite H1. intros E. rewrite E in Ef. discriminate. }
    cbn [length app] in E, HR1. rewrite <- (Forall2_length _ _ _ H7), H5 in E. rewrite Nat2Z.id.
    rewrite H1 in E. rewrite E. cbn [bind].
    destruct HR1 as (Hn1 & Hd1 & HF1 & Hnd1 & Hlive1 & HX1). rewrite EX in *.
    apply NoDup_app_iff in Hnd1 as (Hna & Hnb & Hdis).
    unfold column_free. destruct (free_cells (celems dc) h1 Hnb) as (h2 & -> & H2').
    { intros q Hq. apply Hlive1. apply in_or_app. auto. }
    cbn [bind sim]. change (flat_map olist (celems dc)) with (cptrs dc) in H2'.
    assert (dctype_eqb (atype ac) DFACTOR = false) as Ef' by auto.
    replace (mkACol DFACTOR (alabel ac) (distinct (map (value_text print_d) (present (acells ac)))) _) with (partial_col (alabel ac) (acells ac) []).
    2:{ unfold partial_col. rewrite distinct_eq. unfold texts, fcells. cbn [length repeat]. rewrite app_nil_r. auto. }
    unfold rep. do 2 (split; auto). split.
    + eapply cols_rep_ext; [|exact HF1]. intros q Hq. rewrite H2'. destruct (in_dec _ _ _) as [Hi|]; auto.
      exfalso. eapply Hdis; eauto.
    + unfold owns. cbn [map]. rewrite app_nil_r. split; auto. split; [|intros q e []].
      intros p. rewrite H2'. specialize (Hlive1 p). rewrite in_app_iff in Hlive1.
      destruct (in_dec _ _ _) as [Hi|Hi]; [|rewrite Hlive1; tauto]. split; [congruence|]. intros Hp. exfalso. eapply Hdis; eauto.
Qed.

(** *** Histories *)
Lemma rep_init : rep [] [] frame_alloc empty_table.
Proof.
  unfold rep. cbn. split; auto. split; [lia|]. split; [constructor|]. split; [constructor|]. split; [|intros q e []].
  intros [|p]; cbn; tauto.
Qed.
Lemma step_sim h df T o : rep [] h df T -> dfop_ok o -> small (Z.of_nat (trows T) + 1) -> small (Z.of_nat (length (tcols T)) + 1) ->
  sim [] (df_step print_d h df o) (t_step print_d T o).
Proof.
  intros HR Ho Hs1 Hs2. destruct o; cbn [df_step t_step dfop_ok] in *.
  - destruct (add_column_sim [] h df T ty label HR) as (df' & -> & HR'); auto. unfold small in *. lia.
  - destruct (add_row_sim [] h df T HR Hs1) as (df' & -> & HR'). exact HR'.
  - apply set_na_sim; auto.
  - apply set_string_sim; auto.
  - apply set_string_from_sim; auto.
  - apply set_plain_sim; [auto|discriminate|split; auto].
  - apply set_plain_sim; [auto|discriminate|reflexivity].
  - apply set_plain_sim; [auto|discriminate|reflexivity].
  - apply set_factor_sim; auto.
  - unfold append_row. destruct (add_row_sim [] h df T HR Hs1) as (df' & -> & HR'). cbn [bind].
    pose proof (vset_sim [] h df' _ (Z.of_nat (trows T)) args HR' Ho) as Hv.
    destruct (vset _ _ _ _) as [[h1 df1]| | |], (t_set_row _ _ _); cbn [bind sim] in *; auto.
  - unfold set_row. pose proof (vset_sim [] h df T r args HR Ho) as Hv. unfold vset in *.
    destruct (_ || _); auto.
  - apply make_factor_sim; auto. unfold small in *. lia.
Qed.

Lemma put_row_length l r args l' : put_row l r args = Ok l' -> length l' = length l.
Proof.
  revert args l'; induction l as [|ac l IH]; intros args l' E; cbn in E.
  - injection E as <-. auto.
  - destruct args; [discriminate|]. destruct (arg_value _ _); [|discriminate].
    destruct (put_row l r args) eqn:E'; try discriminate. injection E as <-. cbn. f_equal. eauto.
Qed.
Lemma t_step_size T o T' : t_step print_d T o = Ok T' -> trows T' <= trows T + 1 /\ length (tcols T') <= length (tcols T) + 1.
Proof.
  assert (forall T r c ty v T', t_set T r c ty v = Ok T' -> trows T' <= trows T + 1 /\ length (tcols T') <= length (tcols T) + 1) as Hset.
  { intros T0 r c ty v T1. unfold t_set. destruct (t_col _ _ _); try discriminate. cbn [bind]. destruct (dctype_eqb _ _); [|discriminate].
    intros [= <-]. cbn. rewrite lset_length. lia. }
  assert (forall T r args T', t_set_row T r args = Ok T' -> trows T' = trows T /\ length (tcols T') = length (tcols T)) as Hrow.
  { intros T0 r args T1. unfold t_set_row. destruct (_ && _); [|discriminate]. destruct (put_row _ _ _) eqn:E; try discriminate.
    intros [= <-]. cbn. split; auto. eapply put_row_length; eauto. }
  destruct o; cbn [t_step]; try (apply Hset).
  - intros [= <-]. cbn. rewrite app_length. cbn. lia.
  - intros [= <-]. cbn. rewrite map_length. lia.
  - destruct (t_col _ _ _); try discriminate. intros [= <-]. cbn. rewrite lset_length. lia.
  - destruct (t_get _ _ _ _); try discriminate. cbn [bind]. destruct (_ && _); [discriminate|]. apply Hset.
  - intros E. apply Hrow in E as [E1 E2]. rewrite E1, E2. cbn. rewrite map_length. lia.
  - intros E. apply Hrow in E as [E1 E2]. lia.
  - unfold t_make_factor. destruct (0 <=? c)%Z; [|discriminate]. destruct (nth_error _ _); [|discriminate]. intros [= <-].
    cbn. rewrite lset_length. lia.
Qed.
Lemma run_sim os : forall h df T, rep [] h df T -> Forall dfop_ok os ->
  small (Z.of_nat (trows T) + Z.of_nat (length os)) -> small (Z.of_nat (length (tcols T)) + Z.of_nat (length os)) ->
  sim [] (df_run print_d h df os) (t_run print_d T os).
Proof.
  induction os as [|o os IH]; intros h df T HR Ho Hs1 Hs2; cbn [df_run t_run]; [exact HR|].
  apply Forall_cons_iff in Ho as [Ho Hos]. cbn [length] in *. unfold small in *.
  pose proof (step_sim h df T o HR Ho ltac:(unfold small; lia) ltac:(unfold small; lia)) as Hstep.
  destruct (df_step print_d h df o) as [[h1 df1]| | |], (t_step print_d T o) as [T1| | |] eqn:E; cbn [bind sim] in *; auto; try contradiction.
  apply t_step_size in E. apply IH; auto; unfold small; lia.
Qed.
End MakeFactor.

(** *** Observation *)
Lemma rep_shows h df T : rep [] h df T -> shows h df T.
Proof.
  intros HR. pose proof HR as (Hn & Hd & HF & _). pose proof (Forall2_length _ _ _ HF) as Hl.
  unfold shows, n_columns. split; [auto|]. split; [congruence|]. split.
  { intros c. destruct (nth_error (tcols T) c) as [ac|] eqn:E; auto.
    destruct (Forall2_nth_r _ _ _ _ _ HF E) as (dc & Edc & (H1 & H2 & H3 & H4 & H5 & H6 & H7)).
    assert (c < length (cols df)) by (apply nth_error_Some; congruence).
    split; [rewrite <- (Forall2_length _ _ _ H7); auto|]. exists dc. unfold column, n_columns, zget, aget.
    replace (_ || _) with false by lia. replace (_ <? 0)%Z with false by lia. rewrite Nat2Z.id, Edc.
    split; auto. split; auto. split; auto. intros Ef. unfold factor_level, n_factor_levels. rewrite H1, Ef, H3. cbn [dctype_eqb negb].
    split; auto. intros i s Ei. assert (i < length (alevels ac)) by (apply nth_error_Some; congruence).
    replace (_ || _) with false by lia. unfold zget, aget. replace (_ <? 0)%Z with false by lia. rewrite Nat2Z.id, Ei. auto. }
  split.
  { intros r c. unfold is_na, t_is_na. pose proof (column_at_rep [] h df T r c HR) as H.
    destruct (t_col T r c) as [ac| | |]; try (destruct H as [E ->]; try discriminate E; auto; fail).
    destruct H as (Hr & Hc & Eac & dc & -> & Edc & Hcol). cbn [bind].
    destruct (col_rep_row _ _ _ _ r Hcol) as (p & v & -> & Ep & -> & Hp); [lia|]. cbn [bind].
    destruct p, v; try contradiction; auto. }
  assert (forall {A} r c ty (k : dcol * nat * elem -> res A) (f : A -> aval),
    (forall dc q e v, elem_rep ty (clevels dc) e v -> (let* a := k (dc, q, e) in Ok (f a)) = Ok v) ->
    (let* a := (let* x := get_elem h df r c ty in k x) in Ok (f a)) = t_get T r c ty) as Hget.
  { intros A r c ty k f Hk. pose proof (get_elem_sim [] h df T r c ty HR) as H.
    destruct (t_get T r c ty) as [v| | |]; try (destruct H as [E ->]; try discriminate E; auto; fail).
    destruct H as (dc & q & e & -> & He & _). cbn [bind]. apply Hk. auto. }
  repeat split; intros r c; unfold get_string, get_int, get_double, get_bool, get_factor; apply Hget; intros dc q e v He; cbn [bind];
    destruct e, v; cbn in He; try contradiction; try (subst; reflexivity).
  - destruct He as [-> _]. reflexivity.
  - rewrite He. reflexivity.
Qed.

(** *** What a client sees of a cell *)
Definition t_cell (T : table) (r c : Z) : res (option aval) :=
  let* ac := t_col T r c in Ok (match nth_error (acells ac) (Z.to_nat r) with Some v => v | None => None end).
Lemma shows_cell h df T r c : shows h df T -> cell_value h df r c = t_cell T r c.
Proof.
  intros (Hn & Hc & Hcols & Hna & Hs & Hi & Hd & Hb & Hf). unfold cell_value, t_cell. rewrite Hna. unfold t_is_na.
  destruct (t_col T r c) as [ac| | |] eqn:Etc; auto. cbn [bind].
  destruct (nth_error (acells ac) (Z.to_nat r)) as [[v|]|] eqn:Ev; auto.
  assert (nth_error (tcols T) (Z.to_nat c) = Some ac /\ (0 <= c)%Z) as [Eac Hc0].
  { unfold t_col in Etc. destruct (_ && _) eqn:E; [|discriminate]. destruct (nth_error _ _); [|discriminate].
    injection Etc as ->. split; [auto|lia]. }
  pose proof (Hcols (Z.to_nat c)) as Hcc. rewrite Eac in Hcc. destruct Hcc as (_ & dc & Edc & Ety & _).
  rewrite Z2Nat.id in Edc by auto. rewrite Edc. cbn [bind]. rewrite Ety.
  assert (t_get T r c (atype ac) = Ok v) as Eg.
  { unfold t_get. rewrite Etc. cbn [bind]. rewrite (proj2 (dctype_eqb_eq _ _) eq_refl), Ev. auto. }
  destruct (atype ac); rewrite <- ?Hs, <- ?Hi, <- ?Hd, <- ?Hb, <- ?Hf in Eg;
    match type of Eg with bind ?m _ = _ => destruct m; cbn [bind] in *; try discriminate; injection Eg as <-; auto end.
Qed.

Lemma t_col_put T c ac r' c' : (0 <= c)%Z ->
  t_col (put_col T c ac) r' c' = if (c' =? c)%Z then (let* _ := t_col T r' c' in Ok ac) else t_col T r' c'.
Proof.
  intros Hc. unfold t_col. cbn [put_col trows tcols]. destruct (_ && _) eqn:E; [|destruct (c' =? c)%Z; auto].
  destruct (Z.eqb_spec c' c) as [->|Hne].
  - destruct (nth_error (tcols T) (Z.to_nat c)) eqn:E'.
    + rewrite nth_error_lset_eq by (apply nth_error_Some; congruence). auto.
    + rewrite (proj2 (nth_error_None _ _)); auto. rewrite lset_length. apply nth_error_None. auto.
  - rewrite nth_error_lset_neq by lia. auto.
Qed.
Lemma t_col_range T r c ac : t_col T r c = Ok ac -> (0 <= r < Z.of_nat (trows T))%Z /\ (0 <= c)%Z /\ nth_error (tcols T) (Z.to_nat c) = Some ac.
Proof.
  unfold t_col. destruct (_ && _) eqn:E; [|discriminate]. destruct (nth_error _ _) eqn:E'; [|discriminate]. intros [= ->].
  split; [lia|]. split; [lia|auto].
Qed.
Lemma put_cell_cells T r c ac ac' v : t_col T r c = Ok ac -> acells ac' = lset (acells ac) (Z.to_nat r) v ->
  length (acells ac) = trows T ->
  forall r' c', t_cell (put_col T c ac') r' c' =
    if (r' =? r)%Z && (c' =? c)%Z then Ok v else t_cell T r' c'.
Proof.
  intros Etc Ecells Hlen r' c'. destruct (t_col_range _ _ _ _ Etc) as (Hr & Hc & Eac).
  unfold t_cell. rewrite t_col_put by auto. destruct (Z.eqb_spec c' c) as [->|Hne]; [|rewrite andb_false_r; auto].
  destruct (Z.eqb_spec r' r) as [->|Hne]; cbn [andb].
  - rewrite Etc. cbn [bind]. rewrite Ecells, nth_error_lset_eq by lia. auto.
  - destruct (t_col T r' c) as [ac2| | |] eqn:E2; auto. destruct (t_col_range _ _ _ _ E2) as (Hr2 & _ & Eac2).
    rewrite Eac in Eac2. injection Eac2 as <-. cbn [bind]. rewrite Ecells, nth_error_lset_neq by lia. auto.
Qed.

Lemma with_level_cells ac v : acells (with_level ac v) = acells ac.
Proof. unfold with_level. destruct (atype ac), v; auto. Qed.
Lemma t_store print_d T o r c v T' : stores o r c v -> t_step print_d T o = Ok T' ->
  (forall c ac, nth_error (tcols T) c = Some ac -> length (acells ac) = trows T) ->
  (forall r' c', t_cell T' r' c' = if (r' =? r)%Z && (c' =? c)%Z then Ok v else t_cell T r' c') /\
  trows T' = trows T /\ length (tcols T') = length (tcols T).
Proof.
  intros Hst E Hlen.
  assert (forall ty w, t_set T r c ty w = Ok T' ->
     (forall r' c', t_cell T' r' c' = if (r' =? r)%Z && (c' =? c)%Z then Ok (Some w) else t_cell T r' c') /\
     trows T' = trows T /\ length (tcols T') = length (tcols T)) as Hset.
  { intros ty w Es. unfold t_set in Es. destruct (t_col T r c) as [ac| | |] eqn:Etc; try discriminate. cbn [bind] in Es.
    destruct (dctype_eqb _ _); [|discriminate]. injection Es as <-. split; [|cbn; rewrite lset_length; auto].
    apply put_cell_cells with (ac := ac); auto.
    - cbn. rewrite with_level_cells. auto.
    - destruct (t_col_range _ _ _ _ Etc) as (_ & _ & Eac). eauto. }
  destruct Hst; cbn [t_step] in E; try (eapply Hset; exact E).
  destruct (t_col T r c) as [ac| | |] eqn:Etc; try discriminate. injection E as <-.
  split; [|cbn; rewrite lset_length; auto]. apply put_cell_cells with (ac := ac); auto.
  destruct (t_col_range _ _ _ _ Etc) as (_ & _ & Eac). eauto.
Qed.

(** *** Factor columns *)
Lemma filter_order {A} (f : A -> bool) l : forall i j x y, i < j -> nth_error (filter f l) i = Some x -> nth_error (filter f l) j = Some y ->
  f y = true /\ exists i' j', i' < j' /\ nth_error l i' = Some x /\ nth_error l j' = Some y.
Proof.
  induction l as [|z l IH]; intros i j x y Hij Ei Ej; cbn in *.
  - destruct i; discriminate.
  - destruct (f z) eqn:Ez.
    + destruct j as [|j]; [lia|]. cbn in Ej. assert (f y = true) as Hy by (apply nth_error_In, filter_In in Ej; tauto).
      split; auto. destruct i as [|i]; cbn in Ei.
      * injection Ei as ->. apply nth_error_In, filter_In in Ej as [Hin _]. apply In_nth_error in Hin as [j' Hj'].
        exists 0, (S j'). split; [lia|auto].
      * destruct (IH i j x y ltac:(lia) Ei Ej) as (_ & i' & j' & H1 & H2 & H3). exists (S i'), (S j'). split; [lia|auto].
    + destruct (IH i j x y Hij Ei Ej) as (Hy & i' & j' & H1 & H2 & H3). split; auto. exists (S i'), (S j'). split; [lia|auto].
Qed.
Lemma distinct_order l : forall i j x y, i < j -> nth_error (distinct l) i = Some x -> nth_error (distinct l) j = Some y ->
  exists a b, l = a ++ x :: b /\ ~ In y a.
Proof.
  induction l as [|z l IH]; intros i j x y Hij Ei Ej; cbn in *.
  - destruct i; discriminate.
  - destruct j as [|j]; [lia|]. cbn in Ej. destruct i as [|i]; cbn in Ei.
    + injection Ei as ->. exists [], l. split; auto.
    + destruct (filter_order _ _ i j x y ltac:(lia) Ei Ej) as (Hy & i' & j' & H1 & H2 & H3).
      destruct (IH i' j' x y H1 H2 H3) as (a & b & -> & Hn). exists (z :: a), b. split; auto.
      intros [->|Hi]; auto. rewrite (proj2 (bytes_eqb_eq y y)) in Hy; [discriminate|auto].
Qed.
Lemma present_nth {A} (l : list (option A)) a v b : present l = a ++ v :: b ->
  exists r, nth_error l r = Some (Some v) /\ forall r' w, r' < r -> nth_error l r' = Some (Some w) -> In w a.
Proof.
  revert a; induction l as [|o l IH]; intros a E; cbn in E; [destruct a; discriminate|].
  destruct o as [x|]; cbn [app] in E.
  - destruct a as [|y a]; cbn in E; injection E as -> E.
    + exists 0. split; auto. intros r' w H. lia.
    + destruct (IH a E) as (r & Hr & Hw). exists (S r). split; auto. intros [|r'] w Hlt Hn; cbn in Hn.
      * injection Hn as ->. left. auto.
      * right. eapply Hw; eauto. lia.
  - destruct (IH a E) as (r & Hr & Hw). exists (S r). split; auto. intros [|r'] w Hlt Hn; cbn in Hn; [discriminate|].
    eapply Hw; eauto. lia.
Qed.
Lemma present_in {A} (l : list (option A)) v : In v (present l) <-> exists r, nth_error l r = Some (Some v).
Proof.
  unfold present. rewrite in_flat_map. split.
  - intros (o & Ho & Hv). destruct o; [|destruct Hv]. destruct Hv as [->|[]]. apply In_nth_error in Ho. auto.
  - intros (r & Hr). exists (Some v). split; [eapply nth_error_In; eauto|left; auto].
Qed.

Lemma t_run_size print_d os : forall T T', t_run print_d T os = Ok T' ->
  trows T' <= trows T + length os /\ length (tcols T') <= length (tcols T) + length os.
Proof.
  induction os as [|o os IH]; intros T T' E; cbn [t_run length] in *.
  - injection E as <-. lia.
  - destruct (t_step print_d T o) as [T1| | |] eqn:E1; try discriminate. cbn [bind] in E.
    apply t_step_size in E1. apply IH in E. lia.
Qed.
Lemma history_rep print_d os h df T : (forall d, length (print_d d) <= 255) -> history print_d os h df T ->
  rep [] h df T /\ (Z.of_nat (trows T) < 700000000)%Z /\ (Z.of_nat (length (tcols T)) < 700000000)%Z.
Proof.
  intros Hp (Ho & Hlen & E1 & E2). pose proof (run_sim print_d Hp os [] frame_alloc empty_table rep_init Ho) as H.
  rewrite E1, E2 in H. apply t_run_size in E2. cbn in E2. unfold small in H. cbn [trows tcols empty_table length] in H.
  split; [apply H; lia|]. lia.
Qed.
