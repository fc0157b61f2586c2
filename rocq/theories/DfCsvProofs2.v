(** Saving data frames, and reloading what was saved. *)
From Verif Require Import Base BaseLemmas Heap StrModel StrArrModel StrArrProofs LexModel LexSpec CsvModel CsvSpec CsvProofs CsvProofs2
  DfModel DfSpec DfProofs DfProofs2 DfCsvSpec DfCsvProofs.
Local Open Scope nat_scope.

(** *** Tables of frames are typed *)
Definition val_ok (ty : dctype) (v : aval) : Prop :=
  match ty, v with
  | DSTRING, AStr _ | DFACTOR, AStr _ | DDOUBLE, ADbl _ | DBOOL, ABool _ => True
  | DINT, AInt z => in_int z = true
  | _, _ => False
  end.
Lemma rep_typed X h df T : rep X h df T -> forall ac, In ac (tcols T) ->
  length (acells ac) = trows T /\ forall v, In (Some v) (acells ac) -> val_ok (atype ac) v.
Proof.
  intros (_ & _ & HF & _) ac Hac. apply In_nth_error in Hac as (c & Ec).
  destruct (Forall2_nth_r _ _ _ _ _ HF Ec) as (dc & _ & (Et & _ & _ & _ & Hl & _ & HC)).
  split; [rewrite <- Hl; symmetry; eapply Forall2_length; eauto|].
  intros v Hv. apply In_nth_error in Hv as (r & Er). destruct (Forall2_nth_r _ _ _ _ _ HC Er) as (p & _ & Hp).
  rewrite Et in Hp. destruct p as [q|]; cbn in Hp; [|contradiction]. destruct Hp as (e & _ & He).
  unfold elem_rep in He. unfold val_ok. destruct (atype ac), e, v; auto; try contradiction. destruct He as [<- ?]; auto.
Qed.

(** *** Saving *)
Lemma join_loop nc (f : nat -> res (list N)) (g : nat -> list N) : (forall i, i < nc -> f i = Ok (g i)) ->
  forall m k out, k + S m = nc ->
  for_each (fun i out => let* s := f i in Ok (out ++ s ++ (if negb (i =? nc - 1) then [44%N] else [10%N]))) (seq k (S m)) out =
  Ok (out ++ join 44%N (map g (seq k (S m))) ++ [10%N]).
Proof.
  intros Hf. induction m as [|m IH]; intros k out Hk.
  - cbn [seq for_each map join]. rewrite Hf by lia. cbn [bind]. replace (k =? nc - 1) with true by lia. reflexivity.
  - change (seq k (S (S m))) with (k :: seq (S k) (S m)). cbn [for_each]. rewrite Hf by lia. cbn [bind].
    replace (k =? nc - 1) with false by lia. cbn [negb].
    rewrite (IH (S k)) by lia. cbn [seq map join]. rewrite <- !app_assoc. reflexivity.
Qed.

Section Save.
Variable print_d : N -> list N.

Lemma cell_text_sim h df T r c ac : rep [] h df T -> r < trows T -> nth_error (tcols T) c = Some ac ->
  cell_text print_d h df (Z.of_nat r) (Z.of_nat c) = Ok (field_text (cell_field print_d (atype ac) (nth r (acells ac) None))).
Proof.
  intros HR Hr Ec. destruct (rep_typed [] h df T HR ac) as (Hlen & Hty); [eapply nth_error_In; eauto|].
  assert (c < length (tcols T)) by (apply nth_error_Some; congruence).
  assert (t_col T (Z.of_nat r) (Z.of_nat c) = Ok ac) as Etc.
  { unfold t_col. replace (_ && _) with true by lia. rewrite Nat2Z.id, Ec. auto. }
  pose proof (column_at_rep [] h df T (Z.of_nat r) (Z.of_nat c) HR) as Hc. rewrite Etc in Hc.
  destruct Hc as (_ & _ & _ & dc & Edc & _ & (Et & _)).
  destruct (rep_shows _ _ _ HR) as (_ & _ & _ & Hna & Hs & Hi & Hd & Hb & Hf).
  specialize (Hna (Z.of_nat r) (Z.of_nat c)). specialize (Hs (Z.of_nat r) (Z.of_nat c)). specialize (Hi (Z.of_nat r) (Z.of_nat c)).
  specialize (Hd (Z.of_nat r) (Z.of_nat c)). specialize (Hb (Z.of_nat r) (Z.of_nat c)). specialize (Hf (Z.of_nat r) (Z.of_nat c)).
  unfold cell_text. rewrite Hna. unfold t_is_na, t_get in *. rewrite Etc in *. cbn [bind] in *. rewrite Nat2Z.id in *.
  destruct (nth_error (acells ac) r) as [o|] eqn:Eo; [|apply nth_error_None in Eo; lia].
  rewrite (nth_error_nth _ _ None Eo). destruct o as [v|]; cbn [bind]; [|reflexivity].
  rewrite Edc. cbn [bind]. rewrite Et. specialize (Hty v ltac:(eapply nth_error_In; eauto)).
  assert (dctype_eqb (atype ac) (atype ac) = true) as Ed by (destruct (atype ac); auto).
  destruct (atype ac) eqn:Ea; destruct v; cbn in Hty; try contradiction; cbn [dctype_eqb] in *;
  match goal with
  | H : bind (get_string h df _ _) _ = Ok _ |- _ => destruct (get_string h df _ _); cbn [bind] in H; try discriminate; injection H as ->
  | H : bind (get_bool h df _ _) _ = Ok _ |- _ => destruct (get_bool h df _ _); cbn [bind] in H; try discriminate; injection H as ->
  | H : bind (get_double h df _ _) _ = Ok _ |- _ => destruct (get_double h df _ _); cbn [bind] in H; try discriminate; injection H as ->
  | H : bind (get_int h df _ _) _ = Ok _ |- _ => destruct (get_int h df _ _); cbn [bind] in H; try discriminate; injection H as ->
  | H : bind (get_factor h df _ _) _ = Ok _ |- _ => destruct (get_factor h df _ _); cbn [bind] in H; try discriminate; injection H as ->
  end; cbn [bind cell_field field_text value_text]; unfold nx_fputs_double_quoted; rewrite ?double_quotes_eq; reflexivity.
Qed.

Lemma map_nth_seq {A B} (f : A -> B) l d : map (fun i => f (nth i l d)) (seq 0 (length l)) = map f l.
Proof. rewrite <- (map_map (fun i => nth i l d) f), map_seq_nth. reflexivity. Qed.

Definition label_line (T : DfSpec.table) : list N :=
  join 44%N (map (fun ac => nx_fputs_readable (Some (alabel ac))) (tcols T)) ++ [10%N].

Lemma rows_loop {A} (f : nat -> list A -> res (list A)) (g : nat -> list A) l :
  (forall r out, In r l -> f r out = Ok (out ++ g r)) -> forall out, for_each f l out = Ok (out ++ flat_map g l).
Proof.
  induction l as [|r l IH]; intros H out; cbn; [rewrite app_nil_r; auto|]. rewrite H by (left; auto). cbn [bind].
  rewrite IH by (intros; apply H; right; auto). rewrite <- app_assoc. reflexivity.
Qed.

Lemma save_sim h df T : rep [] h df T -> tcols T <> [] ->
  save_csv print_d h df = Ok (label_line T ++ csv_text (row_records print_d T)).
Proof.
  intros HR Hne. pose proof HR as (Hn & _ & HF & _). pose proof (Forall2_length _ _ _ HF) as Hl.
  unfold save_csv, frame_fprintf. rewrite Hn, Nat2Z.id, Hl.
  destruct (tcols T) as [|ac0 l0] eqn:ET; [congruence|]. set (nc := length (ac0 :: l0)) in *.
  assert (exists m, nc = S m) as (m & Em) by (exists (length l0); reflexivity).
  rewrite (for_each_ext _ (fun i out => let* s := (let* dc := aget (cols df) i in Ok (nx_fputs_readable (Some (clabel dc)))) in
      Ok (out ++ s ++ (if negb (i =? nc - 1) then [44%N] else [10%N])))).
  2:{ intros i s _. destruct (aget (cols df) i); reflexivity. }
  rewrite Em. rewrite (join_loop (S m) _ (fun i => nx_fputs_readable (Some (alabel (nth i (tcols T) ac0))))); [|intros i Hi|lia].
  2:{ assert (i < length (tcols T)) as Hi' by (rewrite ET; fold nc; lia). destruct (nth_error (tcols T) i) as [ac|] eqn:Ei.
      2:{ apply nth_error_None in Ei. lia. }
      rewrite ET in Ei. destruct (Forall2_nth_r _ _ _ _ _ HF Ei) as (dc & Edc & (_ & El & _)). unfold aget. rewrite Edc. cbn [bind].
      rewrite ET, (nth_error_nth _ _ ac0 Ei), El. reflexivity. }
  cbn [bind app].
  replace (join 44%N (map (fun i => nx_fputs_readable (Some (alabel (nth i (tcols T) ac0)))) (seq 0 (S m))) ++ [10%N]) with (label_line T).
  2:{ unfold label_line. rewrite <- Em. f_equal. f_equal. replace nc with (length (tcols T)) by (rewrite ET; reflexivity).
      symmetry. exact (map_nth_seq (fun ac => nx_fputs_readable (Some (alabel ac))) (tcols T) ac0). }
  rewrite (rows_loop _ (fun r => record_text (row_record print_d T r) ++ [10%N])).
  - unfold csv_text, row_records. do 2 f_equal. rewrite !flat_map_concat_map, map_map. reflexivity.
  - intros r out Hr. apply in_seq in Hr.
    rewrite (join_loop (S m) _ (fun c => field_text (cell_field print_d (atype (nth c (tcols T) ac0)) (nth r (acells (nth c (tcols T) ac0)) None)))).
    + do 3 f_equal. unfold record_text, row_record. rewrite map_map. rewrite <- Em. f_equal.
      replace nc with (length (tcols T)) by (rewrite ET; reflexivity).
      exact (map_nth_seq (fun ac => field_text (cell_field print_d (atype ac) (nth r (acells ac) None))) (tcols T) ac0).
    + intros c Hc. assert (c < length (tcols T)) as Hc' by (rewrite ET; fold nc; lia).
      destruct (nth_error (tcols T) c) as [ac|] eqn:Ec; [|apply nth_error_None in Ec; lia].
      rewrite (nth_error_nth _ _ ac0 Ec). apply cell_text_sim with (T := T); auto. lia.
    + lia.
Qed.

Lemma readable_plain s : label_ok s -> flat_map readable_char s = double_quotes s.
Proof.
  intros H. induction H as [|b s [Hb Hs] _ IH]; auto. cbn [flat_map double_quotes]. rewrite IH. cbn [In] in Hs.
  destruct (N.eqb_spec b 34); [subst; tauto|].
  assert (readable_char b = [b]) as ->; [|reflexivity]. clear IH.
  destruct b as [|p]; [reflexivity|]. unfold readable_char.
  repeat match goal with |- context [match ?x with xH => _ | _ => _ end] => destruct x end; try reflexivity; tauto.
Qed.
Lemma label_line_csv T : (forall ac, In ac (tcols T) -> label_ok (alabel ac)) -> label_line T = csv_text [label_record T].
Proof.
  intros H. unfold label_line, csv_text, label_record, record_text. cbn [flat_map]. rewrite app_nil_r, map_map. do 2 f_equal.
  apply map_ext_in. intros ac Hac. cbn [field_text]. unfold nx_fputs_readable. rewrite readable_plain by auto. reflexivity.
Qed.

(** *** The saved records form a CSV table *)
Lemma val_field_ok atof strtod_all ty v : val_ok ty v -> value_ok print_d atof strtod_all v -> field_ok (cell_field print_d ty (Some v)).
Proof.
  destruct v; cbn [cell_field value_ok value_text]; intros Ht Hv.
  - exact Hv.
  - apply print_int_field.
  - cbn. tauto.
  - destruct (_ =? _)%Z; cbn; (split; [discriminate|]); split; repeat constructor; unfold plain_char; lia.
Qed.
Lemma records_table atof strtod_all h df T : rep [] h df T -> frame_ok print_d atof strtod_all T ->
  CsvSpec.table (label_record T :: row_records print_d T) /\
  Forall (fun r => length r = length (tcols T)) (label_record T :: row_records print_d T).
Proof.
  intros HR (Hne & Hok & H1).
  assert (Forall (fun r => length r = length (tcols T)) (label_record T :: row_records print_d T)) as Hl.
  { constructor; [apply map_length|]. apply Forall_forall. intros r Hr. apply in_map_iff in Hr as (k & <- & _). apply map_length. }
  split; auto. exists (label_record T), (row_records print_d T). split; [auto|]. split.
  - eapply Forall_impl; [|exact Hl]. intros r ->. unfold label_record. rewrite map_length. reflexivity.
  - constructor.
    + unfold label_record. split; [destruct (tcols T); [congruence|discriminate]|]. split; [destruct (tcols T); discriminate|].
      apply Forall_forall. intros f Hf. apply in_map_iff in Hf as (ac & <- & Hac). cbn. destruct (Hok ac Hac) as [Hlab _].
      eapply Forall_impl; [|exact Hlab]. cbn. tauto.
    + apply Forall_forall. intros r Hr. apply in_map_iff in Hr as (k & <- & Hk). apply in_seq in Hk. unfold row_record.
      split; [destruct (tcols T); [congruence|discriminate]|]. split.
      * destruct (tcols T) as [|ac [|ac2 l]] eqn:ET; try discriminate. cbn. intros [= E].
        destruct (rep_typed _ _ _ _ HR ac) as (Hlen & _); [rewrite ET; left; auto|].
        destruct (nth k (acells ac) None) as [v|] eqn:Ev; [destruct v; discriminate|].
        apply (H1 ac eq_refl). rewrite <- Ev. apply nth_In. lia.
      * apply Forall_forall. intros f Hf. apply in_map_iff in Hf as (ac & <- & Hac). destruct (Hok ac Hac) as [_ Hv].
        destruct (rep_typed _ _ _ _ HR ac Hac) as (Hlen & Hty).
        destruct (nth k (acells ac) None) as [v|] eqn:Ev; [|exact I].
        assert (In (Some v) (acells ac)) by (rewrite <- Ev; apply nth_In; lia).
        eapply val_field_ok; eauto.
Qed.

(** *** What comes back *)
Lemma column_fields_present T c ac : nth_error (tcols T) c = Some ac -> length (acells ac) = trows T ->
  column_fields c (row_records print_d T) = map (fun v => cell_field print_d (atype ac) (Some v)) (present (acells ac)).
Proof.
  intros Ec Hlen. unfold column_fields, row_records. rewrite map_map.
  rewrite (map_ext _ (fun r => cell_field print_d (atype ac) (nth r (acells ac) None))).
  2:{ intros r. unfold row_record. rewrite (nth_indep _ None (cell_field print_d (atype ac) (nth r (acells ac) None))).
      - rewrite (map_nth (fun ac => cell_field print_d (atype ac) (nth r (acells ac) None)) (tcols T) ac c).
        rewrite (nth_error_nth _ _ ac Ec). reflexivity.
      - rewrite map_length. apply nth_error_Some. congruence. }
  rewrite <- Hlen, (map_nth_seq (cell_field print_d (atype ac)) (acells ac) None). clear.
  induction (acells ac) as [|[v|] l IH]; auto. cbn [map filter present flat_map app].
  assert (exists p, cell_field print_d (atype ac) (Some v) = Some p) as (p & Ep) by (destruct v; eexists; reflexivity).
  rewrite Ep. cbn. f_equal; auto.
Qed.

Lemma field_type_cell strtod_all atof ty v : val_ok ty v -> value_ok print_d atof strtod_all v ->
  field_type strtod_all (cell_field print_d ty (Some v)) =
  match v with AStr _ => DSTRING | AInt _ => DINT | ABool _ => DBOOL | ADbl d => field_type_from_text strtod_all (print_d d) end.
Proof.
  destruct v as [s|z|d|b]; cbn [cell_field value_ok value_text]; intros Ht Hv.
  - reflexivity.
  - destruct (print_int_field z) as [Hn _]. cbn. apply (print_int_read strtod_all z). destruct ty; try contradiction. exact Ht.
  - reflexivity.
  - destruct (_ =? _)%Z; reflexivity.
Qed.

Lemma reload_type_ok strtod_all atof T c ac : nth_error (tcols T) c = Some ac -> length (acells ac) = trows T ->
  (forall v, In (Some v) (acells ac) -> val_ok (atype ac) v /\ value_ok print_d atof strtod_all v) ->
  type_join (map (field_type strtod_all) (column_fields c (row_records print_d T))) = reload_type print_d strtod_all ac.
Proof.
  intros Ec Hlen Hv. rewrite (column_fields_present T c ac) by auto. rewrite map_map.
  assert (forall v, In v (present (acells ac)) -> val_ok (atype ac) v /\ value_ok print_d atof strtod_all v) as Hp.
  { intros v Hin. apply present_in in Hin as (k & Hk). apply Hv. eapply nth_error_In; eauto. }
  rewrite (map_ext_in _ (fun v => match v with AStr _ => DSTRING | AInt _ => DINT | ABool _ => DBOOL | ADbl d => field_type_from_text strtod_all (print_d d) end)).
  2:{ intros v Hin. destruct (Hp v Hin). eapply field_type_cell; eauto. }
  unfold reload_type. destruct (present (acells ac)) as [|v0 vs] eqn:Ep; [reflexivity|].
  remember (v0 :: vs) as l eqn:El. set (ft := fun v : aval => match v with AStr _ => DSTRING | AInt _ => DINT | ABool _ => DBOOL | ADbl d => field_type_from_text strtod_all (print_d d) end).
  assert (l <> []) as Hne by (rewrite El; discriminate). clear El Ep Hv.
  assert (Forall not_factor (map ft l)) as Hnf.
  { apply Forall_forall. intros t Ht. apply in_map_iff in Ht as (v & <- & Hin). destruct (Hp v Hin) as [H1 H2].
    destruct v as [s|z|d|b]; unfold not_factor, ft; try discriminate. cbn in H2. destruct H2 as (_ & _ & _ & _ & [->| ->]); discriminate. }
  destruct (type_join_meaning (map ft l) Hnf) as (Hi & Hd & Hb & Hs).
  assert (map ft l <> []) as Hm by (destruct l; [congruence|discriminate]).
  assert (forall t, (forall v, In v l -> ft v = t) -> Forall (eq t) (map ft l)) as Hall.
  { intros t H. apply Forall_forall. intros x Hx. apply in_map_iff in Hx as (v & <- & Hin). symmetry. auto. }
  destruct l as [|v1 l1]; [congruence|]. remember (v1 :: l1) as l eqn:El.
  destruct (atype ac) eqn:Ea.
  - apply Hs. right; left. replace DSTRING with (ft v1); [apply in_map; rewrite El; left; auto|].
    destruct (Hp v1 ltac:(rewrite El; left; auto)) as [H _]. destruct v1; try contradiction; reflexivity.
  - apply Hb. split; auto. apply Hall. intros v Hin. destruct (Hp v Hin) as [H _]. destruct v; try contradiction; reflexivity.
  - assert (forall v, In v l -> exists d, v = ADbl d /\ (ft v = DINT \/ ft v = DDOUBLE)) as Hdbl.
    { intros v Hin. destruct (Hp v Hin) as [H H2]. destruct v as [s|z|d|b]; try contradiction. exists d. split; auto. apply H2. }
    destruct (forallb _ l) eqn:Ef.
    + apply Hi. split; auto. apply Hall. intros v Hin. rewrite forallb_forall in Ef. specialize (Ef v Hin).
      destruct (Hdbl v Hin) as (d & -> & [E|E]); auto. cbn [value_text] in Ef. cbn [ft] in E. rewrite E in Ef. discriminate.
    + apply Hd. split.
      * assert (existsb (fun v => negb (match field_type_from_text strtod_all (value_text print_d v) with DINT => true | _ => false end)) l = true) as Hx.
        { clear -Ef. induction l as [|v l IH]; [discriminate|]. cbn in *. destruct (field_type_from_text _ _); cbn in *; auto. }
        apply existsb_exists in Hx as (v & Hin & Hx). destruct (Hdbl v Hin) as (d & -> & [E|E]).
        -- cbn [value_text] in Hx. cbn [ft] in E. rewrite E in Hx. discriminate.
        -- rewrite <- E. apply in_map. auto.
      * apply Forall_forall. intros x Hx. apply in_map_iff in Hx as (v & <- & Hin). destruct (Hdbl v Hin) as (d & -> & H); auto.
  - apply Hi. split; auto. apply Hall. intros v Hin. destruct (Hp v Hin) as [H _]. destruct v; try contradiction; reflexivity.
  - apply Hs. right; left. replace DSTRING with (ft v1); [apply in_map; rewrite El; left; auto|].
    destruct (Hp v1 ltac:(rewrite El; left; auto)) as [H _]. destruct v1; try contradiction; reflexivity.
Qed.

Lemma loaded_reload strtod_all atof h df T : rep [] h df T -> frame_ok print_d atof strtod_all T ->
  loaded atof strtod_all (length (tcols T)) (label_record T) (row_records print_d T) = reload print_d strtod_all T.
Proof.
  intros HR (_ & Hok & _). unfold loaded, reload.
  assert (length (row_records print_d T) = trows T) as Hrl by (unfold row_records; rewrite map_length, seq_length; auto). rewrite Hrl.
  f_equal. destruct (tcols T) as [|ac0 l0] eqn:ET; [reflexivity|]. rewrite <- ET in *. clear l0 ET.
  rewrite <- (map_nth_seq (reload_column print_d strtod_all) (tcols T) ac0). apply map_ext_in. intros c Hc. apply in_seq in Hc.
  destruct (nth_error (tcols T) c) as [ac|] eqn:Ec; [|apply nth_error_None in Ec; lia].
  rewrite (nth_error_nth _ _ ac0 Ec). pose proof (nth_error_In _ _ Ec) as Hin.
  destruct (rep_typed _ _ _ _ HR ac Hin) as (Hlen & Hty). destruct (Hok ac Hin) as [_ Hv].
  unfold loaded_column, reload_column. rewrite (reload_type_ok strtod_all atof T c ac) by auto.
  f_equal.
  - unfold label_record. rewrite (nth_indep _ None (Some (true, alabel ac0))) by (rewrite map_length; lia).
    rewrite (map_nth (fun ac => Some (true, alabel ac))), (nth_error_nth _ _ ac0 Ec). reflexivity.
  - unfold row_records. rewrite map_map.
    assert (forall r, nth c (row_record print_d T r) None = cell_field print_d (atype ac) (nth r (acells ac) None)) as Hf.
    { intros r. unfold row_record. rewrite (nth_indep _ None (cell_field print_d (atype ac) (nth r (acells ac) None))) by (rewrite map_length; lia).
      rewrite (map_nth (fun ac => cell_field print_d (atype ac) (nth r (acells ac) None)) (tcols T) ac c).
      rewrite (nth_error_nth _ _ ac Ec). reflexivity. }
    rewrite (map_ext _ (fun r => field_value atof (reload_type print_d strtod_all ac) (cell_field print_d (atype ac) (nth r (acells ac) None)))) by (intros; rewrite Hf; reflexivity).
    rewrite <- Hlen, (map_nth_seq (fun v => field_value atof (reload_type print_d strtod_all ac) (cell_field print_d (atype ac) v)) (acells ac) None).
    apply map_ext_in. intros [v|] Hv'; [|destruct (reload_type print_d strtod_all ac); reflexivity].
    specialize (Hv v Hv'). specialize (Hty v Hv').
    assert (present (acells ac) <> []) as Hne.
    { intros E. apply In_nth_error in Hv' as (k & Hk). assert (In v (present (acells ac))) by (apply present_in; eauto). rewrite E in *. contradiction. }
    unfold reload_type. destruct (present (acells ac)) as [|v1 l1]; [congruence|]. clear Hne.
    destruct (atype ac) eqn:Ea; destruct v as [s|z|d|b]; cbn in Hty; try contradiction; cbn [cell_field field_value value_text].
    + reflexivity.
    + destruct (b =? 0)%Z; reflexivity.
    + cbn in Hv. destruct (forallb _ _); [reflexivity|]. destruct Hv as (_ & _ & _ & -> & _). reflexivity.
    + destruct (print_int_read strtod_all z Hty) as [_ ->]. reflexivity.
    + reflexivity.
Qed.
End Save.

(** *** Reading the stream *)
Lemma read_stream_ok file : forall cap i text, (0 <= i)%Z -> (i < cap - 2)%Z -> (i + Z.of_nat (length file) <= 536870912)%Z ->
  (cap <= 1073741828)%Z -> (1024 <= cap)%Z ->
  read_stream file cap i text = Ok (text ++ file, (i + Z.of_nat (length file))%Z).
Proof.
  induction file as [|c file IH]; intros cap i text Hi Hc Hl Hcap Hc0; cbn [read_stream length] in *.
  - replace (i <? cap)%Z with true by lia. rewrite app_nil_r, Z.add_0_r. reflexivity.
  - replace (i <? cap)%Z with true by lia. unfold chk_int at 1. unfold in_int, INT_MIN, INT_MAX. replace (_ && _) with true by lia. cbn [bind].
    destruct (Z.leb_spec (cap - 2) (i + 1)).
    + unfold chk_int, in_int, INT_MIN, INT_MAX. replace (_ && _) with true by lia. cbn [bind]. rewrite IH by lia.
      rewrite <- app_assoc. cbn [app]. do 2 f_equal. lia.
    + cbn [bind]. rewrite IH by lia. rewrite <- app_assoc. cbn [app]. do 2 f_equal. lia.
Qed.

(** *** Sizes of parsed tables *)
Lemma visible_length t : length (visible t) <= length t.
Proof. induction t as [|b t IH]; cbn [visible length]; [lia|]. destruct (_ || _); cbn [length]; lia. Qed.
Lemma join_length {A} (sep : A) l : length l <= S (length (join sep l)).
Proof.
  induction l as [|x [|y l] IH]; [cbn; lia|cbn; lia|]. change (join sep (x :: y :: l)) with (x ++ sep :: join sep (y :: l)).
  rewrite app_length. cbn [length] in *. lia.
Qed.
Lemma csv_text_sizes rs : length rs <= length (csv_text rs) /\ forall r, In r rs -> length r <= length (csv_text rs).
Proof.
  induction rs as [|r rs [IH1 IH2]]; cbn [length csv_text flat_map]; [split; [lia|intros ? []]|]. fold (csv_text rs).
  rewrite !app_length. cbn [length]. split; [lia|]. intros r' [<-|H].
  - unfold record_text. pose proof (join_length 44%N (map field_text r)). rewrite map_length in *. lia.
  - specialize (IH2 r' H). lia.
Qed.
Lemma parse_sizes t nc rs : bytes_ok t -> parse_csv t = Ok (nc, rs) ->
  exists hdr rows, rs = hdr :: rows /\ nc <> 0 /\ Forall (fun r => length r = nc) rs /\ nc <= S (length t) /\ length rs <= S (length t).
Proof.
  intros Hb E. apply (parse_iff t nc rs Hb) in E as ((hdr & rows & -> & _ & Hne) & Hl & Ht).
  exists hdr, rows. split; auto. pose proof Hl as Hl'. apply Forall_cons_iff in Hl' as [Hh _].
  apply Forall_cons_iff in Hne as [[Hne _] _].
  split; [destruct hdr; [congruence|]; cbn in Hh; lia|]. split; auto.
  pose proof (visible_length t). destruct (csv_text_sizes (hdr :: rows)) as [H1 H2]. specialize (H2 hdr (or_introl eq_refl)).
  assert (length (csv_text (hdr :: rows)) <= S (length (visible t))) by (destruct Ht as [Ht|Ht]; rewrite <- Ht, ?app_length; cbn [length]; lia).
  lia.
Qed.

(** *** Whole loads *)
Section Loads.
Variable atof : list N -> N.
Variable strtod_all : list N -> bool.
Variable print_d : N -> list N.

Lemma load_false fuel file : bytes_ok file -> (Z.of_nat (length file) <= 536870912)%Z ->
  match parse_csv file with
  | Ok (nc, hdr :: rows) => exists h df, load_csv_stream atof strtod_all print_d fuel [] file false = Ok (h, df) /\
      rep [] h df (loaded atof strtod_all nc hdr rows) /\ nc <> 0 /\ (Z.of_nat (length rows) <= 536870912)%Z
  | Fatal => load_csv_stream atof strtod_all print_d fuel [] file false = Fatal
  | _ => False
  end.
Proof.
  intros Hb Hl. unfold load_csv_stream. rewrite (read_stream_ok file 1024 0 []) by lia. cbn [app bind]. unfold csv_parse.
  destruct (parse_csv file) as [[nc rs]| | |] eqn:E.
  - destruct (parse_sizes file nc rs Hb E) as (hdr & rows & -> & Hnc & Hlen & Hs1 & Hs2). cbn [length] in Hs2. cbn [bind].
    destruct (to_data_frame_sim atof strtod_all nc hdr rows Hnc Hlen) as (h & df & E1 & HR); [unfold small; lia|unfold small; lia|].
    exists h, df. rewrite E1. cbn [bind]. split; auto. split; auto. split; auto. lia.
  - reflexivity.
  - destruct (parse_at file Hb) as [H|(? & ? & ? & H & _)]; congruence.
  - destruct (parse_at file Hb) as [H|(? & ? & ? & H & _)]; congruence.
Qed.

Lemma factors_loop_never fuel : (forall d, length (print_d d) <= 255) -> forall h df T i, rep [] h df T -> tcols T <> [] -> small (Z.of_nat (trows T)) ->
  factors_loop print_d fuel h df 0 i = NoFuel \/ factors_loop print_d fuel h df 0 i = UB.
Proof.
  intros Hp. induction fuel as [|fuel IH]; intros h df T i HR Hne Hs; cbn [factors_loop]; auto.
  pose proof HR as (_ & _ & HF & _). pose proof (Forall2_length _ _ _ HF) as Hl.
  assert (length (tcols T) <> 0) by (destruct (tcols T); [congruence|discriminate]).
  replace (0 <? _)%Z with true by lia. destruct (cols df) as [|dc l] eqn:Ec; [cbn in Hl; lia|].
  change (zget (dc :: l) 0) with (Ok dc). cbn [bind].
  assert (exists h' df' T', (if dctype_eqb (ctype dc) DSTRING then make_factor print_d h df 0 else Ok (h, df)) = Ok (h', df') /\
     rep [] h' df' T' /\ tcols T' <> [] /\ trows T' = trows T) as (h' & df' & T' & -> & HR' & Hne' & Hr').
  { destruct (dctype_eqb (ctype dc) DSTRING); [|exists h, df, T; auto].
    pose proof (make_factor_sim print_d Hp h df T 0 HR Hs) as Hm. unfold t_make_factor in Hm. cbn [Z.leb Z.compare Z.to_nat] in Hm.
    destruct (tcols T) as [|ac l'] eqn:ET; [congruence|]. cbn [nth_error] in Hm.
    destruct (make_factor print_d h df 0) as [[h' df']| | |]; cbn [sim] in Hm; try contradiction.
    exists h', df', (put_col T 0 (factor_column print_d ac)). split; auto. split; auto. cbn. rewrite ET. split; [discriminate|reflexivity]. }
  cbn [bind]. unfold chk_int. destruct (in_int (i + 1)); cbn [bind]; auto. apply (IH h' df' T'); auto. rewrite Hr'. auto.
Qed.
End Loads.

(** *** Frames that come back unchanged *)
Definition strip (ac : acol) : acol := mkACol (atype ac) (alabel ac) [] (acells ac).
Lemma reload_stable print_d strtod_all ac : (forall v, In (Some v) (acells ac) -> val_ok (atype ac) v) ->
  column_stable print_d strtod_all ac -> reload_column print_d strtod_all ac = strip ac /\ atype ac <> DFACTOR.
Proof.
  intros Hty Hst. split; [|unfold column_stable in Hst; destruct (atype ac); try discriminate; contradiction].
  assert (forall v, In (Some v) (acells ac) -> present (acells ac) <> []) as Hne.
  { intros v Hv E. apply In_nth_error in Hv as (k & Hk). assert (In v (present (acells ac))) by (apply present_in; eauto). rewrite E in *. contradiction. }
  unfold reload_column, strip.
  assert (reload_type print_d strtod_all ac = atype ac) as Et.
  { unfold reload_type, column_stable in *. destruct (present (acells ac)) as [|v0 vs] eqn:Ep.
    - destruct (atype ac); auto; try contradiction; exfalso.
      + destruct Hst as [(v & Hv) _]. exact (Hne v Hv eq_refl).
      + destruct Hst as (d & Hv & _). exact (Hne _ Hv eq_refl).
      + destruct Hst as (v & Hv). exact (Hne v Hv eq_refl).
    - rewrite <- Ep. destruct (atype ac) eqn:Ea; auto; try contradiction.
      destruct (forallb _ _) eqn:Ef; auto. destruct Hst as (d & Hd & E). rewrite forallb_forall in Ef.
      specialize (Ef (ADbl d)). cbn [value_text] in Ef. rewrite E in Ef. exfalso. assert (false = true); [|discriminate].
      apply Ef. apply In_nth_error in Hd as (k & Hk). apply present_in. eauto. }
  rewrite Et. f_equal. rewrite <- (map_id (acells ac)) at 2. apply map_ext_in. intros [v|] Hv; [|destruct (atype ac); auto].
  specialize (Hty v Hv). unfold column_stable in Hst. destruct (atype ac) eqn:Ea, v; cbn in Hty; try contradiction; auto.
  destruct Hst as [_ Hst]. destruct (Hst _ Hv) as [->| ->]; reflexivity.
Qed.
Lemma shows_strip h df T : (forall ac, In ac (tcols T) -> atype ac <> DFACTOR) ->
  shows h df (mkTable (trows T) (map strip (tcols T))) -> shows h df T.
Proof.
  intros Hnf (H1 & H2 & H3 & H4 & H5 & H6 & H7 & H8 & H9). cbn [trows tcols] in *. rewrite map_length in H2.
  assert (forall r c, t_col (mkTable (trows T) (map strip (tcols T))) r c = let* ac := t_col T r c in Ok (strip ac)) as Hc.
  { intros r c. unfold t_col. cbn [trows tcols]. destruct (_ && _); auto. rewrite nth_error_map. destruct (nth_error _ _); reflexivity. }
  assert (forall r c ty, t_get (mkTable (trows T) (map strip (tcols T))) r c ty = t_get T r c ty) as Hg.
  { intros r c ty. unfold t_get. rewrite Hc. destruct (t_col T r c); reflexivity. }
  split; [auto|]. split; [auto|]. split.
  { intros c. specialize (H3 c). rewrite nth_error_map in H3. destruct (nth_error (tcols T) c) as [ac|] eqn:E; [|exact I].
    cbn [option_map] in H3. destruct H3 as (Hl & dc & E1 & E2 & E3 & _). split; auto. exists dc. split; auto. split; auto. split; auto.
    intros Hf. exfalso. apply (Hnf ac); auto. eapply nth_error_In; eauto. }
  split; [intros r c; rewrite H4; unfold t_is_na; rewrite Hc; destruct (t_col T r c); reflexivity|].
  split; [intros; rewrite <- Hg; auto|]. split; [intros; rewrite <- Hg; auto|]. split; [intros; rewrite <- Hg; auto|]. split; intros; rewrite <- Hg; auto.
Qed.
