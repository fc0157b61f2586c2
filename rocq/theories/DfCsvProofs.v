(** Loading CSV into data frames and saving them. *)
From Verif Require Import Base BaseLemmas Heap StrModel StrArrModel StrArrProofs LexModel LexSpec CsvModel CsvSpec CsvProofs CsvProofs2
  DfModel DfSpec DfProofs DfProofs2 DfCsvSpec.
Local Open Scope nat_scope.

(** *** Printed integers *)
Lemma dec_value_snoc ds d : dec_value (ds ++ [d]) = (dec_value ds * 10 + (Z.of_N d - 48))%Z.
Proof. unfold dec_value. rewrite fold_left_app. reflexivity. Qed.
Lemma print_nat_spec f : forall n acc, (n < 2 ^ N.of_nat f)%N -> f <> 0 -> exists ds, print_nat f n acc = ds ++ acc /\
  dec_value ds = Z.of_N n /\ (n = 0 -> ds = [48])%N /\
  (n <> 0 -> exists d ds', ds = d :: ds' /\ 49 <= d <= 57 /\ Forall (fun b => 48 <= b <= 57) ds')%N.
Proof.
  induction f as [|f IH]; intros n acc Hn Hf; [congruence|]. cbn [print_nat].
  pose proof (N.mod_lt n 10 ltac:(lia)) as Hm. pose proof (N.div_mod n 10 ltac:(lia)) as Hd.
  destruct (N.eqb_spec (n / 10) 0) as [E|E].
  - exists [(48 + n mod 10)%N]. split; [reflexivity|]. split; [unfold dec_value; cbn [fold_left]; lia|]. split.
    + intros ->. reflexivity.
    + intros H0. eexists _, []. split; [reflexivity|]. split; [lia|constructor].
  - assert (n / 10 < 2 ^ N.of_nat f)%N as Hlt.
    { rewrite Nat2N.inj_succ, N.pow_succ_r' in Hn. apply N.div_lt_upper_bound; lia. }
    destruct (IH (n / 10)%N ((48 + n mod 10)%N :: acc) Hlt) as (ds & E1 & E2 & _ & E4).
    { intros ->. cbn in Hlt. lia. }
    destruct (E4 E) as (d & ds' & -> & Hd1 & Hd2). exists ((d :: ds') ++ [(48 + n mod 10)%N]). split; [|split; [|split]].
    + rewrite E1, <- app_assoc. reflexivity.
    + rewrite dec_value_snoc, E2. lia.
    + intros ->. cbn in E. congruence.
    + intros _. eexists _, _. split; [reflexivity|]. split; auto. apply Forall_app. split; auto. constructor; [lia|constructor].
Qed.
Lemma print_pos n : exists ds, print_nat (S (N.to_nat (N.log2 n))) n [] = ds /\ decimal_digits ds /\ dec_value ds = Z.of_N n.
Proof.
  destruct (print_nat_spec (S (N.to_nat (N.log2 n))) n []) as (ds & E & Hv & H0 & H1); [|lia|].
  - rewrite Nat2N.inj_succ, N2Nat.id. destruct (N.eq_dec n 0) as [->|Hn]; [reflexivity|]. apply N.log2_spec. lia.
  - rewrite app_nil_r in E. exists ds. split; auto. split; auto. unfold decimal_digits.
    destruct (N.eq_dec n 0) as [->|Hn]; [left; auto|]. right. auto.
Qed.
Lemma print_int_shape z : exists sg ds, print_int z = sg ++ ds /\ sign_ok sg /\ decimal_digits ds /\ sign_of sg (dec_value ds) = z.
Proof.
  unfold print_int. destruct (Z.ltb_spec z 0).
  - destruct (print_pos (Z.to_N (- z))) as (ds & -> & Hd & Hv). exists [45%N], ds. split; [auto|]. split; [right; right; auto|].
    split; auto. cbn. lia.
  - destruct (print_pos (Z.to_N z)) as (ds & -> & Hd & Hv). exists [], ds. split; [auto|]. split; [left; auto|].
    split; auto. cbn. lia.
Qed.
Lemma decimal_chars ds : decimal_digits ds -> ds <> [] /\ Forall text_char ds /\ Forall plain_char ds.
Proof.
  intros H. destruct (decimal_all ds H) as [Ha Hn]. split; auto. unfold text_char, plain_char.
  split; (eapply Forall_impl; [|exact Ha]; cbn; intros; lia).
Qed.
Lemma print_int_field z : field_ok (Some (false, print_int z)).
Proof.
  destruct (print_int_shape z) as (sg & ds & -> & Hs & Hd & _). destruct (decimal_chars ds Hd) as (Hn & Ht & Hp).
  cbn. split; [destruct sg; [auto|discriminate]|].
  destruct Hs as [->|[->| ->]]; cbn [app]; split; auto; constructor; auto; unfold text_char, plain_char; lia.
Qed.
Lemma print_int_read sd z : in_int z = true -> field_type_from_text sd (print_int z) = DINT /\ atoi (print_int z) = z.
Proof.
  intros Hz. destruct (print_int_shape z) as (sg & ds & -> & Hs & Hd & Hv).
  destruct (decimal_all _ Hd) as [Ha Hn].
  assert (numeral_head ([] ++ sg ++ ds)) as Hh.
  { apply numeral_head_ok; auto; [constructor|]. destruct ds as [|d ds]; [congruence|]. inversion Ha; subst. eauto. }
  pose proof (strtol0_decimal [] sg ds ltac:(constructor) Hs Hd) as E0. pose proof (strtol10_digits [] sg ds ltac:(constructor) Hs Ha Hn) as E1.
  cbn [app] in *. rewrite Hv in *. split; [apply (type_of_numeral sd _ z Hh E0); auto|].
  unfold atoi. rewrite E1. cbn [fst]. rewrite clamp_in, wrap_in; auto.
Qed.

(** *** Lists *)
Lemma map_seq_nth {A} (l : list A) d : map (fun i => nth i l d) (seq 0 (length l)) = l.
Proof.
  induction l as [|x l IH]; cbn; auto. f_equal. rewrite <- seq_shift, map_map. exact IH.
Qed.
Lemma for_each_ext {A S} (f g : A -> S -> res S) l : (forall x s, In x l -> f x s = g x s) -> forall s, for_each f l s = for_each g l s.
Proof.
  induction l as [|x l IH]; intros H s; cbn; auto. rewrite H by (left; auto). destruct (g x s); cbn; auto.
  apply IH. intros; apply H; right; auto.
Qed.

Lemma combine_map_both {A B C} (f : A -> B) (g : A -> C) l : combine (map f l) (map g l) = map (fun x => (f x, g x)) l.
Proof. induction l; cbn; congruence. Qed.

(** *** Loading *)
Section Load.
Variable atof : list N -> N.
Variable strtod_all : list N -> bool.

Lemma wrap_int_range v : in_int (wrap_int v) = true.
Proof. unfold wrap_int, in_int, INT_MIN, INT_MAX. pose proof (Z.mod_pos_bound (v - -2147483648) 4294967296). lia. Qed.

Lemma set_field_sim h df T f r c ac : rep [] h df T -> (0 <= r < Z.of_nat (trows T))%Z ->
  nth_error (tcols T) c = Some ac -> atype ac <> DFACTOR ->
  exists h' df', field_set_data_frame atof f h df r (Z.of_nat c) = Ok (h', df') /\
    rep [] h' df' (put_col T (Z.of_nat c) (put_cell ac r (field_value atof (atype ac) f))).
Proof.
  intros HR Hr Hc Hty. pose proof HR as (_ & _ & HF & _). pose proof (Forall2_length _ _ _ HF) as Hl.
  destruct (Forall2_nth_r _ _ _ _ _ HF Hc) as (dc & Edc & (Et & _)).
  assert (c < length (tcols T)) by (apply nth_error_Some; congruence).
  assert (t_col T r (Z.of_nat c) = Ok ac) as Etc.
  { unfold t_col. replace (_ && _) with true by lia. rewrite Nat2Z.id, Hc. auto. }
  assert (forall (m : res (dheap * frame)) v, sim [] m (t_set T r (Z.of_nat c) (atype ac) v) ->
     exists h' df', m = Ok (h', df') /\ rep [] h' df' (put_col T (Z.of_nat c) (put_cell ac r (Some v)))) as Hset.
  { intros m v. unfold t_set. rewrite Etc. cbn [bind]. rewrite (proj2 (dctype_eqb_eq _ _) eq_refl).
    assert (with_level ac v = ac) as -> by (unfold with_level; destruct (atype ac); congruence).
    destruct m as [[h' df']| | |]; cbn [sim]; try contradiction. eauto. }
  destruct f as [[q s]|]; cbn [field_set_data_frame field_value].
  - replace (_ || _) with false by lia. rewrite Nat2Z.id. unfold aget. rewrite Edc. cbn [bind]. rewrite Et.
    destruct (atype ac) eqn:Eac; [| | | |congruence].
    + apply Hset. apply set_string_sim; auto.
    + apply Hset. apply set_plain_sim; [auto|discriminate|reflexivity].
    + apply Hset. apply set_plain_sim; [auto|discriminate|reflexivity].
    + apply Hset. apply set_plain_sim; [auto|discriminate|split; auto; apply wrap_int_range].
  - pose proof (set_na_sim [] h df T r (Z.of_nat c) HR) as Hs. rewrite Etc in Hs. cbn [bind] in Hs.
    destruct (set_na h df r (Z.of_nat c)) as [[h' df']| | |]; cbn [sim] in Hs; try contradiction. eauto.
Qed.

(** One record, columns from [length l1] on. *)
Lemma fields_sim record r l2 : forall l1 h df n, rep [] h df (mkTable n (l1 ++ l2)) -> (0 <= r < Z.of_nat n)%Z ->
  length record = length l1 + length l2 -> Forall (fun ac => atype ac <> DFACTOR) l2 ->
  exists h' df', for_each (fun c '(h, df) =>
      let* field := aget record c in
      field_set_data_frame atof field h df r (Z.of_nat c)) (seq (length l1) (length l2)) (h, df) = Ok (h', df') /\
    rep [] h' df' (mkTable n (l1 ++ map (fun p => put_cell (fst p) r (field_value atof (atype (fst p)) (snd p))) (combine l2 (skipn (length l1) record)))).
Proof.
  induction l2 as [|ac l2 IH]; intros l1 h df n HR Hr Hlen Hty.
  - exists h, df. split; auto.
  - cbn [length seq for_each]. apply Forall_cons_iff in Hty as [Hac Hty]. cbn [length] in Hlen.
    destruct (nth_error record (length l1)) as [f|] eqn:Ef; [|apply nth_error_None in Ef; lia].
    unfold aget at 1. rewrite Ef. cbn [bind].
    assert (nth_error (tcols (mkTable n (l1 ++ ac :: l2))) (length l1) = Some ac) as Eac
      by (cbn; rewrite nth_error_app2, Nat.sub_diag; auto).
    destruct (set_field_sim h df _ f r (length l1) ac HR Hr Eac Hac) as (h1 & df1 & -> & HR1). cbn [bind].
    unfold put_col in HR1. cbn [trows tcols] in HR1. rewrite Nat2Z.id in HR1.
    set (x := put_cell ac r (field_value atof (atype ac) f)) in *.
    assert (lset (l1 ++ ac :: l2) (length l1) x = (l1 ++ [x]) ++ l2) as El.
    { rewrite <- app_assoc. clear. cbn [app]. induction l1; cbn; congruence. }
    rewrite El in HR1. destruct (IH (l1 ++ [x]) h1 df1 n HR1 Hr) as (h2 & df2 & E2 & HR2); auto.
    { rewrite app_length. cbn [length]. lia. }
    rewrite app_length in E2, HR2. cbn [length] in E2, HR2. replace (length l1 + 1) with (S (length l1)) in E2, HR2 by lia.
    exists h2, df2. split; [exact E2|].
    assert (skipn (length l1) record = f :: skipn (S (length l1)) record) as ->.
    { clear -Ef. revert record Ef. induction (length l1) as [|k IHk]; intros [|y rec] E; cbn in *; try discriminate; [congruence|]. auto. }
    cbn [combine map fst snd]. rewrite <- app_assoc in HR2. exact HR2.
Qed.

Section Frame.
Variable nc : nat.
Variable hdr : list csv_field.
Variable tys : list dctype.
Hypothesis Htys : length tys = nc.
Hypothesis Hnf : Forall (fun t => t <> DFACTOR) tys.
Definition lcol (rows : list (list csv_field)) (c : nat) : acol :=
  mkACol (nth c tys DSTRING) (field_string (nth c hdr None)) [] (map (fun r => field_value atof (nth c tys DSTRING) (nth c r None)) rows).
Definition ltab rows := mkTable (length rows) (map (lcol rows) (seq 0 nc)).

Lemma tys_nf c : nth c tys DSTRING <> DFACTOR.
Proof.
  destruct (Nat.lt_ge_cases c (length tys)) as [H|H]; [|rewrite nth_overflow by auto; discriminate].
  rewrite Forall_forall in Hnf. apply Hnf. apply nth_In. auto.
Qed.

Lemma fill_sim rows : forall done h df, rep [] h df (ltab done) -> Forall (fun r => length r = nc) rows ->
  small (Z.of_nat (length done + length rows)) ->
  exists h' df', fill_data_frame atof nc rows h df = Ok (h', df') /\ rep [] h' df' (ltab (done ++ rows)).
Proof.
  unfold fill_data_frame. induction rows as [|record rows IH]; intros done h df HR Hlen Hs.
  - exists h, df. rewrite app_nil_r. auto.
  - apply Forall_cons_iff in Hlen as [Hrec Hrows]. cbn [for_each length] in *.
    destruct (add_row_sim [] h df (ltab done) HR) as (df1 & -> & HR1). { unfold small in *. cbn [ltab trows]. lia. }
    cbn [bind ltab trows].
    destruct (fields_sim record (Z.of_nat (length done)) (map (fun ac => mkACol (atype ac) (alabel ac) (alevels ac) (acells ac ++ [None])) (map (lcol done) (seq 0 nc)))
       [] h df1 (S (length done))) as (h2 & df2 & E2 & HR2).
    { exact HR1. } { lia. } { rewrite !map_length, seq_length. auto. }
    { rewrite map_map. apply Forall_forall. intros ac Hac. apply in_map_iff in Hac as (c & <- & _). cbn. apply tys_nf. }
    rewrite !map_length, seq_length in E2. cbn [length] in E2. rewrite E2. cbn [bind].
    destruct (IH (done ++ [record]) h2 df2) as (h3 & df3 & E3 & HR3); auto.
    + replace (ltab (done ++ [record])) with (mkTable (S (length done)) (map (fun p => put_cell (fst p) (Z.of_nat (length done)) (field_value atof (atype (fst p)) (snd p)))
          (combine (map (fun ac => mkACol (atype ac) (alabel ac) (alevels ac) (acells ac ++ [None])) (map (lcol done) (seq 0 nc))) record))); [exact HR2|].
      unfold ltab. rewrite app_length. cbn [length]. f_equal; [lia|].
      rewrite <- (map_seq_nth record None) at 1. rewrite Hrec, map_map.
      rewrite combine_map_both. rewrite map_map. apply map_ext. intros c. unfold put_cell, lcol. cbn [fst snd atype alabel alevels acells].
      f_equal. rewrite map_app. cbn [map]. rewrite Nat2Z.id.
      replace (length done) with (length (map (fun r => field_value atof (nth c tys DSTRING) (nth c r None)) done)) by apply map_length.
      generalize (map (fun r => field_value atof (nth c tys DSTRING) (nth c r None)) done) as l. intros l. clear. induction l; cbn; congruence.
    + unfold small in *. rewrite app_length. cbn [length]. lia.
    + exists h3, df3. split; auto. rewrite <- app_assoc in HR3. exact HR3.
Qed.

Lemma columns_sim labelr : forall m k df, length labelr = nc -> (forall c, nth c labelr None = nth c hdr None) -> k + m = nc ->
  rep [] [] df (mkTable 0 (map (lcol []) (seq 0 k))) -> small (Z.of_nat nc) ->
  exists df', for_each (fun i df =>
          let* f := aget labelr i in
          let* ty := aget tys i in
          add_column df ty (match f with None => [] | Some (_, s) => s end)) (seq k m) df = Ok df' /\
    rep [] [] df' (mkTable 0 (map (lcol []) (seq 0 nc))).
Proof.
  induction m as [|m IH]; intros k df Hl Hn Hk HR Hs.
  - exists df. replace nc with k by lia. auto.
  - cbn [seq for_each]. rewrite (aget_lt labelr k None), (aget_lt tys k DSTRING) by lia. cbn [bind].
    destruct (add_column_sim [] [] df _ (nth k tys DSTRING) (match nth k labelr None with None => [] | Some (_, s) => s end) HR) as (df' & -> & HR').
    { cbn. unfold small. lia. } { cbn [tcols]. rewrite map_length, seq_length. unfold small in *. lia. }
    cbn [bind]. apply (IH (S k)); auto; [lia|].
    unfold t_add_column in HR'. cbn [trows tcols repeat] in HR'. rewrite seq_S, map_app. cbn [map plus].
    replace (lcol [] k) with (mkACol (nth k tys DSTRING) (match nth k labelr None with None => [] | Some (_, s) => s end) [] []); auto.
    unfold lcol. rewrite Hn. reflexivity.
Qed.
End Frame.

Lemma to_data_frame_sim nc hdr rows : nc <> 0 -> Forall (fun r => length r = nc) (hdr :: rows) ->
  small (Z.of_nat nc) -> small (Z.of_nat (length rows)) ->
  exists h df, to_data_frame atof strtod_all [] nc (hdr :: rows) = Ok (h, df) /\ rep [] h df (loaded atof strtod_all nc hdr rows).
Proof.
  intros Hnc Hlen Hs1 Hs2. unfold to_data_frame. replace (nc =? 0) with false by lia.
  pose proof Hlen as Hlen'. apply Forall_cons_iff in Hlen' as [Hh Hr].
  destruct (column_types_ok strtod_all hdr rows nc Hr) as (tys & -> & Hl & Hty). cbn [bind].
  assert (Forall (fun t => t <> DFACTOR) tys) as Hnf.
  { apply Forall_forall. intros t Ht. apply In_nth with (d := DSTRING) in Ht as (c & Hc & <-). rewrite Hty.
    unfold type_join. destruct (map _ _); [discriminate|]. repeat (destruct (existsb _ _) || destruct (forallb _ _)); discriminate. }
  destruct (columns_sim nc hdr tys Hl hdr nc 0 frame_alloc) as (df & -> & HR); auto.
  { apply rep_init. }
  cbn [bind]. destruct (fill_sim nc hdr tys Hl Hnf rows [] [] df HR Hr) as (h' & df' & E & HR'); auto.
  exists h', df'. split; auto. cbn [app] in HR'. unfold loaded, ltab in *. replace (map (loaded_column atof strtod_all hdr rows) (seq 0 nc)) with (map (lcol hdr tys rows) (seq 0 nc)); auto.
  apply map_ext. intros c. unfold lcol, loaded_column. rewrite Hty. reflexivity.
Qed.
End Load.
